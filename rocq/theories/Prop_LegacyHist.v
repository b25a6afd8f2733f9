(** Property theorems C63, C69, C70: legacy histograms. *)
From Coq Require Import Reals String ZArith Bool Arith List Lra Lia.
From Verif Require Import Model_Num Model_Hist Model_LegacyHist Spec_Hist Spec_LegacyHist Proof_Hist Proof_Hist2 Proof_Hist3 Proof_LegacyHist.
Import ListNotations.
Local Open Scope R_scope.

(** C63.  [scaled_events] are the events of all fills with their weights times the factors of all later scale
    calls, [filled_data] the events alone. *)
Theorem C63_contents_after_any_history : forall n lo hi data w h0 l h,
  (1 <= n)%nat -> lo < hi -> lhist_new (Z.of_nat n) (lo, hi) data w = Ok h0 -> lcalls h0 l = Ok h ->
  let ev := scaled_events (linit data w ++ l) in
  let xs := filled_data (linit data w ++ l) in
  length (lh_edges h) = S n /\ (forall i, (i <= n)%nat -> nth i (lh_edges h) 0 = equal_edge lo hi n i) /\
  length (lh_counts h) = n /\ length (lh_entries h) = n /\ length (lh_errs_sq h) = n /\
  forall i, (i < n)%nat ->
    exists s m q, lentry (lh_counts h) i s /\ wsum (in_bin (lh_edges h) i) ev s /\
      lentry (lh_entries h) i (INR m) /\ wcount (in_bin (lh_edges h) i) xs m /\
      lentry (lh_errs_sq h) i q /\ wsum (in_bin (lh_edges h) i) (squared ev) q.
Proof. exact legacy_contents. Qed.
Print Assumptions C63_contents_after_any_history.

(** A fill with matching weights succeeds on every histogram that has been created and scaled. *)
Theorem C63_calls_succeed : forall n lo hi, (1 <= n)%nat -> lo < hi ->
  (exists h, lhist_new (Z.of_nat n) (lo, hi) None WNone = Ok h /\ lready h) /\
  (forall h c, lready h -> lready (lhist_scale h c)) /\
  (forall h d w, lready h -> not_tuple w -> length d = length (weight_list (length d) w) ->
     exists h', lhist_fill h d w = (h', Ok tt) /\ lready h').
Proof. intros n lo hi Hn Hl. split; [apply lnew_ready; auto|]. split; [exact lscale_ready|exact lfill_succeeds]. Qed.
Print Assumptions C63_calls_succeed.

(** scale(c) itself, and filling then scaling is scaling then filling with scaled weights: the resulting histograms
    are equal in every attribute. *)
Theorem C63_scale_multiplies : forall h c,
  lh_counts (lhist_scale h c) = map (fun x => xmul x (Fin c)) (lh_counts h) /\
  lh_errs_sq (lhist_scale h c) = map (fun x => xmul x (Fin (c * c))) (lh_errs_sq h) /\
  lh_entries (lhist_scale h c) = lh_entries h /\ lh_edges (lhist_scale h c) = lh_edges h /\
  lh_limits (lhist_scale h c) = lh_limits h /\ lh_nbins (lhist_scale h c) = lh_nbins h.
Proof. intros h c. repeat split. cbn. rewrite Rmult_1_r. reflexivity. Qed.
Print Assumptions C63_scale_multiplies.

Theorem C63_scale_and_fill_commute : forall h d ws c,
  lready h -> length d = length ws ->
  exists h1, lhist_fill h d (WArr ws) = (h1, Ok tt) /\
    lhist_fill (lhist_scale h c) d (WArr (map (fun v => v * c) ws)) = (lhist_scale h1 c, Ok tt).
Proof. exact scale_fill_commute. Qed.
Print Assumptions C63_scale_and_fill_commute.

Theorem C63_relative_errors_unchanged : forall h c i s q,
  0 < c -> lentry (lh_counts h) i s -> lentry (lh_errs_sq h) i q -> s <> 0 -> 0 <= q ->
  nth_error (lhist_rel_errors (lhist_scale h c)) i = nth_error (lhist_rel_errors h) i.
Proof. exact scale_relative_errors. Qed.
Print Assumptions C63_relative_errors_unchanged.

(** bin_errors: the square roots of the sums of the squared weights; scale(c) multiplies them by |c|. *)
Theorem C63_errors : forall n lo hi data w h0 l h i,
  (1 <= n)%nat -> lo < hi -> lhist_new (Z.of_nat n) (lo, hi) data w = Ok h0 -> lcalls h0 l = Ok h -> (i < n)%nat ->
  exists q, wsum (in_bin (lh_edges h) i) (squared (scaled_events (linit data w ++ l))) q /\ 0 <= q /\
    nth_error (lhist_bin_errors h) i = Some (Fin (sqrt q)) /\
    forall c, nth_error (lhist_bin_errors (lhist_scale h c)) i = Some (Fin (Rabs c * sqrt q)).
Proof.
  intros n lo hi data w h0 l h i Hn Hl E L Hi. destruct (legacy_contents n lo hi data w h0 l h Hn Hl E L) as (_ & _ & _ & _ & _ & B).
  destruct (B i Hi) as (s & m & q & _ & S & _ & _ & Q & SQ). exists q. pose proof (wsum_sq_pos _ _ _ _ S SQ) as (Q0 & _). split; [exact SQ|]. split; [exact Q0|].
  unfold lentry in Q. split.
  - unfold lhist_bin_errors. rewrite (map_nth_error _ _ _ Q). now rewrite xsqrt_nonneg by exact Q0.
  - intros c. unfold lhist_bin_errors, lhist_scale. cbn [lh_set_errs lh_errs_sq]. rewrite (map_nth_error xsqrt i _ (map_nth_error (fun x => xmul x (Fin (c ^ 2))) _ _ Q)). cbn [xmul].
    rewrite xsqrt_nonneg by (apply Rmult_le_pos; [exact Q0|apply pow2_ge_0]). do 2 f_equal. rewrite sqrt_mult_alt by exact Q0. rewrite <- Rsqr_pow2, sqrt_Rsqr_abs. ring.
Qed.
Print Assumptions C63_errors.

(** C69.  Claim: bin_rel_errors replaces the relative error of empty bins by 1e-7.  It is false: in every
    histogram, whatever has been filled, a bin that received no event has the relative error NaN. *)
Theorem C69_empty_bins_refuted : forall n lo hi data w h0 l h i,
  (1 <= n)%nat -> lo < hi -> lhist_new (Z.of_nat n) (lo, hi) data w = Ok h0 -> lcalls h0 l = Ok h -> (i < n)%nat ->
  (forall x, In x (filled_data (linit data w ++ l)) -> ~ in_bin (lh_edges h) i x) ->
  nth_error (lhist_rel_errors h) i = Some NaN.
Proof. exact empty_bin_nan. Qed.
Print Assumptions C69_empty_bins_refuted.

(** Bins with content have the documented relative error, which is not zero: the replacement by 1e-7 never happens. *)
Theorem C69_filled_bins_partial : forall n lo hi data w h0 l h i s,
  (1 <= n)%nat -> lo < hi -> lhist_new (Z.of_nat n) (lo, hi) data w = Ok h0 -> lcalls h0 l = Ok h -> (i < n)%nat ->
  wsum (in_bin (lh_edges h) i) (scaled_events (linit data w ++ l)) s -> s <> 0 ->
  exists q, wsum (in_bin (lh_edges h) i) (squared (scaled_events (linit data w ++ l))) q /\
    nth_error (lhist_rel_errors h) i = Some (Fin (sqrt q / s)) /\ sqrt q / s <> 0.
Proof. exact filled_bin_rel. Qed.
Print Assumptions C69_filled_bins_partial.

(** C70.  Claim: after every history of calls on any number of legacy Hist2d objects, x_projection() and
    y_projection() return the marginals of the current contents, although both are cached.
    It holds if no call passes weights as a tuple. *)
Theorem C70_projections_current_partial : forall l i h,
  Forall usual_weights l -> nth_error (l2_hists (l2_run l2_empty l)) i = Some h ->
  (exists r, snd (l2_step (l2_run l2_empty l) (L2XProj i)) = Ok r /\ marginal_x h r) /\
  (exists r, snd (l2_step (l2_run l2_empty l) (L2YProj i)) = Ok r /\ marginal_y h r).
Proof. exact projections_current. Qed.
Print Assumptions C70_projections_current_partial.

(** With a tuple, fill raises TypeError after it has changed the counts and before it clears the caches: the
    projection still shows the old contents. *)
Theorem C70_projections_stale_refuted :
  exists l h r, nth_error (l2_hists (l2_run l2_empty l)) 0 = Some h /\
    snd (l2_step (l2_run l2_empty l) (L2XProj 0)) = Ok r /\
    entry2 (h_counts h) 0 0 1 /\ lentry (fst r) 0 0 /\ ~ marginal_x h r.
Proof.
  set (e := mk_edges false [0; 2]).
  exists [L2New (B2Edges e e) None None WNone; L2XProj 0; L2Fill 0 [1] [1] (WTuple [1])].
  unfold l2_run, l2_step, l2_new, l2_fill, hist2_empty. simpl.
  unfold hist2_fill, fill_with, edges_nth; simpl. unfold binned_statistic_2d. rewrite incr_02. simpl. unfold nd_iadd; simpl.
  rewrite in_bin_dig. unfold bincount2. simpl. do 2 eexists. do 2 (split; [reflexivity|]).
  unfold entry2, lentry; simpl. assert (E : 0 + (1 + 0) = 1) by lra. rewrite E. split; [split; [lia|]; split; [lia|reflexivity]|].
  assert (E0 : 0 + 0 = 0) by lra. split; [cbn; rewrite E0; reflexivity|].
  intros (nx & ny & A & B & _ & _ & C). cbn in A. injection A as <- <-. destruct (C O ltac:(lia)) as (C1 & _). cbn in C1. injection C1. lra.
Qed.
Print Assumptions C70_projections_stale_refuted.

(** Instances. *)
Example ex_legacy_history : exists h0 h, lhist_new (Z.of_nat 4) (0, 8) None WNone = Ok h0 /\
  lcalls h0 [LFill [1; 3; 9] WNone; LScale 2; LFill [5] (WArr [-3]); LScale (1/2)] = Ok h.
Proof.
  destruct (lnew_ready 4 0 8 ltac:(lia) ltac:(lra)) as (h0 & E & R). exists h0.
  destruct (lfill_succeeds h0 [1; 3; 9] WNone R I eq_refl) as (h1 & F1 & R1).
  destruct (lfill_succeeds _ [5] (WArr [-3]) (lscale_ready _ 2 R1) I eq_refl) as (h2 & F2 & _).
  exists (lhist_scale h2 (1/2)). split; [exact E|]. cbn [lcalls]. rewrite F1. cbn [lcalls]. rewrite F2. reflexivity.
Qed.

Example ex_scaled_events : scaled_events [LFill [1; 3] WNone; LScale 2; LFill [5] (WArr [-3]); LScale 7] = [(1, 1 * (2 * (7 * 1))); (3, 1 * (2 * (7 * 1))); (5, -3 * (7 * 1))].
Proof. reflexivity. Qed.

Example ex_two_hists : exists h, let e := mk_edges false [0; 1; 3] in
  let l := [L2New (B2Edges e e) None None WNone; L2New (B2Ints 2 3) (Some ((0, 1), (0, 1))) None WNone; L2XProj 0; L2Fill 0 [1; 2] [0; 3] (WArr [5; -1]); L2YProj 1] in
  Forall usual_weights l /\ nth_error (l2_hists (l2_run l2_empty l)) 1 = Some h.
Proof.
  cbv zeta. eexists. split; [repeat constructor|]. unfold l2_run, l2_step, l2_new, l2_fill. simpl.
  destruct (hist2_fill _ _ _ _) as [h' [[]|x]]; reflexivity.
Qed.
