(** Property theorems C85-C87: arrays of integers, arrays shared between templates. *)
From Coq Require Import Reals String ZArith Bool Arith List Lra Lia.
From Verif Require Import Model_Num Model_Hist Model_Utility Model_Template Model_Dtype Model_Legacy Model_ParamHeap
  Spec_Hist Spec_Matrix Spec_Template Spec_Dtype Proof_Hist Proof_HistHeap Proof_Matrix Proof_Template Prop_LegacyNll.
Import ListNotations.
Local Open Scope R_scope.

(** ** C85: histograms made from integer arrays can be filled like all others *)
(** False: if the counts are integers every fill raises (and changes nothing). *)
Theorem C85_integer_counts_refuted : forall counts e errors t, th_from_binned counts true e errors = Ok t ->
  forall data w, exists ex, th_fill t data w = (t, Err ex).
Proof.
  intros counts e errors t H data w. unfold th_from_binned in H. destruct (hist1_from_binned counts e (option_map fst errors)) as [h|]; [|discriminate].
  cbn [rbind] in H. injection H as <-. unfold th_fill. cbn [th_int_counts th_hist t_iadd].
  destruct (binned_statistic _ data _) as [s|ex]; cbn [rbind]; eauto.
Qed.
Print Assumptions C85_integer_counts_refuted.

(** If only the errors are integers, every fill which would succeed with floats raises after the counts have been
    changed. *)
Theorem C85_integer_errors_refuted : forall counts e er t, th_from_binned counts false e (Some (er, true)) = Ok t ->
  forall data w h', hist1_fill (th_hist t) data w = (h', Ok tt) ->
  exists t', th_fill t data w = (t', Err TypeError) /\ h_counts (th_hist t') = h_counts h' /\
    h_errs_sq (th_hist t') = h_errs_sq (th_hist t).
Proof.
  intros counts e er t H data w h' F. unfold th_from_binned in H. destruct (hist1_from_binned counts e (option_map fst (Some (er, true)))) as [h|]; [|discriminate].
  cbn [rbind] in H. injection H as <-. cbn [th_hist] in F. unfold hist1_fill, fill_with in F. unfold th_fill. cbn [th_hist th_int_counts th_int_errs t_iadd].
  destruct (binned_statistic _ data (resolve_weights (length data) w)) as [s|ex]; cbn [rbind] in *; [|discriminate F].
  destruct (nd_iadd (h_counts h) _ s) as [c|ex]; [|discriminate F]. destruct (negb (squareable w)); [discriminate F|].
  destruct (binned_statistic _ data (map _ _)) as [s2|ex]; cbn [rbind] in *; [|discriminate F].
  destruct (nd_iadd (h_errs_sq (set_counts h c)) _ s2) as [c2|]; [|discriminate F]. injection F as <-. eexists. split; [reflexivity|]. split; reflexivity.
Qed.
Print Assumptions C85_integer_errors_refuted.

(** Histograms made by the constructor, and by from_binned_data with float counts and float errors or no errors, behave
    as described by the properties C01-C09. *)
Theorem C85_floats_partial : forall t, 
  (exists bins range data w, th_new bins range data w = Ok t) \/
  (exists counts e errors, th_from_binned counts false e errors = Ok t /\ match errors with Some (_, i) => i = false | None => True end) ->
  forall fills, let run1 s f := fst (th_fill s (fst f) (snd f)) in let run2 h f := fst (hist1_fill h (fst f) (snd f)) in
  forall data w, th_hist (fst (th_fill (fold_left run1 fills t) data w)) = fst (hist1_fill (fold_left run2 fills (th_hist t)) data w) /\
    snd (th_fill (fold_left run1 fills t) data w) = snd (hist1_fill (fold_left run2 fills (th_hist t)) data w).
Proof.
  intros t H. assert (F : th_int_counts t = false /\ th_int_errs t = false).
  { destruct H as [(b & r & d & w & H)|(c & e & er & H & Q)].
    - unfold th_new in H. destruct (hist1_new b r d w); [|discriminate]. injection H as <-. split; reflexivity.
    - unfold th_from_binned in H. destruct (hist1_from_binned c e _); [|discriminate]. injection H as <-. split; [reflexivity|].
      destruct er as [[er i]|]; [exact Q|reflexivity]. }
  clear H. assert (ONE : forall t data w, th_int_counts t = false -> th_int_errs t = false ->
     th_hist (fst (th_fill t data w)) = fst (hist1_fill (th_hist t) data w) /\ snd (th_fill t data w) = snd (hist1_fill (th_hist t) data w) /\
     th_int_counts (fst (th_fill t data w)) = false /\ th_int_errs (fst (th_fill t data w)) = false).
  { clear. intros t data w A B. unfold th_fill, hist1_fill, fill_with. rewrite A, B. cbn [t_iadd].
    destruct (binned_statistic _ data (resolve_weights (length data) w)) as [s|ex]; cbn [rbind]; [|repeat split; assumption].
    destruct (nd_iadd _ _ s) as [c|ex]; [|repeat split; assumption]. destruct (negb (squareable w)); [repeat split|].
    destruct (binned_statistic _ data (map _ _)) as [s2|ex]; cbn [rbind]; [|repeat split].
    destruct (nd_iadd (h_errs_sq _) _ s2) as [c2|]; repeat split. }
  destruct F as [A B]. intros fills. revert t A B. induction fills as [|f fs IH]; intros t A B run1 run2 data w.
  - cbn [fold_left]. destruct (ONE t data w A B) as (P & Q & _). split; assumption.
  - cbn [fold_left]. destruct (ONE t (fst f) (snd f) A B) as (P & _ & A' & B'). unfold run1 at 2 4, run2 at 2 4.
    rewrite <- P. apply IH; assumption.
Qed.
Print Assumptions C85_floats_partial.

(** a concrete histogram with float counts and integer errors that can be filled only in part *)
Example C85_example : exists t h', th_from_binned (nd1 [Fin 1; Fin 2]) false (mk_edges false [0; 1; 2]) (Some (nd1 [Fin 1; Fin 1], true)) = Ok t /\
  hist1_fill (th_hist t) [1/2] WNone = (h', Ok tt) /\ h_counts h' <> h_counts (th_hist t).
Proof.
  eexists. eexists. split; [reflexivity|]. cbn [th_hist].
  assert (B : binned_statistic [0; 1; 2] [1/2] [1] = Ok [Fin (1 + 0); Fin (0 + 0)]).
  { unfold binned_statistic, bin_number, digitize, bincount. simpl. decR. simpl. reflexivity. }
  assert (B2 : binned_statistic [0; 1; 2] [1/2] [1 * 1] = Ok [Fin (1 * 1 + 0); Fin (0 + 0)]).
  { unfold binned_statistic, bin_number, digitize, bincount. simpl. decR. simpl. reflexivity. }
  unfold hist1_fill, fill_with. match goal with |- context [edges_nth ?h 0] => change (edges_nth h 0) with [0; 1; 2] end. cbn [length resolve_weights repeat map squareable negb]. rewrite B, B2. cbn [rbind].
  split; [reflexivity|]. cbn [h_counts set_filled set_errs set_counts]. intros Q. injection Q as Q _. lra.
Qed.

(** ** C86: covariances can be added to every one-dimensional template *)
(** False if the errors of the histogram are an array of integers: add_cov_mat with floats raises TypeError, so does
    add_variation, and the list of covariance matrices has grown. *)
Theorem C86_integer_errors_refuted : forall inv counts ic e er t name hid m,
  th_from_binned counts ic e (Some (er, true)) = Ok t -> tt_new name hid t = Ok m ->
  forall C, square (t_nb (tt_tmpl m)) C = true ->
  exists m', tt_add_cov_mat inv m C false = (m', Err TypeError) /\
    t_cov_mats (tt_tmpl m') = t_cov_mats (tt_tmpl m) ++ [C] /\ t_cov (tt_tmpl m') = t_cov (tt_tmpl m).
Proof.
  intros inv counts ic e er t name hid m H M C S. unfold th_from_binned in H. destruct (hist1_from_binned _ _ _) as [h|]; [|discriminate].
  cbn [rbind] in H. injection H as <-. unfold tt_new in M. cbn [th_hist th_int_errs] in M. destruct (template_new K1 name hid h) as [m0|]; [|discriminate].
  cbn [rbind] in M. injection M as <-. unfold tt_add_cov_mat. rewrite S. unfold tt_add_cov_raw. cbn [tt_int_cov negb andb]. eexists. split; [reflexivity|]. split; reflexivity.
Qed.
Print Assumptions C86_integer_errors_refuted.

Lemma trunc_c1e_14 : trunc (Fin c1e_14) = Fin 0.
Proof.
  unfold trunc, c1e_14. assert (P : 0 < / 10 ^ 14) by (apply Rinv_0_lt_compat; apply pow_lt; lra).
  assert (Q : / 10 ^ 14 < 1). { apply (Rlt_le_trans _ (/ 1)); [|rewrite Rinv_1; lra]. apply Rinv_lt_contravar; [rewrite Rmult_1_l; apply pow_lt; lra|]. apply Rlt_pow_R1; [lra|lia]. }
  destruct (Rle_dec 0 (/ 10 ^ 14)) as [_|N]; [|lra]. destruct (base_Int_part (/ 10 ^ 14)) as [A B].
  assert (Z1 : (Int_part (/ 10 ^ 14) < 1)%Z) by (apply lt_IZR; lra). assert (Z0 : (-1 < Int_part (/ 10 ^ 14))%Z) by (apply lt_IZR; lra).
  replace (Int_part (/ 10 ^ 14)) with 0%Z by lia. reflexivity.
Qed.
Lemma mnth_diag v i x : nth_error v i = Some x -> mnth (np_diag v) i i = x.
Proof.
  intros H. assert (L : (i < length v)%nat) by (apply nth_error_Some; congruence). unfold mnth, np_diag.
  erewrite nth_error_nth by (rewrite nth_error_map, (nth_error_nth' (seq 0 (length v)) 0%nat) by (rewrite seq_length; exact L); rewrite seq_nth by exact L; reflexivity).
  unfold vnth at 1. erewrite nth_error_nth by (rewrite nth_error_map, (nth_error_nth' (seq 0 (length v)) 0%nat) by (rewrite seq_length; exact L); rewrite seq_nth by exact L; reflexivity).
  cbn [Nat.add]. rewrite Nat.eqb_refl. unfold vnth. apply nth_error_nth. exact H.
Qed.
(** and the variance of a bin with error 0 is 0 *)
Theorem C86_zero_variance_refuted : forall counts ic e er t name hid m i,
  th_from_binned counts ic e (Some (er, true)) = Ok t -> tt_new name hid t = Ok m ->
  nth_error (nd_flat er) i = Some (Fin 0) -> mnth (t_cov (tt_tmpl m)) i i = Fin 0.
Proof.
  intros counts ic e er t name hid m i H M Z. unfold th_from_binned in H. cbn [option_map fst] in H. unfold hist1_from_binned in H.
  destruct (hist1_empty (B1Edges e) None) as [h0|]; [|discriminate]. cbn [rbind] in H. injection H as <-. unfold tt_new in M. cbn [th_hist th_int_errs] in M.
  destruct (template_new K1 name hid _) as [m0|] eqn:T; [|discriminate].
  cbn [rbind] in M. injection M as <-. cbn [tt_tmpl t_cov].
  assert (Q : t_errs_sq m0 = map xsq (nd_flat er)).
  { unfold template_new in T. destruct (negb (kind_eqb _ _)); [discriminate|]. destruct (negb _); [destruct (_ || _); discriminate|]. injection T as <-. reflexivity. }
  rewrite Q. unfold stat_cov_t. apply mnth_diag. rewrite map_map, nth_error_map, Z. cbn [option_map]. f_equal.
  unfold xsq, xmul, xeqb. destruct (Reqb_spec (0 * 0) 0) as [_|N]; [|lra]. apply trunc_c1e_14.
Qed.
Print Assumptions C86_zero_variance_refuted.

(** With errors that are floats, or not given, templates behave as described by C21, C22 and C26. *)
Theorem C86_floats_partial : forall inv t name hid, th_int_errs t = false ->
  match tt_new name hid t, template_new K1 name hid (th_hist t) with
  | Ok m, Ok m0 => tt_tmpl m = m0 /\ tt_int_cov m = false
  | Err a, Err b => a = b
  | _, _ => False
  end /\
  forall m, tt_int_cov m = false -> t_kind (tt_tmpl m) = K1 ->
    (forall C i, let '(m', r) := tt_add_cov_mat inv m C i in
       t_add_cov_mat inv (tt_tmpl m) C = (tt_tmpl m', r) /\ tt_int_cov m' = false) /\
    (forall xs up down, let '(m', r) := tt_add_variation inv m xs up down in
       t_add_variation inv (tt_tmpl m) (D1 xs) up down = (tt_tmpl m', r) /\ tt_int_cov m' = false).
Proof.
  intros inv t name hid F. split.
  - unfold tt_new. rewrite F. destruct (template_new K1 name hid (th_hist t)) as [m0|] eqn:T; cbn [rbind]; [|reflexivity].
    cbn [tt_tmpl tt_int_cov]. split; [|reflexivity]. unfold template_new in T. destruct (negb (kind_eqb _ _)); [discriminate|].
    destruct (negb _); [destruct (_ || _); discriminate|]. injection T as <-. reflexivity.
  - intros m I K. split.
    + intros C i. unfold tt_add_cov_mat, t_add_cov_mat, tt_add_cov_raw. rewrite K, I. cbn [andb]. destruct (square _ C); [|split; [reflexivity|exact I]].
      destruct (add_cov_raw inv (tt_tmpl m) C). split; reflexivity.
    + intros xs up down. unfold tt_add_variation, t_add_variation. rewrite K. destruct (t_range (tt_tmpl m)) as [|r [|]]; try (split; [reflexivity|exact I]).
      destruct (rbind _ _) as [c|ex]; [|split; [reflexivity|exact I]]. unfold tt_add_cov_raw. rewrite I. cbn [andb].
      destruct (add_cov_raw inv (tt_tmpl m) c). split; reflexivity.
Qed.
Print Assumptions C86_floats_partial.
Example C86_example : exists t m, th_from_binned (nd1 [Fin 3; Fin 0]) true (mk_edges false [0; 1; 2]) (Some (nd1 [Fin 2; Fin 0], true)) = Ok t /\
  tt_new "a" 0 t = Ok m /\ t_nb (tt_tmpl m) = 2%nat.
Proof. eexists. eexists. split; [reflexivity|]. split; reflexivity. Qed.

(** ** C87: every template has its own parameters *)
(** False: an array assigned to the params of two templates is shared by them; assigning a yield to one of them changes
    the other one and the array of the caller. *)
Theorem C87_shared_refuted : exists l w w',
  l = [PNew [Fin 1]; PNew [Fin 1]; PArray false [Fin 3; Fin 0]; PParams 0 (mk_aref 2 0 2); PParams 1 (mk_aref 2 0 2)] /\
  w = prun pw_empty l /\ w' = fst (pstep w (PYield 0 (VFloat (Fin 7)))) /\
  params_seen w 1 = Some [Fin 3; Fin 0] /\ params_seen w' 1 = Some [Fin 7; Fin 0] /\
  nth_error (p_bufs w) 2 = Some (mk_parr false [Fin 3; Fin 0]) /\ nth_error (p_bufs w') 2 = Some (mk_parr false [Fin 7; Fin 0]).
Proof. eexists. eexists. eexists. split; [reflexivity|]. split; [reflexivity|]. split; [reflexivity|]. repeat split. Qed.
Print Assumptions C87_shared_refuted.
(** False for arrays of integers: after t.params = np.array([3, 0]) the assignment t.yield_param = 5/2 stores 2. *)
Theorem C87_integers_refuted : exists w w',
  w = prun pw_empty [PNew [Fin 1]; PArray true [Fin 3; Fin 0]; PParams 0 (mk_aref 1 0 2)] /\
  pstep w (PYield 0 (VFloat (Fin (5/2)))) = (w', Ok tt) /\ params_seen w' 0 = Some [Fin 2; Fin 0].
Proof.
  eexists. eexists. split; [reflexivity|]. split; [reflexivity|].
  assert (T : trunc (Fin (5/2)) = Fin 2).
  { unfold trunc. destruct (Rle_dec 0 (5/2)) as [_|N]; [|lra]. destruct (base_Int_part (5/2)) as [A B].
    assert (Z1 : (Int_part (5/2) < 3)%Z) by (apply lt_IZR; lra). assert (Z0 : (1 < Int_part (5/2))%Z) by (apply lt_IZR; lra).
    replace (Int_part (5/2)) with 2%Z by lia. reflexivity. }
  transitivity (Some [trunc (Fin (5/2)); Fin 0]); [reflexivity|]. rewrite T. reflexivity.
Qed.
Print Assumptions C87_integers_refuted.
(** What is true: for a polite user (Spec_Dtype.v) every call does to its template what is documented, and nothing to
    other templates and to the arrays of the caller which no template holds; a rejected call changes nothing. *)
Definition sep (w : pworld) : Prop :=
  (forall t tm, nth_error (p_tms w) t = Some tm -> a_len (pt_ref tm) = S (pt_nb tm) /\
     exists vals, nth_error (p_bufs w) (a_buf (pt_ref tm)) = Some (mk_parr false vals) /\ (a_off (pt_ref tm) + a_len (pt_ref tm) <= length vals)%nat) /\
  (forall t t' tm tm', nth_error (p_tms w) t = Some tm -> nth_error (p_tms w) t' = Some tm' -> t <> t' -> a_buf (pt_ref tm) <> a_buf (pt_ref tm')).

Lemma upd_nth {A} i j (v : A) l : nth_error (upd i v l) j = if Nat.eqb i j then (if Nat.ltb i (length l) then Some v else None) else nth_error l j.
Proof.
  destruct (Nat.eqb_spec i j) as [<-|N]; [|apply upd_other; auto].
  destruct (Nat.ltb_spec i (length l)) as [L|L]; [apply upd_same; exact L|]. apply nth_error_None. rewrite upd_length. exact L.
Qed.
Lemma pwrite_tms w a i v : p_tms (pwrite w a i v) = p_tms w.
Proof. unfold pwrite. destruct (nth_error _ _); reflexivity. Qed.
Lemma pwrites_tms vs : forall w a i, p_tms (pwrites w a i vs) = p_tms w.
Proof. induction vs as [|v vs IH]; intros w a i; [reflexivity|]. cbn [pwrites]. rewrite IH. apply pwrite_tms. Qed.
Lemma pwrite_other w a i v b : a_buf a <> b -> nth_error (p_bufs (pwrite w a i v)) b = nth_error (p_bufs w) b.
Proof. intros N. unfold pwrite. destruct (nth_error (p_bufs w) (a_buf a)); [|reflexivity]. cbn [p_bufs]. apply upd_other. exact N. Qed.
Lemma pwrites_other vs : forall w a i b, a_buf a <> b -> nth_error (p_bufs (pwrites w a i vs)) b = nth_error (p_bufs w) b.
Proof. induction vs as [|v vs IH]; intros w a i b N; [reflexivity|]. cbn [pwrites]. rewrite IH by exact N. apply pwrite_other. exact N. Qed.
Lemma pwrite_same w a i v vals : nth_error (p_bufs w) (a_buf a) = Some (mk_parr false vals) ->
  nth_error (p_bufs (pwrite w a i v)) (a_buf a) = Some (mk_parr false (upd (a_off a + i) v vals)).
Proof.
  intros H. unfold pwrite. rewrite H. cbn [p_bufs pa_int pa_vals stored]. rewrite upd_same; [reflexivity|]. apply nth_error_Some. congruence.
Qed.
Fixpoint updates {A} (i : nat) (vs : list A) (l : list A) : list A := match vs with [] => l | v :: vs' => updates (S i) vs' (upd i v l) end.
Lemma updates_length {A} vs : forall i (l : list A), length (updates i vs l) = length l.
Proof. induction vs as [|v vs IH]; intros i l; [reflexivity|]. cbn [updates]. rewrite IH. apply upd_length. Qed.
Lemma pwrites_same vs : forall w a i vals, nth_error (p_bufs w) (a_buf a) = Some (mk_parr false vals) ->
  nth_error (p_bufs (pwrites w a i vs)) (a_buf a) = Some (mk_parr false (updates (a_off a + i) vs vals)).
Proof.
  induction vs as [|v vs IH]; intros w a i vals H; [exact H|]. cbn [pwrites updates]. rewrite plus_n_Sm. apply IH. apply pwrite_same. exact H.
Qed.
Lemma slice_upd {A} off n i (v : A) l : (off + n <= length l)%nat -> (i < n)%nat ->
  slice off (off + n) (upd (off + i) v l) = upd i v (slice off (off + n) l).
Proof.
  intros L I. unfold slice. replace (off + n - off)%nat with n by lia. revert l L. induction off as [|off IH]; intros l L.
  - cbn [skipn Nat.add]. revert i l I L. induction n as [|n IHn]; intros i l I L; [lia|]. destruct l as [|x l]; [simpl in L; lia|]. destruct i as [|i]; [reflexivity|].
    cbn [upd firstn]. rewrite IHn by (simpl in L; lia). reflexivity.
  - destruct l as [|x l]; [simpl in L; lia|]. cbn [Nat.add upd skipn]. apply IH. simpl in L. lia.
Qed.
Lemma slice_updates {A} vs : forall off n i (l : list A), (off + n <= length l)%nat -> (i + length vs <= n)%nat ->
  slice off (off + n) (updates (off + i) vs l) = updates i vs (slice off (off + n) l).
Proof.
  induction vs as [|v vs IH]; intros off n i l L I; [reflexivity|]. cbn [updates length] in *. rewrite plus_n_Sm, IH by (rewrite ?upd_length; lia).
  rewrite slice_upd by lia. reflexivity.
Qed.
Lemma updates_cons {A} vs : forall i (x : A) l, updates (S i) vs (x :: l) = x :: updates i vs l.
Proof. induction vs as [|v vs IH]; intros i x l; [reflexivity|]. cbn [updates upd]. apply IH. Qed.
Lemma updates_all {A} vs : forall (l : list A), length vs = length l -> updates 0 vs l = vs.
Proof.
  induction vs as [|v vs IH]; intros [|x l] L; try discriminate; [reflexivity|]. cbn [updates upd]. rewrite updates_cons. f_equal. apply IH. now injection L.
Qed.
Lemma slice_length {A} off n (l : list A) : (off + n <= length l)%nat -> length (slice off (off + n) l) = n.
Proof. intros L. unfold slice. rewrite firstn_length, skipn_length. lia. Qed.
Lemma pread_length w a : paref_ok w a = true -> length (pread w a) = a_len a.
Proof. unfold paref_ok, pread. destruct (nth_error _ _); [|discriminate]. intros H. apply Nat.leb_le in H. apply slice_length. exact H. Qed.
Lemma pread_bufs w w' a : nth_error (p_bufs w') (a_buf a) = nth_error (p_bufs w) (a_buf a) -> pread w' a = pread w a.
Proof. intros H. unfold pread. rewrite H. reflexivity. Qed.
Lemma nth_app_old {A} (l : list A) x b y : nth_error l b = Some y -> nth_error (l ++ [x]) b = Some y.
Proof. intros H. rewrite nth_error_app1; [exact H|]. apply nth_error_Some. congruence. Qed.

Lemma sep_one w t tm : sep w -> nth_error (p_tms w) t = Some tm ->
  exists y nui vals, pread w (pt_ref tm) = y :: nui /\ length nui = pt_nb tm /\ nth_error (p_bufs w) (a_buf (pt_ref tm)) = Some (mk_parr false vals) /\
    slice (a_off (pt_ref tm)) (a_off (pt_ref tm) + S (pt_nb tm)) vals = y :: nui /\ (a_off (pt_ref tm) + S (pt_nb tm) <= length vals)%nat.
Proof.
  intros [S1 _] T. destruct (S1 t tm T) as (L & vals & V & B). unfold pread. rewrite V, L in *. cbn [pa_vals].
  pose proof (slice_length (a_off (pt_ref tm)) (S (pt_nb tm)) vals B) as SL. destruct (slice _ _ vals) as [|y nui] eqn:Q; [discriminate|].
  exists y, nui, vals. repeat split; auto.
Qed.

(** writing into the array of template t *)
Lemma write_own w t tm w' vals' : sep w -> nth_error (p_tms w) t = Some tm -> p_tms w' = p_tms w ->
  (forall b, a_buf (pt_ref tm) <> b -> nth_error (p_bufs w') b = nth_error (p_bufs w) b) ->
  nth_error (p_bufs w') (a_buf (pt_ref tm)) = Some (mk_parr false vals') -> (a_off (pt_ref tm) + S (pt_nb tm) <= length vals')%nat ->
  sep w' /\ (forall t' p, params_seen w t' = Some p -> t <> t' -> params_seen w' t' = Some p) /\
  params_seen w' t = Some (slice (a_off (pt_ref tm)) (a_off (pt_ref tm) + S (pt_nb tm)) vals').
Proof.
  intros SW T E O V L. pose proof SW as [S1 S2]. split; [|split].
  - split; rewrite E; [|exact S2]. intros t' tm' T'. destruct (S1 t' tm' T') as (L' & vs & V' & B'). split; [exact L'|].
    destruct (Nat.eq_dec t t') as [<-|N].
    + assert (tm' = tm) by congruence. subst. exists vals'. split; [exact V|]. rewrite L'. exact L.
    + exists vs. split; [|exact B']. rewrite O; [exact V'|]. eapply S2; eauto.
  - intros t' p P N. unfold params_seen in *. rewrite E. destruct (nth_error (p_tms w) t') as [tm'|] eqn:T'; [|discriminate]. injection P as <-.
    f_equal. apply pread_bufs. apply O. eapply S2; eauto.
  - unfold params_seen, pread. rewrite E, T, V. destruct (S1 t tm T) as (L' & _). rewrite L'. reflexivity.
Qed.
Lemma new_buf w arr t p : params_seen w t = Some p -> sep w -> params_seen (mk_pw (p_bufs w ++ [arr]) (p_tms w)) t = Some p.
Proof.
  intros P [S1 _]. unfold params_seen in *. cbn [p_tms]. destruct (nth_error (p_tms w) t) as [tm|] eqn:T; [|discriminate]. rewrite <- P. f_equal. apply pread_bufs. cbn [p_bufs].
  destruct (S1 t tm T) as (_ & vs & V & _). rewrite V. apply nth_app_old. exact V.
Qed.

Lemma step_sep w o : sep w -> polite_pcall w o ->
  sep (fst (pstep w o)) /\
  (forall t p, params_seen w t = Some p -> ~ about o t -> params_seen (fst (pstep w o)) t = Some p) /\
  (forall t, about o t -> snd (pstep w o) = Ok tt -> exists p p', params_seen w t = Some p /\ params_seen (fst (pstep w o)) t = Some p' /\ documented w o p p') /\
  (snd (pstep w o) <> Ok tt -> fst (pstep w o) = w) /\
  (forall b arr, nth_error (p_bufs w) b = Some arr -> (forall t, ~ holds w t b) -> (forall a i v, o = PWrite a i v -> a_buf a <> b) ->
     nth_error (p_bufs (fst (pstep w o))) b = Some arr).
Proof.
  intros SW PO. pose proof SW as [S1 S2].
  assert (SAME : forall r : res unit, r <> Ok tt -> sep w /\ (forall t p, params_seen w t = Some p -> ~ about o t -> params_seen w t = Some p) /\
     (forall t, about o t -> r = Ok tt -> exists p p', params_seen w t = Some p /\ params_seen w t = Some p' /\ documented w o p p') /\ (r <> Ok tt -> w = w) /\
     (forall b arr, nth_error (p_bufs w) b = Some arr -> (forall t, ~ holds w t b) -> (forall a i v, o = PWrite a i v -> a_buf a <> b) -> nth_error (p_bufs w) b = Some arr)).
  { intros r NR. split; [exact SW|]. split; [auto|]. split; [intros; contradiction|]. split; auto. }
  destruct o as [ii l|a i v|counts|t a|t v|t a|t]; cbn [pstep].
  - cbn [fst snd]. split; [|split; [|split; [|split]]].
    + split; cbn [p_tms p_bufs]; [|exact S2]. intros t tm T. destruct (S1 t tm T) as (L & vs & V & B). split; [exact L|]. exists vs. split; [apply nth_app_old; exact V|exact B].
    + intros t p P _. apply new_buf; assumption.
    + intros t [].
    + intros N. exfalso. apply N. reflexivity.
    + intros b arr H _ _. cbn [p_bufs]. apply nth_app_old. exact H.
  - destruct (paref_ok w a) eqn:AO; [|apply SAME; discriminate]. destruct (Nat.ltb i (a_len a)); [|apply SAME; discriminate]. cbn [fst snd].
    assert (O : forall t tm, nth_error (p_tms w) t = Some tm -> nth_error (p_bufs (pwrite w a i v)) (a_buf (pt_ref tm)) = nth_error (p_bufs w) (a_buf (pt_ref tm))).
    { intros t tm T. apply pwrite_other. intros Q. apply (PO t). exists tm. split; [exact T|]. symmetry. exact Q. }
    split; [|split; [|split; [|split]]].
    + split; rewrite pwrite_tms; [|exact S2]. intros t tm T. rewrite (O t tm T). exact (S1 t tm T).
    + intros t p P _. unfold params_seen in *. rewrite pwrite_tms. destruct (nth_error (p_tms w) t) as [tm|] eqn:T; [|discriminate]. rewrite <- P. f_equal. apply pread_bufs. exact (O t tm T).
    + intros t [].
    + intros N. exfalso. apply N. reflexivity.
    + intros b arr H _ N. rewrite pwrite_other; [exact H|]. exact (N a i v eq_refl).
  - cbn [fst snd]. split; [|split; [|split; [|split]]].
    + split; cbn [p_tms p_bufs].
      * intros t tm T. destruct (Nat.ltb_spec t (length (p_tms w))) as [L|L].
        -- rewrite nth_error_app1 in T by exact L. destruct (S1 t tm T) as (L' & vs & V & B). split; [exact L'|]. exists vs. split; [apply nth_app_old; exact V|exact B].
        -- rewrite nth_error_app2 in T by exact L. destruct (t - length (p_tms w))%nat as [|k]; [|destruct k; discriminate]. injection T as <-. cbn [pt_ref pt_nb fresh_ref a_len a_buf a_off]. split; [reflexivity|].
           eexists. rewrite nth_error_app2, Nat.sub_diag by lia. split; [reflexivity|]. cbn [length Nat.add]. rewrite repeat_length. lia.
      * intros t t' tm tm' T T' N. 
        assert (D : forall t tm, nth_error (p_tms w ++ [mk_ptm (length counts) (np_sum counts) (fresh_ref w (length counts))]) t = Some tm ->
           (nth_error (p_tms w) t = Some tm /\ (a_buf (pt_ref tm) < length (p_bufs w))%nat) \/ (t = length (p_tms w) /\ a_buf (pt_ref tm) = length (p_bufs w))).
        { clear - S1. intros t tm T. destruct (Nat.ltb_spec t (length (p_tms w))) as [L|L].
          - left. rewrite nth_error_app1 in T by exact L. split; [exact T|]. destruct (S1 t tm T) as (_ & vs & V & _). apply nth_error_Some. congruence.
          - right. rewrite nth_error_app2 in T by exact L. destruct (t - length (p_tms w))%nat as [|k] eqn:Q; [|destruct k; discriminate]. injection T as <-. split; [lia|reflexivity]. }
        destruct (D _ _ T) as [[A B]|[A B]], (D _ _ T') as [[A' B']|[A' B']]; [eapply S2; eauto|lia|lia|congruence].
    + intros t p P _. pose proof (new_buf w (init_arr (length counts) (np_sum counts)) t p P SW) as Q. unfold params_seen in *. cbn [p_tms] in *.
      destruct (nth_error (p_tms w) t) as [tm|] eqn:T; [|discriminate]. rewrite nth_error_app1 by (apply nth_error_Some; congruence). rewrite T. exact Q.
    + intros t [].
    + intros N. exfalso. apply N. reflexivity.
    + intros b arr H _ _. cbn [p_bufs]. apply nth_app_old. exact H.
  - destruct (paref_ok w a) eqn:AO; [|apply SAME; discriminate]. unfold with_tm. destruct (nth_error (p_tms w) t) as [tm|] eqn:T; [|apply SAME; discriminate].
    destruct (Nat.eqb_spec (a_len a) (a_len (pt_ref tm))) as [LE|LE]; [|apply SAME; discriminate]. cbn [fst snd]. destruct PO as ((arr & AB & AF) & PO).
    assert (LT : (t < length (p_tms w))%nat) by (apply nth_error_Some; congruence).
    split; [|split; [|split; [|split]]].
    + split; cbn [p_tms p_bufs].
      * intros t' tm' T'. rewrite upd_nth in T'. destruct (Nat.eqb_spec t t') as [<-|N]; [|exact (S1 t' tm' T')].
        destruct (Nat.ltb t (length (p_tms w))); [|discriminate]. injection T' as <-. cbn [set_ref pt_ref pt_nb]. destruct (S1 t tm T) as (L & _). split; [congruence|].
        exists (pa_vals arr). rewrite AB. destruct arr as [ai av]. cbn [pa_int pa_vals] in *. subst ai. split; [reflexivity|].
        unfold paref_ok in AO. rewrite AB in AO. apply Nat.leb_le in AO. exact AO.
      * intros t1 t2 tm1 tm2 T1 T2 N. rewrite upd_nth in T1, T2.
        destruct (Nat.eqb_spec t t1) as [<-|N1], (Nat.eqb_spec t t2) as [<-|N2]; try contradiction.
        -- destruct (Nat.ltb t _); [|discriminate]. injection T1 as <-. cbn [set_ref pt_ref]. intros Q. apply (PO t2 (not_eq_sym N2)). exists tm2. split; [exact T2|symmetry; exact Q].
        -- destruct (Nat.ltb t _); [|discriminate]. injection T2 as <-. cbn [set_ref pt_ref]. intros Q. apply (PO t1 (not_eq_sym N1)). exists tm1. split; [exact T1|exact Q].
        -- eapply S2; eauto.
    + intros t' p P N. cbn [about] in N. unfold params_seen in *. cbn [p_tms]. rewrite upd_nth. destruct (Nat.eqb_spec t t') as [Q|_]; [contradiction|exact P].
    + intros t' A _. cbn [about] in A. subst t'. exists (pread w (pt_ref tm)), (pread w a). unfold params_seen. cbn [p_tms]. rewrite T, upd_same by exact LT. split; [reflexivity|]. split; [reflexivity|].
      cbn [documented]. split; [reflexivity|]. destruct (sep_one w t tm SW T) as (y & nui & vs & R & LN & _). rewrite R. rewrite pread_length by exact AO. destruct (S1 t tm T) as (L & _). cbn [length]. congruence.
    + intros N. exfalso. apply N. reflexivity.
    + intros b arr' H _ _. exact H.
  - unfold with_tm. destruct (nth_error (p_tms w) t) as [tm|] eqn:T; [|apply SAME; discriminate].
    destruct (S1 t tm T) as (LL & _). destruct (sep_one w t tm SW T) as (y & nui & vs & R & LN & V & SL & B).
    assert (ST : forall x, number v x -> 
       sep (pwrite w (pt_ref tm) 0 x) /\ (forall t' p, params_seen w t' = Some p -> ~ about (PYield t v) t' -> params_seen (pwrite w (pt_ref tm) 0 x) t' = Some p) /\
       (forall t', about (PYield t v) t' -> @Ok unit tt = Ok tt -> exists p p', params_seen w t' = Some p /\ params_seen (pwrite w (pt_ref tm) 0 x) t' = Some p' /\ documented w (PYield t v) p p') /\
       (@Ok unit tt <> Ok tt -> pwrite w (pt_ref tm) 0 x = w) /\
       (forall b arr, nth_error (p_bufs w) b = Some arr -> (forall t0, ~ holds w t0 b) -> (forall a i v0, PYield t v = PWrite a i v0 -> a_buf a <> b) -> nth_error (p_bufs (pwrite w (pt_ref tm) 0 x)) b = Some arr)).
    { intros x NX. destruct (write_own w t tm (pwrite w (pt_ref tm) 0 x) (upd (a_off (pt_ref tm) + 0) x vs) SW T) as (A1 & A2 & A3);
        [apply pwrite_tms|intros b N; apply pwrite_other; exact N|apply pwrite_same; exact V|rewrite upd_length; exact B|].
      rewrite slice_upd in A3 by lia. rewrite SL in A3. cbn [upd] in A3. split; [exact A1|]. split; [intros t' p P N; apply A2; [exact P|exact N]|]. split; [|split].
      - intros t' A _. cbn [about] in A. subst t'. exists (y :: nui), (x :: nui). split; [unfold params_seen; rewrite T, R; reflexivity|]. split; [exact A3|]. exists y, x, nui. auto.
      - intros N. exfalso. apply N. reflexivity.
      - intros b arr H NH _. rewrite pwrite_other; [exact H|]. intros Q. apply (NH t). exists tm. auto. }
    destruct v as [x|z|[|x [|x2 l]]|]; rewrite ?LL; cbn [Nat.eqb fst snd]; try (apply SAME; discriminate); apply ST; reflexivity.
  - destruct (paref_ok w a) eqn:AO; [|apply SAME; discriminate]. unfold with_tm. destruct (nth_error (p_tms w) t) as [tm|] eqn:T; [|apply SAME; discriminate].
    destruct (Nat.eqb_spec (a_len a) (pt_nb tm)) as [LE|LE]; [|apply SAME; discriminate]. cbn [fst snd].
    destruct (sep_one w t tm SW T) as (y & nui & vs & R & LN & V & SL & B). assert (RL : length (pread w a) = pt_nb tm) by (rewrite pread_length; auto).
    destruct (write_own w t tm (pwrites w (pt_ref tm) 1 (pread w a)) (updates (a_off (pt_ref tm) + 1) (pread w a) vs) SW T) as (A1 & A2 & A3);
        [apply pwrites_tms|intros b N; apply pwrites_other; exact N|apply pwrites_same; exact V|rewrite updates_length; exact B|].
    rewrite slice_updates in A3 by lia. rewrite SL, updates_cons, updates_all in A3 by congruence.
    split; [exact A1|]. split; [intros t' p P N; apply A2; [exact P|exact N]|]. split; [|split].
    + intros t' A _. cbn [about] in A. subst t'. exists (y :: nui), (y :: pread w a). split; [unfold params_seen; rewrite T, R; reflexivity|]. split; [exact A3|]. exists y, nui. cbn [length]. repeat split. congruence.
    + intros N. exfalso. apply N. reflexivity.
    + intros b arr H NH _. rewrite pwrites_other; [exact H|]. intros Q. apply (NH t). exists tm. auto.
  - unfold with_tm. destruct (nth_error (p_tms w) t) as [tm|] eqn:T; [|apply SAME; discriminate]. cbn [fst snd].
    assert (LT : (t < length (p_tms w))%nat) by (apply nth_error_Some; congruence).
    split; [|split; [|split; [|split]]].
    + assert (D : forall t' tm', nth_error (upd t (set_ref tm (fresh_ref w (pt_nb tm))) (p_tms w)) t' = Some tm' ->
           (t' <> t /\ nth_error (p_tms w) t' = Some tm' /\ (a_buf (pt_ref tm') < length (p_bufs w))%nat) \/ (t' = t /\ tm' = set_ref tm (fresh_ref w (pt_nb tm)))).
      { intros t' tm' T'. rewrite upd_nth in T'. destruct (Nat.eqb_spec t t') as [<-|N].
        - right. destruct (Nat.ltb t _); [|discriminate]. injection T' as <-. auto.
        - left. split; [auto|]. split; [exact T'|]. destruct (S1 t' tm' T') as (_ & vs & V & _). apply nth_error_Some. congruence. }
      split; cbn [p_tms p_bufs].
      * intros t' tm' T'. destruct (D _ _ T') as [(N & A & L)|(-> & ->)].
        -- destruct (S1 t' tm' A) as (L' & vs & V & B). split; [exact L'|]. exists vs. split; [apply nth_app_old; exact V|exact B].
        -- cbn [set_ref pt_ref pt_nb fresh_ref a_len a_buf a_off]. split; [reflexivity|]. eexists. rewrite nth_error_app2, Nat.sub_diag by lia. split; [reflexivity|]. cbn [length Nat.add]. rewrite repeat_length. lia.
      * intros t1 t2 tm1 tm2 T1 T2 N. destruct (D _ _ T1) as [(N1 & A1 & B1)|(-> & ->)], (D _ _ T2) as [(N2 & A2 & B2)|(-> & ->)];
          [eapply S2; eauto|cbn [set_ref pt_ref fresh_ref a_buf]; lia|cbn [set_ref pt_ref fresh_ref a_buf]; lia|contradiction].
    + intros t' p P N. cbn [about] in N. pose proof (new_buf w (init_arr (pt_nb tm) (pt_sum tm)) t' p P SW) as Q. unfold params_seen in *. cbn [p_tms] in *.
      rewrite upd_nth. destruct (Nat.eqb_spec t t') as [E|_]; [contradiction|]. exact Q.
    + intros t' A _. cbn [about] in A. subst t'. exists (pread w (pt_ref tm)), (pt_sum tm :: repeat (Fin 0) (pt_nb tm)). unfold params_seen. cbn [p_tms]. rewrite T, upd_same by exact LT.
      split; [reflexivity|]. split; [|exists tm; auto]. f_equal. unfold pread. cbn [set_ref pt_ref fresh_ref a_buf a_off a_len p_bufs]. rewrite nth_error_app2, Nat.sub_diag by lia. cbn [nth_error init_arr pa_vals].
      unfold slice. cbn [skipn Nat.add]. apply firstn_all2. cbn [length]. rewrite repeat_length. lia.
    + intros N. exfalso. apply N. reflexivity.
    + intros b arr H _ _. cbn [p_bufs]. apply nth_app_old. exact H.
Qed.
Lemma run_sep l : forall w, sep w -> polite_history w l -> sep (prun w l).
Proof.
  induction l as [|o l IH]; intros w SW P; [exact SW|]. destruct P as [PO P]. cbn [prun]. apply IH; [|exact P]. apply (step_sep w o SW PO).
Qed.
Lemma polite_app l1 : forall w l2, polite_history w (l1 ++ l2) -> polite_history w l1 /\ polite_history (prun w l1) l2.
Proof. induction l1 as [|o l1 IH]; intros w l2 P; [split; [exact I|exact P]|]. destruct P as [PO P]. destruct (IH _ _ P) as [A B]. split; [split; assumption|exact B]. Qed.

Theorem C87_own_parameters_partial : forall l o w' r, polite_history pw_empty (l ++ [o]) ->
  let w := prun pw_empty l in pstep w o = (w', r) ->
  (forall t p, params_seen w t = Some p -> ~ about o t -> params_seen w' t = Some p) /\
  (forall t, about o t -> r = Ok tt -> exists p p', params_seen w t = Some p /\ params_seen w' t = Some p' /\ documented w o p p') /\
  (r <> Ok tt -> w' = w) /\
  (forall b arr, nth_error (p_bufs w) b = Some arr -> (forall t, ~ holds w t b) -> (forall a i v, o = PWrite a i v -> a_buf a <> b) ->
     nth_error (p_bufs w') b = Some arr).
Proof.
  intros l o w' r P w H. apply polite_app in P as [P1 [P2 _]].
  assert (SW : sep w). { apply run_sep; [|exact P1]. split; intros; destruct t; discriminate. }
  destruct (step_sep w o SW P2) as (_ & A & B & C & D). rewrite H in *. cbn [fst snd] in *. auto.
Qed.
Print Assumptions C87_own_parameters_partial.

(** Which calls are accepted: a yield is an int, a float or an array with one element; an array assigned to params or
    nui_params needs the length of the old one; reset always succeeds. *)
Definition acceptable (w : pworld) (o : pop) (p : list xr) : Prop :=
  match o with
  | PParams _ a => length (pread w a) = length p
  | PYield _ v => exists x, number v x
  | PNui _ a => S (length (pread w a)) = length p
  | _ => True
  end.
(** the array given exists *)
Definition real_array (w : pworld) (o : pop) : Prop :=
  match o with
  | PParams _ a | PNui _ a => exists arr, nth_error (p_bufs w) (a_buf a) = Some arr /\ (a_off a + a_len a <= length (pa_vals arr))%nat
  | _ => True
  end.
Theorem C87_accepted : forall l o t p, polite_history pw_empty l ->
  let w := prun pw_empty l in
  params_seen w t = Some p -> about o t -> real_array w o ->
  (acceptable w o p -> snd (pstep w o) = Ok tt) /\
  (~ acceptable w o p -> exists e, pstep w o = (w, Err e) /\
     match o with PYield _ (VArr []) => e = ValueError | _ => e = RuntimeError end).
Proof.
  intros l o t p P w PS AB RA.
  assert (SW : sep w). { apply run_sep; [|exact P]. split; intros t0; intros; destruct t0; discriminate. }
  unfold params_seen in PS. destruct (nth_error (p_tms w) t) as [tm|] eqn:T; [|discriminate].
  destruct (proj1 SW t tm T) as (L1 & vals & B & L2).
  assert (LR : forall a arr, nth_error (p_bufs w) (a_buf a) = Some arr -> (a_off a + a_len a <= length (pa_vals arr))%nat ->
     paref_ok w a = true /\ length (pread w a) = a_len a).
  { intros a arr A L. unfold paref_ok, pread. rewrite A. split; [now apply Nat.leb_le|].
    apply slice_length. exact L. }
  assert (LP : length p = S (pt_nb tm)).
  { injection PS as <-. destruct (LR (pt_ref tm) _ B L2) as [_ ->]. exact L1. }
  destruct o as [i li|a i v|cs|t' a|t' v|t' a|t']; simpl in AB; try contradiction; subst t'; cbn [pstep acceptable real_array] in *.
  - destruct RA as (arr & A & L). destruct (LR a arr A L) as [K1' K2']. rewrite K1', K2', LP. unfold with_tm. rewrite T, L1.
    destruct (Nat.eqb_spec (a_len a) (S (pt_nb tm))) as [E|E]; split; intros H; try reflexivity; try congruence. exists RuntimeError. split; reflexivity.
  - unfold with_tm. rewrite T, L1. cbn [Nat.eqb]. split.
    + intros (x & NX). destruct v as [x'|z|li|]; cbn [number] in NX; try contradiction; try reflexivity. subst li. reflexivity.
    + intros NA. destruct v as [x'|z|li|].
      * exfalso. apply NA. exists x'. reflexivity.
      * exfalso. apply NA. exists (Fin (IZR z)). reflexivity.
      * destruct li as [|x [|y r]].
        -- exists ValueError. split; reflexivity.
        -- exfalso. apply NA. exists x. reflexivity.
        -- exists RuntimeError. split; reflexivity.
      * exists RuntimeError. split; reflexivity.
  - destruct RA as (arr & A & L). destruct (LR a arr A L) as [K1' K2']. rewrite K1', K2', LP. unfold with_tm. rewrite T.
    destruct (Nat.eqb_spec (a_len a) (pt_nb tm)) as [E|E]; split; intros H; try reflexivity; try congruence. exists RuntimeError. split; reflexivity.
  - unfold with_tm. rewrite T. split; [reflexivity|]. intros H. now destruct H.
Qed.
Print Assumptions C87_accepted.

(** a polite history with two templates, an array of the caller and a view of it *)
Example C87_example : polite_history pw_empty
  [PNew [Fin 1; Fin 2]; PNew [Fin 1]; PArray false [Fin 3; Fin 0; Fin 1; Fin 5]; PParams 0 (mk_aref 2 0 3); PYield 0 (VFloat (Fin 7));
   PNui 1 (mk_aref 2 3 1); PReset 0; PWrite (mk_aref 2 0 4) 0 (Fin 4)] /\
  params_seen (prun pw_empty [PNew [Fin 1; Fin 2]; PNew [Fin 1]; PArray false [Fin 3; Fin 0; Fin 1; Fin 5]; PParams 0 (mk_aref 2 0 3); PYield 0 (VFloat (Fin 7))]) 0
    = Some [Fin 7; Fin 0; Fin 1].
Proof.
  split; [|reflexivity]. cbn [polite_history polite_pcall]. repeat (split; [exact I|]). split.
  - split; [eexists; split; reflexivity|]. intros [|[|t]] N (tm & T & Q); [contradiction|injection T as <-; discriminate Q|destruct t; discriminate T].
  - repeat (split; [exact I|]). split; [|exact I]. intros [|[|t]] (tm & T & Q); [injection T as <-; discriminate Q|injection T as <-; discriminate Q|destruct t; discriminate T].
Qed.
