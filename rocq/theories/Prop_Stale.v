(** Property theorems C23, C38, C39, C61: reset, side effects of evaluations, stale caches. *)
From Coq Require Import Reals String Ascii ZArith Bool Arith List Lra Lia.
From Verif Require Import Model_Num Model_Hist Model_Utility Model_Template Model_World Model_Ops
  Spec_Matrix Spec_Template Spec_World Spec_Nll Spec_Stale Proof_Hist Proof_Matrix Proof_Template Proof_HistHeap Proof_Monad Proof_World
  Proof_Eval Proof_Route Proof_Names Proof_Update Proof_Nll Proof_Valid Proof_Stale Prop_World Prop_Params.
Import ListNotations.
Local Open Scope R_scope.

(** C23: a template created after the calls l1 from histogram object hid; then any calls l2 that do not
    fill this histogram object.  Then template.reset() gives the parameters of the creation: the sum of
    the counts the histogram had, and zero for every nuisance parameter. *)
Theorem C23_reset_partial : forall inv l1 k name hid l2 h, inv_spec inv ->
  let w0 := reached inv l1 in let tid := length (w_tmpls w0) in
  nth_error (w_hists w0) hid = Some h -> snd (step inv (OTemplate k name hid) w0) = Ok tt ->
  Forall (fun o => ~ fills_hist hid o) l2 ->
  let w1 := reached inv (l1 ++ [OTemplate k name hid]) in
  let w2 := reached inv (l1 ++ OTemplate k name hid :: l2) in
  exists t1 t2, nth_error (w_tmpls w1) tid = Some t1 /\
    snd (step inv (OTReset tid) w2) = Ok tt /\ nth_error (w_tmpls (fst (step inv (OTReset tid) w2))) tid = Some t2 /\
    t_params t2 = t_params t1 /\ t_yield t1 = np_sum (nd_flat (h_counts h)) /\ t_nui t1 = repeat (Fin 0) (t_nb t1) /\
    t_hist t1 = hid /\ t_hist t2 = hid.
Proof.
  intros inv l1 k name hid l2 h I w0 tid Hh S F w1 w2.
  assert (E2 : w2 = run inv l2 w1). { unfold w2, w1, reached. rewrite !run_app. reflexivity. }
  assert (E1 : w1 = fst (step inv (OTemplate k name hid) w0)). { unfold w1, w0, reached. rewrite !run_app. reflexivity. }
  unfold step in E1, S. unfold bind, get_hist in E1, S. rewrite Hh in E1, S. unfold lift in E1, S.
  destruct (template_new k name hid h) as [t|] eqn:TN; [|discriminate]. simpl in E1.
  assert (T1 : nth_error (w_tmpls w1) tid = Some t). { rewrite E1. simpl. unfold tid. rewrite nth_error_app2, Nat.sub_diag by lia. reflexivity. }
  assert (H1 : nth_error (w_hists w1) hid = Some h) by (rewrite E1; exact Hh).
  assert (PT : t_params t = init_params (t_nb t) (nd_flat (h_counts h)) /\ t_hist t = hid).
  { unfold template_new in TN. destruct (negb (kind_eqb k (h_kind h))); [discriminate|]. destruct (negb _); [discriminate|]. injection TN as <-. split; reflexivity. }
  destruct PT as (PT & TH).
  destruct (keep_run hid tid inv l2 w1) as (K1 & K2).
  { eapply Forall_impl; [|exact F]. intros o Ho. destruct o; simpl in *; auto; apply Nat.eqb_neq; auto. }
  rewrite <- E2 in K1, K2. apply K1 in H1 as H2. destruct (K2 t T1) as (t2 & T2 & A & B).
  exists t, (t_reset t2 h). split; [exact T1|]. unfold step. rewrite (tmpl_reset_run w2 tid t2 h T2) by (rewrite A, TH; exact H2). simpl.
  split; [reflexivity|]. rewrite upd_same by (apply nth_error_Some; congruence). split; [reflexivity|].
  unfold t_yield, t_nui. rewrite PT, B. repeat split; congruence.
Qed.
Print Assumptions C23_reset_partial.

(** MultiChannelTemplate.reset_parameters resets every template in a channel in the same way and does
    not touch the others. *)
Theorem C23_reset_parameters_partial : forall inv l1 k name hid l2 h, inv_spec inv ->
  let w0 := reached inv l1 in let tid := length (w_tmpls w0) in
  nth_error (w_hists w0) hid = Some h -> snd (step inv (OTemplate k name hid) w0) = Ok tt ->
  Forall (fun o => ~ fills_hist hid o) l2 ->
  let w1 := reached inv (l1 ++ [OTemplate k name hid]) in
  let w2 := reached inv (l1 ++ OTemplate k name hid :: l2) in
  uses_template w2 tid ->
  exists t1 t2, nth_error (w_tmpls w1) tid = Some t1 /\
    snd (step inv OReset w2) = Ok tt /\ nth_error (w_tmpls (fst (step inv OReset w2))) tid = Some t2 /\
    t_params t2 = t_params t1.
Proof.
  intros inv l1 k name hid l2 h I w0 tid Hh S F w1 w2 U.
  destruct (C23_reset_partial inv l1 k name hid l2 h I Hh S F) as (t1 & t2 & T1 & R1 & R2 & P1 & Y1 & N1 & X1 & X2). fold w0 tid w1 w2 in T1, R1, R2.
  destruct (reset_parameters_done w2 (reached_wf inv _ I)) as (w' & E & RS & D).
  destruct (D tid U) as (t' & T' & h' & H' & P'). exists t1, t'. split; auto. simpl. rewrite E. simpl. repeat (split; [reflexivity||assumption|]).
  assert (W2 : WF w2) by now apply reached_wf.
  destruct (nth_error (w_tmpls w2) tid) as [u|] eqn:TU.
  2:{ destruct U as (i & n & c & kk & p & u & _ & (_ & K)). congruence. }
  destruct (to_hist _ _ (wf_tmpls w2 W2 _ _ TU)) as (g & G & _).
  simpl in R1, R2. rewrite (tmpl_reset_run w2 tid u g TU G) in R2. simpl in R2. rewrite upd_same in R2 by (apply nth_error_Some; congruence). injection R2 as <-.
  destruct (rs_same _ _ RS _ _ TU) as (t'' & T'' & C). assert (t'' = t') by congruence. subst t''.
  rewrite <- P1, P'. rewrite (rs_hists _ _ RS) in H'. unfold t_reset, set_params at 1; simpl.
  destruct C as [-> |(ps & -> & _)]; simpl in *; rewrite H' in G; injection G as ->; reflexivity.
Qed.
Print Assumptions C23_reset_parameters_partial.

(** C23 is false if the histogram object is filled again: the template reads its counts at reset.
    Counts 1; one more event; after reset() the yield is 2. *)
Theorem C23_reset_after_fill_refuted : forall inv, exists l1 l2 t1 t2,
  nth_error (w_tmpls (reached inv l1)) 0 = Some t1 /\ nth_error (w_tmpls (reached inv (l1 ++ l2 ++ [OTReset 0]))) 0 = Some t2 /\
  l2 = [OFill1 0 [1 / 2] WNone] /\ t_yield t1 = Fin 1 /\ t_yield t2 = Fin 2.
Proof.
  intros inv. set (l1 := [OFromBinned K1 (mk_nd [1%nat] [Fin 1]) [mk_edges false [0; 1]] (Some (mk_nd [1%nat] [Fin 1])); OTemplate K1 "t" 0]%string).
  exists l1, [OFill1 0 [1 / 2] WNone].
  assert (B : bin_number (1 / 2) [0; 1] = 1%nat).
  { unfold bin_number, digitize. simpl. destruct (Rleb_spec 0 (1 / 2)); [|lra]. destruct (Rleb_spec 1 (1 / 2)); [lra|]. simpl. destruct (Reqb_spec (1 / 2) 1); [lra|reflexivity]. }
  assert (S : strictly_increasing [0; 1] = true). { simpl. destruct (Rltb_spec 0 1); [reflexivity|lra]. }
  set (w1 := reached inv l1).
  assert (W1 : exists h t, w_hists w1 = [h] /\ w_tmpls w1 = [t] /\ t_hist t = 0%nat /\ t_nb t = 1%nat /\ t_yield t = Fin (1 + 0) /\
     h = mk_hist K1 [mk_edges false [0; 1]] [1%nat] [1%nat] [(0, 1)] (mk_nd [1%nat] [Fin 1]) (h_errs_sq h) (h_empty h)).
  { unfold w1, l1, reached, world_init. do 2 run_step. eexists. eexists. repeat split. }
  destruct W1 as (h & t & HH & HT & T1 & T2 & T3 & EH).
  assert (FC : h_counts (fst (hist1_fill h [1 / 2] WNone)) = mk_nd [1%nat] [Fin (1 + (1 + 0))]).
  { rewrite EH. unfold hist1_fill, fill_with, edges_nth, binned_statistic. cbn [h_edges nth e_vals length Nat.eqb negb resolve_weights repeat Nat.ltb Nat.leb orb map Nat.sub seq].
    rewrite S, B. cbn. destruct (nd_iadd _ _ _); reflexivity. }
  assert (KH : h_kind h = K1) by (rewrite EH; reflexivity).
  exists t. unfold reached in *. rewrite !run_app. change (run inv l1 world_init) with w1.
  rewrite !run_cons. change (run inv []) with (fun w : world => w). cbv beta. unfold step at 2. unfold on_hist. rewrite HH. cbn [nth_error]. unfold fill_op. rewrite KH. cbn [kind_eqb].
  destruct (hist1_fill h [1 / 2] WNone) as [h' r] eqn:EF. cbn [fst] in FC. cbn [fst upd].
  set (w2 := set_hists w1 [h']).
  assert (R : tmpl_reset 0 w2 = (set_tmpls w2 (upd 0 (t_reset t h') (w_tmpls w2)), Ok tt)).
  { apply tmpl_reset_run; [change (w_tmpls w2) with (w_tmpls w1); rewrite HT; reflexivity|rewrite T1; reflexivity]. }
  unfold step. rewrite R. cbn [fst run fold_left]. change (w_tmpls w2) with (w_tmpls w1). rewrite HT. exists (t_reset t h'). repeat split.
  - rewrite T3. f_equal. lra. - unfold t_reset, t_yield, init_params. simpl. rewrite FC. simpl. f_equal. lra.
Qed.
Print Assumptions C23_reset_after_fill_refuted.

(** C39: an evaluation, successful or not, in any state, changes no histogram, template, channel,
    process or constraint. *)
Theorem C39_no_side_effect : forall x w, same_objects w (fst (nll x w)).
Proof. intros x w. destruct (core_nll x w). repeat split; assumption. Qed.
Print Assumptions C39_no_side_effect.

(** evaluations at the points xs, one after the other *)
Fixpoint evaluate (xs : list (list xr)) (w : world) : world :=
  match xs with [] => w | x :: xs' => evaluate xs' (fst (nll x w)) end.
Lemma fresh_core w : core_eq w (fresh w). Proof. constructor; reflexivity. Qed.
Lemma fresh_coh w : coh (fresh w). Proof. constructor; simpl; [intros; contradiction|intros; contradiction|intros _ cid v []]. Qed.

(** Repeated evaluations give the same result (value or exception), whatever is evaluated in between,
    if templates and covariances are not added after the first use. *)
Theorem C39_repeatable_partial : forall inv l x xs, built_then_used l -> let w := reached inv l in
  snd (nll x (evaluate xs w)) = snd (nll x w) /\ same_objects w (evaluate xs w).
Proof.
  intros inv l x xs B w. assert (K : coh w) by now apply built_coh. clearbody w.
  destruct (pure_nll w x w (po_refl _ core_po w) K) as (w1 & E1 & _). rewrite E1. simpl.
  assert (X : core_eq w (evaluate xs w) /\ coh (evaluate xs w)).
  { assert (G : forall xs w', core_eq w w' -> coh w' -> core_eq w (evaluate xs w') /\ coh (evaluate xs w')).
    { clear. induction xs as [|y ys IH]; intros w' C H; simpl; auto. destruct (pure_nll w y w' C H) as (w2 & E2 & C2 & H2). rewrite E2. simpl. auto. }
    apply G; [apply core_po|exact K]. }
  destruct X as (C & H). destruct (pure_nll w x _ C H) as (w2 & E2 & _). rewrite E2. split; [reflexivity|]. destruct C. repeat split; assumption.
Qed.
Print Assumptions C39_repeatable_partial.

(** C38: the likelihood agrees with one evaluated in a fresh process on the same objects, for the same
    histories. *)
Theorem C38_current_templates_partial : forall inv l x, built_then_used l -> let w := reached inv l in
  snd (nll x w) = snd (nll x (fresh w)).
Proof.
  intros inv l x B w. assert (K : coh w) by now apply built_coh.
  destruct (pure_nll w x w (po_refl _ core_po w) K) as (w1 & E1 & _). rewrite E1.
  destruct (pure_nll w x (fresh w) (fresh_core w) (fresh_coh w)) as (w2 & E2 & _). rewrite E2. reflexivity.
Qed.
Print Assumptions C38_current_templates_partial.

(** C38 is false: a template added after an evaluation makes every later evaluation raise ValueError,
    although the likelihood of the same objects is defined. *)
Definition ex_before : list op := [ex_binned 1 3 1 2; ex_binned 2 2 1 2; OTemplate K1 "t0" 0; OTemplate K1 "t1" 1;
   ODefChannel "A" [2%nat] [(0, 2)]; ODefProcess "s"; ODefProcess "b"; OAddTemplate "A" "s" 0 1; OAddData [("A", 0%nat)]]%string.
Ltac lazy_R := lazy -[Reqb Rplus Rmult Ropp Rinv IZR sqrt Rdiv Rltb Rleb ln xadd xmul xdiv xsub xopp xlog xlog1p xsqrt xltb xeqb xlogyx].
Ltac run_stepR := rewrite run_cons;
  match goal with |- context[fst (step ?i ?o ?w)] =>
    let t := eval lazy -[Reqb Rplus Rmult Ropp Rinv IZR sqrt Rdiv Rltb Rleb ln xadd xmul xdiv xsub xopp xlog xlog1p xsqrt xltb xeqb xlogyx] in (fst (step i o w)) in
    change (fst (step i o w)) with t; rewrite ?Reqb_refl; cbv iota beta delta [andb] end.
Theorem C38_template_added_later_refuted : forall inv, exists l x, let w := reached inv l in
  snd (nll x w) = Err ValueError /\ exists v, snd (nll x (fresh w)) = Ok v.
Proof.
  intros inv. exists (ex_before ++ [ONll [Fin 1; Fin 1; Fin 0; Fin 0]; OAddTemplate "A" "b" 1 1]%string), [Fin 1; Fin 1; Fin 0; Fin 0; Fin 0; Fin 0].
  unfold ex_before, ex_binned, reached, world_init. cbn [app]. do 9 run_step. do 2 run_stepR. cbv zeta. split.
  - lazy_R. reflexivity.
  - eexists. lazy_R. reflexivity.
Qed.
Print Assumptions C38_template_added_later_refuted.

(** ... and without any exception the value can be wrong: after an evaluation, add_cov_mat with the
    covariance (1 1; 1 1) does not change the Gaussian term (1 instead of 2/3). *)
Definition ex_stale : list op := [ex_binned 1 1 1 2; ex_binned 0 0 1 2; OTemplate K1 "t" 0; ODefChannel "A" [2%nat] [(0, 2)]; ODefProcess "s"; OAddTemplate "A" "s" 0 1;
    OAddData [("A", 1%nat)]; ONll [Fin 2; Fin 1; Fin 1]]%string.
Definition ex_world (t : tmpl) (h0 h1 : hist) : world :=
  (mk_world [h0; h1] [t] [mk_chan "A" [("s", 0%nat)] [("s", 1)] ["s"] [2%nat] [(0, 2)] (Some 1%nat) (Some 1%nat) (Some K1)]
       [("A", 0%nat)] ["s"] [] [] [] [((0%nat, ["s"]), [0%nat])] [(0%nat, [Fin 1])] [(0%nat, [[Fin 1; Fin 0]; [Fin 0; Fin 1]])])%string.
Lemma stale_state : forall inv, exists t h0 h1, reached inv ex_stale = ex_world t h0 h1 /\
     template_new K1 "t" 0 h0 = Ok t /\ contents_of h0 2 (fun _ => 1) (fun _ => 1 * 1) /\ nd_flat (h_counts h1) = [Fin 0; Fin 0].
Proof.
  intros inv. unfold ex_stale, ex_binned, reached, world_init. do 7 run_step. run_stepR. eexists. eexists. eexists. split; [reflexivity|]. split; [reflexivity|]. split; [|reflexivity].
  repeat split. intros; lra.
Qed.
Lemma stale_value : forall t h0 h1 s a b c d, t_counts t = [Fin 1; Fin 1] -> t_rel t = [Fin s; Fin s] -> t_inv t = [[Fin a; Fin b]; [Fin c; Fin d]] ->
  nd_flat (h_counts h1) = [Fin 0; Fin 0] -> 0 < s ->
  snd (nll [Fin 2; Fin 1; Fin 1] (ex_world t h0 h1)) = Ok (Fin (2 + 1)) /\
  snd (nll [Fin 2; Fin 1; Fin 1] (fresh (ex_world t h0 h1))) = Ok (Fin (2 + (a + b + c + d) / 2)).
Proof.
  intros t h0 h1 s a b c d TC TR TI H1 SP.
  destruct t as [k' n' hh cc ee bb nb rg pp cm cv cr iv rl]. simpl in TC, TR, TI. subst cc rl iv.
  destruct h1 as [hk hes hnb hsh hrg hct her hem]. destruct hct as [sh fl]. simpl in H1. subst fl.
  assert (XL : forall y, xlogyx (Fin 0) y = Fin 0).
  { intros y. apply Proof_Utility.xlogyx_small. left. simpl. pose proof Proof_Utility.c1e_100_pos. destruct (Rltb_spec 0 c1e_100); [reflexivity|lra]. }
  assert (FR : xdiv (Fin (1 * (1 + 1 * s))) (Fin (1 * (1 + 1 * s) + (1 * (1 + 1 * s) + 0))) = Fin (/ 2)).
  { unfold xdiv. destruct (Reqb_spec (1 * (1 + 1 * s) + (1 * (1 + 1 * s) + 0)) 0); [lra|]. f_equal. field. lra. }
  split.
  - lazy_R. rewrite !XL. cbn [xadd xmul xsub xopp]. rewrite FR. cbn [xadd xmul xsub xopp]. do 2 f_equal. lra.
  - lazy_R. rewrite !XL. cbn [xadd xmul xsub xopp]. rewrite FR. cbn [xadd xmul xsub xopp]. do 2 f_equal. lra.
Qed.
Lemma on_tmpl_run {A} (f : tmpl -> tmpl * res A) w i t t' r : nth_error (w_tmpls w) i = Some t -> f t = (t', r) ->
  on_tmpl i f w = (set_tmpls w (upd i t' (w_tmpls w)), r).
Proof. intros T F. unfold on_tmpl. rewrite T, F. reflexivity. Qed.
Lemma stale_two : forall t' h0 h1, error_state t' 2 (fun _ => 1) (fun _ => 1 * 1) ([] ++ [fun _ _ => 1]) -> nd_flat (h_counts h1) = [Fin 0; Fin 0] ->
  snd (nll [Fin 2; Fin 1; Fin 1] (ex_world t' h0 h1)) = Ok (Fin (2 + 1)) /\
  snd (nll [Fin 2; Fin 1; Fin 1] (fresh (ex_world t' h0 h1))) = Ok (Fin (2 + 2 / 3)).
Proof.
  intros t' h0 h1 ES' H1.
  destruct ES' as (_ & TC & _ & _ & _ & _ & _ & _ & (P & TI & IP) & TR).
  set (cov := msum (stat_cov_of (fun _ => 1 * 1) :: [] ++ [fun _ _ => 1])) in *.
  assert (D0 : cov 0%nat 0%nat = 2 /\ cov 1%nat 1%nat = 2 /\ cov 0%nat 1%nat = 1 /\ cov 1%nat 0%nat = 1).
  { unfold cov, msum, stat_cov_of. simpl. destruct (Req_EM_T (1 * 1) 0); [lra|]. repeat split; lra. }
  destruct D0 as (D0 & D1 & D2 & D3). clearbody cov.
  assert (S2 : sqrt 2 * sqrt 2 = 2) by (apply sqrt_sqrt; lra).
  assert (CR : correlation cov 0%nat 0%nat = 1 /\ correlation cov 1%nat 1%nat = 1 /\ correlation cov 0%nat 1%nat = / 2 /\ correlation cov 1%nat 0%nat = / 2).
  { unfold correlation. rewrite D0, D1, D2, D3, S2. repeat split; lra. }
  destruct CR as (C0 & C1 & C2 & C3).
  assert (PS : P 0%nat 0%nat = 4 / 3 /\ P 1%nat 0%nat = - (2 / 3) /\ P 0%nat 1%nat = - (2 / 3) /\ P 1%nat 1%nat = 4 / 3).
  { destruct (IP 0%nat 0%nat) as (A1 & _); [lia|lia|]. destruct (IP 0%nat 1%nat) as (A2 & _); [lia|lia|]. destruct (IP 1%nat 0%nat) as (A3 & _); [lia|lia|]. destruct (IP 1%nat 1%nat) as (A4 & _); [lia|lia|].
    unfold delta in *. cbn [sumn Nat.eqb] in *. rewrite C0, C1, C2, C3 in *. lra. }
  destruct PS as (P0 & P1 & P2 & P3).
  assert (RE : rel_error cov (fun _ => 1) 0%nat = sqrt 2 /\ rel_error cov (fun _ => 1) 1%nat = sqrt 2).
  { unfold rel_error. destruct (Req_EM_T 1 0); [lra|]. rewrite D0, D1. split; lra. }
  destruct RE as (R0 & R1).
  unfold vec_of, mat_of in TC, TR, TI. cbn [seq map] in TC, TR, TI. unfold vec_of in TI. cbn [seq map] in TI. rewrite R0, R1 in TR. rewrite P0, P1, P2, P3 in TI.
  destruct (stale_value t' h0 h1 _ _ _ _ _ TC TR TI H1) as (A & B); [apply sqrt_lt_R0; lra|].
  split; [exact A|]. rewrite B. do 2 f_equal. lra.
Qed.
Lemma psd_ones : psd 2 (fun _ _ => 1).
Proof.
  intros v. unfold quad. cbn [sumn]. pose proof (pow2_ge_0 (v 0%nat + v 1%nat)). nra.
Qed.
Lemma add_cov_run : forall inv l t t' h0 h1 m, t_add_cov_mat inv t m = (t', Ok tt) ->
  reached inv l = ex_world t h0 h1 -> reached inv (l ++ [OAddCov 0 m]) = ex_world t' h0 h1.
Proof.
  intros inv l t t' h0 h1 m EA E1. unfold reached in *. rewrite run_app, E1. unfold run. cbn [fold_left]. unfold step.
  rewrite (on_tmpl_run _ (ex_world t h0 h1) 0 t t' (Ok tt) eq_refl EA). reflexivity.
Qed.
Theorem C38_covariance_added_later_refuted : forall inv, inv_spec inv -> exists l x r, let w := reached inv l in
  snd (nll x w) = Ok (Fin (r + 1)) /\ snd (nll x (fresh w)) = Ok (Fin (r + 2 / 3)).
Proof.
  intros inv I. exists (ex_stale ++ [OAddCov 0 (mat_of 2 (fun _ _ => 1))]), [Fin 2; Fin 1; Fin 1], 2.
  destruct (stale_state inv) as (t & h0 & h1 & E1 & TN & CO & H1).
  destruct (template_new_state _ _ _ _ _ _ _ _ TN CO) as (ES & TK & _).
  destruct (add_cov_mat_state inv I t 2 (fun _ => 1) (fun _ => 1 * 1) [] (fun _ _ => 1) TK ES) as (t' & EA & ES' & _).
  { intros i j _ _. reflexivity. }
  { apply psd_ones. }
  rewrite (add_cov_run inv ex_stale t t' h0 h1 _ EA E1). apply stale_two; assumption.
Qed.
Print Assumptions C38_covariance_added_later_refuted.

(** C61 for a single channel whose templates were added in the order of the processes, one for each. *)
Theorem C61_bin_counts_partial : forall inv l x n cid c v, inv_spec inv -> templates_then_used l -> let w := reached inv l in
  w_channels w = [(n, cid)] -> nth_error (w_chans w) cid = Some c -> map fst (c_tmpls c) = w_procs w ->
  describes w x 0 v -> (0 < v_nb v)%nat -> (0 < v_nt v)%nat -> (forall k, (k < v_nt v)%nat -> v_total v k <> 0) ->
  exists w', bin_counts_from_param_values cid (vec_of (num_params w) x) w = (w', Ok (vec_of (v_nb v) (expected v))).
Proof.
  intros inv l x n cid c v I B w CH CC PO (n0 & c0 & CA & NB & NT & T) B0 T0 TN.
  assert (W : WF w) by now apply reached_wf. assert (K : cohG false w) by now apply templates_coh.
  assert (c0 = c). { destruct CA as (cid0 & E1 & E2). rewrite CH in E1. injection E1 as _ <-. congruence. } subst c0.
  set (v' := mk_cview (v_nb v) (v_nt v) (v_yield v) (v_eff v) (v_cnt v) (v_cov v) (v_th v) (v_prec v) (fun _ => 0)).
  assert (D : in_domain v') by (repeat split; auto).
  pose proof (expected_real w x 0 n0 c v' W CA NB NT T D) as ER. change (vec_of (v_nb v') (expected v')) with (vec_of (v_nb v) (expected v)) in ER.
  assert (NPROC : length (w_procs w) = v_nt v) by (rewrite <- PO, map_length; auto).
  assert (NUM : num_params w = (v_nt v + v_nt v * v_nb v)%nat).
  { unfold num_params. rewrite NPROC. f_equal. unfold nui_offset. rewrite CH. simpl. rewrite CC. rewrite NB, NT. unfold list_sum. simpl. lia. }
  assert (YS : firstn (num_templates c) (vec_of (num_params w) x) = vec_of (v_nt v) (v_yield v)).
  { rewrite (num_templates_v w 0 n0 c v W CA NT), NUM. apply vec_eq; [rewrite firstn_length, vec_of_length; lia|].
    intros k Hk. rewrite nth_firstn by auto. rewrite vec_nth by lia. do 2 f_equal.
    destruct (tmpl_k w 0 n0 c v W CA NB NT k Hk) as (p & tid & t & E & TA). destruct (T k p tid t TA) as ((q & Q & ->) & _). unfold yield_pos. f_equal.
    assert (Q' : nth_error (w_procs w) k = Some p) by (rewrite <- PO; apply (map_nth_error fst _ _ E)).
    apply (proj1 (NoDup_nth_error _) (wf_procs w W)); [apply nth_error_Some; congruence|congruence]. }
  assert (NS : skipn (num_templates c) (vec_of (num_params w) x) = vec_of (v_nt v * v_nb v) (nui_fun w x 0)).
  { rewrite (num_templates_v w 0 n0 c v W CA NT), NUM. apply vec_eq; [rewrite skipn_length, vec_of_length; lia|].
    intros k Hk. rewrite nth_skipn. rewrite vec_nth by lia. do 2 f_equal. unfold nui_fun. rewrite NPROC. reflexivity. }
  destruct (pure_expected w cid (firstn (num_templates c) (vec_of (num_params w) x)) (skipn (num_templates c) (vec_of (num_params w) x)) w (po_refl _ core_po w) K) as (w' & E & _).
  exists w'. unfold bin_counts_from_param_values, bind, get_chan. rewrite CC. unfold split_parameter_array; cbn [fst snd]. rewrite E. unfold oget. rewrite CC. cbn [rbind].
  rewrite YS, NS. rewrite <- ER. reflexivity.
Qed.
Print Assumptions C61_bin_counts_partial.

(** C61 is false: processes "s", "b"; the template of "b" was added first.  At yields s = 1, b = 2 the
    first bin is expected to contain 1 event; the method returns 5/4. *)
Definition ex_order : list op := [ex_binned 1 3 1 2; ex_binned 2 2 1 2; OTemplate K1 "t0" 0; OTemplate K1 "t1" 1;
   ODefChannel "A" [2%nat] [(0, 2)]; ODefProcess "s"; ODefProcess "b"; OAddTemplate "A" "b" 0 1; OAddTemplate "A" "s" 1 1]%string.
Definition ex_order_x (j : nat) : R := match j with O => 1 | 1%nat => 2 | _ => 0 end.
Lemma ex_order_value : forall inv, 
  snd (bin_counts_from_param_values 0 (vec_of 6 ex_order_x) (reached inv ex_order)) = Ok [Fin (5 / 4); Fin (7 / 4)].
Proof.
  intros inv. unfold ex_order, ex_binned, reached, world_init. do 9 run_step.
  unfold vec_of. cbn [seq map ex_order_x].
  assert (Z : Reqb 1 0 = false /\ Reqb 3 0 = false /\ Reqb 2 0 = false /\ Reqb (1 * 1) 0 = false).
  { repeat split; destruct (Reqb_spec 1 0), (Reqb_spec 3 0), (Reqb_spec 2 0), (Reqb_spec (1 * 1) 0); try lra; reflexivity. }
  destruct Z as (Z1 & Z3 & Z2 & Z11).
  assert (XS : xsqrt (Fin (1 * 1)) = Fin 1).
  { simpl. destruct (Rltb_spec (1 * 1) 0); [lra|]. f_equal. rewrite Rmult_1_l. apply sqrt_1. }
  lazy_R. cbn [xeqb]. rewrite ?Z1, ?Z2, ?Z3, ?Z11, ?XS.
  repeat (cbn [xadd xmul]; rewrite Proof_Matrix.xdiv_fin by lra). cbn [xadd xmul]. do 2 f_equal; f_equal; [lra|]. f_equal. lra.
Qed.
Theorem C61_order_refuted : forall inv, inv_spec inv -> exists l x, let w := reached inv l in
  map fst (w_channels w) = ["A"]%string /\ w_procs w = ["s"; "b"]%string /\ num_params w = 6%nat /\ built_then_used l /\
  (exists v, describes w x 0 v) /\
  (forall v, describes w x 0 v -> vec_of (v_nb v) (expected v) = [Fin 1; Fin 2]) /\
  snd (bin_counts_from_param_values 0 (vec_of (num_params w) x) w) = Ok [Fin (5 / 4); Fin (7 / 4)].
Proof.
  intros inv I. exists ex_order, ex_order_x. cbv zeta.
  assert (NP : num_params (reached inv ex_order) = 6%nat). { unfold ex_order, ex_binned, reached, world_init. do 9 run_step. reflexivity. }
  assert (ST : exists h0 h1 t0 t1, w_hists (reached inv ex_order) = [h0; h1] /\ w_tmpls (reached inv ex_order) = [t0; t1] /\
     w_chans (reached inv ex_order) = [mk_chan "A" [("b", 0%nat); ("s", 1%nat)] [("b", 1); ("s", 1)] ["b"; "s"] [2%nat] [(0, 2)] None (Some 1%nat) (Some K1)]%string /\
     w_channels (reached inv ex_order) = [("A", 0%nat)]%string /\ w_procs (reached inv ex_order) = ["s"; "b"]%string /\
     template_new K1 "t0" 0 h0 = Ok t0 /\ template_new K1 "t1" 1 h1 = Ok t1 /\
     contents_of h0 2 (fun i => match i with O => 1 | _ => 3 end) (fun _ => 1 * 1) /\ contents_of h1 2 (fun _ => 2) (fun _ => 1 * 1)).
  { unfold ex_order, ex_binned, reached, world_init. do 9 run_step. do 4 eexists. do 7 (split; [reflexivity|]).
    split; (split; [reflexivity|]); (split; [reflexivity|]); (split; [reflexivity|]); (split; [reflexivity|]); intros; lra. }
  destruct ST as (h0 & h1 & t0 & t1 & HH & HT & HC & HD & HP & N0 & N1 & O0 & O1).
  destruct (template_new_state _ _ _ _ _ _ _ _ N0 O0) as (ES0 & _). destruct (template_new_state _ _ _ _ _ _ _ _ N1 O1) as (ES1 & _).
  split; [rewrite HD; reflexivity|]. split; [exact HP|]. split; [exact NP|].
  split. { exists ex_order, []. rewrite app_nil_r. split; [reflexivity|]. split; [unfold ex_order, ex_binned; repeat constructor|constructor]. }
  pose proof ES0 as (_ & TC0 & _ & _ & _ & _ & _ & _ & (PP0 & _ & IP0) & _). pose proof ES1 as (_ & TC1 & _ & _ & _ & _ & _ & _ & (PP1 & _ & IP1) & _).
  assert (VAL := ex_order_value inv).
  set (w := reached inv ex_order) in *. clearbody w.
  split; [|split].
  - exists (mk_cview 2 2 (fun k => match k with O => 2 | _ => 1 end) (fun _ => 1)
       (fun k => match k with O => (fun i => match i with O => 1 | _ => 3 end) | _ => (fun _ => 2) end)
       (fun _ => msum [stat_cov_of (fun _ => 1 * 1)]) (fun _ _ => 0) (fun k => match k with O => PP0 | _ => PP1 end) (fun _ => 0)).
    do 2 eexists. split; [exists 0%nat; rewrite HD, HC; split; reflexivity|]. split; [reflexivity|]. split; [reflexivity|].
    intros k p tid t (K1 & K2). rewrite HT in K2. rewrite HP. destruct k as [|[|k]]; simpl in K1; [| |destruct k; discriminate]; injection K1 as <- <-; simpl in K2; injection K2 as <-; simpl.
    + split; [exists 1%nat; split; reflexivity|]. split; [reflexivity|]. split; [exists (fun _ => 1 * 1), []; split; [exact ES0|reflexivity]|]. split; [exact IP0|].
      intros b Hb. unfold nui_pos. rewrite HP. reflexivity.
    + split; [exists 0%nat; split; reflexivity|]. split; [reflexivity|]. split; [exists (fun _ => 1 * 1), []; split; [exact ES1|reflexivity]|]. split; [exact IP1|].
      intros b Hb. unfold nui_pos. rewrite HP. reflexivity.
  - intros v (n & c & (cid & C1 & C2) & NB & NT & T). rewrite HD in C1. simpl in C1. injection C1 as <- <-. rewrite HC in C2. simpl in C2. injection C2 as <-.
    change (v_nb v = 2%nat) in NB. change (v_nt v = 2%nat) in NT.
    destruct (T 0%nat "b"%string 0%nat t0) as ((q0 & Q0 & Y0) & F0 & (e0 & cv0 & (_ & X0 & _) & _) & _ & H0); [split; [reflexivity|rewrite HT; reflexivity]|].
    destruct (T 1%nat "s"%string 1%nat t1) as ((q1 & Q1 & Y1) & F1 & (e1 & cv1 & (_ & X1 & _) & _) & _ & H1); [split; [reflexivity|rewrite HT; reflexivity]|].
    rewrite HP in Q0, Q1. 
    assert (q0 = 1%nat) by (destruct q0 as [|[|[|q0]]]; simpl in Q0; try discriminate; auto). assert (q1 = 0%nat) by (destruct q1 as [|[|[|q1]]]; simpl in Q1; try discriminate; auto). subst.
    simpl in F0, F1. injection F0 as F0. injection F1 as F1. unfold yield_pos in *. simpl in Y0, Y1.
    rewrite TC0, NB in X0. rewrite TC1, NB in X1. unfold vec_of in X0, X1. simpl in X0, X1. injection X0 as A0 A1. injection X1 as A2 A3.
    assert (TH : forall k b, (k < 2)%nat -> (b < 2)%nat -> v_varied v k b = v_cnt v k b).
    { intros k b Hk Hb. unfold v_varied. replace (v_th v k b) with 0; [ring|]. destruct k as [|[|k]]; [| |lia]; [rewrite H0 by lia|rewrite H1 by lia]; unfold nui_pos; rewrite HP; reflexivity. }
    rewrite NB. unfold vec_of. cbn [seq map]. unfold expected, v_total. rewrite NT, NB. cbn [sumn]. rewrite !TH by lia. rewrite Y0, Y1, <- F0, <- F1, <- A0, <- A1, <- A2, <- A3.
    do 2 f_equal; [lra|]. f_equal. lra.
  - rewrite NP. exact VAL.
Qed.
Print Assumptions C61_order_refuted.
