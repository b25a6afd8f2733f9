(** Property theorems C39, C88, C89: what evaluations keep in memory, for arbitrary histories. *)
From Coq Require Import Reals String ZArith Bool Arith List Lra Lia.
From Verif Require Import Model_Num Model_Hist Model_Utility Model_Template Model_World Model_Ops
  Spec_Matrix Spec_Template Spec_World Spec_Nll Spec_Stale Proof_Hist Proof_Matrix Proof_Template Proof_HistHeap Proof_Monad Proof_World Proof_Eval
  Proof_Route Proof_Names Proof_Update Proof_Nll Proof_Valid Proof_Freeze Proof_Freeze2 Proof_Freeze3 Prop_World Prop_Params Prop_Stale.
Import ListNotations.
Local Open Scope R_scope.

(** C39 for all histories, also those that add templates or covariances after evaluations, if at most
    128 channel objects (the capacity of functools.lru_cache) have been made. *)
Theorem C39_repeatable_128_partial : forall inv l x xs, let w := reached inv l in
  (length (w_chans w) <= 128)%nat ->
  snd (nll x (evaluate xs w)) = snd (nll x w) /\ same_objects w (evaluate xs w).
Proof.
  intros inv l x xs w S. assert (I : CI w) by now apply CI_reached. change (small w) in S. clearbody w.
  destruct (pn_nll w S x w (po_refl _ core_po w) I (NOW_refl w)) as (w1 & E1 & _). rewrite E1.
  assert (G : forall xs w', core_eq w w' -> CI w' -> NOW w w' -> core_eq w (evaluate xs w') /\ CI (evaluate xs w') /\ NOW w (evaluate xs w')).
  { clear x xs w1 E1. induction xs as [|y ys IH]; intros w' C H N; simpl; auto. destruct (pn_nll w S y w' C H N) as (w2 & E2 & C2 & H2 & N2 & _). rewrite E2. simpl. auto. }
  destruct (G xs w (po_refl _ core_po w) I (NOW_refl w)) as (C & H & N). destruct (pn_nll w S x _ C H N) as (w2 & E2 & _). rewrite E2.
  split; [reflexivity|]. destruct C. repeat split; assumption.
Qed.
Print Assumptions C39_repeatable_128_partial.

(** the state after an evaluation *)
Lemma reached_nll inv l1 x l2 : reached inv (l1 ++ ONll x :: l2) = run inv l2 (fst (nll x (reached inv l1))).
Proof.
  unfold reached. rewrite run_app, run_cons. f_equal. simpl. unfold bind. destruct (nll x (run inv l1 world_init)) as [w [r|e]]; reflexivity.
Qed.
Lemma small_run inv l w : small (run inv l w) -> small w.
Proof. unfold small. pose proof (cm_length _ _ (run_CM inv l w)). lia. Qed.

(** C88: an evaluation of the likelihood succeeded; then any calls l2; a channel of the first evaluation
    still exists and has got a further template.  Then every evaluation raises an exception: it never
    returns a number. *)
Theorem C88_template_added_later : forall inv l1 x1 l2 x2 i1 i2 n cid c1 c2, inv_spec inv ->
  let w1 := reached inv l1 in let w2 := reached inv (l1 ++ ONll x1 :: l2) in
  (exists r, snd (nll x1 w1) = Ok r) -> length x1 = num_params w1 ->
  (length (w_chans w2) <= 128)%nat ->
  nth_error (w_channels w1) i1 = Some (n, cid) -> nth_error (w_chans w1) cid = Some c1 ->
  nth_error (w_channels w2) i2 = Some (n, cid) -> nth_error (w_chans w2) cid = Some c2 ->
  (0 < bins_of c1)%nat -> length (c_tmpls c2) <> length (c_tmpls c1) ->
  length x2 = num_params w2 -> exists e, snd (nll x2 w2) = Err e.
Proof.
  intros inv l1 x1 l2 x2 i1 i2 n cid c1 c2 I w1 w2 (r & R) L1 S CH1 CC1 CH2 CC2 B NT L2. change (small w2) in S.
  assert (E2 : w2 = run inv l2 (fst (nll x1 w1))) by apply reached_nll. destruct (nll x1 w1) as [w1' r'] eqn:E. simpl in R, E2. subst r'.
  assert (S1' : small w1') by (rewrite E2 in S; now apply small_run in S).
  assert (C1 : core_eq w1 w1') by (pose proof (core_nll x1 w1) as C; rewrite E in C; exact C).
  assert (S1 : small w1) by (eapply small_core; eauto). assert (I1 : CI w1) by now apply CI_reached.
  assert (W1 : WF w1) by now apply reached_wf. assert (W2 : WF w2) by now apply reached_wf.
  destruct (cached_matrix w1 x1 w1' r i1 n cid c1 W1 S1 I1 L1 E CH1 CC1) as (m & D & LM).
  destruct (pn_nll w1 S1 x1 w1 (po_refl _ core_po w1) I1 (NOW_refl w1)) as (w1'' & E'' & _ & I1' & _). rewrite E in E''. injection E'' as <- _.
  destruct (FZ_run inv l2 w1') as (I2 & K2); [rewrite <- E2; exact S|exact I1'|]. rewrite <- E2 in I2, K2.
  assert (BB : bins_of c2 = bins_of c1).
  { rewrite <- (ce_chans _ _ C1) in CC1. destruct (run_CM inv l2 w1' cid c1 CC1) as (c' & l & C' & BC & _). rewrite <- E2 in C'. congruence. }
  destruct (wrong_matrix w2 x2 i2 n cid c2 m W2 L2 CH2 CC2) as (e & EE); [now apply K2|rewrite LM, BB; nia|].
  exists e. destruct (pn_nll w2 S x2 w2 (po_refl _ core_po w2) I2 (NOW_refl w2)) as (w3 & E3 & _). rewrite E3. exact EE.
Qed.
Print Assumptions C88_template_added_later.

(** C89: what the likelihood is after covariances have been added late.  The first evaluation succeeded
    in state w1 (built before it); after it no template was added.  Then the likelihood is the documented
    one with the current data, yields, efficiencies, counts and bin errors, but with the precision
    matrices the templates had at the first evaluation. *)
Theorem C89_frozen_precision : forall inv l1 x1 l2 x vs ts, inv_spec inv -> built_then_used l1 ->
  Forall (fun o => adds_template o = false) l2 ->
  let w1 := reached inv l1 in let w2 := reached inv (l1 ++ ONll x1 :: l2) in
  (exists r, snd (nll x1 w1) = Ok r) -> length x1 = num_params w1 ->
  (length (w_chans w2) <= 128)%nat ->
  w_channels w2 <> [] -> length vs = length (w_channels w2) ->
  (forall i v, nth_error vs i = Some v -> reads_since w1 w2 x i v /\ in_domain v) ->
  Forall2 (constraint_of w2 x) (w_cnames w2) ts ->
  snd (nll (vec_of (num_params w2) x) w2) = Ok (Fin (Rsum (map channel_nll vs) + Rsum ts)).
Proof.
  intros inv l1 x1 l2 x vs ts I B NA w1 w2 (r & R) L1 S NE LV RD CT. change (small w2) in S.
  assert (E2 : w2 = run inv l2 (fst (nll x1 w1))) by apply reached_nll. destruct (nll x1 w1) as [w1' r'] eqn:E. simpl in R, E2. subst r'.
  assert (S1' : small w1') by (rewrite E2 in S; now apply small_run in S).
  assert (KW1 : coh w1) by now apply built_coh.
  assert (C1 : core_eq w1 w1' /\ coh w1').
  { destruct (pure_nll w1 x1 w1 (po_refl _ core_po w1) KW1) as (w3 & E3 & C3 & K3). rewrite E in E3. injection E3 as <- _. auto. }
  destruct C1 as (C1 & K1').
  assert (S1 : small w1) by (eapply small_core; eauto). assert (I1 : CI w1) by now apply CI_reached.
  assert (W1 : WF w1) by now apply reached_wf. assert (W2 : WF w2) by now apply reached_wf.
  destruct (pn_nll w1 S1 x1 w1 (po_refl _ core_po w1) I1 (NOW_refl w1)) as (w1'' & E'' & _ & I1' & _). rewrite E in E''. injection E'' as <- _.
  destruct (FZ_run inv l2 w1') as (I2 & KP); [rewrite <- E2; exact S|exact I1'|]. rewrite <- E2 in I2, KP.
  assert (SHR : SH w1' w2) by (rewrite E2; apply sh_run; exact NA).
  assert (K2 : cohG false w2).
  { apply templates_coh. destruct B as (a & b & -> & U & A). exists a, (b ++ ONll x1 :: l2). split; [now rewrite <- app_assoc|]. split; auto.
    apply Forall_app. split; [eapply Forall_impl; [|exact A]; intros o; destruct o; simpl; auto|]. constructor; auto. }
  destruct (pn_nll w2 S (vec_of (num_params w2) x) w2 (po_refl _ core_po w2) I2 (NOW_refl w2)) as (w3 & E3 & _). rewrite E3. cbn [snd].
  rewrite (nll_now_since (w_tmpls w1) w2 _ K2).
  - apply nll_gen; auto. intros i v V. destruct (RD i v V) as (RV & DV). pose proof RV as (n & c & CA & NB & NT & T & _). exists n, c. repeat (split; [assumption|]).
    split; [intros k p tid t TA; apply (T k p tid t TA)|]. eapply contribution_since_real; eauto.
  - intros n cid c CH CC. apply In_nth_error in CH as CHI. destruct CHI as (i & CHI).
    destruct (nth_error vs i) as [v|] eqn:V. 2:{ apply nth_error_None in V. assert (i < length (w_channels w2))%nat by (apply nth_error_Some; congruence). lia. }
    destruct (RD i v V) as ((n' & c' & (cid' & A1 & A2) & NB & NT & _) & (_ & T0 & _)). assert (cid' = cid) by congruence. subst cid'. assert (c' = c) by congruence. subst c'.
    destruct (sh_chans _ _ SHR cid c CC) as [(c0 & CC0 & TT)|(_ & Z)]; [|rewrite Z in NT; simpl in NT; lia].
    assert (LT : (cid < length (w_chans w1'))%nat) by (apply nth_error_Some; congruence).
    destruct (sh_dict _ _ SHR n cid CH) as [CH0|GE]; [|lia]. rewrite (ce_channels _ _ C1) in CH0. apply In_nth_error in CH0 as (i1 & CH1).
    assert (CC1 : nth_error (w_chans w1) cid = Some c0) by (rewrite <- (ce_chans _ _ C1); exact CC0).
    destruct (cached_matrix w1 x1 w1' r i1 n cid c0 W1 S1 I1 L1 E CH1 CC1) as (m & D & _).
    pose proof (proj1 KP cid m D) as D2. apply (dget_in Nat.eqb Nat.eqb_eq) in D. destruct (coh_inv true w1' K1' eq_refl cid m D) as (c3 & CC3 & IV).
    assert (c3 = c0) by congruence. subst c3. rewrite (ce_tmpls _ _ C1) in IV. unfold inv_res in *. rewrite TT, IV.
    unfold inv_now, oget at 1. rewrite CC. cbn [rbind].
    assert (M : exists us, mapr (fun p => oget (w_tmpls w2) (snd p)) (c_tmpls c) = Ok us).
    { eexists. apply (mapr_nth _ _ (fun k => match nth_error (w_tmpls w2) (snd (nth k (c_tmpls c) (EmptyString, O))) with Some t => t | None => mk_tmpl K1 "" 0 [] [] [] 0 [] [] [] [] [] [] [] end)).
      intros k [p tid] K. destruct (template_at_ok w2 i n c k p tid W2 (ex_intro _ cid (conj CHI CC)) K) as (t & (_ & TA) & _). simpl. rewrite (nth_error_nth _ _ _ K). simpl. unfold oget. rewrite TA. reflexivity. }
    destruct M as (us & ->). cbn [rbind]. unfold hit. now rewrite D2.
Qed.
Print Assumptions C89_frozen_precision.

(** C88 applies: one channel with the template of process "s", evaluated; then a template of "b" is added. *)
Example C88_example : forall inv, exists (l1 : list op) (x1 : list xr) (l2 : list op) (x2 : list xr) i1 i2 n cid c1 c2,
  let w1 := reached inv l1 in let w2 := reached inv (l1 ++ ONll x1 :: l2) in
  (exists r, snd (nll x1 w1) = Ok r) /\ length x1 = num_params w1 /\ (length (w_chans w2) <= 128)%nat /\
  nth_error (w_channels w1) i1 = Some (n, cid) /\ nth_error (w_chans w1) cid = Some c1 /\
  nth_error (w_channels w2) i2 = Some (n, cid) /\ nth_error (w_chans w2) cid = Some c2 /\
  (0 < bins_of c1)%nat /\ length (c_tmpls c2) <> length (c_tmpls c1) /\ length x2 = num_params w2.
Proof.
  intros inv. exists ex_before, [Fin 1; Fin 1; Fin 0; Fin 0], [OAddTemplate "A" "b" 1 1]%string, [Fin 1; Fin 1; Fin 0; Fin 0; Fin 0; Fin 0], 0%nat, 0%nat, "A"%string, 0%nat.
  assert (A : exists c1, let w1 := reached inv ex_before in (exists r, snd (nll [Fin 1; Fin 1; Fin 0; Fin 0] w1) = Ok r) /\ num_params w1 = 4%nat /\
     w_channels w1 = [("A", 0%nat)]%string /\ w_chans w1 = [c1] /\ bins_of c1 = 2%nat /\ length (c_tmpls c1) = 1%nat).
  { unfold ex_before, ex_binned, reached, world_init. do 9 run_step. eexists. cbv zeta. split; [eexists; lazy_R; reflexivity|]. split; [reflexivity|]. split; [reflexivity|]. split; [reflexivity|]. split; reflexivity. }
  assert (B : exists c2, let w2 := reached inv (ex_before ++ [ONll [Fin 1; Fin 1; Fin 0; Fin 0]; OAddTemplate "A" "b" 1 1]%string) in num_params w2 = 6%nat /\
     w_channels w2 = [("A", 0%nat)]%string /\ w_chans w2 = [c2] /\ length (c_tmpls c2) = 2%nat).
  { unfold ex_before, ex_binned, reached, world_init. cbn [app]. do 9 run_step. do 2 run_stepR. eexists. cbv zeta. split; [reflexivity|]. split; [reflexivity|]. split; reflexivity. }
  destruct A as (c1 & A1 & A2 & A3 & A4 & A5 & A6). destruct B as (c2 & B1 & B2 & B3 & B4). exists c1, c2. cbv zeta in *.
  rewrite A2, A3, A4, B1, B2, B3. split; [exact A1|]. split; [reflexivity|]. split; [cbn; lia|]. do 4 (split; [reflexivity|]). rewrite A5, A6, B4. split; [lia|]. split; [lia|]. reflexivity.
Qed.
(** C89 applies to the history of C38_covariance_added_later_refuted and gives 2 + 1. *)
Example C89_example : forall inv, inv_spec inv -> exists (l1 : list op) (x1 : list xr) (l2 : list op) (x : nat -> R) (vs : list cview),
  let w1 := reached inv l1 in let w2 := reached inv (l1 ++ ONll x1 :: l2) in
  built_then_used l1 /\ Forall (fun o => adds_template o = false) l2 /\ (exists r, snd (nll x1 w1) = Ok r) /\ length x1 = num_params w1 /\
  (length (w_chans w2) <= 128)%nat /\ w_channels w2 <> [] /\ length vs = length (w_channels w2) /\
  (forall i v, nth_error vs i = Some v -> reads_since w1 w2 x i v /\ in_domain v) /\ w_cnames w2 = [] /\
  Rsum (map channel_nll vs) = 3 /\ snd (nll (vec_of (num_params w2) x) w2) = Ok (Fin 3).
Proof.
  intros inv I.
  set (l1 := removelast ex_stale). set (x1 := [Fin 2; Fin 1; Fin 1]). set (l2 := [OAddCov 0 (mat_of 2 (fun _ _ => 1))]).
  assert (EL : l1 ++ ONll x1 :: l2 = ex_stale ++ l2) by reflexivity.
  exists l1, x1, l2, (fun j => match j with O => 2 | _ => 1 end).
  destruct (stale_state inv) as (t & h0 & h1 & E1 & TN & CO & H1).
  destruct (template_new_state _ _ _ _ _ _ _ _ TN CO) as (ES & TK & _).
  destruct (add_cov_mat_state inv I t 2 (fun _ => 1) (fun _ => 1 * 1) [] (fun _ _ => 1) TK ES) as (t' & EA & ES' & _).
  { intros i j _ _. reflexivity. }
  { apply psd_ones. }
  assert (E2 : reached inv (l1 ++ ONll x1 :: l2) = ex_world t' h0 h1) by (rewrite EL; apply (add_cov_run inv ex_stale t t' h0 h1 _ EA E1)).
  assert (CE : core_eq (reached inv l1) (ex_world t h0 h1)).
  { rewrite <- E1. change ex_stale with (l1 ++ [ONll x1]). rewrite reached_nll. simpl. apply core_nll. }
  assert (OK1 : exists r, snd (nll x1 (reached inv l1)) = Ok r).
  { unfold l1, ex_stale, ex_binned, reached, world_init. cbn [removelast]. do 7 run_step. eexists. unfold x1. lazy_R. reflexivity. }
  assert (NP : num_params (reached inv l1) = 3%nat).
  { unfold num_params, nui_offset. rewrite <- (ce_procs _ _ CE), <- (ce_channels _ _ CE), <- (ce_chans _ _ CE). reflexivity. }
  destruct (stale_two t' h0 h1 ES' H1) as (V & _).
  pose proof ES as (_ & _ & _ & _ & _ & _ & _ & _ & (P & _ & IP) & _).
  exists [mk_cview 2 1 (fun _ => 2) (fun _ => 1) (fun _ _ => 1) (fun _ => msum (stat_cov_of (fun _ => 1 * 1) :: [] ++ [fun _ _ => 1])) (fun _ _ => 1) (fun _ => P) (fun _ => 0)].
  cbv zeta. rewrite E2. set (v := mk_cview _ _ _ _ _ _ _ _ _).
  assert (VT : v_total v 0 <> 0).
  { unfold v_total, v_varied, v. cbn [v_nb v_cnt v_th v_cov sumn]. set (cv := msum _).
    assert (forall b, 0 <= rel_error cv (fun _ => 1) b). { intros b. unfold rel_error. destruct (Req_EM_T 1 0); [lra|]. pose proof (sqrt_pos (cv b b)). lra. }
    pose proof (H 0%nat). pose proof (H 1%nat). lra. }
  assert (CN : channel_nll v = 3).
  { unfold channel_nll, expected. change (v_nb v) with 2%nat. change (v_nt v) with 1%nat. cbn [sumn]. unfold poisson_term. change (v_data v) with (fun _ : nat => 0). destruct (Req_EM_T 0 0); [|congruence].
    change (v_yield v 0%nat) with 2. change (v_eff v 0%nat) with 1.
    assert (X : v_varied v 0 0 / v_total v 0 + v_varied v 0 1 / v_total v 0 = 1). { rewrite <- Rdiv_plus_distr. assert (TT : v_total v 0 = v_varied v 0 0 + v_varied v 0 1) by (unfold v_total; change (v_nb v) with 2%nat; cbn [sumn]; lra). rewrite <- TT. field. exact VT. }
    assert (PS : quad 2 (v_prec v 0%nat) (v_th v 0%nat) = 2).
    { unfold quad. change (v_prec v 0%nat) with P. change (v_th v 0%nat) with (fun _ : nat => 1). cbn [sumn].
      destruct (IP 0%nat 0%nat) as (A1 & _); [lia|lia|]. destruct (IP 0%nat 1%nat) as (A2 & _); [lia|lia|]. destruct (IP 1%nat 0%nat) as (A3 & _); [lia|lia|]. destruct (IP 1%nat 1%nat) as (A4 & _); [lia|lia|].
      unfold delta, correlation, msum, stat_cov_of in A1, A2, A3, A4. cbn [sumn Nat.eqb fold_right map] in A1, A2, A3, A4. destruct (Req_EM_T (1 * 1) 0); [lra|].
      replace (1 * 1 + 0) with 1 in * by lra. replace (0 + 0) with 0 in * by lra. rewrite sqrt_1 in *. lra. }
    rewrite PS. lra. }
  split. { exists l1, []. rewrite app_nil_r. split; [reflexivity|]. split; [unfold l1, ex_stale, ex_binned; cbn [removelast]; repeat constructor|constructor]. }
  split; [repeat constructor|]. split; [exact OK1|]. split; [rewrite NP; reflexivity|]. split; [simpl; lia|]. split; [discriminate|]. split; [reflexivity|].
  split; [|split; [reflexivity|split; [simpl; rewrite CN; lra|]]].
  - intros i v0 H. destruct i as [|i]; [|destruct i; discriminate]. injection H as <-. split.
    + exists "A"%string. eexists. split; [exists 0%nat; split; reflexivity|]. split; [reflexivity|]. split; [reflexivity|]. split.
      * intros k p tid u (K1 & K2). destruct k as [|k]; [|destruct k; discriminate]. injection K1 as <- <-. injection K2 as <-.
        split; [exists 0%nat; split; reflexivity|]. split; [reflexivity|]. split; [exists (fun _ => 1 * 1), ([] ++ [fun _ _ => 1]); split; [exact ES'|reflexivity]|].
        split; [|intros b _; reflexivity]. exists t, (fun _ => 1), (fun _ => 1 * 1), []. split; [rewrite <- (ce_tmpls _ _ CE); reflexivity|]. split; [exact ES|exact IP].
      * exists 1%nat, h1. split; [reflexivity|]. split; [reflexivity|]. rewrite H1. reflexivity.
    + split; [simpl; lia|]. split; [simpl; lia|]. split; [intros k K; assert (k = O) by (simpl in K; lia); subst; exact VT|]. intros b _. left. reflexivity.
  - assert (N2 : num_params (ex_world t' h0 h1) = 3%nat) by reflexivity. rewrite N2.
    change (vec_of 3 (fun j : nat => match j with O => 2 | _ => 1 end)) with [Fin 2; Fin 1; Fin 1]. rewrite V. do 2 f_equal. lra.
Qed.
