(** Property theorems C64, C65, C71, C73, C75: parameters of legacy templates. *)
From Coq Require Import Reals String ZArith Bool Arith List Lra Lia.
From Verif Require Import Model_Num Model_Hist Model_Utility Model_Template Model_World Model_Legacy
  Spec_Hist Spec_Matrix Spec_Template Spec_Nll Spec_Legacy Proof_Hist Proof_HistHeap Proof_LegacyHist Proof_World Proof_Route Proof_Legacy Proof_Legacy2 Proof_Legacy3.
Import ListNotations.
Local Open Scope R_scope.

(** C64.  Template t is created by call o in a history, its parameters are then p.  Whatever follows (setting
    parameters of templates and containers, adding covariance matrices, ... calls that raise included), after
    reset_parameters of the template its parameters are p again and no other template has changed.
    Partial: the history must not write in place into arrays that templates made for their nuisance parameters. *)
Theorem C64_reset_restores_partial : forall inv l1 o l2 t p,
  let w1 := grun inv g_empty l1 in let w2 := fst (gstep inv w1 o) in let w := grun inv w2 l2 in
  polite inv g_empty (l1 ++ o :: l2) -> params_of w1 t = None -> params_of w2 t = Some p ->
  params_of (fst (gstep inv w (GReset t))) t = Some p /\
  forall t', t' <> t -> params_of (fst (gstep inv w (GReset t))) t' = params_of w t'.
Proof.
  intros inv l1 o l2 t p w1 w2 w P N E. split; [|apply reset_one_others].
  destruct (nth_error (g_tmpls w1) t) as [?|] eqn:N1; [unfold params_of in N; rewrite N1 in N; discriminate|].
  destruct (nth_error (g_tmpls w2) t) as [tm|] eqn:E1; [|unfold params_of in E; rewrite E1 in E; discriminate].
  pose proof (params_new_step inv w1 o t tm N1 E1) as Q. fold w2 in Q.
  destruct (ge_tmpls _ _ (grun_ext inv l2 w2) t tm E1) as (tm' & E' & S'). fold w in E'.
  assert (G : GI w). { assert (X : w = grun inv g_empty (l1 ++ o :: l2)) by (rewrite grun_app; reflexivity). rewrite X. apply GI_run; auto. apply GI_empty. }
  rewrite (reset_one inv w t tm' (G t tm' E') E'). rewrite <- E, Q. f_equal.
  destruct S' as (_ & _ & S3 & _ & S5 & S6 & _). unfold initial. now rewrite S3, S5, S6.
Qed.
Print Assumptions C64_reset_restores_partial.

(** The same for reset_parameters of a container: all its templates are restored, the others do not change. *)
Theorem C64_container_reset_restores_partial : forall inv l1 o l2 s t p,
  let w1 := grun inv g_empty l1 in let w2 := fst (gstep inv w1 o) in let w := grun inv w2 l2 in
  polite inv g_empty (l1 ++ o :: l2) -> params_of w1 t = None -> params_of w2 t = Some p ->
  ((exists k, member w s k t) -> params_of (fst (gstep inv w (GSReset s))) t = Some p) /\
  (~ (exists k, member w s k t) -> params_of (fst (gstep inv w (GSReset s))) t = params_of w t).
Proof.
  intros inv l1 o l2 s t p w1 w2 w P N E.
  destruct (nth_error (g_tmpls w1) t) as [?|] eqn:N1; [unfold params_of in N; rewrite N1 in N; discriminate|].
  destruct (nth_error (g_tmpls w2) t) as [tm|] eqn:E1; [|unfold params_of in E; rewrite E1 in E; discriminate].
  pose proof (params_new_step inv w1 o t tm N1 E1) as Q. fold w2 in Q.
  destruct (ge_tmpls _ _ (grun_ext inv l2 w2) t tm E1) as (tm' & E' & S'). fold w in E'.
  assert (G : GI w). { assert (X : w = grun inv g_empty (l1 ++ o :: l2)) by (rewrite grun_app; reflexivity). rewrite X. apply GI_run; auto. apply GI_empty. }
  destruct (reset_container inv w s t tm' (G t tm' E') E') as (R1 & R2). split; auto.
  intros M. rewrite (R1 M). rewrite <- E, Q. f_equal. destruct S' as (_ & _ & S3 & _ & S5 & S6 & _). unfold initial. now rewrite S3, S5, S6.
Qed.
Print Assumptions C64_container_reset_restores_partial.

(** The parameters of a new template: the sum of the weights of the events in the range, the square root of the sum
    of their squares, zeros and ones. *)
Theorem C64_initial_parameters : forall inv w name var n lo hi data ws,
  (1 <= n)%nat -> lo < hi -> length data = length ws ->
  exists s q, let w' := fst (gstep inv w (GTemplate name var (Z.of_nat n) (lo, hi) data ws)) in
    snd (gstep inv w (GTemplate name var (Z.of_nat n) (lo, hi) data ws)) = Ok tt /\
    params_of w (length (g_tmpls w)) = None /\
    params_of w' (length (g_tmpls w)) = Some (mk_lparams (Fin s) (Fin (sqrt q)) (repeat (Fin 0) n) (repeat (Fin 1) n)) /\
    wsum (fun x => lo <= x <= hi) (combine data ws) s /\ wsum (fun x => lo <= x <= hi) (squared (combine data ws)) q.
Proof.
  intros inv w name var n lo hi data ws Hn Hl LD. destruct (lt_create_succeeds w name var n lo hi data ws Hn Hl LD) as (w' & s & q & E & P & S1 & S2).
  exists s, q. simpl gstep. rewrite E. cbn. repeat (split; [auto; fail|]). split; [|auto].
  unfold params_of. rewrite (proj2 (nth_error_None (g_tmpls w) (length (g_tmpls w)))); auto.
Qed.
Print Assumptions C64_initial_parameters.

(** Without the restriction C64 is false: nui_param_values returns the array itself, which is also kept as the
    original value, so writing into it changes what reset_parameters restores. *)
Theorem C64_reset_restores_refuted : exists inv l1 o l2 t p,
  let w1 := grun inv g_empty l1 in let w2 := fst (gstep inv w1 o) in let w := grun inv w2 l2 in
  params_of w1 t = None /\ params_of w2 t = Some p /\ nth_error (p_nui p) 0 = Some (Fin 0) /\
  exists p', params_of (fst (gstep inv w (GReset t))) t = Some p' /\ nth_error (p_nui p') 0 = Some (Fin 5).
Proof.
  exists (fun _ => Err LinAlgError), [], (GTemplate "a" "x" 1 (0, 2) [1] [1]), [GWrite (mk_aref 0 0 1) 0 (Fin 5)], 0%nat.
  destruct (lt_create_succeeds g_empty "a" "x" 1 0 2 [1] [1]) as (w' & s & q & E & P & _); [lia|lra|reflexivity|].
  change (length (g_tmpls g_empty)) with O in *. change (Z.of_nat 1) with 1%Z in E.
  assert (B : exists tm, g_tmpls w' = [tm] /\ n_val (lt_nui tm) = mk_aref 0 0 1 /\ n_orig (lt_nui tm) = mk_aref 0 0 1 /\ g_bufs w' = [[Fin 0]; [Fin 1]]).
  { unfold lt_create in E. destruct (hist1_new _ _ _ _); [|discriminate]. injection E as <-. simpl. eexists. repeat split. }
  destruct B as (tm & BT & BV & BO & BB). exists (mk_lparams (Fin s) (Fin (sqrt q)) [Fin 0] [Fin 1]).
  cbv zeta. simpl grun. simpl gstep at 1 2. rewrite E. cbn [as_unit fst rbind]. split; [reflexivity|]. split; [exact P|]. split; [reflexivity|].
  destruct w' as [bufs hists tmpls stacks nlls]. cbn in BT, BB. subst bufs tmpls. cbn. unfold on_tmpl. cbn. eexists. split; [reflexivity|].
  cbn. rewrite BO. reflexivity.
Qed.
Print Assumptions C64_reset_restores_refuted.

(** C64, update_parameters: with arrays of T + T*m values and T + T*m' errors each of the T templates gets its yield
    and its block of m (m') nuisance parameters; nothing else changes. *)
Theorem C64_update_gives_blocks : forall inv l s T x e m m',
  let w := grun inv g_empty l in let w' := fst (gstep inv w (GUpdate s x e)) in
  num_members w s T -> (0 < T)%nat -> no_template_twice w s -> aref_ok w x = true -> aref_ok w e = true ->
  a_len x = (T + T * m)%nat -> a_len e = (T + T * m')%nat ->
  snd (gstep inv w (GUpdate s x e)) = Ok tt /\
  (forall k t, member w s k t -> params_of w' t =
      Some (mk_lparams (nth k (aread w x) NaN) (nth k (aread w e) NaN)
              (part (T + k * m) m (aread w x)) (part (T + k * m') m' (aread w e)))) /\
  (forall t, ~ (exists k, member w s k t) -> params_of w' t = params_of w t).
Proof.
  intros inv l s T x e m m' w w' (st & ST & LT) T0 ND OX OE LX LE. specialize (ND st ST).
  destruct (update_full inv w s st x e T m m' ST LT T0 ND OX OE LX LE) as (R & B & _ & O). split; [exact R|]. split.
  - intros k t (st' & S' & K). assert (st' = st) by congruence. subst st'.
    assert (G : GS w) by (apply GS_run, GS_empty). destruct (G s st ST) as (_ & _ & F). destruct (F t (nth_error_In _ _ K)) as (tm & TM & _).
    apply (update_params inv w s st x e T m m' ST LT T0 ND OX OE k t LX LE K); eauto.
  - intros t N. apply params_of_other; auto. apply O. intros I. apply N. apply In_nth_error in I as (k & K). exists k, st. auto.
Qed.
Print Assumptions C64_update_gives_blocks.

(** C65 is false: whatever the number of nested calls the interpreter allows, corr_mat raises RecursionError. *)
Theorem C65_corr_mat_refuted : forall limit t, lt_corr_mat limit t = Err RecursionError.
Proof. induction limit; simpl; auto. Qed.
Print Assumptions C65_corr_mat_refuted.

(** C71.  Claim: update_parameters stores copies.  False for the nuisance parameters, for every container and every
    array: writing into the caller's array changes the parameter. *)
Theorem C71_update_copies_refuted : forall inv l s T x e m m' k t j v,
  let w := grun inv g_empty l in let w' := fst (gstep inv w (GUpdate s x e)) in
  num_members w s T -> no_template_twice w s -> aref_ok w x = true -> aref_ok w e = true ->
  a_len x = (T + T * m)%nat -> a_len e = (T + T * m')%nat -> member w s k t -> (j < m)%nat ->
  exists p, params_of (fst (gstep inv w' (GWrite x (T + k * m + j) v))) t = Some p /\ nth_error (p_nui p) j = Some v.
Proof.
  intros inv l s T x e m m' k t j v w w' (st & ST & LT) ND OX OE LX LE (st' & S' & K) J. assert (st' = st) by congruence. subst st'. specialize (ND st ST).
  assert (G : GS w) by (apply GS_run, GS_empty). destruct (G s st ST) as (_ & _ & F). destruct (F t (nth_error_In _ _ K)) as (tm & TM & _).
  assert (KT : (k < T)%nat) by (rewrite <- LT, <- (map_length snd); apply nth_error_Some; congruence). assert (T0 : (0 < T)%nat) by lia.
  destruct (update_full inv w s st x e T m m' ST LT T0 ND OX OE LX LE) as (R & B & U & _). specialize (U k t tm K TM). fold w' in B, U.
  assert (OX' : aref_ok w' x = true) by (unfold aref_ok; now rewrite B). simpl gstep. rewrite OX'.
  assert (U' : nth_error (g_tmpls (fst (awrite w' x (T + k * m + j) v))) t = nth_error (g_tmpls w') t) by now rewrite write_tmpls.
  rewrite U in U'. rewrite (params_of_some _ _ _ U'). eexists. split; [reflexivity|]. cbn.
  assert (LIM : (T + k * m + m <= a_len x)%nat) by nia.
  apply write_read; simpl; auto; try lia. unfold aref_ok in *. simpl. destruct (nth_error (g_bufs w') (a_buf x)); [|discriminate]. apply Nat.leb_le. apply Nat.leb_le in OX'. lia.
Qed.
Print Assumptions C71_update_copies_refuted.

(** What holds: yields and their errors are copies, no in-place write to any array changes them. *)
Theorem C71_yields_are_copies_partial : forall inv w a i v t p, params_of w t = Some p ->
  exists p', params_of (fst (gstep inv w (GWrite a i v))) t = Some p' /\ p_yield p' = p_yield p /\ p_yield_err p' = p_yield_err p.
Proof.
  intros inv w a i v t p P. unfold params_of in P. destruct (nth_error (g_tmpls w) t) as [tm|] eqn:E; [|discriminate]. injection P as <-.
  simpl gstep. destruct (aref_ok w a).
  - pose proof (write_tmpls w a i v) as W. rewrite <- W in E. rewrite (params_of_some _ _ _ E). eexists. split; [reflexivity|]. split; reflexivity.
  - simpl. rewrite (params_of_some _ _ _ E). eexists. split; [reflexivity|]. split; reflexivity.
Qed.
Print Assumptions C71_yields_are_copies_partial.

(** C73: after every history all templates of a container have its variable, number of bins and limits. *)
Theorem C73_members_fit : forall inv l s st k t, let w := grun inv g_empty l in
  nth_error (g_stacks w) s = Some st -> member w s k t ->
  exists tm, nth_error (g_tmpls w) t = Some tm /\ lt_var tm = ls_var st /\ lt_nb tm = ls_nb st /\ lt_limits tm = ls_limits st.
Proof.
  intros inv l s st k t w ST (st' & S' & K). assert (st' = st) by congruence. subst st'.
  assert (G : GS w) by (apply GS_run, GS_empty). destruct (G s st ST) as (_ & _ & F). destruct (F t (nth_error_In _ _ K)) as (tm & TM & A & B & C). eauto.
Qed.
Print Assumptions C73_members_fit.

(** add_template: a template that fits becomes the template with this id (the other ids keep theirs), any other is
    rejected with ValueError and nothing changes. *)
Theorem C73_add_template : forall inv w s st id t tm,
  nth_error (g_stacks w) s = Some st -> nth_error (g_tmpls w) t = Some tm ->
  let w' := fst (gstep inv w (GAddTemplate s id t)) in
  let r := snd (gstep inv w (GAddTemplate s id t)) in
  (lt_var tm = ls_var st /\ lt_nb tm = ls_nb st /\ lt_limits tm = ls_limits st ->
     r = Ok tt /\ exists st', nth_error (g_stacks w') s = Some st' /\ dget String.eqb (ls_dict st') id = Some t /\
       forall id', id' <> id -> dget String.eqb (ls_dict st') id' = dget String.eqb (ls_dict st) id') /\
  (~ (lt_var tm = ls_var st /\ lt_nb tm = ls_nb st /\ lt_limits tm = ls_limits st) -> r = Err ValueError /\ w' = w).
Proof.
  intros inv w s st id t tm ST TM. simpl gstep. unfold ls_add_template. rewrite ST, TM. split.
  - intros (A & B & C). rewrite A, B, C, String.eqb_refl, Nat.eqb_refl. assert (L : limits_eqb (ls_limits st) (ls_limits st) = true).
    { unfold limits_eqb. destruct (Reqb_spec (fst (ls_limits st)) (fst (ls_limits st))); [|congruence]. destruct (Reqb_spec (snd (ls_limits st)) (snd (ls_limits st))); [reflexivity|congruence]. }
    rewrite L. cbn. split; [reflexivity|]. eexists. split; [apply upd_same; apply nth_error_Some; congruence|]. cbn. split.
    + rewrite dget_dset, String.eqb_refl. reflexivity.
    + intros id' N. rewrite dget_dset. destruct (String.eqb_spec id' id); [contradiction|reflexivity].
  - intros N. destruct (_ && _) eqn:B; [|split; reflexivity]. exfalso. apply N. apply andb_true_iff in B as [B B3]. apply andb_true_iff in B as [B1 B2].
    apply String.eqb_eq in B1. apply Nat.eqb_eq in B2. apply limits_eqb_eq in B3. auto.
Qed.
Print Assumptions C73_add_template.

(** C75.  Claim: update_parameters rejects arrays of the wrong length and then changes nothing.  Both parts are false,
    for every container: arrays of length T + T*m are accepted for every m, not only for the number of bins,
    and if an array is rejected the yields have been replaced. *)
Theorem C75_wrong_length_accepted_refuted : forall inv l s T x e m,
  let w := grun inv g_empty l in
  num_members w s T -> (0 < T)%nat -> no_template_twice w s -> aref_ok w x = true -> aref_ok w e = true ->
  a_len x = (T + T * m)%nat -> a_len e = (T + T * m)%nat ->
  snd (gstep inv w (GUpdate s x e)) = Ok tt /\
  forall k t, member w s k t -> exists p, params_of (fst (gstep inv w (GUpdate s x e))) t = Some p /\ length (p_nui p) = m.
Proof.
  intros inv l s T x e m w NM T0 ND OX OE LX LE. destruct (C64_update_gives_blocks inv l s T x e m m NM T0 ND OX OE LX LE) as (R & U & _).
  split; [exact R|]. intros k t M. eexists. split; [apply U; eauto|]. cbn. unfold part. rewrite firstn_length, skipn_length. fold w. rewrite aread_length by auto.
  destruct M as (st & S & K). destruct NM as (st' & S' & LT). assert (st' = st) by congruence. subst st'.
  assert (k < T)%nat by (rewrite <- LT, <- (map_length snd); apply nth_error_Some; congruence). nia.
Qed.
Print Assumptions C75_wrong_length_accepted_refuted.

Theorem C75_rejected_update_refuted : forall inv l s T x e,
  let w := grun inv g_empty l in let w' := fst (gstep inv w (GUpdate s x e)) in
  num_members w s T -> no_template_twice w s -> aref_ok w x = true -> aref_ok w e = true ->
  (forall m, a_len x <> (T + T * m)%nat) -> (T < a_len x)%nat -> (0 < T)%nat ->
  snd (gstep inv w (GUpdate s x e)) = Err ValueError /\
  forall k t p, member w s k t -> params_of w t = Some p ->
    params_of w' t = Some (mk_lparams (nth k (aread w x) NaN) (p_yield_err p) (p_nui p) (p_nui_err p)).
Proof.
  intros inv l s T x e w w' (st & ST & LT) ND OX OE LX TX T0. specialize (ND st ST).
  assert (MD : (a_len x - Nat.min T (a_len x)) mod T <> O).
  { rewrite Nat.min_l by lia. intros D. apply Nat.mod_divides in D as (m & D); [|lia]. apply (LX m). lia. }
  destruct (update_bad inv w s st x e T ST LT T0 ND OX OE MD) as (R & B & U & _). split; [exact R|].
  intros k t p (st' & S' & K) P. assert (st' = st) by congruence. subst st'. unfold params_of in P. destruct (nth_error (g_tmpls w) t) as [tm|] eqn:TM; [|discriminate]. injection P as <-.
  specialize (U k t tm K TM). unfold w'. rewrite (params_of_some _ _ _ U). f_equal. unfold pview. cbn. f_equal; apply aread_bufs; exact B.
Qed.
Print Assumptions C75_rejected_update_refuted.

(** Instance: two templates in a container, updated with arrays of the right length. *)
Definition ex_hist_l : list gop :=
  [ GStack "s" "x" 2 (0, 2); GCreateTemplate 0 "a" [1/2; 3/2] [1; 2]; GCreateTemplate 0 "b" [1/2; 3/2] [3; 1];
    GArray (map Fin [10; 20; 1; 2; 3; 4]); GArray (map Fin [1; 1; 1; 1; 1; 1]) ].
Lemma ex_create_b inv w s st id d ws n : nth_error (g_stacks w) s = Some st -> ls_nb st = n -> (1 <= n)%nat -> fst (ls_limits st) < snd (ls_limits st) -> length d = length ws ->
  exists w', gstep inv w (GCreateTemplate s id d ws) = (upd_stack w' s (set_dict st (dset String.eqb (ls_dict st) id (length (g_tmpls w)))), Ok tt) /\
    g_stacks w' = g_stacks w /\ length (g_tmpls w') = S (length (g_tmpls w)) /\ length (g_bufs w') = (2 + length (g_bufs w))%nat.
Proof.
  intros ST NB N1 LH LD. simpl gstep. unfold ls_create_template. rewrite ST, NB. destruct (ls_limits st) as [lo hi]. simpl in LH.
  destruct (lt_create_succeeds w id (ls_var st) n lo hi d ws N1 LH LD) as (w' & s0 & q & E & _). rewrite E. exists w'. split; [reflexivity|].
  unfold lt_create in E. destruct (hist1_new _ _ _ _); [|discriminate]. destruct (Nat.eqb _ _); [discriminate|]. injection E as <-. simpl.
  rewrite !app_length. simpl. split; [reflexivity|]. lia.
Qed.
Example ex_update : exists w, forall inv, w = grun inv g_empty ex_hist_l /\ num_members w 0 2 /\ no_template_twice w 0 /\
  aref_ok w (mk_aref 4 0 6) = true /\ aref_ok w (mk_aref 5 0 6) = true /\ (exists t, member w 0 1 t).
Proof.
  set (w0 := fst (gstep (fun _ => Err LinAlgError) g_empty (GStack "s" "x" 2 (0, 2)))).
  assert (ST0 : nth_error (g_stacks w0) 0 = Some (mk_ls "s" "x" 2 (0, 2) (np_linspace 0 2 3) [])) by reflexivity.
  destruct (ex_create_b (fun _ => Err LinAlgError) w0 0 _ "a" [1/2; 3/2] [1; 2] 2 ST0) as (w1 & E1 & S1 & T1 & B1); [reflexivity|lia|simpl; lra|reflexivity|].
  set (w1' := upd_stack w1 0 (set_dict (mk_ls "s" "x" 2 (0, 2) (np_linspace 0 2 3) []) [("a"%string, 0%nat)])).
  assert (ST1 : nth_error (g_stacks w1') 0 = Some (set_dict (mk_ls "s" "x" 2 (0, 2) (np_linspace 0 2 3) []) [("a"%string, 0%nat)])) by (unfold w1'; simpl; rewrite S1; reflexivity).
  destruct (ex_create_b (fun _ => Err LinAlgError) w1' 0 _ "b" [1/2; 3/2] [3; 1] 2 ST1) as (w2 & E2 & S2 & T2 & B2); [reflexivity|lia|simpl; lra|reflexivity|].
  assert (T1' : length (g_tmpls w1') = 1%nat) by (unfold w1'; simpl; rewrite T1; reflexivity).
  assert (B1' : length (g_bufs w1') = 2%nat) by (unfold w1'; simpl; rewrite B1; reflexivity).
  rewrite T1' in E2. rewrite B1' in B2.
  set (st2 := set_dict (mk_ls "s" "x" 2 (0, 2) (np_linspace 0 2 3) []) [("a"%string, 0%nat); ("b"%string, 1%nat)]).
  exists (grun (fun _ => Err LinAlgError) (upd_stack w2 0 st2) [GArray (map Fin [10; 20; 1; 2; 3; 4]); GArray (map Fin [1; 1; 1; 1; 1; 1])]).
  intros inv. unfold ex_hist_l. cbn [grun].
  change (fst (gstep inv g_empty (GStack "s" "x" 2 (0, 2)))) with w0.
  change (gstep inv w0 (GCreateTemplate 0 "a" [1/2; 3/2] [1; 2])) with (gstep (fun _ => Err LinAlgError) w0 (GCreateTemplate 0 "a" [1/2; 3/2] [1; 2])).
  rewrite E1. cbn [fst]. change (upd_stack w1 0 _) with w1'.
  change (gstep inv w1' (GCreateTemplate 0 "b" [1/2; 3/2] [3; 1])) with (gstep (fun _ => Err LinAlgError) w1' (GCreateTemplate 0 "b" [1/2; 3/2] [3; 1])).
  rewrite E2. split; [reflexivity|].
  assert (NS : nth_error (g_stacks (upd_stack w2 0 st2)) 0 = Some st2). { unfold upd_stack, set_gstacks; cbn [g_stacks]. apply upd_same. rewrite S2. unfold w1', upd_stack, set_gstacks; cbn [g_stacks]. rewrite upd_length, S1. simpl. lia. }
  split; [exists st2; split; [exact NS|reflexivity]|]. split.
  { intros st H. assert (st = st2) by (simpl in *; congruence). subst st. simpl. repeat constructor; simpl; intuition lia. }
  split; [|split].
  - unfold aref_ok. cbn [grun gstep fst set_bufs g_bufs upd_stack set_gstacks a_buf]. rewrite <- app_assoc, nth_error_app2 by lia. rewrite B2. reflexivity.
  - unfold aref_ok. cbn [grun gstep fst set_bufs g_bufs upd_stack set_gstacks a_buf]. rewrite <- app_assoc, nth_error_app2 by lia. rewrite B2. reflexivity.
  - exists 1%nat, st2. split; [exact NS|reflexivity].
Qed.
