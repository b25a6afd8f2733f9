(** Property C99: what a linearity test leaves behind. *)
From Coq Require Import Reals String ZArith Bool Arith List Lra Lia.
From Verif Require Import Model_Num Model_Hist Model_Utility Model_Template Model_World Model_Ops Model_Minimizer Model_Fitter Model_Toy
  Spec_Matrix Spec_Min Spec_World Spec_Data Spec_Fit Spec_Stale Spec_Toy Proof_HistHeap Proof_Eval Proof_Route Proof_Monad Proof_World Proof_Names Proof_Yield Proof_Update Proof_Valid Proof_Stale Proof_Min Proof_Fit Proof_Fit2 Proof_Fit3 Proof_Fit4 Proof_Sig Proof_Toy Proof_Toy2 Proof_Toy3
  Prop_World Prop_Params Prop_Stale Prop_Data Prop_Fitter Prop_FitEffect Prop_Toy Prop_ToyEx.
Import ListNotations.
Local Open Scope R_scope.

(** ** After a test that returned: every template in use has nominal parameters, those of the tested process the yield
    of the last point; whatever parameters they had before (of a fit, say) are lost. *)
Lemma linspace_last lo hi n : (2 <= n)%nat -> last (np_linspace lo hi n) 0 = hi.
Proof.
  intros N. destruct n as [|[|n]]; [lia|lia|]. unfold np_linspace.
  rewrite (seq_S (S n) 0), map_app. cbn [map]. rewrite last_last. rewrite Nat.add_0_l.
  assert (INR (S n) <> 0) by (apply not_0_INR; lia). field. assumption.
Qed.
Lemma last_cons_ne {A} (a d : A) l : l <> [] -> last (a :: l) d = last l d.
Proof. destruct l; [congruence|reflexivity]. Qed.
Lemma tested_last envs id p ne k f pts k' f' rows : tested envs id p ne k f pts k' f' rows -> pts <> [] ->
  exists g w2, nominal_except g p (last pts 0) w2 /\ data_replaced w2 (fs_w f').
Proof.
  induction 1 as [|k f v w2 k1 f3 rows pts k' f' rest NP L SU TE IH]; intros NE; [congruence|].
  destruct pts as [|v' pts].
  - inversion TE; subst. exists (fs_w f), w2. split; [exact NP|].
    pose proof (succeed_pres _ _ _ _ _ dro_refl dro_trans (fun v => toy_fit_only v _ _) _ _ _ _ _ SU) as (D & _). exact D.
  - rewrite last_cons_ne by discriminate. apply IH. discriminate.
Qed.

Theorem C99_parameters_lost_refuted : forall inv l i envs p q lo hi n_points n_exp s' points means sds, inv_spec inv -> let s := treached inv l in
  distinct_templates (fs_w (ts_f s)) -> nth_error (w_procs (fs_w (ts_f s))) q = Some p -> (0 < n_exp)%nat -> (2 <= n_points)%nat ->
  forall st, nth_error (ts_studies s) i = Some st -> do_linearity_test envs i p lo hi n_points n_exp s = (s', Ok (points, means, sds)) ->
  let w := fs_w (ts_f s') in
  forall j n c k p' tid t, channel_at w j n c -> template_at w c k p' tid t ->
    exists h eff, nth_error (w_hists w) (t_hist t) = Some h /\ nth_error (c_effs c) k = Some (p', eff) /\
      t_params t = (if String.eqb p' p then Fin (hi * eff) else np_sum (nd_flat (h_counts h))) :: repeat (Fin 0) (t_nb t).
Proof.
  intros inv l i envs p q lo hi np ne s' points means sds IS s DT Q NE NP st S H w j n c k p' tid t CA TA.
  pose proof (C68_linearity inv l i envs p q lo hi np ne s' points means sds IS DT Q NE st S H) as (LP & _ & _ & _ & rows & kk & TE & _).
  assert (PN : points <> []) by (intros ->; simpl in LP; lia).
  destruct (tested_last _ _ _ _ _ _ _ _ _ _ TE PN) as (g & w2 & (_ & NO) & D).
  assert (PT : points = np_linspace lo hi np).
  { unfold do_linearity_test in H. cbv zeta in H. unfold tbind in H. destruct (linearity_points envs i p ne 0 (np_linspace lo hi np) s) as (s1 & [[ms ss]|e]); [|discriminate]. unfold tret in H. injection H as _ <- _ _. reflexivity. }
  rewrite PT, linspace_last in NO by exact NP.
  destruct (dr_channel _ _ _ _ _ D CA) as (c0 & d & CA0 & ->). destruct TA as (K & T). pose proof D as (E1 & _ & _ & _ & _ & _ & (new & E7) & _). unfold w in T. rewrite E1 in T. cbn [with_data c_tmpls c_effs] in *.
  destruct (NO j n c0 k p' tid t CA0 (conj K T)) as (h & eff & H1 & H2 & H3). exists h, eff. split; [|split; assumption].
  unfold w. rewrite E7. rewrite nth_error_app1; [exact H1|]. apply nth_error_Some. congruence.
Qed.
Print Assumptions C99_parameters_lost_refuted.

(** ** An unknown process: RuntimeError, but all parameters have been reset and the results of the study are gone. *)
Theorem C99_unknown_process_refuted : forall inv l i envs p lo hi n_points n_exp, inv_spec inv -> let s := treached inv l in
  ~ In p (w_procs (fs_w (ts_f s))) -> (0 < n_points)%nat -> forall st, nth_error (ts_studies s) i = Some st ->
  exists s', do_linearity_test envs i p lo hi n_points n_exp s = (s', Err RuntimeError) /\
    (result_parameters i s' = (s', Err RuntimeError)) /\
    let w := fs_w (ts_f s') in
    forall j n c k p' tid t, channel_at w j n c -> template_at w c k p' tid t ->
      exists h, nth_error (w_hists w) (t_hist t) = Some h /\ t_params t = np_sum (nd_flat (h_counts h)) :: repeat (Fin 0) (t_nb t).
Proof.
  intros inv l i envs p lo hi np ne IS s NI NP st S.
  destruct (treached_world inv l) as (l' & EW). fold s in EW. assert (W : WF (fs_w (ts_f s))) by (rewrite EW; now apply reached_wf). clear EW.
  destruct (reset_parameters_done (fs_w (ts_f s)) W) as (w1 & R & RS & D). pose proof (op_reset (fs_w (ts_f s))) as O1. rewrite R in O1. cbn [fst] in O1.
  assert (NI1 : ~ In p (w_procs w1)) by (destruct O1 as (_ & _ & _ & P & _); rewrite P; exact NI).
  assert (PT : exists v pts, np_linspace lo hi np = v :: pts) by (destruct np as [|[|np]]; [lia| |]; eexists; eexists; reflexivity).
  destruct PT as (v & pts & PT).
  exists (mk_tstate (mk_fstate w1 (fs_pars (ts_f s)) (fs_fitters (ts_f s))) (upd i (mk_study (st_id st) [] [] false) (ts_studies s))).
  split; [|split].
  - unfold do_linearity_test. cbv zeta. rewrite PT. cbn [linearity_points]. unfold linearity_point, reset_state. unfold tbind at 1 2 3, on_study at 1. rewrite S.
    unfold tbind at 1. rewrite on_w_eq. unfold on_world. cbn [ts_f ts_studies]. rewrite R. unfold tbind at 1. rewrite on_w_eq. unfold on_world. cbn [ts_f ts_studies fs_w fs_pars fs_fitters].
    rewrite set_yield_unknown by exact NI1. reflexivity.
  - unfold result_parameters, check_state, tbind, get_study. cbn [ts_studies]. rewrite (upd_len i _ st) by exact S. reflexivity.
  - cbn [ts_f fs_w]. intros j n c k p' tid t CA (K & T).
    assert (U : uses_template (fs_w (ts_f s)) tid). { pose proof O1 as (_ & B2 & B3 & _). pose proof (op_lookup _ w1 tid O1) as L. destruct (nth_error (w_tmpls (fs_w (ts_f s))) tid) as [t0|] eqn:T0; [|congruence].
      exists j, n, c, k, p', t0. split; [|split; assumption]. destruct CA as (cid & H1 & H2). exists cid. rewrite B3 in H1. rewrite B2 in H2. auto. }
    destruct (D tid U) as (t1 & T1 & h & H & P). assert (t1 = t) by congruence. subst t1. exists h. split; assumption.
Qed.
Print Assumptions C99_unknown_process_refuted.

(** ** Nothing else changes, whatever happens. *)
Lemma f2_trans {A} (R : A -> A -> Prop) : (forall a b c, R a b -> R b c -> R a c) -> forall l1 l2 l3, Forall2 R l1 l2 -> Forall2 R l2 l3 -> Forall2 R l1 l3.
Proof. intros T l1 l2 l3 F. revert l3. induction F; intros l3 G; inversion G; subst; constructor; eauto. Qed.
Lemma pdo_refl f : params_and_data_only f f.
Proof.
  split. { apply f2_refl. intros t. exists (t_params t). destruct t; reflexivity. }
  do 5 (split; [reflexivity|]). split; [exists []; symmetry; apply app_nil_r|]. split. { apply f2_refl. intros c. exists (c_data c). apply with_data_self. }
  split; exists []; symmetry; apply app_nil_r.
Qed.
Lemma pdo_trans a b c : params_and_data_only a b -> params_and_data_only b c -> params_and_data_only a c.
Proof.
  intros (A0 & A1 & A2 & A3 & A4 & A5 & (x & A6) & A7 & (y & A8) & z & A9) (B0 & B1 & B2 & B3 & B4 & B5 & (x' & B6) & B7 & (y' & B8) & z' & B9).
  split. { eapply f2_trans; [|exact A0|exact B0]. intros t1 t2 t3 (p1 & ->) (p2 & ->). exists p2. reflexivity. }
  do 5 (split; [congruence|]). split; [exists (x ++ x'); rewrite B6, A6, app_assoc; reflexivity|]. split. { eapply f2_trans; [|exact A7|exact B7]. intros c1 c2 c3 (p1 & ->) (p2 & ->). exists p2. reflexivity. }
  split; [exists (y ++ y'); rewrite B8, A8, app_assoc; reflexivity|exists (z ++ z'); rewrite B9, A9, app_assoc; reflexivity].
Qed.
Lemma pdo_dro f f' : data_replaced_only f f' -> params_and_data_only f f'.
Proof.
  intros ((E1 & E2 & E3 & E4 & E5 & E6 & E7 & E8) & E9 & E10). split. { rewrite E1. apply f2_refl. intros t. exists (t_params t). destruct t; reflexivity. }
  do 5 (split; [assumption|]). repeat (split; [assumption|]). assumption.
Qed.
Lemma f2_nth {A} (R : A -> A -> Prop) l : forall l', length l' = length l -> (forall i a, nth_error l i = Some a -> exists b, nth_error l' i = Some b /\ R a b) -> Forall2 R l l'.
Proof.
  induction l as [|a l IH]; intros [|b l'] L H; simpl in L; try lia; constructor.
  - destruct (H 0%nat a eq_refl) as (b' & E & X). simpl in E. congruence.
  - apply IH; [lia|]. intros i a' I. exact (H (S i) a' I).
Qed.
Lemma pdo_op {A} (m : M A) s : (forall w, only_params w (fst (m w))) -> params_and_data_only (ts_f s) (ts_f (fst (on_w m s))).
Proof.
  intros H. specialize (H (fs_w (ts_f s))). rewrite on_w_eq. unfold on_world. destruct (m (fs_w (ts_f s))) as (w & r). cbn [fst ts_f fs_w fs_pars fs_fitters] in *.
  destruct H as (E1 & E2 & E3 & E4 & E5 & E6 & E7 & E8 & E9). unfold params_and_data_only. cbn [fs_w fs_pars fs_fitters]. split. { apply f2_nth; [exact E8|]. intros i t T. destruct (E9 i t T) as (ps & X). eauto. }
  do 5 (split; [assumption|]). split; [exists []; rewrite app_nil_r; exact E1|]. split. { rewrite E2. apply f2_refl. intros c. exists (c_data c). apply with_data_self. }
  split; exists []; symmetry; apply app_nil_r.
Qed.
Theorem C99_other_objects_partial : forall envs i p lo hi n_points n_exp s,
  params_and_data_only (ts_f s) (ts_f (fst (do_linearity_test envs i p lo hi n_points n_exp s))) /\
  forall j, j <> i -> nth_error (ts_studies (fst (do_linearity_test envs i p lo hi n_points n_exp s))) j = nth_error (ts_studies s) j.
Proof.
  intros envs i p lo hi np ne s. split.
  - apply (trel_linearity (fun a b => params_and_data_only (ts_f a) (ts_f b))).
    + intros; apply pdo_refl.
    + intros a b c; apply pdo_trans.
    + intros g s0. rewrite on_study_f. apply pdo_refl.
    + intros d s0. unfold on_w. rewrite on_f_f. apply pdo_dro, dro_world, dr_toy.
    + intros d s0. unfold on_w. rewrite on_f_f. apply pdo_dro, dro_world, dr_add_data.
    + intros s0. apply pdo_op, op_reset.
    + intros p' v s0. apply pdo_op, op_set_yield.
    + intros id s0. rewrite on_f_f. apply pdo_dro. unfold fitter_new. cbn [fst]. split; [apply dr_po|]. cbn [fs_fitters fs_pars]. split; eexists; [reflexivity|symmetry; apply app_nil_r].
    + intros E fi gh s0. rewrite on_f_f. apply pdo_dro. pose proof (C48_no_update E fi gh true None (ts_f s0)) as S.
      destruct (do_fit_frame (fun m => Ok m) any (ts_f s0) ltac:(intros; exact I) E fi false gh true None ltac:(discriminate) (ts_f s0) (frame_refl' _ any (ts_f s0))) as (A1 & A2 & A3 & _).
      split; [apply dr_same; exact S|]. split; [exists []; rewrite app_nil_r; exact A1|]. apply prefix_app; auto.
    + intros a s0. rewrite on_f_f. apply pdo_refl.
  - intros j N. apply trel_linearity with (R := same_study j); unfold same_study; try congruence; try (intros; intros ?; unfold on_w; cbn beta; now rewrite on_f_studies).
    intros g s0. apply other_study. congruence.
Qed.
Print Assumptions C99_other_objects_partial.

(** ** A concrete test: the yield of the template was 4 (8 with efficiency 1/2); after a test from 0 to 2 it is 1. *)
Lemma ex_C99_gen : forall inv L np n, inv_spec inv -> toyable inv (reached inv L) -> generated_with (reached inv L) "s" 8 -> (2 <= np)%nat ->
  let s := treached inv (ex_study L) in
  exists s' r t t', do_linearity_test (fun _ => ex_env 8) 0 "s" 0 2 np (S n) s = (s', Ok r) /\
    nth_error (w_tmpls (fs_w (ts_f s))) 0 = Some t /\ t_yield t = Fin 4 /\
    nth_error (w_tmpls (fs_w (ts_f s'))) 0 = Some t' /\ t_yield t' = Fin 1.
Proof.
  intros inv L np n IS TY GW NP s.
  destruct (ex_linearity_gen inv L 0 2 np n IS TY ltac:(lra) ltac:(lra)) as (DT & Q & s' & ((points & means) & sds) & E). fold s in DT, Q, E.
  pose proof (C99_parameters_lost_refuted inv (ex_study L) 0 (fun _ => ex_env 8) "s" 0 0 2 np (S n) s' points means sds IS DT Q ltac:(lia) NP (mk_study "iminuit" [] [] false)) as P.
  fold s in P. specialize (P ltac:(unfold s; rewrite ex_study_state; reflexivity) E). cbv zeta in P.
  pose proof (C99_other_objects_partial (fun _ => ex_env 8) 0 "s" 0 2 np (S n) s) as ((O0 & O1 & _ & _ & _ & _ & _ & O7 & _) & _). rewrite E in O0, O1, O7. cbn [fst] in O0, O1, O7.
  assert (SW : fs_w (ts_f s) = reached inv L) by (unfold s; rewrite ex_study_state; reflexivity). rewrite SW in *.
  pose proof TY as [_ _ _ (j & nm & c & CA) A4 (t & y & e1 & e2 & T0 & _)]. pose proof (A4 _ _ _ CA) as (_ & Z1 & Z2 & _).
  exists s', (points, means, sds), t.
  assert (T' : exists t', nth_error (w_tmpls (fs_w (ts_f s'))) 0 = Some t').
  { destruct (w_tmpls (reached inv L)) as [|t0 ts]; [discriminate|]. inversion O0; subst. eexists. reflexivity. }
  destruct T' as (t' & T'). exists t'. split; [exact E|]. split; [exact T0|]. split.
  - pose proof (GW j nm c 0%nat 0%nat t (/ 2) CA) as G. rewrite G; [f_equal; lra|split; [rewrite Z1; reflexivity|exact T0]|rewrite Z2; reflexivity].
  - split; [exact T'|]. destruct CA as (cid & C1 & C2).
    assert (C' : exists d, nth_error (w_chans (fs_w (ts_f s'))) cid = Some (with_data c d)).
    { clear - O7 C2. revert cid C2. induction O7 as [|a b la lb (d & ->) F IH]; intros [|cid] C2; try discriminate; [injection C2 as <-; exists d; reflexivity|apply IH; exact C2]. }
    destruct C' as (d & C'). destruct (P j nm (with_data c d) 0%nat "s"%string 0%nat t') as (h & eff & _ & EF & PS).
    + exists cid. rewrite O1. split; assumption.
    + split; [cbn [with_data c_tmpls]; rewrite Z1; reflexivity|exact T'].
    + cbn [with_data c_effs] in EF. rewrite Z2 in EF. injection EF as <-. unfold t_yield. rewrite PS. cbn. f_equal. lra.
Qed.
Example ex_C99 : forall inv np n, inv_spec inv -> (2 <= np)%nat -> let s := treached inv (ex_study ex_toy_ops) in
  exists s' r t t', do_linearity_test (fun _ => ex_env 8) 0 "s" 0 2 np (S n) s = (s', Ok r) /\
    nth_error (w_tmpls (fs_w (ts_f s))) 0 = Some t /\ t_yield t = Fin 4 /\
    nth_error (w_tmpls (fs_w (ts_f s'))) 0 = Some t' /\ t_yield t' = Fin 1.
Proof. intros inv np n IS NP. destruct (ex_toy_state inv) as (TY & GW & _). exact (ex_C99_gen inv ex_toy_ops np n IS TY GW NP). Qed.
