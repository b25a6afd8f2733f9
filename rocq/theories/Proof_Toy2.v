(** Proofs about toy studies: what a study leaves unchanged; histories of studies. *)
From Coq Require Import Reals String ZArith Bool Arith List Lra Lia.
From Verif Require Import Model_Num Model_Hist Model_Utility Model_Template Model_World Model_Ops Model_Minimizer Model_Fitter Model_Toy
  Spec_Matrix Spec_Min Spec_World Spec_Data Spec_Fit Spec_Stale Spec_Toy Proof_HistHeap Proof_Eval Proof_Route Proof_Monad Proof_World Proof_Names Proof_Yield Proof_Update Proof_Min Proof_Fit Proof_Fit2 Proof_Fit3 Proof_Fit4 Proof_Sig Proof_Toy
  Prop_World Prop_Stale Prop_Data Prop_FitEffect.
Import ListNotations.
Local Open Scope R_scope.

(** ** the relation data_replaced *)
Lemma f2_refl {A} (R : A -> A -> Prop) l : (forall a, R a a) -> Forall2 R l l.
Proof. intros H. induction l; constructor; auto. Qed.
Lemma f2_trans {A} (R : A -> A -> Prop) : (forall a b c, R a b -> R b c -> R a c) -> forall l1 l2 l3, Forall2 R l1 l2 -> Forall2 R l2 l3 -> Forall2 R l1 l3.
Proof. intros T l1 l2 l3 H. revert l3. induction H; intros l3 K; inversion K; subst; constructor; eauto. Qed.
Lemma f2_upd {A} (R : A -> A -> Prop) l i a b : (forall a, R a a) -> nth_error l i = Some a -> R a b -> Forall2 R l (upd i b l).
Proof. intros F. revert i. induction l as [|x l IH]; intros [|i] H K; simpl in *; try discriminate; constructor; auto; [congruence|apply f2_refl; auto]. Qed.
Lemma with_data_self c : c = with_data c (c_data c). Proof. now destruct c. Qed.
Lemma dr_same w w' : same_objects w w' -> data_replaced w w'.
Proof.
  intros (A1 & A2 & A3 & A4 & A5 & A6 & A7 & A8). do 6 (split; [assumption|]). split; [exists []; rewrite app_nil_r; exact A1|].
  rewrite A3. apply f2_refl. intros c. exists (c_data c). apply with_data_self.
Qed.
Lemma dr_po : preorder data_replaced.
Proof.
  split; [intros w; apply dr_same; repeat split|]. intros a b c (A1 & A2 & A3 & A4 & A5 & A6 & (n1 & A7) & A8) (B1 & B2 & B3 & B4 & B5 & B6 & (n2 & B7) & B8).
  do 6 (split; [congruence|]). split; [exists (n1 ++ n2); rewrite B7, A7, app_assoc; reflexivity|].
  eapply f2_trans; [|exact A8|exact B8]. intros x y z (d & ->) (d' & ->). exists d'. reflexivity.
Qed.
Lemma dr_template_sum cid : pres data_replaced (ch_template_sum cid).
Proof. unfold ch_template_sum. pres_tac dr_po. Qed.
Lemma dr_bin_edges cid : pres data_replaced (ch_bin_edges cid).
Proof. unfold ch_bin_edges. apply (pres_bind dr_po); [apply (pres_get_chan dr_po)|]. intros c. destruct (c_tmpls c) as [|[p t] r]; pres_tac dr_po. Qed.
Lemma dr_alloc h : pres data_replaced (alloc_hist h).
Proof. intros w. unfold alloc_hist. cbn [fst]. do 6 (split; [reflexivity|]). split; [exists [h]; reflexivity|]. apply f2_refl. intros c. exists (c_data c). apply with_data_self. Qed.
Lemma dr_toy draws : pres data_replaced (generate_toy_dataset draws).
Proof.
  unfold generate_toy_dataset. pres_tac dr_po; [|apply dr_alloc]. unfold ch_toy. apply (pres_bind dr_po); [apply dr_template_sum|]. intros s. apply (pres_bind dr_po); [apply (pres_get_chan dr_po)|]. intros c.
  destruct (c_ttype c); [|apply (pres_raise dr_po)]. pres_tac dr_po. apply dr_bin_edges.
Qed.
Lemma dr_add_data kw : pres data_replaced (mct_add_data kw).
Proof.
  unfold mct_add_data. pres_tac dr_po. intros w. destruct (dget String.eqb (w_channels w) (fst a)) as [cid|]; [|apply dr_po].
  unfold bind, get_hist. destruct (nth_error (w_hists w) (snd a)) as [h|]; [|apply dr_po]. unfold on_chan. destruct (nth_error (w_chans w) cid) as [c|] eqn:C; [|apply dr_po].
  unfold ch_add_data. destruct (check_hist c h); cbn [fst].
  - do 6 (split; [reflexivity|]). split; [exists []; symmetry; apply app_nil_r|]. cbn [w_chans set_chans]. eapply f2_upd; [|exact C|].
    + intros c'. exists (c_data c'). apply with_data_self. + exists (Some (snd a)). reflexivity.
  - rewrite upd_self by exact C. do 6 (split; [reflexivity|]). split; [exists []; symmetry; apply app_nil_r|]. cbn [w_chans set_chans]. apply f2_refl. intros c'. exists (c_data c'). apply with_data_self.
Qed.
Lemma dr_nth w w' cid : data_replaced w w' -> nth_error (w_chans w') cid = match nth_error (w_chans w) cid with
  | Some c => Some (with_data c (match nth_error (w_chans w') cid with Some c' => c_data c' | None => None end)) | None => None end.
Proof.
  intros (_ & _ & _ & _ & _ & _ & _ & F). revert cid. induction F as [|c c' l l' (d & ->) F IH]; intros [|cid]; simpl; auto.
Qed.
Lemma dr_names w w' : data_replaced w w' -> param_names w' = param_names w.
Proof.
  intros D. pose proof D as (A1 & A2 & A3 & _). unfold param_names. rewrite A1, A2, A3. f_equal. apply flat_map_ext. intros [n cid]. cbn [fst snd]. rewrite (dr_nth w w' cid D).
  destruct (nth_error (w_chans w) cid); reflexivity.
Qed.
(** channels of w' are those of w with other data *)
Lemma dr_channel w w' i n c' : data_replaced w w' -> channel_at w' i n c' -> exists c d, channel_at w i n c /\ c' = with_data c d.
Proof.
  intros D (cid & H1 & H2). pose proof D as (_ & A2 & _). rewrite A2 in H1. rewrite (dr_nth w w' cid D) in H2. destruct (nth_error (w_chans w) cid) as [c|] eqn:C; [|discriminate].
  injection H2 as <-. eexists c, _. split; [exists cid; eauto|reflexivity].
Qed.
Lemma dr_total_eff w w' p : data_replaced w w' -> total_eff w' p = total_eff w p.
Proof.
  intros D. pose proof D as (_ & A2 & _). unfold total_eff. rewrite A2. f_equal. apply map_ext. intros [n cid]. cbn [snd]. rewrite (dr_nth w w' cid D). destruct (nth_error (w_chans w) cid); reflexivity.
Qed.

(** ** one toy fit *)
Lemma dro_refl f : data_replaced_only f f.
Proof. split; [apply dr_po|]. split; exists []; symmetry; apply app_nil_r. Qed.
Lemma dro_trans a b c : data_replaced_only a b -> data_replaced_only b c -> data_replaced_only a c.
Proof.
  intros (A1 & (x & A2) & y & A3) (B1 & (x' & B2) & y' & B3). split; [eapply dr_po; eassumption|].
  split; [exists (x ++ x'); rewrite B2, A2, app_assoc; reflexivity|exists (y ++ y'); rewrite B3, A3, app_assoc; reflexivity].
Qed.
Lemma prefix_app {A} (l l' : list A) : (length l <= length l')%nat -> (forall a, (a < length l)%nat -> nth_error l' a = nth_error l a) -> exists new, l' = l ++ new.
Proof.
  revert l'. induction l as [|x l IH]; intros l' L H; [exists l'; reflexivity|]. destruct l' as [|y l']; [simpl in L; lia|].
  destruct (IH l') as (new & ->); [simpl in L; lia| |exists new; pose proof (H 0%nat ltac:(simpl; lia)) as Z; simpl in Z; injection Z as ->; reflexivity].
  intros a A0. apply (H (S a)). simpl; lia.
Qed.
Lemma dro_world {A} (m : M A) f : pres data_replaced m -> data_replaced_only f (fst (on_world m f)).
Proof.
  intros P. specialize (P (fs_w f)). unfold on_world. destruct (m (fs_w f)) as (w & r). cbn [fst fs_w fs_fitters fs_pars] in *.
  split; [exact P|]. split; exists []; symmetry; apply app_nil_r.
Qed.
Lemma fr_trans {A B} (R : fstate -> fstate -> Prop) (m : F A) (k : A -> F B) f : (forall a b c, R a b -> R b c -> R a c) ->
  R f (fst (m f)) -> (forall a g, R g (fst (k a g))) -> R f (fst (fbind m k f)).
Proof. intros T H K. unfold fbind. destruct (m f) as (f1 & [a|e]); cbn [fst] in *; [|exact H]. eapply T; [exact H|apply K]. Qed.
Lemma toy_fit_only v id gh f : data_replaced_only f (fst (toy_fit v id gh f)).
Proof.
  unfold toy_fit. do 2 (apply fr_trans; [exact dro_trans|apply dro_world; first [apply dr_toy|apply dr_add_data]|intros ? ?; try clear f; try (match goal with g : fstate |- _ => rename g into f end)]).
  apply fr_trans; [exact dro_trans| |intros fi f0].
  { unfold fitter_new. cbn [fst]. split; [apply dr_po|]. cbn [fs_fitters fs_pars]. split; eexists; [reflexivity|symmetry; apply app_nil_r]. }
  apply fr_trans; [exact dro_trans| |intros r f1].
  { pose proof (C48_no_update (en_ext v) fi gh true None f0) as S.
    destruct (do_fit_frame (fun m => Ok m) any f0 ltac:(intros; exact I) (en_ext v) fi false gh true None ltac:(discriminate) f0 (frame_refl' _ any f0)) as (A1 & A2 & A3 & _).
    split; [apply dr_same; exact S|]. split; [exists []; rewrite app_nil_r; exact A1|]. apply prefix_app; auto. }
  apply fr_trans; [exact dro_trans| |intros p f2]; apply dro_refl.
Qed.
Lemma run_op inv {A} (m : M A) o : (forall w, fst (step inv o w) = fst (m w)) -> forall w, exists l, fst (m w) = run inv l w.
Proof. intros H w. exists [o]. unfold run. simpl. symmetry. apply H. Qed.
Definition runs (inv : mat -> res mat) (f f' : fstate) : Prop := exists l, fs_w f' = run inv l (fs_w f).
Lemma runs_trans inv a b c : runs inv a b -> runs inv b c -> runs inv a c.
Proof. intros (l & A) (l' & B). exists (l ++ l'). rewrite run_app, <- A. exact B. Qed.
Lemma runs_refl inv a : runs inv a a. Proof. exists []. reflexivity. Qed.
Lemma runs_world inv {A} (m : M A) o f : (forall w, fst (step inv o w) = fst (m w)) -> runs inv f (fst (on_world m f)).
Proof. intros H. destruct (run_op inv m o H (fs_w f)) as (l & E). exists l. rewrite <- E. unfold on_world. destruct (m (fs_w f)); reflexivity. Qed.
Lemma toy_fit_runs inv v id gh f : runs inv f (fst (toy_fit v id gh f)).
Proof.
  unfold toy_fit. apply fr_trans; [exact (runs_trans inv)|apply (runs_world inv _ (OToy (en_draws v)))|].
  { intros w. simpl. unfold bind. destruct (generate_toy_dataset (en_draws v) w) as (w' & [|]); reflexivity. }
  intros ds f1. apply fr_trans; [exact (runs_trans inv)|apply (runs_world inv _ (OAddData ds)); reflexivity|]. intros _ f2.
  apply fr_trans; [exact (runs_trans inv)|exists []; reflexivity|]. intros fi f3.
  apply fr_trans; [exact (runs_trans inv)| |].
  { destruct (do_fit_frame inv any f3 ltac:(intros; exact I) (en_ext v) fi false gh true None ltac:(discriminate) f3 (frame_refl' _ any f3)) as (_ & _ & _ & l & _ & E). exists l. exact E. }
  intros r f4. apply fr_trans; [exact (runs_trans inv)|apply (runs_refl inv)|]. intros p f5. apply runs_refl.
Qed.
(** the rows have one entry per parameter *)
Lemma do_fit_lengths E i g n lim s s' r : do_fit E i false g n lim s = (s', Ok r) ->
  exists p, nth_error (fs_pars s') (r_params r) = Some p /\ length (p_values p) = length (param_names (fs_w s)) /\ length (p_errors p) = length (param_names (fs_w s)).
Proof.
  intros D. destruct (do_fit_cases i false g n lim s) as [(e & ps & H)|(m & x & _ & MP & H)]; rewrite H in D; [discriminate|].
  unfold finish in D.
  pose proof (fun w' s' r => minimize_result nll E x g (mk_mstate (pars_new (param_names (fs_w s))) m) (fs_w s) w' s' r) as MR.
  destruct (play nll _ (fs_w s)) as (w1 & st & [r0|e]) eqn:P; cbn [fst snd] in *; [|discriminate]. specialize (MR w1 st r0 eq_refl). cbn [ms_m] in MR.
  apply minimize_keep in P as (_ & _ & _ & _ & L1 & L2). cbn [ms_p] in L1, L2. injection D as <- <-. cbn [fs_pars].
  exists (ms_p st). rewrite MR, MP, nth_error_app2 by lia. rewrite Nat.sub_diag. split; [reflexivity|]. split; [apply L1|apply L2]; apply repeat_length.
Qed.
Lemma toy_fit_lengths v id gh f f' row : toy_fit v id gh f = (f', Ok row) ->
  length (fst row) = length (param_names (fs_w f)) /\ length (snd row) = length (param_names (fs_w f)).
Proof.
  intros H. unfold toy_fit in H. unfold fbind at 1 in H. pose proof (dro_world (generate_toy_dataset (en_draws v)) f (dr_toy _)) as D1.
  destruct (on_world (generate_toy_dataset (en_draws v)) f) as (f1 & [ds|e]); [|discriminate]. cbn [fst] in D1.
  unfold fbind at 1 in H. pose proof (dro_world (mct_add_data ds) f1 (dr_add_data _)) as D2. destruct (on_world (mct_add_data ds) f1) as (f2 & [u|e]); [|discriminate]. cbn [fst] in D2.
  unfold fbind at 1 in H. cbn [fitter_new] in H. unfold fitter_new in H. cbn iota in H.
  unfold fbind at 1 in H. match type of H with context [do_fit ?a ?b ?c ?d ?e ?g ?s0] => destruct (do_fit a b c d e g s0) as (f4 & [r|er]) eqn:DF end; [|discriminate].
  destruct (do_fit_lengths _ _ _ _ _ _ _ _ DF) as (p & P1 & P2 & P3). cbn [fs_w] in P2, P3.
  unfold fbind at 1, get_pars in H. rewrite P1 in H. unfold fret in H. injection H as <- <-. cbn [fst snd].
  destruct D1 as (D1 & _), D2 as (D2 & _). rewrite <- (dr_names _ _ D1), <- (dr_names _ _ D2). auto.
Qed.

Section Loops.
  Variables (envs : nat -> env) (id : string) (gh : bool) (mt : nat) (R : fstate -> fstate -> Prop).
  Hypotheses (RR : forall f, R f f) (RT : forall a b c, R a b -> R b c -> R a c) (RF : forall v f, R f (fst (toy_fit v id gh f))).
  Lemma fails_pres k j f f' : fails envs id gh k j f f' -> R f f'.
  Proof. induction 1 as [|k j f f1 f2 e H _ _ IH]; auto. pose proof (RF (envs k) f) as Z. rewrite H in Z. eapply RT; eassumption. Qed.
  Lemma succeed_pres k f k' f' rows : succeed envs id gh mt k f k' f' rows -> R f f'.
  Proof.
    induction 1 as [|k j f f1 f2 row k' f' rows FA L H _ IH]; auto. pose proof (RF (envs (k + j)%nat) f1) as Z. rewrite H in Z. apply fails_pres in FA.
    eapply RT; [exact FA|]. eapply RT; [exact Z|exact IH].
  Qed.
  Lemma gives_up_pres k f f' e : gives_up envs id gh mt k f f' e -> R f f'.
  Proof. intros [FA|j f1 e' FA L N H]; [eapply fails_pres; exact FA|]. pose proof (RF (envs (k + j)%nat) f1) as Z. rewrite H in Z. eapply RT; [eapply fails_pres; exact FA|exact Z]. Qed.
End Loops.
Lemma succeed_count envs id gh mt k f k' f' rows : succeed envs id gh mt k f k' f' rows -> (k + length rows <= k' <= k + length rows * mt)%nat.
Proof. induction 1 as [|k j f f1 f2 row k' f' rows FA L H _ IH]; simpl; [lia|]. lia. Qed.
Lemma succeed_lengths envs id gh mt k f k' f' rows : succeed envs id gh mt k f k' f' rows ->
  Forall (fun row => length (fst row) = length (param_names (fs_w f)) /\ length (snd row) = length (param_names (fs_w f))) rows.
Proof.
  induction 1 as [|k j f f1 f2 row k' f' rows FA L H _ IH]; constructor.
  - apply toy_fit_lengths in H. apply (fails_pres _ _ _ _ dro_refl dro_trans (fun v => toy_fit_only v id gh)) in FA. destruct FA as (FA & _). rewrite <- (dr_names _ _ FA). exact H.
  - apply (fails_pres _ _ _ _ dro_refl dro_trans (fun v => toy_fit_only v id gh)) in FA. destruct FA as (FA & _).
    pose proof (toy_fit_only (envs (k + j)%nat) id gh f1) as (Z & _). rewrite H in Z. cbn [fst] in Z. rewrite <- (dr_names _ _ FA), <- (dr_names _ _ Z). exact IH.
Qed.
