(** Errors of legacy templates in every state, views of the likelihood, x0 and param_names *)
From Coq Require Import Reals String ZArith Bool Arith List Lra Lia.
From Verif Require Import Model_Num Model_Hist Model_Utility Model_Template Model_World Model_Legacy
  Spec_Hist Spec_Matrix Spec_Template Spec_Nll Spec_Legacy Proof_Hist Proof_HistHeap Proof_LegacyHist Proof_Matrix Proof_Linear Proof_Utility
  Proof_Template Proof_Template3 Proof_World Proof_Route Proof_Names Proof_Update Proof_Nll Proof_Valid
  Proof_Legacy Proof_Legacy2 Proof_Legacy3 Proof_Legacy4.
Import ListNotations.
Local Open Scope R_scope.

(** ** Only add_covariance_matrix changes the errors of a template *)
Definition same_err (a b : ltmpl) : Prop :=
  lt_nb b = lt_nb a /\ lt_counts b = lt_counts a /\ lt_errs_sq b = lt_errs_sq a /\ lt_cov b = lt_cov a /\
  lt_corr b = lt_corr a /\ lt_inv b = lt_inv a /\ lt_rel b = lt_rel a.
Lemma se_refl a : same_err a a. Proof. unfold same_err; tauto. Qed.
Lemma se_trans a b c : same_err a b -> same_err b c -> same_err a c.
Proof. unfold same_err. intros (?&?&?&?&?&?&?) (?&?&?&?&?&?&?). do 6 (split; [congruence|]). congruence. Qed.
Lemma se_lerrors a b n c e covs : same_err a b -> lerrors a n c e covs -> lerrors b n c e covs.
Proof. intros (E1&E2&E3&E4&E5&E6&E7). unfold lerrors. cbv zeta. rewrite E1, E2, E3, E4, E5, E6, E7. tauto. Qed.

Lemma se_on_tmpl w t f : (forall tm, same_err tm (fst (f tm))) -> keeps same_err (g_tmpls w) (g_tmpls (fst (on_tmpl w t f))).
Proof.
  intros H. unfold on_tmpl. destruct (nth_error (g_tmpls w) t) as [tm|] eqn:E; [|apply keeps_refl, se_refl].
  specialize (H tm). destruct (f tm) as [tm' r]. simpl in *. apply keeps_upd; [apply se_refl|]. intros b Eb. congruence.
Qed.
Lemma se_set_each {V} ts ids (f : V -> ltmpl -> ltmpl) vs : (forall v t, same_err t (f v t)) -> keeps same_err ts (set_each f ids vs ts).
Proof. intros H. apply set_each_keeps; auto using se_refl. apply se_trans. Qed.
Lemma se_lt_create w n v nb lim d ws : keeps same_err (g_tmpls w) (g_tmpls (fst (lt_create w n v nb lim d ws))).
Proof.
  unfold lt_create. destruct (hist1_new _ _ _ _) as [h|e]; [|apply keeps_refl, se_refl]. destruct (Nat.eqb _ _); [apply keeps_refl, se_refl|].
  simpl. apply keeps_app, se_refl.
Qed.
Ltac se := intros; unfold same_err; simpl; tauto.
Lemma se_set_nuis w st a : keeps same_err (g_tmpls w) (g_tmpls (fst (ls_set_nuis w st a))).
Proof. unfold ls_set_nuis. destruct (asplit _ _); [|apply keeps_refl, se_refl]. apply se_set_each. se. Qed.
Lemma se_set_nui_errs w st a : keeps same_err (g_tmpls w) (g_tmpls (fst (ls_set_nui_errs w st a))).
Proof. unfold ls_set_nui_errs. destruct (asplit _ _); [|apply keeps_refl, se_refl]. apply se_set_each. se. Qed.
Lemma se_update w st x e : keeps same_err (g_tmpls w) (g_tmpls (fst (ls_update w st x e))).
Proof.
  unfold ls_update. set (w1 := ls_set_yields _ _ _). pose proof (se_set_nuis w1 st (atail (length (ls_dict st)) x)) as H.
  assert (H1 : keeps same_err (g_tmpls w) (g_tmpls w1)) by (apply (se_set_each (g_tmpls w)); se). destruct (ls_set_nuis _ _ _) as [w2 [[]|er]]; simpl in *.
  - eapply keeps_trans; [exact se_trans|exact H1|]. eapply keeps_trans; [exact se_trans|exact H|].
    eapply keeps_trans; [exact se_trans| |apply se_set_nui_errs]. apply (se_set_each (g_tmpls w2) _ lt_set_yield_err). se.
  - eapply keeps_trans; [exact se_trans|exact H1|exact H].
Qed.
Lemma gstep_err inv w o : (forall t c, o <> GAddCov t c) -> keeps same_err (g_tmpls w) (g_tmpls (fst (gstep inv w o))).
Proof.
  assert (RF : forall ts, keeps same_err ts ts) by (intros; apply keeps_refl, se_refl).
  intros NA. destruct o; simpl gstep; try (destruct (aref_ok _ _); [|apply RF]).
  - apply RF.
  - unfold awrite. destruct (nth_error (g_bufs w) (a_buf a)) as [b|] eqn:E; [|apply RF]. destruct (Nat.ltb _ _); apply RF.
  - unfold new_hist. destruct (hist1_new _ _ _ _); apply RF.
  - unfold new_hist. destruct (hist1_from_binned _ _ _); apply RF.
  - destruct (nth_error (g_hists w) h) as [h0|]; [|apply RF]. destruct (hist1_fill _ _ _). apply RF.
  - unfold on_stack. destruct (nth_error _ _); [|apply RF]. unfold new_hist. destruct (ls_asimov _ _ _); apply RF.
  - pose proof (se_lt_create w name var nb limits data ws). destruct (lt_create _ _ _ _ _ _ _) as [w' r]. exact H.
  - exfalso. eapply NA; reflexivity.
  - apply se_on_tmpl. se.
  - apply se_on_tmpl. se.
  - apply se_on_tmpl. se.
  - apply se_on_tmpl. se.
  - apply se_on_tmpl. se.
  - unfold ls_create. do 2 (destruct (Z.ltb _ _); [apply RF|]). apply RF.
  - unfold ls_add_template. destruct (nth_error (g_stacks w) s) as [st|] eqn:E; [|apply RF]. destruct (nth_error (g_tmpls w) t); [|apply RF].
    destruct (_ && _); apply RF.
  - unfold ls_create_template. destruct (nth_error (g_stacks w) s) as [st|] eqn:E; [|apply RF].
    pose proof (se_lt_create w tid (ls_var st) (Z.of_nat (ls_nb st)) (ls_limits st) data ws) as H.
    destruct (lt_create _ _ _ _ _ _ _) as [w' [t|e]] eqn:L; exact H.
  - unfold on_stack. destruct (nth_error _ _); [|apply RF]. apply (se_set_each (g_tmpls w)). se.
  - unfold on_stack. destruct (nth_error _ _); [|apply RF]. apply (se_set_each (g_tmpls w)). se.
  - unfold on_stack. destruct (nth_error _ _); [|apply RF]. apply se_set_nuis.
  - unfold on_stack. destruct (nth_error _ _); [|apply RF]. apply se_set_nui_errs.
  - destruct (aref_ok w e); [|apply RF]. unfold on_stack. destruct (nth_error _ _); [|apply RF]. apply se_update.
  - unfold on_stack. destruct (nth_error _ _); [|apply RF]. apply (se_set_each (g_tmpls w) _ (fun _ : unit => lt_reset)). se.
  - unfold nll_create. destruct (nth_error (g_stacks w) s) as [st|]; [|apply RF]. destruct (nth_error (g_hists w) data); [|apply RF].
    destruct (ls_templates w st) as [[|t0 ts]|er]; apply RF.
Qed.

(** ** Every template has a proper covariance matrix *)
Definition GE (w : gworld) : Prop :=
  forall t tm, nth_error (g_tmpls w) t = Some tm -> exists c e covs, lerrors tm (lt_nb tm) c e covs.
Lemma GE_empty : GE g_empty. Proof. intros [|t] tm H; discriminate. Qed.
Lemma GE_new w n v nb lim d ws : GE w -> GE (fst (lt_create w n v nb lim d ws)).
Proof.
  intros G t tm H. destruct (lt_create w n v nb lim d ws) as [w' [t0|e]] eqn:L.
  - destruct (lt_create_new w n v nb lim d ws t0) as (tm0 & n0 & c & e & E & _ & _ & _ & _ & _ & _ & _ & NB & LE & _); [rewrite L; reflexivity|].
    rewrite L in E. cbn [fst] in *. rewrite E in H. destruct (Nat.lt_ge_cases t (length (g_tmpls w))) as [K|K].
    + rewrite nth_error_app1 in H by auto. eapply G; eauto.
    + rewrite nth_error_app2 in H by auto. destruct (t - length (g_tmpls w))%nat as [|[|?]]; try discriminate. simpl in H. injection H as <-. exists c, e, []. now rewrite NB.
  - assert (w' = w). { unfold lt_create in L. destruct (hist1_new _ _ _ _); [|congruence]. destruct (Nat.eqb _ _); congruence. } subst w'. eapply G; eauto.
Qed.
Lemma GE_keeps w w' : keeps same_err (g_tmpls w) (g_tmpls w') -> (forall t tm, nth_error (g_tmpls w') t = Some tm -> nth_error (g_tmpls w) t <> None) -> GE w -> GE w'.
Proof.
  intros K O G t tm H. specialize (O t tm H). destruct (nth_error (g_tmpls w) t) as [tm0|] eqn:E; [|congruence]. destruct (K t tm0 E) as (tm1 & E1 & S).
  assert (tm1 = tm) by congruence. subst tm1. destruct (G t tm0 E) as (c & e & covs & L). exists c, e, covs. replace (lt_nb tm) with (lt_nb tm0) by (symmetry; apply S). eapply se_lerrors; eauto.
Qed.
Lemma square_mat_dim n m C : (0 < n)%nat -> square n (mat_of m C) = true -> m = n.
Proof. intros _ H. unfold square in H. apply andb_true_iff in H as [H _]. apply Nat.eqb_eq in H. unfold mat_of in H. now rewrite map_length, seq_length in H. Qed.

Lemma GE_step inv w o : inv_spec inv -> valid_gcall o -> GE w -> GE (fst (gstep inv w o)).
Proof.
  intros I V G.
  assert (SAME : (forall t c, o <> GAddCov t c) -> length (g_tmpls (fst (gstep inv w o))) = length (g_tmpls w) -> GE (fst (gstep inv w o))).
  { intros NA LN. apply (GE_keeps w); auto; [now apply gstep_err|]. intros t tm H N. apply nth_error_None in N. rewrite <- LN in N. apply nth_error_None in N. congruence. }
  destruct o; try (apply SAME; [intros; discriminate|apply tmpls_count; intros; discriminate]).
  - simpl gstep. pose proof (GE_new w name var nb limits data ws G) as H. destruct (lt_create _ _ _ _ _ _ _) as [w' r]. exact H.
  - simpl gstep. unfold on_tmpl. destruct (nth_error (g_tmpls w) t) as [tm|] eqn:E; [|exact G]. destruct V as (n & C & -> & SY & PS).
    destruct (G t tm E) as (cc & e & covs & L). unfold lt_add_cov at 1. destruct (square (lt_nb tm) (mat_of n C)) eqn:SQ.
    + assert (SQ' := SQ). unfold square in SQ'. apply andb_true_iff in SQ' as [LQ _]. apply Nat.eqb_eq in LQ. unfold mat_of in LQ. rewrite map_length, seq_length in LQ. subst n.
      destruct (ladd_cov inv tm (lt_nb tm) cc e covs C I L SY PS) as (tm' & EA & L' & SO).
      assert (EA' := EA). unfold lt_add_cov in EA'. rewrite SQ in EA'. cbn [negb] in *. rewrite EA'. cbn [fst]. intros t' tmm H. cbn [set_gtmpls g_tmpls] in H.
      destruct (Nat.eq_dec t' t) as [->|N].
      * rewrite upd_same in H by (apply nth_error_Some; congruence). injection H as <-. exists cc, e, (covs ++ [C]). destruct SO as (_ & _ & -> & _). exact L'.
      * rewrite upd_other in H by auto. eapply G; eauto.
    + cbn [negb fst]. intros t' tmm H. cbn [set_gtmpls g_tmpls] in H. destruct (Nat.eq_dec t' t) as [->|N].
      * rewrite upd_same in H by (apply nth_error_Some; congruence). injection H as <-. eauto.
      * rewrite upd_other in H by auto. eapply G; eauto.
  - simpl gstep. unfold ls_create_template. destruct (nth_error (g_stacks w) s) as [st|]; [|exact G].
    pose proof (GE_new w tid (ls_var st) (Z.of_nat (ls_nb st)) (ls_limits st) data ws G) as H. destruct (lt_create _ _ _ _ _ _ _) as [w' [t|e]]; exact H.
Qed.
Lemma GE_run inv l : inv_spec inv -> forall w, Forall valid_gcall l -> GE w -> GE (grun inv w l).
Proof. intros I. induction l as [|o l IH]; intros w V G; simpl; auto. inversion V; subst. apply IH; auto. apply GE_step; auto. Qed.

(** ** Views exist *)
Lemma lviews inv l1 o l2 s d x T st h D : inv_spec inv -> Forall valid_gcall (l1 ++ o :: l2) ->
  let w1 := grun inv g_empty l1 in let w := grun inv w1 (o :: l2) in
  num_members w1 s T -> num_members w s T -> nth_error (g_stacks w) s = Some st ->
  nth_error (g_hists w) d = Some h -> nd_flat (h_counts h) = vec_of (ls_nb st) D ->
  exists v, lreads w s d x v /\ lprecisions w1 s v /\ v_nt v = T /\ v_nb v = ls_nb st.
Proof.
  intros I V w1 w NM1 NM ST HH HC. apply Forall_app in V as [V1 V2].
  assert (G1 : GE w1) by (apply GE_run; auto; apply GE_empty). assert (G2 : GE w) by (apply GE_run; auto).
  assert (S1 : GS w1) by (apply GS_run, GS_empty). assert (S2 : GS w) by (apply GS_run; auto).
  pose proof NM1 as (st1 & ST1 & L1). pose proof NM as (st' & ST' & L2). assert (st' = st) by congruence. subst st'.
  assert (NB : ls_nb st1 = ls_nb st). { destruct (ge_stacks _ _ (grun_ext inv (o :: l2) w1) s st1 ST1) as (st'' & E & SG). fold w in E. assert (st'' = st) by congruence. subst. symmetry. apply SG. }
  set (nb := ls_nb st) in *.
  set (P := fun k (q : (nat -> R) * (nat -> nat -> R)) => forall t tm, member w s k t -> nth_error (g_tmpls w) t = Some tm ->
      exists e covs, lerrors tm nb (fst q) e covs /\ forall a b, snd q a b = msum (stat_cov_of e :: covs) a b).
  destruct (fin_choice ((fun _ => 0), (fun _ _ => 0)) T P) as (f & F).
  { intros k Hk. destruct (nth_error (ls_ids st) k) as [t|] eqn:TI; [|apply nth_error_None in TI; unfold ls_ids in TI; rewrite map_length in TI; lia].
    destruct (S2 s st ST) as (_ & _ & FT). destruct (FT t (nth_error_In _ _ TI)) as (tm & TM & NT & _). destruct (G2 t tm TM) as (c & e & covs & LE). rewrite NT in LE.
    exists (c, msum (stat_cov_of e :: covs)). intros t' tm' (st' & ST'' & K') TM'. assert (st' = st) by congruence. subst st'. unfold ls_ids in TI. assert (t' = t) by congruence. subst t'. assert (tm' = tm) by congruence. subst tm'.
    exists e, covs. split; auto. }
  set (Q := fun k (q : nat -> nat -> R) => forall t tm, member w1 s k t -> nth_error (g_tmpls w1) t = Some tm ->
      exists c e covs, lerrors tm nb c e covs /\ inverse_of nb (correlation (msum (stat_cov_of e :: covs))) q).
  destruct (fin_choice (fun _ _ => 0) T Q) as (g & GG).
  { intros k Hk. destruct (nth_error (ls_ids st1) k) as [t|] eqn:TI; [|apply nth_error_None in TI; unfold ls_ids in TI; rewrite map_length in TI; lia].
    destruct (S1 s st1 ST1) as (_ & _ & FT). destruct (FT t (nth_error_In _ _ TI)) as (tm & TM & NT & _). destruct (G1 t tm TM) as (c & e & covs & LE). rewrite NT, NB in LE.
    pose proof LE as (_ & _ & _ & _ & _ & _ & _ & (PP & _ & IP) & _).
    exists PP. intros t' tm' (st' & ST'' & K') TM'. assert (st' = st1) by congruence. subst st'. unfold ls_ids in TI. assert (t' = t) by congruence. subst t'. assert (tm' = tm) by congruence. subst tm'.
    exists c, e, covs. split; auto. }
  exists (mk_cview nb T x (fun _ => 1) (fun k => fst (f k)) (fun k => snd (f k)) (fun k b => x (T + (k * nb + b))%nat) g D).
  split; [|split; [|split; reflexivity]].
  - exists st, h. split; auto. split; [simpl; congruence|]. split; auto. split; auto. intros k t tm M TM. simpl.
    assert (KL : (k < T)%nat). { destruct M as (st' & ST'' & K'). assert (st' = st) by congruence. subst st'. rewrite <- L2, <- (map_length snd). apply nth_error_Some. congruence. }
    repeat (split; [reflexivity|]). split; [|reflexivity]. exact (F k KL t tm M TM).
  - split; [exact NM1|]. intros k t tm M TM. simpl.
    assert (KL : (k < T)%nat). { destruct M as (st' & ST'' & K'). assert (st' = st1) by congruence. subst st'. rewrite <- L1, <- (map_length snd). apply nth_error_Some. congruence. }
    exact (GG k KL t tm M TM).
Qed.

(** ** x0 and param_names *)
Lemma concat_uniform {A} (ls : list (list A)) m : (forall l, In l ls -> length l = m) -> length (concat ls) = (length ls * m)%nat /\
  forall k l b, nth_error ls k = Some l -> (b < m)%nat -> nth_error (concat ls) (k * m + b) = nth_error l b.
Proof.
  induction ls as [|l0 ls IH]; intros H; simpl; [split; [reflexivity|intros [|k]; discriminate]|].
  destruct (IH (fun l I => H l (or_intror I))) as (L & N). assert (L0 := H l0 (or_introl eq_refl)). split; [rewrite app_length, L0, L; reflexivity|].
  intros [|k] l b K B; simpl in K.
  - injection K as ->. rewrite nth_error_app1 by lia. reflexivity.
  - rewrite nth_error_app2 by (simpl; lia). rewrite <- (N k l b K B). f_equal. simpl. lia.
Qed.
Lemma rows_ok_uniform (ls : mat) m : (forall l, In l ls -> length l = m) -> rows_ok m ls = true.
Proof. intros H. unfold rows_ok. apply forallb_forall. intros l I. apply Nat.eqb_eq. auto. Qed.

Lemma x0_names w f s st T nb : GS w -> nth_error (g_stacks w) s = Some st -> ln_stack f = s -> length (ls_dict st) = T -> (0 < T)%nat ->
  (forall k t p, member w s k t -> params_of w t = Some p -> length (p_nui p) = nb) ->
  exists x0 names, nll_x0 w f = Ok x0 /\ nll_names w f = Ok names /\ length x0 = (T + T * nb)%nat /\ length names = (T + T * ls_nb st)%nat /\
    forall k t, member w s k t -> exists p tm, params_of w t = Some p /\ nth_error (g_tmpls w) t = Some tm /\
      nth_error x0 k = Some (p_yield p) /\ nth_error names k = Some (String.append (lt_name tm) "_yield") /\
      (forall b, (b < nb)%nat -> nth_error x0 (T + (k * nb + b)) = nth_error (p_nui p) b) /\
      (forall b, (b < ls_nb st)%nat -> nth_error names (T + (k * ls_nb st + b)) = Some (String.append (String.append (lt_name tm) "_nui") (String.append "_" (decimal b)))).
Proof.
  intros G ST FS LT T0 NU. destruct (templates_ok w s st G ST) as (ts & E & LTS & TK).
  unfold nll_x0, nll_names. rewrite FS, ST, E. cbn [rbind].
  set (nuis := map (fun t => aread w (n_val (lt_nui t))) ts).
  assert (UN : forall l, In l nuis -> length l = nb).
  { intros l I. apply in_map_iff in I as (tm & <- & I). apply In_nth_error in I as (k & K).
    assert (KL : (k < length ts)%nat) by (apply nth_error_Some; congruence).
    destruct (nth_error (ls_ids st) k) as [t|] eqn:TI; [|apply nth_error_None in TI; unfold ls_ids in TI; rewrite map_length in TI; lia].
    destruct (TK k t TI) as (tm' & K1 & K2). assert (tm' = tm) by congruence. subst tm'.
    apply (NU k t (pview w tm)); [exists st; auto|now apply params_of_some]. }
  set (nm := map (fun t => map (fun i => String.append (String.append (lt_name t) "_nui") (String.append "_" (decimal i))) (seq 0 (ls_nb st))) ts).
  assert (UM : forall l, In l nm -> length l = ls_nb st) by (intros l I; apply in_map_iff in I as (tm & <- & I); now rewrite map_length, seq_length).
  destruct (concat_uniform nuis nb UN) as (CL & CN). destruct (concat_uniform nm (ls_nb st) UM) as (DL & DN).
  assert (LN : length nuis = T) by (unfold nuis; now rewrite map_length, LTS). assert (LM : length nm = T) by (unfold nm; now rewrite map_length, LTS).
  exists (map (fun t => y_val (lt_yield t)) ts ++ concat nuis), (map (fun t => String.append (lt_name t) "_yield") ts ++ concat nm).
  split. { destruct nuis as [|r rs] eqn:EN; [simpl in LN; lia|]. rewrite (rows_ok_uniform (r :: rs) (length r)); [reflexivity|]. intros l I. rewrite !UN by (auto; now left). reflexivity. }
  split; [rewrite flat_map_concat_map; reflexivity|]. split; [rewrite app_length, map_length, CL, LN, LTS, LT; reflexivity|]. split; [rewrite app_length, map_length, DL, LM, LTS, LT; reflexivity|].
  intros k t (st' & ST' & K). assert (st' = st) by congruence. subst st'. destruct (TK k t K) as (tm & K1 & K2).
  assert (KT : (k < T)%nat) by (rewrite <- LT, <- LTS; apply nth_error_Some; congruence).
  exists (pview w tm), tm. split; [now apply params_of_some|]. split; auto.
  split; [rewrite nth_error_app1 by (rewrite map_length; lia); rewrite (map_nth_error _ _ _ K1); reflexivity|].
  split; [rewrite nth_error_app1 by (rewrite map_length; lia); rewrite (map_nth_error _ _ _ K1); reflexivity|]. split.
  - intros b Hb. rewrite nth_error_app2 by (rewrite map_length; lia). rewrite map_length, LTS, LT. replace (T + (k * nb + b) - T)%nat with (k * nb + b)%nat by lia.
    rewrite (CN k (aread w (n_val (lt_nui tm))) b); auto. unfold nuis. now rewrite (map_nth_error _ _ _ K1).
  - intros b Hb. rewrite nth_error_app2 by (rewrite map_length; lia). rewrite map_length, LTS, LT. replace (T + (k * ls_nb st + b) - T)%nat with (k * ls_nb st + b)%nat by lia.
    rewrite (DN k (map (fun i => String.append (String.append (lt_name tm) "_nui") (String.append "_" (decimal i))) (seq 0 (ls_nb st))) b); auto.
    + now rewrite map_seq_nth.
    + unfold nm. now rewrite (map_nth_error _ _ _ K1).
Qed.

(** ** The values of a container *)
Definition lcore (w : gworld) (s : nat) (x : nat -> R) (v : cview) : Prop :=
  forall k t tm, member w s k t -> nth_error (g_tmpls w) t = Some tm ->
      v_yield v k = x k /\ v_eff v k = 1 /\
      (exists e covs, lerrors tm (v_nb v) (v_cnt v k) e covs /\
         forall a b, v_cov v k a b = msum (stat_cov_of e :: covs) a b) /\
      forall b, (b < v_nb v)%nat -> v_th v k b = x (v_nt v + (k * v_nb v + b))%nat.
Lemma lcore_exists w s st x : GE w -> GS w -> nth_error (g_stacks w) s = Some st ->
  exists v, v_nt v = length (ls_dict st) /\ v_nb v = ls_nb st /\ lcore w s x v.
Proof.
  intros G S ST. set (T := length (ls_dict st)). set (nb := ls_nb st).
  set (P := fun k (q : (nat -> R) * (nat -> nat -> R)) => forall t tm, member w s k t -> nth_error (g_tmpls w) t = Some tm ->
      exists e covs, lerrors tm nb (fst q) e covs /\ forall a b, snd q a b = msum (stat_cov_of e :: covs) a b).
  destruct (fin_choice ((fun _ => 0), (fun _ _ => 0)) T P) as (f & F).
  { intros k Hk. destruct (nth_error (ls_ids st) k) as [t|] eqn:TI; [|apply nth_error_None in TI; unfold ls_ids in TI; rewrite map_length in TI; unfold T in *; lia].
    destruct (S s st ST) as (_ & _ & FT). destruct (FT t (nth_error_In _ _ TI)) as (tm & TM & NT & _). destruct (G t tm TM) as (c & e & covs & LE). rewrite NT in LE.
    exists (c, msum (stat_cov_of e :: covs)). intros t' tm' (st' & ST'' & K') TM'. assert (st' = st) by congruence. subst st'. unfold ls_ids in TI. assert (t' = t) by congruence. subst t'. assert (tm' = tm) by congruence. subst tm'.
    exists e, covs. split; auto. }
  exists (mk_cview nb T x (fun _ => 1) (fun k => fst (f k)) (fun k => snd (f k)) (fun k b => x (T + (k * nb + b))%nat) (fun _ _ _ => 0) (fun _ => 0)).
  split; [reflexivity|]. split; [reflexivity|]. intros k t tm M TM. simpl.
  assert (KL : (k < T)%nat). { destruct M as (st' & ST'' & K'). assert (st' = st) by congruence. subst st'. unfold T. rewrite <- (map_length snd). apply nth_error_Some. congruence. }
  repeat (split; [reflexivity|]). split; [|reflexivity]. exact (F k KL t tm M TM).
Qed.

Lemma lvalues w s st x v : GS w -> nth_error (g_stacks w) s = Some st -> v_nt v = length (ls_dict st) -> lcore w s x v -> ldomain v ->
  (forall k t p, member w s k t -> params_of w t = Some p -> p_yield p = Fin (x k) /\ p_nui p = vec_of (v_nb v) (fun b => x (v_nt v + (k * v_nb v + b))%nat)) ->
  ls_values w st = Ok (vec_of (v_nb v) (expected v)).
Proof.
  intros G ST NT C (B0 & T0 & TN) PV. destruct (templates_ok w s st G ST) as (ts & E & LTS & TK).
  unfold ls_values. rewrite E. cbn [rbind].
  rewrite (mapr_nth _ _ (fun k => vec_of (v_nb v) (fun b => x k * (v_varied v k b / v_total v k)))).
  - cbn [rbind]. rewrite LTS, <- NT.
    assert (RM : map (fun k => vec_of (v_nb v) (fun b => x k * (v_varied v k b / v_total v k))) (seq 0 (v_nt v)) = rmat_of (v_nt v) (v_nb v) (fun k b => x k * (v_varied v k b / v_total v k))) by reflexivity.
    rewrite RM. unfold col_sums. destruct (rmat_of (v_nt v) (v_nb v) _) as [|r rs] eqn:ER.
    { apply (f_equal (@length _)) in ER. unfold rmat_of in ER. rewrite map_length, seq_length in ER. simpl in ER. lia. }
    assert (LR : length r = v_nb v). { assert (I : In r (rmat_of (v_nt v) (v_nb v) (fun k b => x k * (v_varied v k b / v_total v k)))) by (rewrite ER; now left).
      unfold rmat_of in I. apply in_map_iff in I as (k & <- & _). apply vec_of_length. }
    rewrite rows_ok_uniform by (intros l I; rewrite <- ER in I; unfold rmat_of in I; apply in_map_iff in I as (k & <- & _); now rewrite vec_of_length).
    rewrite LR, <- ER. f_equal. unfold vec_of. apply map_ext_in. intros j Hj. apply in_seq in Hj.
    assert (LL : length (rmat_of (v_nt v) (v_nb v) (fun k b => x k * (v_varied v k b / v_total v k))) = v_nt v) by (unfold rmat_of; now rewrite map_length, seq_length).
    rewrite LL. transitivity (xsum_n (v_nt v) (fun i => Fin (x i * (v_varied v i j / v_total v i)))).
    + unfold xsum_n. f_equal. apply map_ext_in. intros i Hi. apply in_seq in Hi. rewrite mnth_rmat by lia. reflexivity.
    + rewrite xsum_n_sumn. f_equal. unfold expected. apply sumn_ext. intros k Hk.
      destruct (nth_error (ls_ids st) k) as [t|] eqn:TI; [|apply nth_error_None in TI; unfold ls_ids in TI; rewrite map_length in TI; lia].
      destruct (TK k t TI) as (tm & _ & T2). destruct (C k t tm) as (Y & EF & _); [exists st; auto|exact T2|]. rewrite Y, EF. ring.
  - intros k tm K. assert (KL : (k < v_nt v)%nat) by (rewrite NT, <- LTS; apply nth_error_Some; congruence).
    destruct (nth_error (ls_ids st) k) as [t|] eqn:TI; [|apply nth_error_None in TI; unfold ls_ids in TI; rewrite map_length in TI; lia].
    destruct (TK k t TI) as (tm' & T1 & T2). assert (tm' = tm) by congruence. subst tm'.
    assert (MB : member w s k t) by (exists st; auto).
    destruct (C k t tm MB T2) as (_ & _ & (e & covs & LE & CV) & TH). destruct (PV k t _ MB (params_of_some _ _ _ T2)) as (PY & PN). cbn in PY, PN.
    unfold lt_values. rewrite PN, PY.
    rewrite (vec_of_ext _ _ (v_th v k)) by (intros b Hb; rewrite TH by auto; reflexivity).
    assert (VE : forall b, varied (v_cnt v k) (rel_error (msum (stat_cov_of e :: covs)) (v_cnt v k)) (v_th v k) b = v_varied v k b).
    { intros b. unfold varied, v_varied. rewrite (rel_error_ext _ (v_cov v k)); auto. }
    rewrite (lfractions _ _ _ _ _ _ LE).
    + cbn [rbind]. f_equal. unfold vec_of. rewrite map_map. apply map_ext_in. intros b Hb. unfold xmul. f_equal. rewrite VE. f_equal. f_equal. unfold v_total. apply sumn_ext. auto.
    + rewrite (sumn_ext _ _ (v_varied v k)); [apply TN; auto|]. auto.
Qed.
Lemma ls_values_same w w' st : g_tmpls w' = g_tmpls w -> g_bufs w' = g_bufs w -> ls_values w' st = ls_values w st.
Proof.
  intros E1 E2. unfold ls_values, ls_templates. assert (A : forall t, g_tmpl w' t = g_tmpl w t) by (intros; unfold g_tmpl; now rewrite E1).
  assert (B : forall t, lt_values w' t = lt_values w t) by (intros; unfold lt_values; now rewrite (aread_bufs w w') by auto).
  assert (M : forall {A B} (f g : A -> res B) l, (forall a, f a = g a) -> mapr f l = mapr g l) by (intros ? ? f g l H; induction l; simpl; auto; rewrite H, IHl; reflexivity).
  rewrite (M _ _ _ _ (ls_ids st) A). destruct (mapr (g_tmpl w) (ls_ids st)) as [ts|]; [|reflexivity]. cbn [rbind]. rewrite (M _ _ _ _ ts B). reflexivity.
Qed.
