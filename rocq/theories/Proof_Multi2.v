(** Several MultiChannelTemplates: attributes of the models, names of channels, caches, well-formedness *)
From Coq Require Import Reals String ZArith Bool Arith List Lra Lia.
From Verif Require Import Model_Num Model_Hist Model_Utility Model_Template Model_World Model_Ops Model_Multi
  Spec_Matrix Spec_Multi Proof_Hist Proof_Matrix Proof_Template Proof_HistHeap Proof_Monad Proof_World Proof_Eval Proof_Multi.
Import ListNotations.
Local Open Scope R_scope.

(** ** Own attributes of the MultiChannelTemplate *)
Definition sto (w w' : world) : Prop := store w' = store w.
Lemma sto_po : preorder sto. Proof. split; unfold sto; congruence. Qed.
Lemma sto_core {A} (m : M A) : pres core_eq m -> pres sto m.
Proof. intros H w. destruct (H w). unfold sto, store. congruence. Qed.
Lemma sto_on_tmpl {A} i (f : tmpl -> tmpl * res A) : pres sto (on_tmpl i f).
Proof. intros w. unfold on_tmpl. destruct (nth_error _ _); [|apply sto_po]. destruct (f t). reflexivity. Qed.
Lemma sto_on_hist {A} i (f : hist -> hist * res A) : pres sto (on_hist i f).
Proof. intros w. unfold on_hist. destruct (nth_error _ _); [|apply sto_po]. destruct (f h). reflexivity. Qed.
Lemma sto_on_chan {A} i (f : chan -> chan * res A) : pres sto (on_chan i f).
Proof. intros w. unfold on_chan. destruct (nth_error _ _); [|apply sto_po]. destruct (f c). reflexivity. Qed.
Lemma sto_alloc h : pres sto (alloc_hist h). Proof. intros w. reflexivity. Qed.
Definition own (o : op) : bool := match o with ODefChannel _ _ _ | ODefProcess _ | OConstraint _ _ _ => true | _ => false end.
Lemma sto_tmpl_reset i : pres sto (tmpl_reset i). Proof. unfold tmpl_reset. pres_tac sto_po. apply sto_on_tmpl. Qed.
Lemma sto_ch_update cid y n : pres sto (ch_update_parameters cid y n).
Proof. unfold ch_update_parameters. pres_tac sto_po. destruct a2 as [[[tid eff] yy] nn]. pres_tac sto_po; apply sto_on_tmpl. Qed.
Lemma sto_step inv o : own o = false -> pres sto (step inv o).
Proof.
  intros H. destruct o; try discriminate; cbn [step]; try (pres_tac sto_po;
    first [apply sto_alloc|apply sto_on_hist|apply sto_on_tmpl|apply sto_tmpl_reset|apply sto_core, core_nll|idtac]; fail).
  - intros w. unfold bind, get_hist. destruct (nth_error _ _); [|apply sto_po]. unfold lift. destruct (template_new _ _ _ _); reflexivity.
  - intros w. unfold mct_add_template. destruct (dget _ _ _); [|apply sto_po]. destruct (smem _ _); [|apply sto_po].
    apply (pres_bind sto_po); [apply (pres_get_tmpl sto_po)|intros; apply sto_on_chan].
  - unfold mct_add_data. apply (pres_forM sto_po). intros [n h] w. cbn [fst snd]. destruct (dget _ _ _); [|apply sto_po].
    apply (pres_bind sto_po); [apply (pres_get_hist sto_po)|intros; apply sto_on_chan].
  - intros w. apply (ft_store _ _ _ (frmT_set_yield p v w)).
  - intros w. apply (ft_store _ _ _ (frmT_reset w)).
  - intros w. apply (ft_store _ _ _ (frmT_update x w)).
  - pres_tac sto_po. unfold generate_asimov_dataset. pres_tac sto_po; [apply sto_core, core_asimov|apply sto_alloc].
  - pres_tac sto_po. unfold generate_toy_dataset. pres_tac sto_po; [apply sto_core, core_toy|apply sto_alloc].
Qed.
Lemma sto_cstep c : pres sto (cstep c).
Proof.
  destruct c; cbn [cstep]; try (intros w; reflexivity); pres_tac sto_po; try apply sto_on_chan; try apply sto_ch_update; try apply sto_alloc.
  - unfold ch_reset. pres_tac sto_po. apply sto_tmpl_reset.
  - apply sto_core, core_nll_contribution.
  - unfold bin_counts_from_param_values. pres_tac sto_po. apply sto_core. unfold expected_evts_per_bin, ch_fractions. pres_tac core_po. apply core_effs.
  - apply sto_core, core_asimov.
  - apply sto_core, core_toy.
Qed.

(** ** Channels stay where they are, with their names *)
Definition nm (w w' : world) : Prop :=
  forall i c, nth_error (w_chans w) i = Some c -> exists c', nth_error (w_chans w') i = Some c' /\ c_name c' = c_name c.
Lemma nm_po : preorder nm.
Proof. split; [intros w i c; eauto|]. intros a b c H K i x X. destruct (H _ _ X) as (y & Y & E). destruct (K _ _ Y) as (z & Z & E'). exists z. split; congruence. Qed.
Lemma nm_eq w w' : w_chans w' = w_chans w -> nm w w'. Proof. intros E i c H. rewrite E. eauto. Qed.
Lemma nm_core {A} (m : M A) : pres core_eq m -> pres nm m. Proof. intros H w. destruct (H w). now apply nm_eq. Qed.
Lemma nm_on_chan {A} i (f : chan -> chan * res A) : (forall c, c_name (fst (f c)) = c_name c) -> pres nm (on_chan i f).
Proof.
  intros F w. unfold on_chan. destruct (nth_error (w_chans w) i) as [c|] eqn:E; [|apply nm_po]. specialize (F c). destruct (f c) as [c' r]. simpl in *.
  intros j d D. simpl. destruct (Nat.eq_dec i j) as [->|N].
  - exists c'. rewrite upd_same by (apply nth_error_Some; congruence). split; congruence.
  - exists d. rewrite upd_other; auto.
Qed.
Lemma name_add_template c p tid t eff : c_name (fst (ch_add_template c p tid t eff)) = c_name c.
Proof. unfold ch_add_template. destruct (check_template _ _); [|reflexivity]. unfold add_template_raw. destruct (smem _ _); [reflexivity|].
  destruct (c_ttype c) as [k|]; cbn; repeat (match goal with |- context [if ?b then _ else _] => destruct b end); reflexivity. Qed.
Lemma name_add_data c hid h : c_name (fst (ch_add_data c hid h)) = c_name c.
Proof. unfold ch_add_data. destruct (check_hist _ _); reflexivity. Qed.
Lemma nm_app w w' l : w_chans w' = w_chans w ++ l -> nm w w'.
Proof. intros E i c H. rewrite E. exists c. split; auto. now apply nth_app_some. Qed.
Lemma nm_alloc h : pres nm (alloc_hist h). Proof. intros w. now apply nm_eq. Qed.
Lemma nm_step inv o : pres nm (step inv o).
Proof.
  destruct o; cbn [step]; try (pres_tac nm_po; try apply nm_alloc; fail).
  - intros w0. unfold on_hist. destruct (nth_error _ _); [|apply nm_po]. destruct (fill_op _ _ _). now apply nm_eq.
  - intros w0. unfold on_hist. destruct (nth_error _ _); [|apply nm_po]. destruct (fill_op _ _ _). now apply nm_eq.
  - intros w0. unfold bind, get_hist. destruct (nth_error _ _); [|apply nm_po]. unfold lift. destruct (template_new _ _ _ _); [now apply nm_eq|apply nm_po].
  - intros w0. unfold on_tmpl. destruct (nth_error _ _); [|apply nm_po]. destruct (params_setter _ _). now apply nm_eq.
  - intros w0. unfold on_tmpl. destruct (nth_error _ _); [|apply nm_po]. destruct (yield_setter _ _). now apply nm_eq.
  - intros w0. unfold on_tmpl. destruct (nth_error _ _); [|apply nm_po]. destruct (nui_setter _ _). now apply nm_eq.
  - intros w0. apply nm_eq, (ft_chans (fun i => tid = i)), frmT_tmpl_reset. reflexivity.
  - intros w0. unfold on_tmpl. destruct (nth_error _ _); [|apply nm_po]. destruct (t_add_cov_mat _ _ _). now apply nm_eq.
  - intros w0. unfold on_tmpl. destruct (nth_error _ _); [|apply nm_po]. destruct (t_add_variation _ _ _ _ _). now apply nm_eq.
  - intros w0. eapply nm_app. reflexivity.
  - intros w0. unfold define_process. destruct (smem _ _); now apply nm_eq.
  - intros w0. unfold mct_add_template. destruct (dget _ _ _); [|apply nm_po]. destruct (smem _ _); [|apply nm_po].
    apply (pres_bind nm_po); [apply (pres_get_tmpl nm_po)|intros; apply nm_on_chan; intros; apply name_add_template].
  - unfold mct_add_data. apply (pres_forM nm_po). intros [n h] w0. cbn [fst snd]. destruct (dget _ _ _); [|apply nm_po].
    apply (pres_bind nm_po); [apply (pres_get_hist nm_po)|intros; apply nm_on_chan; intros; apply name_add_data].
  - intros w0. unfold add_gaussian_constraint. destruct (smem _ _); now apply nm_eq.
  - intros w0. apply nm_eq, (ft_chans _ _ _ (frmT_set_yield p v w0)).
  - intros w0. apply nm_eq, (ft_chans _ _ _ (frmT_reset w0)).
  - intros w0. apply nm_eq, (ft_chans _ _ _ (frmT_update x w0)).
  - pres_tac nm_po. apply nm_core, core_nll.
  - pres_tac nm_po. unfold generate_asimov_dataset. pres_tac nm_po; [apply nm_core, core_asimov|apply nm_alloc].
  - pres_tac nm_po. unfold generate_toy_dataset. pres_tac nm_po; [apply nm_core, core_toy|apply nm_alloc].
Qed.
Lemma core_bin_counts cid x : pres core_eq (bin_counts_from_param_values cid x).
Proof. unfold bin_counts_from_param_values, expected_evts_per_bin, ch_fractions. pres_tac core_po. apply core_effs. Qed.
Lemma frmT_cupdate cid y n w : frmT (held w (fun i => i = cid)) w (fst (ch_update_parameters cid y n w)).
Proof. now apply frmT_ch_update. Qed.
Lemma frmT_creset cid w : frmT (held w (fun i => i = cid)) w (fst (ch_reset cid w)).
Proof. now apply frmT_ch_reset. Qed.
Lemma nm_cstep c : pres nm (cstep c).
Proof.
  destruct c; cbn [cstep]; try (pres_tac nm_po; fail).
  - intros w. eapply nm_app. reflexivity.
  - pres_tac nm_po. apply nm_on_chan. intros. apply name_add_template.
  - pres_tac nm_po. apply nm_on_chan. intros. apply name_add_data.
  - intros w. apply nm_eq, (ft_chans _ _ _ (frmT_creset cid w)).
  - intros w. apply nm_eq, (ft_chans _ _ _ (frmT_cupdate cid yields nui w)).
  - pres_tac nm_po. apply nm_core, core_nll_contribution.
  - pres_tac nm_po. apply nm_core, core_bin_counts.
  - pres_tac nm_po; [apply nm_core, core_asimov|apply nm_alloc].
  - pres_tac nm_po; [apply nm_core, core_toy|apply nm_alloc].
Qed.

(** ** Well-formedness *)
Definition mwf (s : mworld) : Prop := exists P, forall m, In m (model_new :: mw_models s) -> WFg P (load m (mw_heap s)).
Definition canonical (s : mworld) : Prop := store (mw_heap s) = model_new.

Lemma rebase P P' m w w' : WFg P' w' -> WFg P (load m w) -> nm w w' -> WFg (P' ++ w_procs w') (load m w').
Proof.
  intros W W0 N. constructor; simpl.
  - apply (wfg_hists _ W). - apply (wfg_tmpls _ W).
  - intros i c C. eapply chan_ok_ext; [apply hext_refl|apply text_refl| |apply (wfg_chans _ W _ _ C)]. intros p I. apply in_or_app; auto.
  - apply (wfg_names _ W0). - apply (wfg_ids _ W0).
  - intros n i I. destruct (wfg_dict _ W0 _ _ I) as (c & C & E). simpl in C. destruct (N _ _ C) as (c' & C' & E'). exists c'. split; congruence.
  - apply (wfg_procs _ W0). - apply (wfg_cons _ W0).
Qed.
Lemma wfg_weaken P P' w : incl P P' -> WFg P w -> WFg P' w.
Proof. intros I []. constructor; auto. intros. eapply chan_ok_ext; eauto using hext_refl, text_refl. intros q Q. apply in_app_or in Q as [Q|Q]; apply in_or_app; auto. Qed.

Lemma wf_chan_add {P} w cid p tid eff : WFg P w -> WFg (P ++ [p]) (fst (cstep (CAddTemplate cid p tid eff) w)).
Proof.
  intros W. assert (W1 : WFg (P ++ [p]) w) by (eapply wfg_weaken; [|exact W]; apply incl_appl, incl_refl). cbn [cstep]. unfold bind, get_tmpl.
  destruct (nth_error (w_tmpls w) tid) as [t|] eqn:T; [|exact W1]. unfold on_chan.
  destruct (nth_error (w_chans w) cid) as [c|] eqn:C; [|exact W1]. pose proof (wfg_chans w W1 _ _ C) as O.
  destruct (add_template_cases _ _ _ c p tid t eff O) as [[e E]|(N & B & R & K & dim & -> & E)]; rewrite E; simpl.
  - eapply wf_upd_chan; eauto.
  - eapply wf_upd_chan; eauto. destruct O. constructor; simpl; auto.
    + rewrite keys_app, co_keys. reflexivity.
    + rewrite keys_app, co_ekeys. reflexivity.
    + now apply NoDup_snoc.
    + apply incl_app; auto. intros x [<-|[]]. apply in_or_app. left. apply in_or_app. simpl. auto.
    + intros q i I. apply in_app_or in I as [I|[I|[]]].
      * destruct (co_tmpl _ _ I) as (t' & T1 & T2 & T3 & T4). exists t'. repeat split; auto. destruct K as [K|K]; congruence.
      * injection I as <- <-. exists t. auto.
    + intros H. destruct (c_tmpls c); discriminate.
Qed.
Lemma wf_chan_new {P} w n b r : WFg P w -> WFg P (fst (cstep (CNew n b r) w)).
Proof.
  intros []. constructor; simpl; auto.
  - intros i c C. apply nth_snoc in C as [[C _]|[-> ->]]; eauto. constructor; simpl; auto; try constructor; try discriminate.
    + intros x []. + intros p tid [].
  - intros m i I. destruct (wfg_dict _ _ I) as (c & C & E). exists c. split; auto. now apply nth_app_some.
Qed.
Lemma wf_cstep {P} w c : WFg P w -> exists P', incl P P' /\ WFg P' (fst (cstep c w)).
Proof.
  intros W. destruct c.
  2:{ exists (P ++ [process]). split; [apply incl_appl, incl_refl|now apply wf_chan_add]. }
  all: exists P; split; [apply incl_refl|]; revert w W; match goal with |- forall w, _ -> WFg ?Q (fst (cstep ?c w)) => change (pres (@keepsWF Q) (cstep c)) end; cbn [cstep].
  - intros w W. now apply wf_chan_new.
  - intros w W. unfold bind, get_hist. destruct (nth_error (w_hists w) hid) as [h|] eqn:H; [|exact W]. unfold on_chan.
    destruct (nth_error (w_chans w) cid) as [c|] eqn:C; [|exact W]. unfold ch_add_data.
    destruct (check_hist c h) eqn:E; simpl; (eapply wf_upd_chan; eauto); [|eapply wfg_chans; eauto].
    apply check_hist_eq in E as [E1 E2]. destruct (wfg_chans w W _ _ C). constructor; simpl; auto. intros i I. injection I as <-. exists h. auto.
  - unfold ch_reset. pres_tac (@wf_po P). apply wf_tmpl_reset.
  - unfold ch_update_parameters. pres_tac (@wf_po P). destruct a2 as [[[tid eff] yy] nn]. pres_tac (@wf_po P); apply wf_on_tmpl; intros; [apply yield_setter_ok|apply nui_setter_ok]; auto.
  - pres_tac (@wf_po P). apply pres_core_wf, core_nll_contribution.
  - pres_tac (@wf_po P). apply pres_core_wf, core_bin_counts.
  - apply pres_bind_val with (Q := hist_ok); [apply pres_core_wf, core_asimov|intros w h; apply asimov_hist_ok|].
    intros h H. pres_tac (@wf_po P). now apply wf_alloc_hist.
  - apply pres_bind_val with (Q := hist_ok); [apply pres_core_wf, core_toy|intros w h; apply toy_hist_ok|].
    intros h H. pres_tac (@wf_po P). now apply wf_alloc_hist.
Qed.

Lemma canonical_step inv o s : canonical s -> canonical (fst (mstep inv o s)).
Proof.
  intros C. destruct o as [|k o|c]; cbn [mstep]; [exact C| |].
  - destruct (nth_error (mw_models s) k); [|exact C]. destruct (step inv o _). reflexivity.
  - pose proof (sto_cstep c (mw_heap s)) as H. destruct (cstep c (mw_heap s)) as [w r]. simpl in *. unfold canonical. simpl. unfold sto in H. congruence.
Qed.
Lemma in_upd {A} i (a : A) l x : In x (upd i a l) -> x = a \/ In x l.
Proof. revert i. induction l as [|b l IH]; intros [|i]; simpl; auto; intros [H|H]; auto. destruct (IH _ H); auto. Qed.

Lemma mwf_step inv o s : inv_spec inv -> canonical s -> mwf s -> mwf (fst (mstep inv o s)).
Proof.
  intros IS CA (P & W). destruct o as [|k o|c]; cbn [mstep].
  - exists P. simpl. intros m [H|H]; [apply W; simpl; auto|]. apply in_app_or in H as [H|[H|[]]]; apply W; simpl; auto.
  - destruct (nth_error (mw_models s) k) as [m|] eqn:E; [|exists P; exact W].
    assert (IM : In m (model_new :: mw_models s)) by (simpl; right; eapply nth_error_In; eauto).
    pose proof (wf_step inv o IS (load m (mw_heap s)) (W m IM)) as W1. pose proof (nm_step inv o (load m (mw_heap s))) as N1.
    destruct (step inv o (load m (mw_heap s))) as [w r]. cbn [fst] in *. exists (P ++ w_procs w). intros m' H.
    assert (X : m' = store w \/ In m' (model_new :: mw_models s)).
    { destruct H as [H|H]; [simpl; auto|]. apply in_upd in H as [H|H]; simpl; auto. }
    destruct X as [->|X]; cbn [mw_heap]; rewrite load_load.
    + rewrite load_self. eapply wfg_weaken; [|exact W1]. apply incl_appl, incl_refl.
    + eapply rebase; [exact W1|apply (W m' X)|]. exact N1.
  - assert (HW : WFg P (mw_heap s)) by (rewrite <- (load_self (mw_heap s)), CA; apply W; simpl; auto).
    destruct (wf_cstep _ c HW) as (P' & IP & W1). pose proof (nm_cstep c (mw_heap s)) as N1.
    destruct (cstep c (mw_heap s)) as [w r]. cbn [fst] in *. exists (P' ++ w_procs w). intros m' H. eapply rebase; [exact W1|apply (W m' H)|exact N1].
Qed.
Lemma mwf_init : mwf mworld_init.
Proof. exists []. intros m [<-|[]]. apply wf_init. Qed.
Lemma reached_inv inv l : inv_spec inv -> mwf (mreached inv l) /\ canonical (mreached inv l).
Proof.
  intros IS. unfold mreached, mrun. assert (X : forall s, mwf s -> canonical s -> mwf (fold_left (fun s o => fst (mstep inv o s)) l s) /\ canonical (fold_left (fun s o => fst (mstep inv o s)) l s)).
  { induction l as [|o l IH]; intros s W C; simpl; [auto|]. apply IH; [now apply mwf_step|now apply canonical_step]. }
  apply X; [apply mwf_init|reflexivity].
Qed.
