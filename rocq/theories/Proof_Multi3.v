(** Several MultiChannelTemplates: the caches stay current in disciplined histories; what a model's answers depend on *)
From Coq Require Import Reals String ZArith Bool Arith List Lra Lia.
From Verif Require Import Model_Num Model_Hist Model_Utility Model_Template Model_World Model_Ops Model_Multi
  Spec_Matrix Spec_Multi Proof_Hist Proof_Matrix Proof_Template Proof_HistHeap Proof_Monad Proof_World Proof_Eval Proof_Multi Proof_Multi2.
Import ListNotations.
Local Open Scope R_scope.

(** ** Which channels have cached values *)
Definition cached (w : world) (cid : nat) : Prop :=
  (exists o v, In ((cid, o), v) (w_cache_pi w)) \/ (exists v, In (cid, v) (w_cache_eff w)) \/ (exists v, In (cid, v) (w_cache_inv w)).
Definition grow (E : nat -> Prop) (w w' : world) : Prop := forall cid, cached w' cid -> cached w cid \/ E cid.
Lemma grow_po E : preorder (grow E).
Proof. split; unfold grow; auto. intros a b c H K i X. destruct (K _ X); auto. Qed.
Lemma same_cached w w' : same_cache w w' -> forall cid, cached w' cid -> cached w cid.
Proof. intros (A & B & C) cid. unfold cached. rewrite A, B, C. auto. Qed.
Lemma grow_same {E A} (m : M A) : pres same_cache m -> pres (grow E) m.
Proof. intros H w cid X. left. eapply same_cached; eauto. Qed.
Lemma grow_quiet {E A} (m : M A) : pres quiet m -> pres (grow E) m.
Proof. intros H. apply grow_same. intros w. apply quiet_same_cache, H. Qed.

Lemma lru_keys {K V} (eqb : K -> K -> bool) (eqb_eq : forall a b, eqb a b = true <-> a = b) (c : list (K * V)) k r k' v :
  In (k', v) (fst (lru_call eqb c k r)) -> In (k', v) c \/ k' = k.
Proof.
  unfold lru_call. destruct (dget eqb c k) as [v0|] eqn:D.
  - intros [H|H]; [injection H as <- _; auto|]. left. eapply lru_del_in; eauto.
  - destruct r as [v0|e]; cbn [fst]; auto. intros H. apply firstn_in in H as [H|H]; [injection H as <- _; auto|auto].
Qed.

Section Grow.
  Context {E : nat -> Prop}.
  Lemma grow_pi cid o : E cid -> pres (grow E) (process_indices cid o).
  Proof.
    intros X. unfold process_indices. pres_tac (grow_po E). intros w cid' H.
    match type of H with context [lru_call ?e ?c ?k ?r] => pose proof (lru_keys e pi_key_eqb_eq c k r) as L; destruct (lru_call e c k r) as [c' r'] end.
    simpl in *. destruct H as [(q & v & H)|[H|H]]; [|left; right; auto|left; right; auto].
    apply L in H as [H|H]; [left; left; eauto|]. injection H as -> ->. auto.
  Qed.
  Lemma grow_eff cid : E cid -> pres (grow E) (efficiencies_as_array cid).
  Proof.
    intros X. unfold efficiencies_as_array. pres_tac (grow_po E). intros w cid' H.
    match type of H with context [lru_call ?e ?c ?k ?r] => pose proof (lru_keys e Nat.eqb_eq c k r) as L; destruct (lru_call e c k r) as [c' r'] end.
    simpl in *. destruct H as [H|[(v & H)|H]]; [left; left; auto| |left; right; auto].
    apply L in H as [H| ->]; [left; right; left; eauto|]. auto.
  Qed.
  Lemma grow_inv cid : E cid -> pres (grow E) (block_diag_inv_corr_mat cid).
  Proof.
    intros X. unfold block_diag_inv_corr_mat. pres_tac (grow_po E). intros w cid' H.
    match type of H with context [lru_call ?e ?c ?k ?r] => pose proof (lru_keys e Nat.eqb_eq c k r) as L; destruct (lru_call e c k r) as [c' r'] end.
    simpl in *. destruct H as [H|[H|(v & H)]]; [left; left; auto|left; right; auto|].
    apply L in H as [H| ->]; [left; right; right; eauto|]. auto.
  Qed.
  Lemma grow_expected cid y n : E cid -> pres (grow E) (expected_evts_per_bin cid y n).
  Proof. intros X. unfold expected_evts_per_bin, ch_fractions. pres_tac (grow_po E). now apply grow_eff. Qed.
  Lemma grow_contribution cid y n : E cid -> pres (grow E) (nll_contribution cid y n).
  Proof.
    intros X. unfold nll_contribution. pres_tac (grow_po E). destruct (c_data a); [|apply (pres_raise (grow_po E))].
    pres_tac (grow_po E); [now apply grow_expected|]. unfold gauss_term. pres_tac (grow_po E). now apply grow_inv.
  Qed.
  Lemma grow_bin_counts cid x : E cid -> pres (grow E) (bin_counts_from_param_values cid x).
  Proof. intros X. unfold bin_counts_from_param_values. pres_tac (grow_po E). now apply grow_expected. Qed.
End Grow.

Lemma grow_per_channel x w : grow (dict_ids w) w (fst (generate_per_channel_parameters x w)).
Proof.
  unfold generate_per_channel_parameters. unfold bind at 1, gets at 1. unfold bind at 1, gets at 1. unfold bind at 1, gets at 1. unfold bind at 1, gets at 1.
  apply bind_at with (R := grow (dict_ids w)); [apply grow_po| |intros; apply (grow_po (dict_ids w))].
  apply mapM_at with (R := grow (dict_ids w)) (I := fun _ => True); auto; [apply grow_po|].
  intros cid w1 H _. apply dict_ids_in in H. apply (pres_bind (grow_po _)); [now apply grow_pi|intros; apply (pres_lift (grow_po _))].
Qed.
Lemma grow_nll x w : grow (dict_ids w) w (fst (nll x w)).
Proof.
  unfold nll. apply bind_at with (R := grow (dict_ids w)); [apply grow_po|apply grow_per_channel|]. intros yn _.
  pose proof (core_per_channel x w) as C. set (w1 := fst (generate_per_channel_parameters x w)) in *.
  unfold bind at 1, gets at 1. apply bind_at with (R := grow (dict_ids w)); [apply grow_po| |].
  - apply mapM_at with (R := grow (dict_ids w)) (I := fun _ => True); auto; [apply grow_po|].
    intros q w2 H _. destruct q as [cid q]. apply in_combine_l in H. rewrite (ce_channels _ _ C) in H. apply dict_ids_in in H. now apply grow_contribution.
  - intros cs _. assert (X : pres (grow (dict_ids w)) (names <- gets w_cnames ;;; terms <- mapM (fun p w => (w, constraint_term w x p)) names ;;; ret (fold_left xadd (cs ++ terms) (Fin 0)))).
    { pres_tac (grow_po (dict_ids w)). apply (pres_read (grow_po _)). }
    apply X.
Qed.
Lemma grow_update x w : grow (dict_ids w) w (fst (update_parameters x w)).
Proof.
  unfold update_parameters. apply bind_at with (R := grow (dict_ids w)); [apply grow_po|apply grow_per_channel|]. intros yn _.
  apply (pres_bind (grow_po _)); [apply (pres_gets (grow_po _))|]. intros chs. apply (pres_forM (grow_po _)). intros q. apply grow_quiet, quiet_ch_update.
Qed.

(** ** Coherence *)
Lemma coh_load m w : coh w -> coh (load m w). Proof. intros [A B C]. constructor; auto. Qed.
Lemma cached_load m w cid : cached (load m w) cid <-> cached w cid. Proof. reflexivity. Qed.

Lemma oget_frame (ts ts' : list tmpl) (q : list (string * nat)) l : Forall2 (fun p t => oget ts (snd p) = Ok t) q l ->
  (forall p t, In p q -> nth_error ts (snd p) = Some t -> nth_error ts' (snd p) = Some t) -> Forall2 (fun p t => oget ts' (snd p) = Ok t) q l.
Proof.
  intros L. induction L as [|p t q l T L IH]; intros H; constructor; [|apply IH; intros; apply H; simpl; auto].
  apply oget_ok in T. unfold oget. rewrite (H p t); simpl; auto.
Qed.
Lemma coh_frm Cs Ts Hs w w' : frm Cs Ts Hs w w' -> same_cache w w' -> (forall cid, cached w cid -> ~ Cs cid) ->
  (forall cid c p tid, cached w cid -> nth_error (w_chans w) cid = Some c -> In (p, tid) (c_tmpls c) -> ~ Ts tid) -> coh w -> coh w'.
Proof.
  intros [FC FT FH] (S1 & S2 & S3) NC NT [A B C]. constructor.
  - intros cid o v I. rewrite S1 in I. destruct (A _ _ _ I) as (c & H & K). exists c. split; auto. apply FC; auto. apply NC. left. eauto.
  - intros cid v I. rewrite S2 in I. destruct (B _ _ I) as (c & H & K). exists c. split; auto. apply FC; auto. apply NC. right. left. eauto.
  - intros _ cid v I. rewrite S3 in I. assert (X : cached w cid) by (right; right; eauto). destruct (C eq_refl _ _ I) as (c & H & K). exists c. split; [apply FC; auto|].
    unfold inv_res in *. destruct (mapr (fun p => oget (w_tmpls w) (snd p)) (c_tmpls c)) as [l|] eqn:L; [|discriminate].
    enough (Y : mapr (fun p => oget (w_tmpls w') (snd p)) (c_tmpls c) = Ok l) by (rewrite Y; exact K).
    apply mapr_ok. apply mapr_ok in L. eapply oget_frame; [exact L|]. intros [p tid] t Q T. apply FT; auto. exact (NT cid c p tid X H Q).
Qed.

Lemma quiet_chan_new n b r : pres quiet (cstep (CNew n b r)).
Proof. intros w. constructor; simpl; eauto. intros i c H. exists c. split; auto. now apply nth_app_some. Qed.
Lemma quiet_chan_data cid hid : pres quiet (cstep (CAddData cid hid)).
Proof.
  cbn [cstep]. pres_tac quiet_po. intros w. unfold on_chan. destruct (nth_error (w_chans w) cid) as [c|] eqn:C; [|apply quiet_po].
  assert (X : c_tmpls (fst (ch_add_data c hid a)) = c_tmpls c /\ c_effs (fst (ch_add_data c hid a)) = c_effs c) by (unfold ch_add_data; destruct (check_hist c a); auto).
  destruct (ch_add_data c hid a) as [c' r]. destruct X as [X1 X2]. constructor; simpl; eauto. intros j d D. destruct (Nat.eq_dec cid j) as [->|N].
  - exists c'. rewrite upd_same by (apply nth_error_Some; congruence). simpl in *. repeat split; congruence.
  - exists d. rewrite upd_other; auto.
Qed.
Lemma quiet_chan_reset cid : pres quiet (cstep (CReset cid)).
Proof. cbn [cstep]. unfold ch_reset. pres_tac quiet_po. apply quiet_tmpl_reset. Qed.
Lemma quiet_chan_asimov cid b : pres quiet (cstep (CAsimov cid b)).
Proof.
  cbn [cstep]. unfold ch_asimov. pres_tac quiet_po; try apply quiet_alloc; try apply quiet_template_sum. destruct (c_ttype _); pres_tac quiet_po. apply quiet_bin_edges.
Qed.
Lemma quiet_chan_toy cid d : pres quiet (cstep (CToy cid d)).
Proof.
  cbn [cstep]. unfold ch_toy. pres_tac quiet_po; try apply quiet_alloc; try apply quiet_template_sum. destruct (c_ttype _); pres_tac quiet_po. apply quiet_bin_edges.
Qed.
Definition cmodifies (c : cop) : bool := match c with CAddTemplate _ _ _ _ => true | _ => false end.
Definition cevaluates (c : cop) : bool := match c with CNll _ _ _ | CBinCounts _ _ => true | _ => false end.
Lemma quiet_cstep c : cmodifies c = false -> cevaluates c = false -> pres quiet (cstep c).
Proof.
  destruct c; simpl; try discriminate; intros _ _; [apply quiet_chan_new|apply quiet_chan_data|apply quiet_chan_reset|apply quiet_ch_update|apply quiet_chan_asimov|apply quiet_chan_toy].
Qed.
Lemma coh_cstep c : cmodifies c = false -> pres (keepsCoh true) (cstep c).
Proof.
  intros Hm. destruct (cevaluates c) eqn:He; [|now apply pres_quiet_coh, quiet_cstep]. destruct c; simpl in He; try discriminate; cbn [cstep].
  - apply (pres_bind coh_po); [|intros; apply (pres_ret coh_po)].
    apply (pres_pure_coh _ (fun w => c <- oget (w_chans w) cid ;; contribution_res w c yields nui)). intros; apply pure_contribution.
  - apply (pres_bind coh_po); [|intros; apply (pres_ret coh_po)]. unfold bin_counts_from_param_values. pres_tac (@coh_po true).
    eapply (pres_pure_coh _ (fun w => _)). intros; apply pure_expected.
Qed.
Lemma same_cache_on_chan {A} i (f : chan -> chan * res A) : pres same_cache (on_chan i f).
Proof. intros w. unfold on_chan. destruct (nth_error (w_chans w) i); [|apply same_cache_po]. destruct (f c). repeat split. Qed.
Lemma same_cache_cstep c : cevaluates c = false -> pres same_cache (cstep c).
Proof.
  intros He. destruct (cmodifies c) eqn:Hm; [|intros w; apply quiet_same_cache, quiet_cstep; auto].
  destruct c; simpl in *; try discriminate. pres_tac same_cache_po. apply same_cache_on_chan.
Qed.

(** the caches hold current values, and only of channels that have been evaluated *)
Definition cinv (ev : nat -> Prop) (s : mworld) : Prop := coh (mw_heap s) /\ forall cid, cached (mw_heap s) cid -> ev cid.

Lemma cinv_step inv ev o s : cinv ev s -> (forall cid, completes_channel s o cid -> ~ ev cid) ->
  cinv (fun cid => ev cid \/ evaluates_channel s o cid) (fst (mstep inv o s)).
Proof.
  intros [C K] D. destruct o as [|k o|c]; cbn [mstep].
  - split; simpl; auto.
  - destruct (nth_error (mw_models s) k) as [m|] eqn:M; [|split; simpl; auto].
    assert (C1 : coh (load m (mw_heap s))) by now apply coh_load.
    assert (G : coh (fst (step inv o (load m (mw_heap s)))) /\ grow (fun cid => evaluates_channel s (MCall k o) cid) (load m (mw_heap s)) (fst (step inv o (load m (mw_heap s))))).
    { split.
      - destruct (modifies o) eqn:Hm; [|now apply coh_step]. eapply coh_frm; [apply frm_step|apply same_cache_step; destruct o; auto; discriminate| | |exact C1].
        + intros cid X Y. apply K in X. destruct o; try discriminate; simpl in Y; try contradiction. apply (D cid); auto. exists m. auto.
        + intros cid c p tid X CC T Y. apply K in X. destruct o; try discriminate; simpl in Y; try contradiction; subst; apply (D cid); auto; exists c, p; auto.
      - destruct (evaluates o) eqn:He; [|apply grow_same, same_cache_step; auto].
        assert (EV : forall cid, dict_ids (load m (mw_heap s)) cid -> in_model s k cid) by (intros cid (n & I); exists m, n; auto).
        destruct o; try discriminate; cbn [step evaluates_channel].
        + intros cid X. destruct (grow_update _ _ _ X); auto.
        + intros cid X. destruct (grow_nll x (load m (mw_heap s)) cid) as [Y|Y]; auto.
          unfold bind in X. destruct (nll x (load m (mw_heap s))) as [w1 [r|e]]; exact X. }
    destruct G as [G1 G2]. destruct (step inv o (load m (mw_heap s))) as [w r]. split; [now apply coh_load|].
    intros cid X. destruct (G2 cid X) as [Y|Y]; auto.
  - assert (G : coh (fst (cstep c (mw_heap s))) /\ grow (fun cid => evaluates_channel s (MChan c) cid) (mw_heap s) (fst (cstep c (mw_heap s)))).
    { split.
      - destruct (cmodifies c) eqn:Hm; [|now apply coh_cstep]. destruct c; try discriminate. cbn [cstep].
        eapply coh_frm with (Cs := fun i => cid = i) (Ts := fun _ => False) (Hs := fun _ => False);
          [|apply (same_cache_cstep (CAddTemplate cid process tid eff)); reflexivity| |auto|exact C].
        + apply (pres_bind (frm_po _ _ _)); [apply (pres_get_tmpl (frm_po _ _ _))|]. intros t. now apply frm_on_chan.
        + intros i X Y. apply (D i); [exact Y|auto].
      - destruct (cevaluates c) eqn:He; [|apply grow_same, same_cache_cstep; auto]. destruct c; try discriminate; cbn [cstep evaluates_channel].
        + apply (pres_bind (grow_po _)); [now apply grow_contribution|intros; apply (pres_ret (grow_po _))].
        + apply (pres_bind (grow_po _)); [now apply grow_bin_counts|intros; apply (pres_ret (grow_po _))]. }
    destruct G as [G1 G2]. destruct (cstep c (mw_heap s)) as [w r]. split; [exact G1|]. intros cid X. destruct (G2 cid X); auto.
Qed.

Lemma cinv_run inv l : forall ev s, cinv ev s -> complete_when_used inv ev s l -> coh (mw_heap (mrun inv l s)).
Proof.
  unfold mrun. induction l as [|o l IH]; intros ev s C D; simpl in *; [apply C|]. destruct D as [D1 D2]. eapply IH; [|exact D2]. now apply cinv_step.
Qed.
Theorem coh_mreached inv l : disciplined inv l -> coh (mw_heap (mreached inv l)).
Proof. intros D. eapply cinv_run; [|exact D]. split; [apply no_cache_coh; repeat split|]. intros cid [(? & ? & [])|[(? & [])|(? & [])]]. Qed.
Lemma complete_app inv l1 l2 : forall ev s, complete_when_used inv ev s (l1 ++ l2) -> complete_when_used inv ev s l1.
Proof. induction l1 as [|o l1 IH]; intros ev s; simpl; auto. intros [A B]. split; eauto. Qed.

(** ** The frame of one call, in the state of the program *)
Lemma frm_cstep s c : frm (changes_channel s (MChan c)) (changes_template s (MChan c)) (changes_hist (MChan c)) (mw_heap s) (fst (cstep c (mw_heap s))).
Proof.
  destruct c; cbn [cstep changes_channel changes_template changes_hist].
  - constructor; simpl; auto. intros. now apply nth_app_some.
  - apply (pres_bind (frm_po _ _ _)); [apply (pres_get_tmpl (frm_po _ _ _))|]. intros t. now apply frm_on_chan.
  - apply (pres_bind (frm_po _ _ _)); [apply (pres_get_hist (frm_po _ _ _))|]. intros t. now apply frm_on_chan.
  - eapply frm_weaken; [| | |apply frmT_frm, (frmT_creset cid)]; cbn; try tauto. intros i (cid' & c & p & -> & X & Y). exists c, p. auto.
  - eapply frm_weaken; [| | |apply frmT_frm, (frmT_cupdate cid)]; cbn; try tauto. intros i (cid' & c & p & -> & X & Y). exists c, p. auto.
  - apply (pres_bind (frm_po _ _ _)); [apply frm_core, core_nll_contribution|intros; apply (pres_ret (frm_po _ _ _))].
  - apply (pres_bind (frm_po _ _ _)); [apply frm_core, core_bin_counts|intros; apply (pres_ret (frm_po _ _ _))].
  - apply (pres_bind (frm_po _ _ _)); [apply frm_core, core_asimov|intros]. apply (pres_bind (frm_po _ _ _)); [apply frm_alloc|intros; apply (pres_ret (frm_po _ _ _))].
  - apply (pres_bind (frm_po _ _ _)); [apply frm_core, core_toy|intros]. apply (pres_bind (frm_po _ _ _)); [apply frm_alloc|intros; apply (pres_ret (frm_po _ _ _))].
Qed.
Lemma frm_mstep inv o s : frm (changes_channel s o) (changes_template s o) (changes_hist o) (mw_heap s) (mw_heap (fst (mstep inv o s))).
Proof.
  destruct o as [|k o|c]; cbn [mstep]; [apply frm_po| |].
  - destruct (nth_error (mw_models s) k) as [m|] eqn:M; [|apply frm_po]. pose proof (frm_step inv o (load m (mw_heap s))) as F.
    destruct (step inv o (load m (mw_heap s))) as [w r]. cbn [fst mw_heap] in *.
    assert (X : frm (changes_channel s (MCall k o)) (changes_template s (MCall k o)) (changes_hist (MCall k o)) (load m (mw_heap s)) w).
    { eapply frm_weaken; [| | |exact F].
      - intros i. destruct o; simpl; auto; [intros H; exists m; auto|]. intros (n & h & A & B). exists n, h. split; auto. exists m. auto.
      - assert (Y : forall tid, held (load m (mw_heap s)) (dict_ids (load m (mw_heap s))) tid -> model_template s k tid).
        { intros tid (cid & c & p & (n & I) & CC & T). exists cid. split; [exists m, n; auto|exists c, p; auto]. }
        intros i. destruct o; simpl; auto.
      - intros i. destruct o; simpl; auto. }
    destruct X. constructor; auto.
  - pose proof (frm_cstep s c) as F. destruct (cstep c (mw_heap s)). exact F.
Qed.
Lemma models_mstep inv o s k m : nth_error (mw_models s) k = Some m -> ~ changes_model o k -> nth_error (mw_models (fst (mstep inv o s))) k = Some m.
Proof.
  intros M N. destruct o as [|j o|c]; cbn [mstep].
  - simpl. now apply nth_app_some.
  - destruct (nth_error (mw_models s) j) as [m'|] eqn:M'; [|exact M]. pose proof (sto_step inv o) as F. destruct (Nat.eq_dec j k) as [->|D].
    + assert (m' = m) by congruence. subst m'. assert (O : own o = false) by (destruct o; auto; simpl in N; exfalso; apply N; reflexivity).
      specialize (F O (load m (mw_heap s))). destruct (step inv o (load m (mw_heap s))) as [w r]. simpl in *. rewrite upd_same by (apply nth_error_Some; congruence).
      unfold sto in F. rewrite F. f_equal. now destruct m.
    + destruct (step inv o (load m' (mw_heap s))) as [w r]. simpl. rewrite upd_other; auto.
  - destruct (cstep c (mw_heap s)). exact M.
Qed.

(** ** The objects of a model are the same in two states *)
Definition same_hist (w w' : world) (i : nat) : Prop := exists h, nth_error (w_hists w) i = Some h /\ nth_error (w_hists w') i = Some h.
Definition same_tmpl (w w' : world) (i : nat) : Prop :=
  exists t, nth_error (w_tmpls w) i = Some t /\ nth_error (w_tmpls w') i = Some t /\ same_hist w w' (t_hist t).
Definition same_chan (w w' : world) (i : nat) : Prop :=
  exists c, nth_error (w_chans w) i = Some c /\ nth_error (w_chans w') i = Some c /\
    (forall p tid, In (p, tid) (c_tmpls c) -> same_tmpl w w' tid) /\ (forall hid, c_data c = Some hid -> same_hist w w' hid).
Definition fp (m : model) (w w' : world) : Prop := forall n cid, In (n, cid) (m_channels m) -> same_chan w w' cid.

Lemma fp_trans m w1 w2 w3 : fp m w1 w2 -> fp m w2 w3 -> fp m w1 w3.
Proof.
  assert (HH : forall i, same_hist w1 w2 i -> same_hist w2 w3 i -> same_hist w1 w3 i) by (intros i (h & A & B) (h' & A' & B'); exists h; split; congruence).
  assert (TT : forall i, same_tmpl w1 w2 i -> same_tmpl w2 w3 i -> same_tmpl w1 w3 i).
  { intros i (t & A & B & H) (t' & A' & B' & H'). assert (t' = t) by congruence. subst. exists t. auto. }
  intros F G n cid I. destruct (F n cid I) as (c & A & B & T & D), (G n cid I) as (c' & A' & B' & T' & D'). assert (c' = c) by congruence. subst c'.
  exists c. repeat split; eauto.
Qed.
Lemma fp_step inv o s k m : mwf s -> nth_error (mw_models s) k = Some m -> ~ touches s o k -> fp m (mw_heap s) (mw_heap (fst (mstep inv o s))).
Proof.
  intros (P & W) M NT. pose proof (frm_mstep inv o s) as F. assert (W1 : WFg P (load m (mw_heap s))) by (apply W; right; eapply nth_error_In; eauto).
  assert (T1 : forall cid, in_model s k cid -> ~ changes_channel s o cid) by (intros cid A B; apply NT; right; left; eauto).
  assert (T2 : forall tid, model_template s k tid -> ~ changes_template s o tid) by (intros cid A B; apply NT; right; right; left; eauto).
  assert (T3 : forall hid, model_hist s k hid -> ~ changes_hist o hid) by (intros cid A B; apply NT; right; right; right; eauto).
  intros n cid I. assert (IM : in_model s k cid) by (exists m, n; auto). destruct (wfg_dict _ W1 n cid I) as (c & C & _). cbn [load w_chans] in C.
  pose proof (wfg_chans _ W1 _ _ C) as CO. cbn [load w_hists w_tmpls] in CO. exists c. split; auto. split; [apply (f_chans _ _ _ _ _ F); auto|]. split.
  - intros p tid TI. destruct (co_tmpl _ _ _ _ CO _ _ TI) as (t & T & _). assert (MT : model_template s k tid) by (exists cid; split; auto; exists c, p; auto).
    exists t. split; auto. split; [apply (f_tmpls _ _ _ _ _ F); auto|]. destruct (to_hist _ _ (wfg_tmpls _ W1 tid t T)) as (h & H & _). cbn [load w_hists] in H.
    exists h. split; auto. apply (f_hists _ _ _ _ _ F); auto. apply T3. right. exists tid, t. auto.
  - intros hid D. destruct (co_data _ _ _ _ CO _ D) as (h & H & _). exists h. split; auto. apply (f_hists _ _ _ _ _ F); auto. apply T3. left. exists cid, c. auto.
Qed.
Lemma fp_run inv l : inv_spec inv -> forall s k m, mwf s -> canonical s -> nth_error (mw_models s) k = Some m -> leaves inv k s l ->
  nth_error (mw_models (mrun inv l s)) k = Some m /\ fp m (mw_heap s) (mw_heap (mrun inv l s)).
Proof.
  intros IS. unfold mrun. induction l as [|o l IH]; intros s k m W CA M L; simpl in *.
  - split; auto. destruct W as (P & W). assert (W1 : WFg P (load m (mw_heap s))) by (apply W; right; eapply nth_error_In; eauto).
    intros n cid I. destruct (wfg_dict _ W1 n cid I) as (c & C & _). pose proof (wfg_chans _ W1 _ _ C) as CO. exists c. repeat split; auto.
    + intros p tid TI. destruct (co_tmpl _ _ _ _ CO _ _ TI) as (t & T & _). destruct (to_hist _ _ (wfg_tmpls _ W1 tid t T)) as (h & H & _).
      exists t. repeat split; auto. exists h. auto.
    + intros hid D. destruct (co_data _ _ _ _ CO _ D) as (h & H & _). exists h. auto.
  - destruct L as [L1 L2]. destruct (IH (fst (mstep inv o s)) k m) as [A B]; auto; [now apply mwf_step|now apply canonical_step|apply models_mstep; auto; intros X; apply L1; left; auto|].
    split; auto. eapply fp_trans; [|exact B]. now apply fp_step with (k := k).
Qed.
Lemma mrun_app inv l1 l2 s : mrun inv (l1 ++ l2) s = mrun inv l2 (mrun inv l1 s). Proof. apply fold_left_app. Qed.
