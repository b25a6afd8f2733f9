(** Histories of calls and fits in a program with several models are histories of calls. *)
From Coq Require Import Reals String ZArith Bool Arith List Lra Lia.
From Verif Require Import Model_Num Model_Hist Model_Utility Model_Template Model_World Model_Ops Model_Multi Model_Minimizer Model_Fitter Model_MultiFit
  Spec_Matrix Spec_Min Spec_Multi Spec_MultiFit Proof_Hist Proof_Matrix Proof_Template Proof_HistHeap Proof_Monad Proof_World Proof_Eval Proof_Route
  Proof_Min Proof_Fit Proof_Multi Proof_Multi2 Proof_Multi3 Proof_Multi4 Proof_MultiFit.
Import ListNotations.
Local Open Scope R_scope.

Definition nllop (o : op) : Prop := exists x, o = ONll x.
Definition fitop (o : op) : Prop := nllop o \/ (exists x, o = OUpdate x) \/ exists p v, o = OSetYield p v.

Lemma upd_id {A} k (a : A) l : nth_error l k = Some a -> upd k a l = l.
Proof. revert k. induction l as [|b l IH]; intros [|k]; simpl; try discriminate; [intros [= ->]; auto|]. intros H. now rewrite IH. Qed.
Lemma upd_upd {A} k (a b : A) l : upd k b (upd k a l) = upd k b l.
Proof. revert k. induction l as [|c l IH]; intros [|k]; simpl; auto. now rewrite IH. Qed.
Lemma mrun_calls inv k l : forall s m, canonical s -> nth_error (mw_models s) k = Some m ->
  mrun inv (map (MCall k) l) s = mk_mworld (load model_new (run inv l (load m (mw_heap s)))) (upd k (store (run inv l (load m (mw_heap s)))) (mw_models s)).
Proof.
  induction l as [|o l IH]; intros s m C M.
  - cbn. replace (store (load m (mw_heap s))) with m by now destruct m. rewrite (upd_id k m) by exact M.
    change (load model_new (load m (mw_heap s))) with (load model_new (mw_heap s)). replace (load model_new (mw_heap s)) with (mw_heap s) by (rewrite <- C; symmetry; apply load_self). now destruct s.
  - change (mrun inv (map (MCall k) (o :: l)) s) with (mrun inv (map (MCall k) l) (fst (mstep inv (MCall k o) s))).
    change (run inv (o :: l) (load m (mw_heap s))) with (run inv l (fst (step inv o (load m (mw_heap s))))).
    cbn [mstep]. rewrite M. destruct (step inv o (load m (mw_heap s))) as [w r]. cbn [fst].
    rewrite (IH _ (store w)); [|reflexivity|cbn; apply upd_same; apply nth_error_Some; congruence]. cbn [mw_heap mw_models]. rewrite load_load, load_self, upd_upd. reflexivity.
Qed.
Lemma on_model_frame inv {A} (f : F A) k s allowed : (forall t, frame inv allowed t (fst (f t))) -> canonical (xs_m s) ->
  let s' := fst (on_model k f s) in
  exists l, Forall allowed l /\ xs_m s' = mrun inv (map (MCall k) l) (xs_m s) /\ xs_fitters s' = xs_fitters s /\ xs_owner s' = xs_owner s.
Proof.
  intros H C s'. unfold s', on_model. destruct (nth_error (mw_models (xs_m s)) k) as [m|] eqn:M; [|exists []; repeat split; constructor].
  specialize (H (mk_fstate (load m (mw_heap (xs_m s))) (xs_pars s) (xs_fitters s))). destruct (f _) as [t r]. cbn [fst] in *. destruct H as (H1 & _ & _ & l & L & H4).
  cbn [fs_fitters fs_w] in H1, H4. exists l. split; [exact L|]. cbn [xs_m xs_fitters xs_owner]. rewrite (mrun_calls inv k l _ m C M), <- H4. auto.
Qed.
Lemma fit_ops inv o i s : fits_with o i -> canonical (xs_m s) -> let s' := fst (xstep inv o s) in
  (s' = s /\ nth_error (xs_owner s) i = None) \/
  exists k l, nth_error (xs_owner s) i = Some k /\ Forall fitop l /\ (~ fit_updates o i -> Forall nllop l) /\
    xs_m s' = mrun inv (map (MCall k) l) (xs_m s) /\ xs_fitters s' = xs_fitters s /\ xs_owner s' = xs_owner s.
Proof.
  intros FW C s'. assert (NF : forall l, Forall nllop l -> Forall fitop l) by (intros l; apply Forall_impl; intros o'; left; assumption).
  assert (X : forall {A} (f : F A) (up : Prop), (forall t, frame inv fitop t (fst (f t))) -> (up \/ forall t, frame inv nllop t (fst (f t))) -> 
     let s' := fst (of_fitter i f s) in
     (s' = s /\ nth_error (xs_owner s) i = None) \/
     exists k l, nth_error (xs_owner s) i = Some k /\ Forall fitop l /\ (~ up -> Forall nllop l) /\ xs_m s' = mrun inv (map (MCall k) l) (xs_m s) /\ xs_fitters s' = xs_fitters s /\ xs_owner s' = xs_owner s).
  { intros A f up H1 H2 s1. unfold s1, of_fitter. destruct (nth_error (xs_owner s) i) as [k|]; [|left; auto]. right. destruct H2 as [U|H2].
    - destruct (on_model_frame inv f k s fitop H1 C) as (l & L & E). exists k, l. repeat split; try apply E; auto. intros NU. contradiction.
    - destruct (on_model_frame inv f k s nllop H2 C) as (l & L & E). exists k, l. repeat split; try apply E; auto. }
  assert (An : forall x, fitop (ONll x)) by (intros x; left; exists x; reflexivity). assert (Am : forall x, nllop (ONll x)) by (intros x; exists x; reflexivity).
  destruct o; try contradiction; cbn [fits_with] in FW; subst; cbn [xstep drop fst] in s'; unfold s', drop; cbn [fst fit_updates].
  - destruct update_templates.
    + destruct (X _ (do_fit E i true get_hesse fix_nui nui_limits) True) as [Y|Y]; [| |left; exact Y|].
      * intros t. apply (do_fit_frame inv fitop t An); [intros _ x; right; left; eauto|apply frame_refl'].
      * left. exact Logic.I.
      * right. destruct Y as (k & l & Y1 & Y2 & _ & Y4). exists k, l. repeat split; try apply Y4; auto. intros NU. exfalso. now apply NU.
    + destruct (X _ (do_fit E i false get_hesse fix_nui nui_limits) False) as [Y|Y]; [| |left; exact Y|].
      * intros t. apply (do_fit_frame inv fitop t An); [discriminate|apply frame_refl'].
      * right. intros t. apply (do_fit_frame inv nllop t Am); [discriminate|apply frame_refl'].
      * right. exact Y.
  - destruct (X _ (profile E i p num_cpu num_points sigma subtract_min fix_nui sch) False) as [Y|Y]; [| |left; exact Y|right; exact Y].
    + intros t. apply (profile_frame inv fitop t An). apply frame_refl'.
    + right. intros t. apply (profile_frame inv nllop t Am). apply frame_refl'.
  - destruct (X _ (get_significance E i process fix_nui) True) as [Y|Y]; [| |left; exact Y|].
    + intros t. apply (significance_frame inv fitop t An); [right; right; eauto|apply frame_refl'].
    + left. exact Logic.I.
    + right. destruct Y as (k & l & Y1 & Y2 & _ & Y4). exists k, l. repeat split; try apply Y4; auto. intros NU. exfalso. now apply NU.
Qed.
(** the other calls that are not calls of Model_Multi: nothing but fitters changes *)
Definition xquiet (o : xop) : Prop := match o with XNew _ _ | XFixNui _ | XFixed _ _ | XBounds _ _ _ => True | _ => False end.
Lemma quiet_ops inv o s : xquiet o -> canonical (xs_m s) -> xs_m (fst (xstep inv o s)) = xs_m s.
Proof.
  intros Q C. assert (X : forall {A} (f : F A) k, (forall t, fs_w (fst (f t)) = fs_w t) -> xs_m (fst (on_model k f s)) = xs_m s).
  { intros A f k H. unfold on_model. destruct (nth_error (mw_models (xs_m s)) k) as [m|] eqn:M; [|reflexivity].
    specialize (H (mk_fstate (load m (mw_heap (xs_m s))) (xs_pars s) (xs_fitters s))). destruct (f _) as [t r]. cbn [fst fs_w xs_m] in *. rewrite H.
    pose proof (mrun_calls inv k [] (xs_m s) m C M) as Y. cbn [map run] in Y. symmetry. exact Y. }
  assert (Y : forall {A} (f : F A) i, (forall t, fs_w (fst (f t)) = fs_w t) -> xs_m (fst (of_fitter i f s)) = xs_m s).
  { intros A f i H. unfold of_fitter. destruct (nth_error (xs_owner s) i); [now apply X|reflexivity]. }
  assert (Z : forall i g t, fs_w (fst (on_fitter i g t)) = fs_w t) by (intros i g t; unfold on_fitter; destruct (nth_error _ _); reflexivity).
  destruct o; try contradiction; cbn [xstep].
  - destruct (nth_error (mw_models (xs_m s)) k) eqn:M; [|reflexivity]. pose proof (X _ (fitter_new id) k ltac:(reflexivity)) as W. destruct (on_model k (fitter_new id) s). exact W.
  - apply Y. intros t. apply Z.
  - apply Y. intros t. apply Z.
  - apply Y. intros t. apply Z.
Qed.

(** ** invariants *)
Lemma fitop_own k o : fitop o -> forall k', ~ changes_model (MCall k o) k'.
Proof. intros [(x & ->)|[(x & ->)|(p & v & ->)]] k' H; exact H. Qed.
Lemma mrun_models inv k l : Forall fitop l -> forall s k' m, nth_error (mw_models s) k' = Some m -> nth_error (mw_models (mrun inv (map (MCall k) l) s)) k' = Some m.
Proof.
  induction 1 as [|o l O _ IH]; intros s k' m M; [exact M|]. change (mrun inv (map (MCall k) (o :: l)) s) with (mrun inv (map (MCall k) l) (fst (mstep inv (MCall k o) s))).
  apply IH. apply models_mstep; [exact M|]. now apply fitop_own.
Qed.
Lemma mrun_none inv k l s : nth_error (mw_models s) k = None -> mrun inv (map (MCall k) l) s = s.
Proof. intros M. induction l as [|o l IH]; [reflexivity|]. change (mrun inv (map (MCall k) (o :: l)) s) with (mrun inv (map (MCall k) l) (fst (mstep inv (MCall k o) s))). cbn [mstep]. rewrite M. exact IH. Qed.
Lemma mrun_inv inv l : inv_spec inv -> forall s, mwf s -> canonical s -> mwf (mrun inv l s) /\ canonical (mrun inv l s).
Proof. intros IS. unfold mrun. induction l as [|o l IH]; intros s W C; simpl; [auto|]. apply IH; [now apply mwf_step|now apply canonical_step]. Qed.
Lemma mrun_canonical inv l : forall s, canonical s -> canonical (mrun inv l s).
Proof. unfold mrun. induction l as [|o l IH]; intros s C; simpl; [auto|]. apply IH. now apply canonical_step. Qed.
(** every call is a sequence of calls of Model_Multi *)
Lemma xstep_calls inv o s : canonical (xs_m s) -> exists l, xs_m (fst (xstep inv o s)) = mrun inv l (xs_m s).
Proof.
  intros C. assert (D : (exists c, o = XCall c) \/ xquiet o \/ exists i, fits_with o i) by (destruct o; simpl; eauto).
  destruct D as [(c & ->)|[Q|(i & Q)]].
  - exists [c]. cbn. unfold mrun. cbn. destruct (mstep inv c (xs_m s)). reflexivity.
  - exists []. now apply quiet_ops.
  - destruct (fit_ops inv o i s Q C) as [(-> & _)|(k & l & _ & _ & _ & E & _)]; [exists []; reflexivity|eauto].
Qed.
Lemma xstep_inv inv o s : inv_spec inv -> mwf (xs_m s) -> canonical (xs_m s) -> mwf (xs_m (fst (xstep inv o s))) /\ canonical (xs_m (fst (xstep inv o s))).
Proof. intros IS W C. destruct (xstep_calls inv o s C) as (l & ->). now apply mrun_inv. Qed.
Lemma xstep_canonical inv o s : canonical (xs_m s) -> canonical (xs_m (fst (xstep inv o s))).
Proof. intros C. destruct (xstep_calls inv o s C) as (l & ->). now apply mrun_canonical. Qed.
(** every fitter has an owner *)
Definition lens (s : xstate) : Prop := length (xs_fitters s) = length (xs_owner s).
Lemma config_step inv o i s : xquiet o -> ~ configures o i -> lens s -> let s' := fst (xstep inv o s) in
  lens s' /\ (forall k, nth_error (xs_owner s) i = Some k -> nth_error (xs_owner s') i = Some k /\ nth_error (xs_fitters s') i = nth_error (xs_fitters s) i).
Proof.
  intros Q NC L. assert (Z : forall j g, j <> i -> let s' := fst (of_fitter j (on_fitter j g) s) in lens s' /\ (forall k, nth_error (xs_owner s) i = Some k -> nth_error (xs_owner s') i = Some k /\ nth_error (xs_fitters s') i = nth_error (xs_fitters s) i)).
  { intros j g N s'. unfold s', of_fitter. destruct (nth_error (xs_owner s) j) as [k|]; [|cbn; auto]. unfold on_model. destruct (nth_error (mw_models (xs_m s)) k); [|cbn; auto].
    unfold on_fitter. cbn [fs_fitters]. destruct (nth_error (xs_fitters s) j); cbn; [|auto]. unfold lens in *. cbn [xs_fitters xs_owner]. rewrite upd_length. split; [exact L|]. intros k' O. rewrite upd_other by auto. auto. }
  destruct o; try contradiction; cbn [configures] in NC; cbv zeta; cbn [xstep]; [|apply Z; exact NC|apply Z; exact NC|apply Z; exact NC].
  destruct (nth_error (mw_models (xs_m s)) k) eqn:M; [|auto]. unfold on_model. rewrite M. cbn. unfold lens in *. cbn [xs_fitters xs_owner]. rewrite !app_length, L. split; [reflexivity|].
  intros k' O. assert (X : (i < length (xs_owner s))%nat) by (apply nth_error_Some; congruence). rewrite !nth_error_app1 by lia. auto.
Qed.
Lemma xstep_lens inv o s : canonical (xs_m s) -> lens s -> lens (fst (xstep inv o s)).
Proof.
  intros C L. assert (D : (exists c, o = XCall c) \/ xquiet o \/ exists i, fits_with o i) by (destruct o; simpl; eauto).
  destruct D as [(c & ->)|[Q|(i & Q)]].
  - cbn. destruct (mstep inv c (xs_m s)). exact L.
  - assert (X : exists i, ~ configures o i). { destruct o; try contradiction; cbn; [exists 0%nat; auto|exists (S i); lia|exists (S i); lia|exists (S i); lia]. }
    destruct X as (i & X). apply (config_step inv o i s Q X L).
  - destruct (fit_ops inv o i s Q C) as [(-> & _)|(k & l & _ & _ & _ & _ & E1 & E2)]; [exact L|]. unfold lens. rewrite E1, E2. exact L.
Qed.
Lemma xrun_inv inv l : inv_spec inv -> forall s, mwf (xs_m s) -> canonical (xs_m s) -> lens s -> mwf (xs_m (xrun inv l s)) /\ canonical (xs_m (xrun inv l s)) /\ lens (xrun inv l s).
Proof.
  intros IS. unfold xrun. induction l as [|o l IH]; intros s W C L; simpl; [auto|]. destruct (xstep_inv inv o s IS W C) as [W' C']. apply IH; auto. now apply xstep_lens.
Qed.
Lemma xreached_inv inv l : inv_spec inv -> mwf (xs_m (xreached inv l)) /\ canonical (xs_m (xreached inv l)) /\ lens (xreached inv l).
Proof. intros IS. apply xrun_inv; auto; [apply mwf_init|reflexivity|reflexivity]. Qed.

(** ** the caches *)
Lemma cinv_mono (ev ev' : nat -> Prop) s : (forall i, ev i -> ev' i) -> cinv ev s -> cinv ev' s.
Proof. intros H [A B]. split; auto. Qed.
Lemma cinv_fit inv k l : Forall fitop l -> forall ev s, cinv ev s -> cinv (fun cid => ev cid \/ in_model s k cid) (mrun inv (map (MCall k) l) s).
Proof.
  induction 1 as [|o l O _ IH]; intros ev s C; [apply (cinv_mono ev); auto|].
  change (mrun inv (map (MCall k) (o :: l)) s) with (mrun inv (map (MCall k) l) (fst (mstep inv (MCall k o) s))).
  assert (S1 : cinv (fun cid => ev cid \/ evaluates_channel s (MCall k o) cid) (fst (mstep inv (MCall k o) s))).
  { apply cinv_step; [exact C|]. destruct O as [(x & ->)|[(x & ->)|(p & v & ->)]]; intros cid []. }
  apply IH in S1. eapply cinv_mono; [|exact S1]. intros cid [[E|E]|E]; auto; right.
  - destruct O as [(x & ->)|[(x & ->)|(p & v & ->)]]; [exact E|exact E|destruct E].
  - destruct E as (m & n & M & I). destruct (nth_error (mw_models s) k) as [m0|] eqn:M0.
    + pose proof (models_mstep inv (MCall k o) s k m0 M0 (fitop_own k o O k)) as M1. exists m0, n. split; [exact M0|]. congruence.
    + exfalso. cbn [mstep] in M. rewrite M0 in M. cbn [fst] in M. congruence.
Qed.
Lemma cinv_xstep inv ev o s : canonical (xs_m s) -> cinv ev (xs_m s) -> (forall cid, xcompletes s o cid -> ~ ev cid) ->
  cinv (fun cid => ev cid \/ xevaluates s o cid) (xs_m (fst (xstep inv o s))).
Proof.
  intros C I N. assert (D : (exists c, o = XCall c) \/ xquiet o \/ exists i, fits_with o i) by (destruct o; simpl; eauto).
  destruct D as [(c & ->)|[Q|(i & Q)]].
  - pose proof (cinv_step inv ev c (xs_m s) I N) as X. cbn [xstep xevaluates]. destruct (mstep inv c (xs_m s)). exact X.
  - rewrite quiet_ops by assumption. apply (cinv_mono ev); auto.
  - destruct (fit_ops inv o i s Q C) as [(-> & _)|(k & l & OW & F & _ & E & _)]; [apply (cinv_mono ev); auto|]. rewrite E.
    eapply cinv_mono; [|apply (cinv_fit inv k l F ev); exact I]. intros cid [X|X]; auto. right. destruct o; try contradiction; exists i, k; auto.
Qed.
Lemma coh_xrun inv l : forall ev s, canonical (xs_m s) -> cinv ev (xs_m s) -> xcomplete_when_used inv ev s l -> coh (mw_heap (xs_m (xrun inv l s))).
Proof.
  unfold xrun. induction l as [|o l IH]; intros ev s C I D; simpl in *; [apply I|]. destruct D as [D1 D2]. eapply IH; [|apply cinv_xstep; eauto|exact D2]. now apply xstep_canonical.
Qed.
Lemma coh_xreached inv l : xdisciplined inv l -> coh (mw_heap (xs_m (xreached inv l))).
Proof. intros D. eapply coh_xrun; [reflexivity| |exact D]. split; [apply no_cache_coh; repeat split|]. intros cid [(? & ? & [])|[(? & [])|(? & [])]]. Qed.
Lemma xcomplete_app inv l1 l2 : forall ev s, xcomplete_when_used inv ev s (l1 ++ l2) -> xcomplete_when_used inv ev s l1.
Proof. induction l1 as [|o l1 IH]; intros ev s; simpl; auto. intros [A B]. split; eauto. Qed.
Lemma xrun_app inv l1 l2 s : xrun inv (l1 ++ l2) s = xrun inv l2 (xrun inv l1 s). Proof. apply fold_left_app. Qed.

(** ** what a fit leaves as it is *)
Lemma model_template_fit inv j o x m s : fitop o -> mwf s -> nth_error (mw_models s) x = Some m -> forall tid, model_template (fst (mstep inv (MCall j o) s)) x tid -> model_template s x tid.
Proof.
  intros O (P & W) M tid (cid & (m' & n & M' & I) & c & p & CC & T). pose proof (models_mstep inv (MCall j o) s x m M (fitop_own j o O x)) as M1.
  assert (m' = m) by congruence. subst m'. assert (IM : in_model s x cid) by (exists m, n; auto). exists cid. split; [exact IM|].
  assert (W1 : WFg P (load m (mw_heap s))) by (apply W; right; eapply nth_error_In; eauto). destruct (wfg_dict _ W1 n cid I) as (c0 & C0 & _). cbn [load w_chans] in C0.
  pose proof (f_chans _ _ _ _ _ (frm_mstep inv (MCall j o) s) cid c0) as F. rewrite F in CC; auto.
  - injection CC as <-. exists c0, p. auto.
  - destruct O as [(y & ->)|[(y & ->)|(q & v & ->)]]; intros X; exact X.
Qed.
Lemma fit_leaves inv k j mk mj l : inv_spec inv -> Forall fitop l -> forall s, mwf s -> canonical s -> nth_error (mw_models s) k = Some mk -> nth_error (mw_models s) j = Some mj ->
  Forall nllop l \/ (forall tid, model_template s j tid -> ~ model_template s k tid) -> leaves inv k s (map (MCall j) l).
Proof.
  intros IS. induction 1 as [|o l O L IH]; intros s W C MK MJ H; [exact Logic.I|]. cbn [map leaves].
  split.
  - intros [X|[(cid & _ & X)|[(tid & X & Y)|(hid & _ & X)]]].
    + exact (fitop_own j o O k X).
    + destruct O as [(y & ->)|[(y & ->)|(q & v & ->)]]; exact X.
    + destruct H as [H|H].
      * apply Forall_inv in H as (y & ->). exact Y.
      * apply (H tid); [|exact X]. destruct O as [(y & ->)|[(y & ->)|(q & v & ->)]]; [destruct Y|exact Y|exact Y].
    + destruct O as [(y & ->)|[(y & ->)|(q & v & ->)]]; exact X.
  - apply IH; [now apply mwf_step|now apply canonical_step|apply models_mstep; [exact MK|now apply fitop_own]|apply models_mstep; [exact MJ|now apply fitop_own]|].
    destruct H as [H|H]; [left; now apply Forall_inv_tail in H|right]. intros tid A B. apply (H tid); [now apply (model_template_fit inv j o j mj)|now apply (model_template_fit inv j o k mk)].
Qed.
Lemma xstep_left inv o s i k m : inv_spec inv -> mwf (xs_m s) -> canonical (xs_m s) -> lens s -> nth_error (mw_models (xs_m s)) k = Some m -> nth_error (xs_owner s) i = Some k ->
  ~ xtouches s o k -> ~ configures o i -> let s' := fst (xstep inv o s) in
  nth_error (mw_models (xs_m s')) k = Some m /\ fp m (mw_heap (xs_m s)) (mw_heap (xs_m s')) /\ nth_error (xs_owner s') i = Some k /\ nth_error (xs_fitters s') i = nth_error (xs_fitters s) i.
Proof.
  intros IS W C L M O T NC. pose proof (fun l => fp_run inv l IS (xs_m s) k m W C M) as FP.
  assert (D : (exists c, o = XCall c) \/ xquiet o \/ exists i, fits_with o i) by (destruct o; simpl; eauto).
  destruct D as [(c & ->)|[Q|(j & Q)]]; cbv zeta.
  - destruct (FP [c] (conj T Logic.I)) as [A B]. unfold mrun in A, B. cbn [fold_left] in A, B. cbn [xstep]. destruct (mstep inv c (xs_m s)). cbn [fst xs_m xs_owner xs_fitters] in *. auto.
  - rewrite quiet_ops by assumption. destruct (FP [] Logic.I) as [A B]. destruct (config_step inv o i s Q NC L) as (_ & X). destruct (X k O). auto.
  - destruct (fit_ops inv o j s Q C) as [(-> & _)|(kj & l & OJ & F & NU & E & E1 & E2)]; [destruct (FP [] Logic.I); auto|]. rewrite E, E1, E2.
    enough (LV : leaves inv k (xs_m s) (map (MCall kj) l)) by (destruct (FP _ LV); auto).
    destruct (nth_error (mw_models (xs_m s)) kj) as [mj|] eqn:MJ.
    + apply (fit_leaves inv k kj m mj); auto.
      assert (U : fit_updates o j \/ ~ fit_updates o j) by (destruct o as [ | | | | |? ? [] ? ? ?| | ]; simpl in *; auto). destruct U as [U|U]; [right|left; auto].
      intros tid A B. apply T. destruct o; try contradiction; exists j, kj, tid; auto.
    + clear - MJ F. induction F as [|o l O _ IH]; [exact Logic.I|]. cbn [map leaves mstep]. rewrite MJ. split; [|exact IH].
      intros [X|[(cid & _ & X)|[(tid & X & Y)|(hid & _ & X)]]].
      * exact (fitop_own kj o O k X).
      * destruct O as [(y & ->)|[(y & ->)|(q & v & ->)]]; exact X.
      * assert (N : ~ model_template (xs_m s) kj tid) by (intros (cid & (m' & n & M' & _) & _); congruence). destruct O as [(y & ->)|[(y & ->)|(q & v & ->)]]; [exact Y|exact (N Y)|exact (N Y)].
      * destruct O as [(y & ->)|[(y & ->)|(q & v & ->)]]; exact X.
Qed.
Lemma xrun_left inv l i k : inv_spec inv -> forall s m, mwf (xs_m s) -> canonical (xs_m s) -> lens s -> nth_error (mw_models (xs_m s)) k = Some m -> nth_error (xs_owner s) i = Some k ->
  xleaves inv i k s l -> let s' := xrun inv l s in
  nth_error (mw_models (xs_m s')) k = Some m /\ fp m (mw_heap (xs_m s)) (mw_heap (xs_m s')) /\ nth_error (xs_owner s') i = Some k /\ nth_error (xs_fitters s') i = nth_error (xs_fitters s) i.
Proof.
  intros IS. unfold xrun. induction l as [|o l IH]; intros s m W C L M O X; cbn [fold_left].
  - destruct (fp_run inv [] IS (xs_m s) k m W C M Logic.I) as [A B]. auto.
  - destruct X as (X1 & X2 & X3). destruct (xstep_left inv o s i k m IS W C L M O X1 X2) as (A1 & A2 & A3 & A4). destruct (xstep_inv inv o s IS W C) as [W' C'].
    destruct (IH (fst (xstep inv o s)) m W' C' (xstep_lens inv o s C L) A1 A3 X3) as (B1 & B2 & B3 & B4). split; [exact B1|]. split; [eapply fp_trans; eauto|]. split; [exact B3|congruence].
Qed.
