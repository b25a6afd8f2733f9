(** Toy studies and the data of their model: calls which only replace data. *)
From Coq Require Import Reals String ZArith Bool Arith List Lra Lia.
From Verif Require Import Model_Num Model_Hist Model_Utility Model_Template Model_World Model_Ops Model_Multi Model_Minimizer Model_Fitter Model_MultiFit Model_Toy Model_MultiToy Model_MultiToyAsk
  Spec_Matrix Spec_Min Spec_Multi Spec_MultiFit Spec_Data Spec_Stale Spec_Toy Spec_MultiToy Spec_MultiToyAsk Proof_Hist Proof_Matrix Proof_Template Proof_HistHeap Proof_Monad Proof_World Proof_Eval Proof_Route
  Proof_Min Proof_Fit Proof_Multi Proof_Multi2 Proof_Multi3 Proof_Multi4 Proof_MultiFit Proof_MultiFit2 Proof_Toy Proof_Toy2 Proof_Toy3 Proof_MultiToy Proof_MultiToy2 Proof_ToyPar
  Prop_MultiToy.
Import ListNotations.
Local Open Scope R_scope.

Definition no_names (n : string) : Prop := False.
(** the channels of model m have the same templates and any data *)
Lemma vp_dr Q m w w' : WFg Q (load m w) -> data_replaced w w' -> vp no_names m w w'.
Proof.
  intros W D n cid I. destruct (wfg_dict _ W n cid I) as (c & E & _). cbn [load w_chans] in E. pose proof (dr_nth w w' cid D) as N. rewrite E in N.
  exists c. eexists. split; [exact E|]. split; [exact N|]. split; [|intros []]. destruct D as (A1 & _ & _ & _ & _ & _ & (new & A7) & _).
  intros p tid TI. destruct (co_tmpl _ _ _ _ (wfg_chans _ W _ _ E) _ _ TI) as (t & T & _). destruct (to_hist _ _ (wfg_tmpls _ W tid t T)) as (h & H & _).
  exists t. split; [exact T|]. split; [now rewrite A1|]. exists h. split; [exact H|]. rewrite A7. now apply nth_more.
Qed.
Lemma vp_trans m a b c : vp no_names m a b -> vp no_names m b c -> vp no_names m a c.
Proof.
  intros F G n cid I. destruct (F n cid I) as (x & d & A & B & T & _), (G n cid I) as (x' & d' & A' & B' & T' & _). assert (x' = with_data x d) by congruence. subst x'.
  exists x, d'. split; [exact A|]. split; [exact B'|]. split; [|intros []]. intros p tid J. destruct (T p tid J) as (t & U & U' & h & H & H'), (T' p tid J) as (t' & V & V' & h' & K & K').
  exists t. split; [exact U|]. split; [congruence|]. exists h. split; congruence.
Qed.
Lemma dr_op inv o w : toyop o -> data_replaced w (fst (step inv o w)).
Proof.
  intros [(x & ->)|[(d & ->)|(d & ->)]].
  - apply dr_same. assert (X : core_eq w (fst (step inv (ONll x) w))); [|destruct X; repeat split; auto].
    apply (pres_bind core_po); [apply core_nll|intros a; apply (pres_ret core_po)].
  - apply (pres_bind dr_po); [apply dr_toy|intros a; apply (pres_ret dr_po)].
  - apply dr_add_data.
Qed.
Lemma dr_chan_data cid hid : pres data_replaced (cstep (CAddData cid hid)).
Proof.
  intros w. cbn [cstep]. unfold bind, get_hist. destruct (nth_error (w_hists w) hid) as [h|]; [|apply dr_po]. unfold on_chan. destruct (nth_error (w_chans w) cid) as [c|] eqn:C; [|apply dr_po].
  unfold ch_add_data. destruct (check_hist c h); cbn [fst].
  - do 6 (split; [reflexivity|]). split; [exists []; symmetry; apply app_nil_r|]. cbn [w_chans set_chans]. eapply f2_upd; [|exact C|].
    + intros c'. exists (c_data c'). apply with_data_self. + exists (Some hid). reflexivity.
  - rewrite upd_self by exact C. do 6 (split; [reflexivity|]). split; [exists []; symmetry; apply app_nil_r|]. cbn [w_chans set_chans]. apply f2_refl. intros c'. exists (c_data c'). apply with_data_self.
Qed.
Lemma dr_run inv l : Forall toyop l -> forall w, data_replaced w (run inv l w).
Proof.
  unfold run. induction 1 as [|o l O _ IH]; intros w; cbn [fold_left]; [apply dr_po|]. eapply (po_trans _ dr_po); [apply (dr_op inv); exact O|apply IH].
Qed.
Lemma dr_store w w' : data_replaced w w' -> store w' = store w.
Proof. intros (_ & A & B & C & D & E & _). unfold store. congruence. Qed.

(** Calls that change nothing of model k but its data *)
Definition keptd (k : nat) (m : model) (s s' : xstate) : Prop := nth_error (mw_models (xs_m s')) k = Some m /\ vp no_names m (mw_heap (xs_m s)) (mw_heap (xs_m s')).
Lemma kept_keptd k m s s' : kept k m s s' -> keptd k m s s'.
Proof. intros [A B]. split; [exact A|]. apply (vp_sub (fun _ => True)); [intros n _; exact Logic.I|]. now apply fp_vp. Qed.
Lemma keptd_calls inv k m l s s' : mwf (xs_m s) -> canonical (xs_m s) -> nth_error (mw_models (xs_m s)) k = Some m -> Forall toyop l ->
  xs_m s' = mrun inv (map (MCall k) l) (xs_m s) -> keptd k m s s'.
Proof.
  intros (Q & W) C M F E. unfold keptd. rewrite E, (mrun_calls inv k l (xs_m s) m C M). cbn [mw_models mw_heap].
  assert (D := dr_run inv l F (load m (mw_heap (xs_m s)))).
  split.
  - rewrite upd_same by (apply nth_error_Some; congruence). f_equal. rewrite (dr_store _ _ D). now destruct m.
  - apply (vp_same no_names m (load m (mw_heap (xs_m s))) (run inv l (load m (mw_heap (xs_m s))))); try reflexivity.
    apply (vp_dr Q); [|exact D]. rewrite load_load. apply W. right. eapply nth_error_In; eauto.
Qed.
Lemma zstep_keptd inv o s k m : inv_spec inv -> zinv s -> nth_error (mw_models (xs_m (z_x s))) k = Some m -> ~ ztouches s o k \/ replaces_data s o k ->
  keptd k m (z_x s) (z_x (fst (zstep inv o s))).
Proof.
  intros IS Z M [T|R]; [apply kept_keptd; now apply zstep_kept|]. destruct Z as [W C L A].
  destruct o as [x|k' id|j envs n mt|j envs p lo hi np ne]; cbn [replaces_data] in R; try contradiction.
  - destruct x as [c| | | | | | | ]; try contradiction. destruct (zx_step inv (XCall c) s) as [-> _]. destruct c as [|k' o|c]; try contradiction.
    + destruct o; try contradiction. subst k'. apply (keptd_calls inv k m [OAddData kwargs]); auto; [constructor; [right; right; eauto|constructor]|].
      cbn [xstep]. unfold mrun. cbn [map fold_left]. destruct (mstep inv (MCall k (OAddData kwargs)) (xs_m (z_x s))). reflexivity.
    + destruct c; try contradiction. cbn [xstep mstep]. pose proof (dr_chan_data cid hid (mw_heap (xs_m (z_x s)))) as D.
      destruct (cstep (CAddData cid hid) (mw_heap (xs_m (z_x s)))) as [w r]. cbn [fst] in D. split; [exact M|]. cbn [fst xs_m mw_heap].
      destruct W as (Q & W). apply (vp_dr Q); [|exact D]. apply W. right. eapply nth_error_In; eauto.
  - destruct (study_ops inv (ZExperiments j envs n mt) j s eq_refl C L) as [(-> & _)|(kj & l & more & OJ & _ & F & E & _)].
    + apply kept_keptd. split; [exact M|]. exact (proj2 (fp_run inv [] IS (xs_m (z_x s)) k m W C M Logic.I)).
    + unfold study_of in R. assert (kj = k) by congruence. subst kj. apply (keptd_calls inv k m l); auto.
Qed.

(** The class of minimizer a study was made with does not change. *)
Definition ids_kept (l l' : list study) : Prop := forall i st, nth_error l i = Some st -> exists st', nth_error l' i = Some st' /\ st_id st' = st_id st.
Definition tids (s s' : tstate) : Prop := ids_kept (ts_studies s) (ts_studies s').
Lemma ids_refl l : ids_kept l l. Proof. intros i st N. eauto. Qed.
Lemma ids_trans a b c : ids_kept a b -> ids_kept b c -> ids_kept a c.
Proof. intros H K i st N. destruct (H i st N) as (x & A & B), (K i x A) as (y & C & D). exists y. split; congruence. Qed.
Lemma tids_f {A} (f : F A) : trel tids (on_f f). Proof. intros s. unfold tids. rewrite on_f_studies. apply ids_refl. Qed.
Lemma tids_study i g : (forall st, st_id (g st) = st_id st) -> trel tids (on_study i g).
Proof.
  intros G s. unfold tids, on_study. destruct (nth_error (ts_studies s) i) as [x|] eqn:N; [|apply ids_refl]. cbn [fst ts_studies]. intros j st M.
  destruct (Nat.eq_dec i j) as [<-|NE]; [rewrite upd_same by (apply nth_error_Some; congruence)|rewrite upd_other by auto; eauto]. exists (g x). split; [reflexivity|]. rewrite G. congruence.
Qed.
Lemma tids_bind {A B} (f : T A) (k : A -> T B) : trel tids f -> (forall a, trel tids (k a)) -> trel tids (tbind f k).
Proof. intros H K s. unfold tbind. specialize (H s). destruct (f s) as [s1 [a|e]]; cbn [fst] in *; [|exact H]. unfold tids in *. eapply ids_trans; [exact H|apply K]. Qed.
Lemma tids_do envs i n mt : trel tids (do_experiments envs i n mt).
Proof.
  assert (AT : forall v gh, trel tids (attempt i v gh)).
  { intros v gh. unfold attempt. apply tids_bind; [apply tids_f|intros]. apply tids_bind; [apply tids_f|intros]. apply tids_bind; [intros s; apply ids_refl|intros]. apply tids_bind; [apply tids_f|intros].
    apply tids_bind; [apply tids_f|intros]. apply tids_bind; [apply tids_f|intros]. apply tids_bind; [now apply tids_study|intros; now apply tids_study]. }
  assert (EX : forall gh mt k, trel tids (experiment envs i gh mt k)).
  { intros gh mt'. induction mt' as [|mt' IH]; intros k s; cbn [experiment]; [apply ids_refl|]. pose proof (AT (envs k) gh s) as A. destruct (attempt i (envs k) gh s) as (s1 & [u|e]); cbn [fst] in A; [exact A|].
    destruct e; try exact A; (eapply ids_trans; [exact A|apply IH]). }
  unfold do_experiments. apply tids_bind; [now apply tids_study|intros]. apply tids_bind; [|intros; now apply tids_study].
  generalize 0%nat. induction n as [|n IH]; intros k; cbn [experiments]; [intros s; apply ids_refl|]. apply tids_bind; [apply EX|exact IH].
Qed.

(** Sequences of such calls *)
Definition same_id (l l' : list study) (i : nat) : Prop := forall st, nth_error l i = Some st -> exists st', nth_error l' i = Some st' /\ st_id st' = st_id st.
Lemma zstep_id inv o s i k : zinv s -> nth_error (z_owner s) i = Some k -> ~ ztouches s o k \/ replaces_data s o k -> same_id (z_studies s) (z_studies (fst (zstep inv o s))) i.
Proof.
  intros Z O T st N. assert (D : ~ zstudies o i \/ exists envs n mt, o = ZExperiments i envs n mt).
  { destruct o as [x|k' id|j envs n mt|j envs p lo hi np ne]; cbn [zstudies]; auto.
    - destruct (Nat.eq_dec j i) as [->|]; eauto.
    - left. intros ->. destruct T as [T|[]]. apply T. left. exact O. }
  destruct D as [D|(envs & n & mt & ->)].
  - exists st. split; [|reflexivity]. apply (C113_results_kept inv [o] i st s N). now constructor.
  - cbn [zstep]. unfold of_study. rewrite O. unfold on_zmodel. destruct (nth_error (mw_models (xs_m (z_x s))) k) as [m|]; [|eauto].
    pose proof (tids_do envs i n mt (mk_tstate (mk_fstate (load m (mw_heap (xs_m (z_x s)))) (xs_pars (z_x s)) (xs_fitters (z_x s))) (z_studies s))) as X.
    destruct (do_experiments envs i n mt _) as [t r]. exact (X i st N).
Qed.
Lemma zrun_keptd inv l i k m : inv_spec inv -> forall s, zinv s -> nth_error (mw_models (xs_m (z_x s))) k = Some m -> nth_error (z_owner s) i = Some k -> zkeeps_but_data inv k s l ->
  keptd k m (z_x s) (z_x (zrun inv l s)) /\ nth_error (z_owner (zrun inv l s)) i = Some k /\ same_id (z_studies s) (z_studies (zrun inv l s)) i.
Proof.
  intros IS. unfold zrun. induction l as [|o l IH]; intros s Z M O X; cbn [fold_left].
  - split; [apply kept_keptd; destruct Z as [W C L A]; destruct (fp_run inv [] IS (xs_m (z_x s)) k m W C M Logic.I); split; auto|]. split; [exact O|]. intros st N. eauto.
  - destruct X as (X1 & X2). destruct (zstep_keptd inv o s k m IS Z M X1) as (A1 & A2).
    destruct (IH (fst (zstep inv o s)) (zinv_step inv o s IS Z) A1 (zowner_step inv o s i k Z O) X2) as ((B1 & B2) & B3 & B4). split; [split; [exact B1|eapply vp_trans; eauto]|]. split; [exact B3|].
    intros st N. destruct (zstep_id inv o s i k Z O X1 st N) as (st1 & N1 & E1). destruct (B4 st1 N1) as (st2 & N2 & E2). exists st2. split; congruence.
Qed.

(** do_experiments starts anew: what the study has stored does not matter. *)
Definition id_rel (a b : option study) : Prop := match a, b with Some x, Some y => st_id x = st_id y | None, None => True | _, _ => False end.
Lemma do_eq envs i n mt s : do_experiments envs i n mt s =
  match nth_error (ts_studies s) i with
  | Some x => tbind (experiments envs i true mt n 0) (fun _ => set_fitted i) (mk_tstate (ts_f s) (upd i (mk_study (st_id x) [] [] false) (ts_studies s)))
  | None => (s, Err OutOfModel)
  end.
Proof. unfold do_experiments, reset_state. unfold tbind at 1. unfold on_study at 1. destruct (nth_error (ts_studies s) i); reflexivity. Qed.
Lemma vt_do_anew P m i n1 n2 envs n mt s t : NoDup (keys (m_channels m)) -> V P m (fs_w (ts_f s)) (fs_w (ts_f t)) ->
  n1 = length (fs_pars (ts_f s)) -> n2 = length (fs_pars (ts_f t)) -> id_rel (nth_error (ts_studies s) i) (nth_error (ts_studies t) i) ->
  (VT P m i n1 n2 (fst (do_experiments envs i n mt s)) (fst (do_experiments envs i n mt t)) /\
   rrel2 eq (snd (do_experiments envs i n mt s)) (snd (do_experiments envs i n mt t))).
Proof.
  intros ND H E1 E2 ID. rewrite !do_eq.
  destruct (nth_error (ts_studies s) i) as [x|] eqn:N, (nth_error (ts_studies t) i) as [y|] eqn:N'; cbn [id_rel] in ID; try contradiction.
  2: { cbn [fst snd]. split; [|reflexivity]. constructor; auto; [exists 0%nat; lia| |congruence]. intros j. rewrite !(proj2 (nth_error_None _ _)) by lia. reflexivity. }
  apply (vt_bind P m i n1 n2 eq eq); [now apply vt_experiments|intros _ _ _; apply vt_study|].
  constructor; cbn [ts_f ts_studies fs_w fs_pars]; auto; [exists 0%nat; lia|intros j; rewrite !(proj2 (nth_error_None _ _)) by lia; reflexivity|].
  rewrite !upd_same by (apply nth_error_Some; congruence). now rewrite ID.
Qed.
Definition VI (P : string -> Prop) (i k : nat) (s t : zstate) : Prop :=
  nth_error (z_owner s) i = Some k /\ nth_error (z_owner t) i = Some k /\ id_rel (nth_error (z_studies s) i) (nth_error (z_studies t) i) /\
  exists m, nth_error (mw_models (xs_m (z_x s))) k = Some m /\ nth_error (mw_models (xs_m (z_x t))) k = Some m /\
    NoDup (keys (m_channels m)) /\ V P m (load m (mw_heap (xs_m (z_x s)))) (load m (mw_heap (xs_m (z_x t)))).
Lemma study_answers_anew (P : string -> Prop) i k envs n mt l : Forall (fun q => no_nll q \/ (forall n, P n)) l -> forall s t, VI P i k s t ->
  study_answers i (SExperiments envs n mt :: l) s = study_answers i (SExperiments envs n mt :: l) t.
Proof.
  intros F s t (O1 & O2 & ST & m & M1 & M2 & ND & R). cbn [study_answers]. unfold of_study. rewrite O1, O2. unfold on_zmodel. rewrite M1, M2.
  set (s0 := mk_tstate (mk_fstate (load m (mw_heap (xs_m (z_x s)))) (xs_pars (z_x s)) (xs_fitters (z_x s))) (z_studies s)).
  set (t0 := mk_tstate (mk_fstate (load m (mw_heap (xs_m (z_x t)))) (xs_pars (z_x t)) (xs_fitters (z_x t))) (z_studies t)).
  assert (X : VT P m i (length (xs_pars (z_x s))) (length (xs_pars (z_x t))) (fst (study_answer i (SExperiments envs n mt) s0)) (fst (study_answer i (SExperiments envs n mt) t0)) /\
     rrel2 eq (snd (study_answer i (SExperiments envs n mt) s0)) (snd (study_answer i (SExperiments envs n mt) t0))).
  { destruct (vt_do_anew P m i _ _ envs n mt s0 t0 ND R eq_refl eq_refl ST) as [Y Z]. unfold study_answer, tbind.
    destruct (do_experiments envs i n mt s0) as [s1 [u|e]], (do_experiments envs i n mt t0) as [t1 [u'|e']]; cbn [fst snd rrel2] in *; try contradiction; auto. split; [exact Y|reflexivity]. }
  destruct X as [Y Z]. destruct (study_answer i (SExperiments envs n mt) s0) as [s1 r1], (study_answer i (SExperiments envs n mt) t0) as [t1 r2]. cbn [fst snd] in *.
  assert (E : r1 = r2) by (destruct r1, r2; cbn in Z; try contradiction; congruence). rewrite E. f_equal.
  apply (study_answers_vrel P i k); [exact F|].
  destruct Y as [Y1 _ _ Y4]. split; [exact O1|]. split; [exact O2|]. split; [exact Y4|]. pose proof Y1 as ((S1 & S2 & _) & _).
  exists m. cbn [z_x xs_m mw_models mw_heap]. rewrite S1, S2, !upd_same by (apply nth_error_Some; congruence). split; [reflexivity|]. split; [reflexivity|]. split; [exact ND|].
  rewrite !load_load. rewrite <- S1 at 2. rewrite load_self. rewrite <- S2 at 2. rewrite load_self. exact Y1.
Qed.

(** After toy experiments that succeed all the data agree. *)
Lemma vt_attempt_all P m i n1 n2 v gh s t : NoDup (keys (m_channels m)) -> VT P m i n1 n2 s t -> snd (attempt i v gh s) = Ok tt ->
  VT all_names m i n1 n2 (fst (attempt i v gh s)) (fst (attempt i v gh t)).
Proof.
  intros ND X. rewrite !attempt_eq. unfold tbind. destruct (vt_data P m i n1 n2 (en_draws v) ND s t X) as (A & B & C).
  destruct (fresh_data (en_draws v) s) as [s1 [[]|e]], (fresh_data (en_draws v) t) as [t1 [[]|e']]; cbn [fst snd] in *; try discriminate. intros _.
  exact (proj1 (vt_rest all_names m i n1 n2 v gh (fun _ => Logic.I) s1 t1 (C eq_refl))).
Qed.
Lemma vt_experiment_all P m i n1 n2 envs gh mt : NoDup (keys (m_channels m)) -> forall k k' s t, VT P m i n1 n2 s t -> snd (experiment envs i gh mt k s) = Ok k' ->
  VT all_names m i n1 n2 (fst (experiment envs i gh mt k s)) (fst (experiment envs i gh mt k t)).
Proof.
  intros ND. induction mt as [|mt IH]; intros k k' s t X; cbn [experiment]; [discriminate|].
  pose proof (vt_attempt_all P m i n1 n2 (envs k) gh s t ND X) as Y0. destruct (vt_attempt P m ND i n1 n2 (envs k) gh s t X) as [Y Z].
  destruct (attempt i (envs k) gh s) as [s1 [[]|e]], (attempt i (envs k) gh t) as [t1 [b|e']]; cbn [fst snd rrel2] in *; try contradiction; [intros _; now apply Y0|]. subst e'.
  destruct e; try discriminate; now apply IH.
Qed.
Lemma vt_experiments_all P m i n1 n2 envs gh mt n : NoDup (keys (m_channels m)) -> (0 < n)%nat -> forall k k' s t, VT P m i n1 n2 s t -> snd (experiments envs i gh mt n k s) = Ok k' ->
  VT all_names m i n1 n2 (fst (experiments envs i gh mt n k s)) (fst (experiments envs i gh mt n k t)).
Proof.
  intros ND. destruct n as [|n]; [lia|]. intros _ k k' s t X. cbn [experiments]. unfold tbind.
  pose proof (fun a => vt_experiment_all P m i n1 n2 envs gh mt ND k a s t X) as Y0. destruct (vt_experiment P m ND i n1 n2 envs gh mt k s t X) as [Y Z].
  destruct (experiment envs i gh mt k s) as [s1 [a|e]], (experiment envs i gh mt k t) as [t1 [b|e']]; cbn [fst snd rrel2] in *; try contradiction; [|discriminate]. subst b. intros _.
  exact (proj1 (vt_experiments all_names m ND i n1 n2 envs gh mt n a s1 t1 (Y0 a eq_refl))).
Qed.
Lemma study_answers_anew_all (P : string -> Prop) i k envs n mt l s t : (0 < n)%nat -> study_answers i [SExperiments envs n mt] s = [Ok SNone] -> VI P i k s t ->
  study_answers i (SExperiments envs n mt :: l) s = study_answers i (SExperiments envs n mt :: l) t.
Proof.
  intros NP OK V. pose proof (study_answers_anew P i k envs n mt [] (Forall_nil _) s t V) as E0. destruct V as (O1 & O2 & ST & m & M1 & M2 & ND & R). revert OK E0. cbn [study_answers].
  unfold of_study. rewrite O1, O2. unfold on_zmodel. rewrite M1, M2.
  set (s0 := mk_tstate (mk_fstate (load m (mw_heap (xs_m (z_x s)))) (xs_pars (z_x s)) (xs_fitters (z_x s))) (z_studies s)).
  set (t0 := mk_tstate (mk_fstate (load m (mw_heap (xs_m (z_x t)))) (xs_pars (z_x t)) (xs_fitters (z_x t))) (z_studies t)).
  assert (X : snd (study_answer i (SExperiments envs n mt) s0) = Ok SNone -> VT all_names m i (length (xs_pars (z_x s))) (length (xs_pars (z_x t))) (fst (study_answer i (SExperiments envs n mt) s0)) (fst (study_answer i (SExperiments envs n mt) t0))).
  { unfold study_answer. unfold tbind. rewrite !do_eq. change (nth_error (ts_studies s0) i) with (nth_error (z_studies s) i). change (nth_error (ts_studies t0) i) with (nth_error (z_studies t) i).
    destruct (nth_error (z_studies s) i) as [x|] eqn:N, (nth_error (z_studies t) i) as [y|] eqn:N'; cbn [id_rel] in ST; try contradiction; [|discriminate]. rewrite <- ST.
    set (s1 := mk_tstate (ts_f s0) _). set (t1 := mk_tstate (ts_f t0) _).
    assert (X : VT P m i (length (xs_pars (z_x s))) (length (xs_pars (z_x t))) s1 t1).
    { constructor; cbn [s1 t1 ts_f ts_studies fs_w fs_pars s0 t0]; auto; [exists 0%nat; cbn; lia|intros j; rewrite !(proj2 (nth_error_None _ _)) by lia; reflexivity|].
      cbn. rewrite !upd_same by (apply nth_error_Some; congruence). reflexivity. }
    unfold tbind. pose proof (fun a => vt_experiments_all P m i _ _ envs true mt n ND NP 0 a s1 t1 X) as Y0. destruct (vt_experiments P m ND i _ _ envs true mt n 0 s1 t1 X) as [Y Z].
    destruct (experiments envs i true mt n 0 s1) as [s2 [a|e]], (experiments envs i true mt n 0 t1) as [t2 [b|e']]; cbn [fst snd rrel2] in *; try contradiction; [|discriminate]. subst b.
    destruct (vt_study all_names m i _ _ (fun st => mk_study (st_id st) (st_params st) (st_errors st) true) s2 t2 (Y0 a eq_refl)) as [Q1 Q2]. unfold set_fitted.
    destruct (on_study i _ s2) as [s3 [u|e]], (on_study i _ t2) as [t3 [u'|e']]; cbn [fst snd rrel2] in *; try contradiction; [|discriminate]. intros _. exact Q1. }
  destruct (study_answer i (SExperiments envs n mt) s0) as [s1 r1], (study_answer i (SExperiments envs n mt) t0) as [t1 r2]. cbn [fst snd] in *.
  intros OK E0. injection OK as OK. injection E0 as E0. specialize (X OK). f_equal; [exact E0|].
  apply (study_answers_vrel all_names i k); [apply Forall_forall; intros q _; right; intros x; exact Logic.I|].
  destruct X as [Y1 _ _ Y4]. split; [exact O1|]. split; [exact O2|]. split; [exact Y4|]. pose proof Y1 as ((S1 & S2 & _) & _).
  exists m. cbn [z_x xs_m mw_models mw_heap]. rewrite S1, S2, !upd_same by (apply nth_error_Some; congruence). split; [reflexivity|]. split; [reflexivity|]. split; [exact ND|].
  rewrite !load_load. rewrite <- S1 at 2. rewrite load_self. rewrite <- S2 at 2. rewrite load_self. exact Y1.
Qed.
