(** Toy studies in a program with several models are sequences of calls of their own model. *)
From Coq Require Import Reals String ZArith Bool Arith List Lra Lia.
From Verif Require Import Model_Num Model_Hist Model_Utility Model_Template Model_World Model_Ops Model_Multi Model_Minimizer Model_Fitter Model_MultiFit Model_Toy Model_MultiToy
  Spec_Matrix Spec_Min Spec_Multi Spec_MultiFit Spec_Toy Spec_MultiToy Proof_Hist Proof_Matrix Proof_Template Proof_HistHeap Proof_Monad Proof_World Proof_Eval Proof_Route
  Proof_Min Proof_Fit Proof_Multi Proof_Multi2 Proof_Multi3 Proof_Multi4 Proof_MultiFit Proof_MultiFit2 Proof_Toy Proof_Toy2 Proof_Toy3.
Import ListNotations.
Local Open Scope R_scope.

(** ** Channel objects are not shared *)
Definition apart (s : mworld) : Prop := forall k j cid, in_model s k cid -> in_model s j cid -> k = j.
Lemma in_known s k cid : mwf s -> in_model s k cid -> (cid < length (w_chans (mw_heap s)))%nat.
Proof.
  intros (P & W) (m & n & M & I). assert (W1 : WFg P (load m (mw_heap s))) by (apply W; right; eapply nth_error_In; eauto).
  destruct (wfg_dict _ W1 n cid I) as (c & C & _). cbn [load w_chans] in C. apply nth_error_Some. congruence.
Qed.
Lemma apart_sub s s' : (forall k cid, in_model s' k cid -> in_model s k cid) -> apart s -> apart s'.
Proof. intros H A k j cid I J. apply (A k j cid); auto. Qed.
Lemma own_channels inv o w : (forall n b r, o <> ODefChannel n b r) -> m_channels (store (fst (step inv o w))) = w_channels w.
Proof.
  intros N. destruct (own o) eqn:O.
  - destruct o; try discriminate; [exfalso; eapply N; reflexivity| |]; cbn [step].
    + unfold define_process. destruct (smem _ _); reflexivity.
    + unfold add_gaussian_constraint. destruct (smem _ _); reflexivity.
  - apply (f_equal m_channels (sto_step inv o O w)).
Qed.
Lemma in_snoc (l : list model) m cid k n : nth_error (l ++ [model_new]) k = Some m -> In (n, cid) (m_channels m) -> nth_error l k = Some m.
Proof.
  intros M I. destruct (Nat.lt_ge_cases k (length l)) as [L|L]; [now rewrite nth_error_app1 in M by exact L|]. exfalso. rewrite nth_error_app2 in M by exact L.
  destruct (k - length l)%nat as [|d]; [injection M as <-; destruct I|destruct d; discriminate].
Qed.
Lemma dset_in {B} l k0 (v : B) n x : In (n, x) (dset String.eqb l k0 v) -> x = v \/ In (n, x) l.
Proof.
  induction l as [|[a b] l IH]; simpl.
  - intros [E|[]]. injection E as _ <-. auto.
  - destruct (String.eqb k0 a); simpl; intros [E|E]; auto; [injection E as _ <-; auto|]. destruct (IH E); auto.
Qed.
Lemma apart_mstep inv o s : mwf s -> apart s -> apart (fst (mstep inv o s)).
Proof.
  intros W A. destruct o as [|j o|c]; cbn [mstep].
  - apply (apart_sub s); auto. intros k cid (m & n & M & I). exists m, n. split; [|exact I]. eapply in_snoc; eauto.
  - destruct (nth_error (mw_models s) j) as [m|] eqn:M; [|exact A].
    assert (D : (exists n b r, o = ODefChannel n b r) \/ forall n b r, o <> ODefChannel n b r) by (destruct o; try (right; congruence); left; eauto).
    destruct D as [(n0 & b & r & ->)|D].
    + cbn. intros k1 k2 cid (m1 & n1 & M1 & I1) (m2 & n2 & M2 & I2). cbn [mw_models] in M1, M2.
      assert (X : forall k m1 n1 cid, nth_error (upd j (mk_model (dset String.eqb (m_channels m) n0 (length (w_chans (mw_heap s)))) (m_procs m) (m_cnames m) (m_cvals m) (m_cerrs m)) (mw_models s)) k = Some m1 ->
         In (n1, cid) (m_channels m1) -> k = j /\ cid = length (w_chans (mw_heap s)) \/ in_model s k cid).
      { intros k m0 n cid0 M0 I0. destruct (Nat.eq_dec j k) as [<-|NE].
        - rewrite upd_same in M0 by (apply nth_error_Some; congruence). injection M0 as <-. cbn [m_channels] in I0. apply dset_in in I0 as [I0|I0]; [left; auto|right]. exists m, n. auto.
        - rewrite upd_other in M0 by auto. right. exists m0, n. auto. }
      destruct (X k1 m1 n1 cid M1 I1) as [[E1 E2]|Y1], (X k2 m2 n2 cid M2 I2) as [[F1 F2]|Y2]; [congruence| | |now apply (A k1 k2 cid)].
      * apply (in_known s) in Y2; [lia|exact W]. * apply (in_known s) in Y1; [lia|exact W].
    + pose proof (own_channels inv o (load m (mw_heap s)) D) as E. destruct (step inv o (load m (mw_heap s))) as [w r]. cbn [fst] in *.
      apply (apart_sub s); auto. intros k cid (m1 & n1 & M1 & I1). cbn [mw_models] in M1. destruct (Nat.eq_dec j k) as [<-|NE].
      * rewrite upd_same in M1 by (apply nth_error_Some; congruence). injection M1 as <-. rewrite E in I1. exists m, n1. auto.
      * rewrite upd_other in M1 by auto. exists m1, n1. auto.
  - destruct (cstep c (mw_heap s)) as [w r]. apply (apart_sub s); auto.
Qed.
Lemma apart_mrun inv l : inv_spec inv -> forall s, mwf s -> canonical s -> apart s -> apart (mrun inv l s).
Proof. intros IS. unfold mrun. induction l as [|o l IH]; intros s W C A; simpl; [auto|]. apply IH; [now apply mwf_step|now apply canonical_step|now apply apart_mstep]. Qed.

(** ** Toy studies as sequences of calls *)
Definition toyop (o : op) : Prop := nllop o \/ (exists d, o = OToy d) \/ exists d, o = OAddData d.
Definition linop (o : op) : Prop := toyop o \/ o = OReset \/ exists p v, o = OSetYield p v.
Definition tcalls (inv : mat -> res mat) (allowed : op -> Prop) (s s' : tstate) : Prop :=
  (exists l, Forall allowed l /\ fs_w (ts_f s') = run inv l (fs_w (ts_f s))) /\ exists more, fs_fitters (ts_f s') = fs_fitters (ts_f s) ++ more.
Lemma tcalls_refl inv al s : tcalls inv al s s.
Proof. split; [exists []; split; [constructor|reflexivity]|exists []; now rewrite app_nil_r]. Qed.
Lemma tcalls_trans inv al a b c : tcalls inv al a b -> tcalls inv al b c -> tcalls inv al a c.
Proof.
  intros ((l & L & E) & m & M) ((l' & L' & E') & m' & M'). split; [exists (l ++ l'); split; [now apply Forall_app|]; rewrite run_app; congruence|].
  exists (m ++ m'). rewrite M', M. now rewrite app_assoc.
Qed.
Lemma tcalls_w inv (al : op -> Prop) {A} (m : M A) o : al o -> (forall w, fst (step inv o w) = fst (m w)) -> trel (tcalls inv al) (on_w m).
Proof.
  intros AO H s. unfold tcalls, on_w. rewrite on_f_f. unfold on_world. specialize (H (fs_w (ts_f s))). destruct (m (fs_w (ts_f s))) as [w r]. cbn [fst fs_w fs_fitters] in *.
  split; [exists [o]; split; [auto|unfold run; simpl; now rewrite H]|exists []; now rewrite app_nil_r].
Qed.
Lemma tcalls_study inv al i g : trel (tcalls inv al) (on_study i g).
Proof. intros s. pose proof (on_study_f i g s) as E. unfold tcalls. rewrite E. apply tcalls_refl. Qed.
Lemma tcalls_toy inv (al : op -> Prop) : (forall o, toyop o -> al o) ->
  (forall d, trel (tcalls inv al) (on_w (generate_toy_dataset d))) /\ (forall d, trel (tcalls inv al) (on_w (mct_add_data d))) /\
  (forall id, trel (tcalls inv al) (on_f (fitter_new id))) /\ (forall E fi gh, trel (tcalls inv al) (on_f (do_fit E fi false gh true None))) /\
  (forall a, trel (tcalls inv al) (on_f (get_pars a))).
Proof.
  intros AL. split; [|split; [|split; [|split]]].
  - intros d. apply (tcalls_w inv al _ (OToy d)); [apply AL; right; left; eauto|]. intros w. simpl. unfold bind. destruct (generate_toy_dataset d w) as (w' & [|]); reflexivity.
  - intros d. apply (tcalls_w inv al _ (OAddData d)); [apply AL; right; right; eauto|reflexivity].
  - intros id s. unfold tcalls. rewrite on_f_f. split; [exists []; split; [constructor|reflexivity]|cbn; eauto].
  - intros E fi gh s. unfold tcalls. rewrite on_f_f. assert (An : forall x, al (ONll x)) by (intros x; apply AL; left; exists x; reflexivity).
    destruct (do_fit_frame inv al (ts_f s) An E fi false gh true None ltac:(discriminate) (ts_f s) (frame_refl' _ al (ts_f s))) as (F & _ & _ & l & L & Z).
    split; [eauto|exists []; now rewrite F, app_nil_r].
  - intros a s. unfold tcalls. rewrite on_f_f. apply tcalls_refl.
Qed.
Lemma experiments_calls inv i envs n mt : trel (tcalls inv toyop) (do_experiments envs i n mt).
Proof.
  destruct (tcalls_toy inv toyop (fun _ H => H)) as (A & B & C & D & E).
  apply (trel_do_experiments (tcalls inv toyop)); auto; [apply tcalls_refl|apply tcalls_trans|apply tcalls_study].
Qed.
Lemma linearity_calls inv i envs p lo hi np ne : trel (tcalls inv linop) (do_linearity_test envs i p lo hi np ne).
Proof.
  destruct (tcalls_toy inv linop ltac:(intros; left; assumption)) as (A & B & C & D & E).
  apply (trel_linearity (tcalls inv linop)); auto; [apply tcalls_refl|apply tcalls_trans|apply tcalls_study| |].
  - apply (tcalls_w inv linop _ OReset); [right; left; reflexivity|reflexivity].
  - intros q v. apply (tcalls_w inv linop _ (OSetYield q v)); [right; right; eauto|reflexivity].
Qed.

(** the effect of a method of a toy study *)
Lemma on_zmodel_calls inv {A} (f : T A) k s al : trel (tcalls inv al) f -> canonical (xs_m (z_x s)) -> lens (z_x s) ->
  let s' := fst (on_zmodel k f s) in
  exists l more, Forall al l /\ xs_m (z_x s') = mrun inv (map (MCall k) l) (xs_m (z_x s)) /\ xs_fitters (z_x s') = xs_fitters (z_x s) ++ more /\
    xs_owner (z_x s') = xs_owner (z_x s) ++ repeat k (length more) /\ z_owner s' = z_owner s.
Proof.
  intros H C L s'. unfold s', on_zmodel. destruct (nth_error (mw_models (xs_m (z_x s))) k) as [m|] eqn:M; [|exists [], []; cbn; rewrite !app_nil_r; auto].
  specialize (H (mk_tstate (mk_fstate (load m (mw_heap (xs_m (z_x s)))) (xs_pars (z_x s)) (xs_fitters (z_x s))) (z_studies s))). destruct (f _) as [t r].
  destruct H as ((l & FL & E) & more & E2). cbn [fst ts_f fs_w fs_fitters z_x xs_m xs_fitters xs_owner z_owner] in *. exists l, more. split; [exact FL|].
  rewrite (mrun_calls inv k l _ m C M), <- E. split; [reflexivity|]. split; [exact E2|]. split; [|reflexivity]. rewrite E2, app_length. now replace (length (xs_fitters (z_x s)) + length more - length (xs_fitters (z_x s)))%nat with (length more) by lia.
Qed.
Definition zstudies (o : zop) (i : nat) : Prop := match o with ZExperiments j _ _ _ | ZLinearity j _ _ _ _ _ _ => j = i | _ => False end.
Definition zlinear (o : zop) : Prop := match o with ZLinearity _ _ _ _ _ _ _ => True | _ => False end.
Lemma study_ops inv o i s : zstudies o i -> canonical (xs_m (z_x s)) -> lens (z_x s) -> let s' := fst (zstep inv o s) in
  (s' = s /\ nth_error (z_owner s) i = None) \/
  exists k l more, nth_error (z_owner s) i = Some k /\ Forall linop l /\ (~ zlinear o -> Forall toyop l) /\
    xs_m (z_x s') = mrun inv (map (MCall k) l) (xs_m (z_x s)) /\ xs_fitters (z_x s') = xs_fitters (z_x s) ++ more /\
    xs_owner (z_x s') = xs_owner (z_x s) ++ repeat k (length more) /\ z_owner s' = z_owner s.
Proof.
  intros Z C L. destruct o as [| |j envs n mt|j envs p lo hi np ne]; try contradiction; cbn [zstudies] in Z; subst j; cbv zeta; cbn [zstep zdrop]; unfold zdrop, of_study; cbn [fst];
    (destruct (nth_error (z_owner s) i) as [k|]; [right|left; auto]).
  - destruct (on_zmodel_calls inv _ k s toyop (experiments_calls inv i envs n mt) C L) as (l & more & A & B). exists k, l, more. split; [reflexivity|].
    split; [eapply Forall_impl; [|exact A]; intros; left; assumption|]. split; [auto|exact B].
  - destruct (on_zmodel_calls inv _ k s linop (linearity_calls inv i envs p lo hi np ne) C L) as (l & more & A & B). exists k, l, more. split; [reflexivity|].
    split; [exact A|]. split; [intros X; exfalso; apply X; exact Logic.I|exact B].
Qed.

(** ** Invariants of programs with toy studies *)
Lemma lin_keeps o : linop o -> forall k j, ~ changes_model (MCall k o) j.
Proof. intros [[(x & ->)|[(d & ->)|(d & ->)]]|[->|(p & v & ->)]] k j H; exact H. Qed.
Lemma lin_completes o : linop o -> forall k s cid, ~ completes_channel s (MCall k o) cid.
Proof. intros [[(x & ->)|[(d & ->)|(d & ->)]]|[->|(p & v & ->)]] k s cid H; exact H. Qed.
Lemma lin_evaluates o : linop o -> forall k s cid, evaluates_channel s (MCall k o) cid -> in_model s k cid.
Proof. intros [[(x & ->)|[(d & ->)|(d & ->)]]|[->|(p & v & ->)]] k s cid H; first [exact H|destruct H]. Qed.
Lemma step_in_model inv j o s : (forall k, ~ changes_model (MCall j o) k) -> forall k cid, in_model (fst (mstep inv (MCall j o) s)) k cid <-> in_model s k cid.
Proof.
  intros N k cid. assert (X : forall m, nth_error (mw_models s) k = Some m -> nth_error (mw_models (fst (mstep inv (MCall j o) s))) k = Some m) by (intros m M; now apply models_mstep).
  split; intros (m & n & M & I); exists m, n; (split; [|exact I]); [|now apply X].
  destruct (nth_error (mw_models s) k) as [m0|] eqn:M0; [rewrite (X m0 eq_refl) in M; congruence|]. exfalso. apply nth_error_None in M0.
  assert (L : length (mw_models (fst (mstep inv (MCall j o) s))) = length (mw_models s)).
  { cbn [mstep]. destruct (nth_error (mw_models s) j) as [mj|]; [|reflexivity]. destruct (step inv o (load mj (mw_heap s))). cbn. now rewrite upd_length. }
  assert (k < length (mw_models (fst (mstep inv (MCall j o) s))))%nat by (apply nth_error_Some; congruence). lia.
Qed.
Lemma lin_template inv j o s x : linop o -> mwf s -> forall tid, model_template (fst (mstep inv (MCall j o) s)) x tid -> model_template s x tid.
Proof.
  intros O W tid (cid & IM & c & p & CC & T). apply (step_in_model inv j o s (lin_keeps o O j)) in IM. exists cid. split; [exact IM|].
  pose proof (in_known s x cid W IM) as KN. destruct (nth_error (w_chans (mw_heap s)) cid) as [c0|] eqn:C0; [|apply nth_error_None in C0; lia].
  assert (K : (exists d, o = OAddData d) \/ forall i, ~ changes_channel s (MCall j o) i) by (destruct O as [[(y & ->)|[(d & ->)|(d & ->)]]|[->|(q & v & ->)]]; eauto; right; intros i H; exact H).
  destruct K as [(d & ->)|K].
  - cbn [mstep] in CC. destruct (nth_error (mw_models s) j) as [mj|]; [|cbn in CC; exists c, p; split; [congruence|exact T]].
    cbn [step] in CC. pose proof (dr_add_data d (load mj (mw_heap s))) as D. destruct (mct_add_data d (load mj (mw_heap s))) as [w r]. cbn [fst mw_heap] in *.
    cbn [load w_chans] in CC. pose proof (dr_nth _ _ cid D) as E. cbn [load w_chans] in E. rewrite C0, CC in E. injection E as E. rewrite E in T. exists c0, p. split; auto.
  - pose proof (f_chans _ _ _ _ _ (frm_mstep inv (MCall j o) s) cid c0 C0 (K cid)) as F. rewrite F in CC. injection CC as <-. exists c0, p. auto.
Qed.
Lemma lin_leaves inv k j l : inv_spec inv -> Forall linop l -> forall s, mwf s -> canonical s -> apart s -> j <> k ->
  Forall toyop l \/ (forall tid, model_template s j tid -> ~ model_template s k tid) -> leaves inv k s (map (MCall j) l).
Proof.
  intros IS. induction 1 as [|o l O L IH]; intros s W C A NE H; [exact Logic.I|]. cbn [map leaves]. split.
  - intros [X|[(cid & Y & X)|[(tid & X & Y)|(hid & _ & X)]]].
    + exact (lin_keeps o O j k X).
    + destruct O as [[(y & ->)|[(d & ->)|(d & ->)]]|[->|(q & v & ->)]]; try exact X. destruct X as (n & h & _ & m & M & D).
      apply dget_In in D. apply NE. apply (A j k cid); [exists m, n; auto|exact Y].
    + destruct H as [H|H].
      * apply Forall_inv in H as [(y & ->)|[(d & ->)|(d & ->)]]; exact Y.
      * apply (H tid); [|exact X]. destruct O as [[(y & ->)|[(d & ->)|(d & ->)]]|[->|(q & v & ->)]]; try destruct Y; eauto. all: exists x; auto.
    + destruct O as [[(y & ->)|[(d & ->)|(d & ->)]]|[->|(q & v & ->)]]; exact X.
  - apply IH; [now apply mwf_step|now apply canonical_step|now apply apart_mstep|exact NE|].
    destruct H as [H|H]; [left; now apply Forall_inv_tail in H|right]. intros tid T1 T2. apply (H tid); eapply lin_template; eauto.
Qed.
Lemma cinv_lin inv k l : Forall linop l -> forall ev s, cinv ev s -> cinv (fun cid => ev cid \/ in_model s k cid) (mrun inv (map (MCall k) l) s).
Proof.
  induction 1 as [|o l O _ IH]; intros ev s C; [apply (cinv_mono ev); auto|].
  change (mrun inv (map (MCall k) (o :: l)) s) with (mrun inv (map (MCall k) l) (fst (mstep inv (MCall k o) s))).
  assert (S1 : cinv (fun cid => ev cid \/ evaluates_channel s (MCall k o) cid) (fst (mstep inv (MCall k o) s))).
  { apply cinv_step; [exact C|]. intros cid X _. exact (lin_completes o O k s cid X). }
  apply IH in S1. eapply cinv_mono; [|exact S1]. intros cid [[E|E]|E]; auto; right; [now apply (lin_evaluates o O)|now apply (step_in_model inv k o s (lin_keeps o O k))].
Qed.
(** every call is one of three *)
Lemma zcases o : (exists x, o = ZX x) \/ (exists k id, o = ZStudy k id) \/ exists i, zstudies o i.
Proof. destruct o; simpl; eauto. Qed.
Lemma zx_step inv x s : z_x (fst (zstep inv (ZX x) s)) = fst (xstep inv x (z_x s)) /\ z_owner (fst (zstep inv (ZX x) s)) = z_owner s.
Proof. cbn [zstep]. destruct (xstep inv x (z_x s)). auto. Qed.
Lemma zstudy_step inv k id s : canonical (xs_m (z_x s)) -> z_x (fst (zstep inv (ZStudy k id) s)) = z_x s.
Proof.
  intros C. cbn [zstep]. destruct (nth_error (mw_models (xs_m (z_x s))) k) as [m|] eqn:M; [|reflexivity]. unfold on_zmodel. rewrite M. cbn. destruct s as [[[h ms] ps fs ow] st zo]. cbn in *.
  rewrite Nat.sub_diag. cbn [repeat]. rewrite app_nil_r. f_equal.
  pose proof (mrun_calls inv k [] (mk_mworld h ms) m C M) as Y. cbn [map run mrun fold_left] in Y. symmetry. exact Y.
Qed.
Record zinv (s : zstate) : Prop := { zi_wf : mwf (xs_m (z_x s)); zi_can : canonical (xs_m (z_x s)); zi_len : lens (z_x s); zi_apart : apart (xs_m (z_x s)) }.
Lemma zinv_step inv o s : inv_spec inv -> zinv s -> zinv (fst (zstep inv o s)).
Proof.
  intros IS [W C L A]. destruct (zcases o) as [(x & ->)|[(k & id & ->)|(i & Z)]].
  - destruct (zx_step inv x s) as [E _]. destruct (xstep_inv inv x (z_x s) IS W C) as [W' C']. constructor; rewrite E; auto; [now apply xstep_lens|].
    destruct (xstep_calls inv x (z_x s) C) as (l & ->). now apply apart_mrun.
  - pose proof (zstudy_step inv k id s C) as E. constructor; rewrite E; auto.
  - destruct (study_ops inv o i s Z C L) as [(-> & _)|(k & l & more & _ & F & _ & E & E1 & E2 & _)]; [constructor; auto|].
    destruct (mrun_inv inv (map (MCall k) l) IS (xs_m (z_x s)) W C) as [W' C']. constructor; rewrite ?E; auto; [|now apply apart_mrun].
    unfold lens in *. rewrite E1, E2, !app_length, repeat_length. congruence.
Qed.
Lemma zinv_run inv l : inv_spec inv -> forall s, zinv s -> zinv (zrun inv l s).
Proof. intros IS. unfold zrun. induction l as [|o l IH]; intros s H; simpl; [auto|]. apply IH. now apply zinv_step. Qed.
Lemma zinv_init : zinv zstate_init.
Proof. constructor; [apply mwf_init|reflexivity|reflexivity|]. intros k j cid (m & n & M & _). destruct k; discriminate. Qed.
Lemma zreached_inv inv l : inv_spec inv -> zinv (zreached inv l).
Proof. intros IS. apply zinv_run; [exact IS|apply zinv_init]. Qed.

Lemma cinv_zstep inv ev o s : zinv s -> cinv ev (xs_m (z_x s)) -> (forall cid, zcompletes s o cid -> ~ ev cid) ->
  cinv (fun cid => ev cid \/ zevaluates s o cid) (xs_m (z_x (fst (zstep inv o s)))).
Proof.
  intros [W C L A] I N. destruct (zcases o) as [(x & ->)|[(k & id & ->)|(i & Z)]].
  - destruct (zx_step inv x s) as [-> _]. apply (cinv_xstep inv ev x (z_x s) C I N).
  - rewrite zstudy_step by exact C. apply (cinv_mono ev); auto.
  - destruct (study_ops inv o i s Z C L) as [(-> & _)|(k & l & more & OW & F & _ & E & _)]; [apply (cinv_mono ev); auto|]. rewrite E.
    eapply cinv_mono; [|apply (cinv_lin inv k l F ev); exact I]. intros cid [X|X]; auto. right. destruct o; try contradiction; cbn [zstudies] in Z; subst; exists k; auto.
Qed.
Lemma coh_zrun inv l : inv_spec inv -> forall ev s, zinv s -> cinv ev (xs_m (z_x s)) -> zcomplete_when_used inv ev s l -> coh (mw_heap (xs_m (z_x (zrun inv l s)))).
Proof.
  intros IS. unfold zrun. induction l as [|o l IH]; intros ev s Z I D; simpl in *; [apply I|]. destruct D as [D1 D2]. eapply IH; [|apply cinv_zstep; eauto|exact D2]. now apply zinv_step.
Qed.
Lemma coh_zreached inv l : inv_spec inv -> zdisciplined inv l -> coh (mw_heap (xs_m (z_x (zreached inv l)))).
Proof. intros IS D. eapply coh_zrun; [exact IS|apply zinv_init| |exact D]. split; [apply no_cache_coh; repeat split|]. intros cid [(? & ? & [])|[(? & [])|(? & [])]]. Qed.
Lemma zcomplete_app inv l1 l2 : forall ev s, zcomplete_when_used inv ev s (l1 ++ l2) -> zcomplete_when_used inv ev s l1.
Proof. induction l1 as [|o l1 IH]; intros ev s; simpl; auto. intros [A B]. split; eauto. Qed.
Lemma zrun_app inv l1 l2 s : zrun inv (l1 ++ l2) s = zrun inv l2 (zrun inv l1 s). Proof. apply fold_left_app. Qed.

Definition left (i k : nat) (m : model) (s s' : zstate) : Prop :=
  nth_error (mw_models (xs_m (z_x s'))) k = Some m /\ fp m (mw_heap (xs_m (z_x s))) (mw_heap (xs_m (z_x s'))) /\
  nth_error (xs_owner (z_x s')) i = Some k /\ nth_error (xs_fitters (z_x s')) i = nth_error (xs_fitters (z_x s)) i.
Lemma zstep_left inv o s i k m : inv_spec inv -> zinv s -> nth_error (mw_models (xs_m (z_x s))) k = Some m -> nth_error (xs_owner (z_x s)) i = Some k ->
  ~ ztouches s o k -> ~ zconfigures o i -> left i k m s (fst (zstep inv o s)).
Proof.
  intros IS [W C L A] M O T NC. pose proof (fun l => fp_run inv l IS (xs_m (z_x s)) k m W C M) as FP. unfold left. destruct (zcases o) as [(x & ->)|[(k' & id & ->)|(j & Z)]].
  - destruct (zx_step inv x s) as [-> _]. apply (xstep_left inv x (z_x s) i k m); auto.
  - rewrite zstudy_step by exact C. destruct (FP [] Logic.I). auto.
  - destruct (study_ops inv o j s Z C L) as [(-> & _)|(kj & l & more & OJ & F & NL & E & E1 & E2 & _)]; [destruct (FP [] Logic.I); auto|]. rewrite E, E1, E2.
    assert (NE : kj <> k) by (intros ->; apply T; destruct o; try contradiction; cbn [zstudies] in Z; subst; cbn; unfold study_of; auto).
    assert (LV : leaves inv k (xs_m (z_x s)) (map (MCall kj) l)).
    { apply lin_leaves; auto. assert (U : zlinear o \/ ~ zlinear o) by (destruct o; simpl; auto). destruct U as [U|U]; [right|left; auto].
      intros tid T1 T2. apply T. destruct o; try contradiction. cbn [zstudies] in Z. subst. right. exists kj, tid. auto. }
    destruct (FP _ LV) as [A1 A2]. assert (LI : (i < length (xs_owner (z_x s)))%nat) by (apply nth_error_Some; congruence).
    rewrite !nth_error_app1 by (unfold lens in L; lia). auto.
Qed.
Lemma zrun_left inv l i k m : inv_spec inv -> forall s, zinv s -> nth_error (mw_models (xs_m (z_x s))) k = Some m -> nth_error (xs_owner (z_x s)) i = Some k ->
  zleaves inv i k s l -> left i k m s (zrun inv l s).
Proof.
  intros IS. unfold zrun. induction l as [|o l IH]; intros s Z M O X; cbn [fold_left].
  - destruct Z as [W C L A]. destruct (fp_run inv [] IS (xs_m (z_x s)) k m W C M Logic.I). unfold left. auto.
  - destruct X as (X1 & X2 & X3). destruct (zstep_left inv o s i k m IS Z M O X1 X2) as (A1 & A2 & A3 & A4).
    destruct (IH (fst (zstep inv o s)) (zinv_step inv o s IS Z) A1 A3 X3) as (B1 & B2 & B3 & B4). split; [exact B1|]. split; [eapply fp_trans; eauto|]. split; [exact B3|congruence].
Qed.
