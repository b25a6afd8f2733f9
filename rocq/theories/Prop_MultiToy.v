(** Property theorems C113: toy studies in a program with several MultiChannelTemplates, TemplateFitters and ToyStudies. *)
From Coq Require Import Reals String ZArith Bool Arith List Lra Lia.
From Verif Require Import Model_Num Model_Hist Model_Utility Model_Template Model_World Model_Ops Model_Multi Model_Minimizer Model_Fitter Model_MultiFit Model_Toy Model_MultiToy
  Spec_Matrix Spec_Min Spec_Multi Spec_MultiFit Spec_Toy Spec_MultiToy Proof_Hist Proof_Matrix Proof_Template Proof_HistHeap Proof_Monad Proof_World Proof_Eval Proof_Route
  Proof_Min Proof_Fit Proof_Multi Proof_Multi2 Proof_Multi3 Proof_Multi4 Proof_MultiFit Proof_MultiFit2 Proof_Toy Proof_Toy2 Proof_Toy3 Proof_MultiToy
  Prop_World Prop_Multi Prop_MultiEx Prop_MultiFit.
Import ListNotations.
Local Open Scope R_scope.

Lemma answers_none i qs t : (forall q, of_fitter i (answer_of i q) t = (t, Err OutOfModel)) -> answers i qs t = map (fun _ => Err OutOfModel) qs.
Proof. intros H. induction qs as [|q qs IH]; [reflexivity|]. cbn [answers map]. rewrite H. f_equal. exact IH. Qed.

(** Whatever fits, scans, toy studies and linearity tests were made before, with whatever model: every sequence of
    questions to a fitter and its model has the answers it would have in a new process with the same objects. *)
Theorem C113_fresh : forall inv l i qs, inv_spec inv -> zdisciplined inv l -> let s := z_x (zreached inv l) in
  answers i qs s = answers i qs (xfresh s).
Proof.
  intros inv l i qs IS D s. pose proof (coh_zreached inv l IS D) as C. destruct (zreached_inv inv l IS) as [W CA _ _]. fold s in C, W, CA.
  assert (X : nth_error (xs_owner s) i = None \/ exists k, nth_error (xs_owner s) i = Some k) by (destruct (nth_error (xs_owner s) i); eauto).
  destruct X as [X|(k & X)].
  - rewrite !answers_none; [reflexivity| |]; intros q; unfold of_fitter; cbn [xfresh xs_owner]; now rewrite X.
  - destruct (nth_error (mw_models (xs_m s)) k) as [m|] eqn:M.
    + apply (answers_rel i k). split; [exact X|]. split; [exact X|]. split; [reflexivity|]. exists m. split; [exact M|]. split; [exact M|].
      split; [|split; [exact C|apply no_cache_coh; repeat split]].
      destruct (fp_run inv [] IS (xs_m s) k m W CA M Logic.I) as [_ F]. cbn [mrun fold_left] in F. intros n cid H. destruct (F n cid H) as (c & A & B & T & DD).
      exists c. repeat split; auto.
    + rewrite !answers_none; [reflexivity| |]; intros q; unfold of_fitter, on_model; cbn [xfresh mfresh xs_owner xs_m mw_models]; now rewrite X, M.
Qed.
Print Assumptions C113_fresh.

(** Toy studies of other models, and linearity tests of models that share no template with model k, leave all results of
    the fitters of model k as they are. *)
Theorem C113_independent : forall inv l l' i k qs, inv_spec inv -> zdisciplined inv (l ++ l') ->
  let s := zreached inv l in let s' := zreached inv (l ++ l') in
  nth_error (xs_owner (z_x s)) i = Some k -> (k < length (mw_models (xs_m (z_x s))))%nat -> zleaves inv i k s l' ->
  answers i qs (z_x s') = answers i qs (z_x s).
Proof.
  intros inv l l' i k qs IS D s s' O K X. destruct (nth_error (mw_models (xs_m (z_x s))) k) as [m|] eqn:M; [|apply nth_error_None in M; lia].
  pose proof (zreached_inv inv l IS) as Z. fold s in Z.
  assert (C' : coh (mw_heap (xs_m (z_x s')))) by now apply coh_zreached.
  assert (C : coh (mw_heap (xs_m (z_x s)))) by (apply coh_zreached; [exact IS|]; eapply zcomplete_app; exact D).
  destruct (zrun_left inv l' i k m IS s Z M O X) as (A1 & A2 & A3 & A4).
  assert (E : zrun inv l' s = s') by (unfold s', s, zreached; now rewrite zrun_app). rewrite E in *.
  symmetry. apply (answers_rel i k). split; [exact O|]. split; [exact A3|]. split; [symmetry; exact A4|]. exists m. auto.
Qed.
Print Assumptions C113_independent.

Lemma zcomplete_more inv l1 l2 : Forall (fun o => forall s cid, ~ zcompletes s o cid) l2 -> forall ev s, zcomplete_when_used inv ev s l1 -> zcomplete_when_used inv ev s (l1 ++ l2).
Proof.
  intros N. induction l1 as [|o l1 IH]; intros ev s H; [|destruct H as [A B]; split; auto].
  clear H. revert ev s. cbn [app]. induction N as [|o l2 N _ IH]; intros ev s; [exact Logic.I|]. split; [|apply IH]. intros cid C. exfalso. now apply (N s cid).
Qed.
(** The same with hypotheses about the state before only: do_experiments of studies of other models, even of models which
    share templates with model k. *)
Theorem C113_experiments : forall inv l l' i k qs, inv_spec inv -> zdisciplined inv l -> let s := zreached inv l in
  nth_error (xs_owner (z_x s)) i = Some k -> (k < length (mw_models (xs_m (z_x s))))%nat ->
  Forall (fun o => exists j kj envs n mt, o = ZExperiments j envs n mt /\ study_of s j kj /\ kj <> k) l' ->
  answers i qs (z_x (zreached inv (l ++ l'))) = answers i qs (z_x s).
Proof.
  intros inv l l' i k qs IS D s O K F. apply (C113_independent inv l l' i k); auto.
  - apply zcomplete_more; [|exact D]. eapply Forall_impl; [|exact F]. intros o (j & kj & envs & n & mt & -> & _) t cid H. exact H.
  - clear D. pose proof (zreached_inv inv l IS) as Z. fold s in Z. change (zleaves inv i k s l'). clear O K. revert Z F. generalize s. clear s. induction l' as [|o l' IH]; intros s Z F; [exact Logic.I|].
    inversion F as [|o' l1 (j & kj & envs & n & mt & -> & OJ & NE) FL]; subst. split; [|split; [exact (fun x => x)|]].
    + cbn [ztouches]. unfold study_of in *. intros Q. apply NE. rewrite OJ in Q. now injection Q.
    + apply IH; [now apply zinv_step|]. eapply Forall_impl; [|exact FL]. intros o' (j1 & kj1 & envs1 & n1 & mt1 & E1 & O1 & N1). exists j1, kj1, envs1, n1, mt1. split; [exact E1|]. split; [|exact N1].
      destruct (study_ops inv (ZExperiments j envs n mt) j s eq_refl (zi_can _ Z) (zi_len _ Z)) as [(-> & _)|(k1 & l1 & more & _ & _ & _ & _ & _ & _ & E2)]; [exact O1|].
      unfold study_of. now rewrite E2.
Qed.
Print Assumptions C113_experiments.

(** No channel object ever belongs to two MultiChannelTemplates. *)
Theorem C113_channels_apart : forall inv l j k cid, inv_spec inv -> let s := xs_m (z_x (zreached inv l)) in in_model s j cid -> in_model s k cid -> j = k.
Proof. intros inv l j k cid IS s A B. exact (zi_apart _ (zreached_inv inv l IS) j k cid A B). Qed.
Print Assumptions C113_channels_apart.

(** The stored results of a study are those of its own last experiments: calls on other studies, fits, scans and all calls
    of Model_Multi leave them as they are. *)
Lemma on_zmodel_same {A} (f : T A) k s (R : list study -> list study -> Prop) : (forall l, R l l) -> (forall t, R (ts_studies t) (ts_studies (fst (f t)))) -> R (z_studies s) (z_studies (fst (on_zmodel k f s))).
Proof.
  intros RR H. unfold on_zmodel. destruct (nth_error (mw_models (xs_m (z_x s))) k) as [m|]; [|apply RR].
  specialize (H (mk_tstate (mk_fstate (load m (mw_heap (xs_m (z_x s)))) (xs_pars (z_x s)) (xs_fitters (z_x s))) (z_studies s))). destruct (f _) as [t r]. exact H.
Qed.
Theorem C113_results_kept : forall inv l' i st s, nth_error (z_studies s) i = Some st -> Forall (fun o => ~ zstudies o i) l' ->
  nth_error (z_studies (zrun inv l' s)) i = Some st.
Proof.
  intros inv l' i st s N F. revert s N. unfold zrun. induction F as [|o l' NO F IH]; intros s N; [exact N|]. cbn [fold_left]. apply IH. clear IH F.
  assert (RS : forall f : T unit, (forall t, nth_error (ts_studies t) i = Some st -> nth_error (ts_studies (fst (f t))) i = Some st) -> forall k, nth_error (z_studies (fst (on_zmodel k f s))) i = Some st).
  { intros f H k. apply (on_zmodel_same f k s (fun a b => nth_error a i = Some st -> nth_error b i = Some st)); auto. }
  assert (G : forall o' : top, studies i o' = false -> forall inv t, nth_error (ts_studies t) i = Some st -> nth_error (ts_studies (fst (tstep inv o' t))) i = Some st) by (intros o' H inv0 t Nt; now apply tstep_study).
  destruct o as [x|k id|j envs n mt|j envs p lo hi np ne]; cbn [zstep].
  - destruct (xstep inv x (z_x s)). exact N.
  - destruct (nth_error (mw_models (xs_m (z_x s))) k) eqn:M; [|exact N]. unfold on_zmodel. rewrite M. cbn. rewrite nth_error_app1; [exact N|]. apply nth_error_Some. congruence.
  - unfold of_study. destruct (nth_error (z_owner s) j); [|exact N]. apply RS. intros t Nt. apply (G (TExperiments j envs n mt)) with (inv := inv); auto. cbn in *. apply Nat.eqb_neq. auto.
  - unfold zdrop. cbn [fst]. unfold of_study. destruct (nth_error (z_owner s) j); [|exact N].
    apply (on_zmodel_same _ n s (fun a b => nth_error a i = Some st -> nth_error b i = Some st)); auto. intros t Nt.
    pose proof (G (TLinearity j envs p lo hi np ne) ltac:(cbn in *; now rewrite (proj2 (Nat.eqb_neq i j)) by auto) inv t Nt) as X. cbn [tstep] in X. rewrite tbind_tt in X. exact X.
Qed.
Print Assumptions C113_results_kept.

(** ** Two models with a fitter each, and a toy study of the second *)
Definition ex_two_studies (second : nat) : list zop := map ZX (ex_two_fitters second) ++ [ZStudy 1 "iminuit"]%string.
Lemma zrun_x inv l : forall s, zrun inv (map ZX l) s = mk_zstate (xrun inv l (z_x s)) (z_studies s) (z_owner s).
Proof.
  unfold zrun, xrun. induction l as [|o l IH]; intros s; [now destruct s|]. cbn [map fold_left]. rewrite IH. cbn [zstep]. destruct (xstep inv o (z_x s)). reflexivity.
Qed.
Lemma zstudy_new inv s k id m : canonical (xs_m (z_x s)) -> nth_error (mw_models (xs_m (z_x s))) k = Some m ->
  fst (zstep inv (ZStudy k id) s) = mk_zstate (z_x s) (z_studies s ++ [mk_study id [] [] false]) (z_owner s ++ [k]).
Proof.
  intros C M. pose proof (zstudy_step inv k id s C) as Z. cbn [zstep] in *. rewrite M in *. unfold on_zmodel in *. rewrite M in *. cbn [study_new ts_f ts_studies fst z_x z_studies z_owner] in *. now rewrite Z.
Qed.
Lemma zrun_study inv s k id : canonical (xs_m (z_x s)) -> (k < length (mw_models (xs_m (z_x s))))%nat ->
  zrun inv [ZStudy k id] s = mk_zstate (z_x s) (z_studies s ++ [mk_study id [] [] false]) (z_owner s ++ [k]).
Proof.
  intros C L. destruct (nth_error (mw_models (xs_m (z_x s))) k) as [m|] eqn:M; [|apply nth_error_None in M; lia]. unfold zrun, fold_left. now apply (zstudy_new inv s k id m).
Qed.
Lemma ex_two_xm inv second : length (mw_models (mreached inv (ex_two second))) = 2%nat -> canonical (mreached inv (ex_two second)) ->
  xs_m (xreached inv (ex_two_fitters second)) = mreached inv (ex_two second).
Proof. intros L C. unfold ex_two_fitters. rewrite ex_two_fitters_state by assumption. reflexivity. Qed.
Lemma zreached_x inv l : zreached inv (map ZX l) = mk_zstate (xreached inv l) [] [].
Proof. unfold zreached. rewrite zrun_x. reflexivity. Qed.
Lemma ex_studies_state inv second : length (mw_models (mreached inv (ex_two second))) = 2%nat -> canonical (mreached inv (ex_two second)) ->
  zreached inv (ex_two_studies second) = mk_zstate (xreached inv (ex_two_fitters second)) [mk_study "iminuit" [] [] false]%string [1%nat].
Proof.
  intros L C. pose proof (ex_two_xm inv second L C) as E. unfold ex_two_studies. rewrite <- E in L, C. clear E. revert L C. generalize (ex_two_fitters second). intros l L C.
  unfold zreached at 1. rewrite zrun_app. pose proof (zreached_x inv l) as Z. unfold zreached in Z. rewrite Z. clear Z.
  revert L C. generalize (xreached inv l). intros x L C. rewrite zrun_study; [reflexivity|exact C|cbn [z_x]; lia].
Qed.
Lemma ex_two_building second : Forall (fun o => forall s cid, ~ xevaluates s o cid) (ex_two_fitters second).
Proof.
  apply Forall_app. split.
  - apply Forall_forall. intros o H. apply in_map_iff in H as (c & <- & H). intros s cid. unfold ex_two in H. simpl in H. repeat (destruct H as [<-|H]); try contradiction; exact (fun x => x).
  - repeat constructor; intros s cid (? & ? & [] & _).
Qed.
Lemma zdisciplined_building inv l : Forall (fun o => forall s cid, ~ zevaluates s o cid) l -> zdisciplined inv l.
Proof.
  intros N. unfold zdisciplined. assert (X : forall (ev : nat -> Prop) s, (forall cid, ~ ev cid) -> zcomplete_when_used inv ev s l); [|apply X; auto].
  induction N as [|o l N _ IH]; intros ev s E; [exact Logic.I|]. split; [intros cid _; apply E|]. apply IH. intros cid [H|H]; [now apply (E cid)|now apply (N s cid)].
Qed.
Lemma ex_studies_disciplined inv second : zdisciplined inv (ex_two_studies second).
Proof.
  apply zdisciplined_building. apply Forall_app. split.
  - apply Forall_map. eapply Forall_impl; [|apply ex_two_building]. intros o H s cid. apply H.
  - repeat constructor. intros s cid [].
Qed.
(** C113_fresh, C113_independent and C113_experiments apply to two models, a fitter of each and a study of the second one: any
    experiments of the study, even if the models share their template, and any linearity test otherwise. *)
Example C113_example : forall inv envs n mt lo hi np ne, inv_spec inv ->
  let s := zreached inv (ex_two_studies 0) in
  zdisciplined inv (ex_two_studies 0) /\ nth_error (xs_owner (z_x s)) 0 = Some 0%nat /\ (0 < length (mw_models (xs_m (z_x s))))%nat /\
  Forall (fun o => exists j kj envs n mt, o = ZExperiments j envs n mt /\ study_of s j kj /\ kj <> 0%nat) [ZExperiments 0 envs n mt] /\
  answers 0 [QYield "s"]%string (z_x s) = [Ok (AValue (Fin 4))] /\
  let s1 := zreached inv (ex_two_studies 1) in
  zdisciplined inv (ex_two_studies 1 ++ [ZLinearity 0 envs "s" lo hi np ne]%string) /\ nth_error (xs_owner (z_x s1)) 0 = Some 0%nat /\ (0 < length (mw_models (xs_m (z_x s1))))%nat /\
  zleaves inv 0 0 s1 [ZLinearity 0 envs "s" lo hi np ne]%string.
Proof.
  intros inv envs n mt lo hi np ne IS. cbv zeta.
  assert (ST0 : exists m0 m1 w, mreached inv (ex_two 0) = mk_mworld w [m0; m1] /\ store w = model_new /\ get_yield "s"%string (load m0 w) = (load m0 w, Ok (Fin 4))).
  { unfold mreached, ex_two, ex_binned, mworld_init, world_init. do 13 mrun_step. unfold mrun. cbn [fold_left]. do 3 eexists. split; [reflexivity|]. split; [reflexivity|]. lazy -[Rplus Rmult IZR]; do 3 f_equal; lra. }
  assert (ST1 : exists m0 m1 w, mreached inv (ex_two 1) = mk_mworld w [m0; m1] /\ m_channels m0 = [("A", 0%nat)]%string /\ m_channels m1 = [("A", 1%nat)]%string /\ store w = model_new /\
    map (fun c => map snd (c_tmpls c)) (w_chans w) = [[0%nat]; [1%nat]]).
  { unfold mreached, ex_two, ex_binned, mworld_init, world_init. do 13 mrun_step. unfold mrun. cbn [fold_left]. do 3 eexists. split; [reflexivity|]. split; [reflexivity|]. split; [reflexivity|]. split; [reflexivity|]. reflexivity. }
  destruct ST0 as (m0 & m1 & w & E & CA & Y). destruct ST1 as (a0 & a1 & v & E' & N0 & N1 & CA' & TS).
  assert (S0 : zreached inv (ex_two_studies 0) = mk_zstate (mk_xstate (mk_mworld w [m0; m1]) [] [mk_fitter "iminuit" [] [] false; mk_fitter "iminuit" [] [] false]%string [0; 1]%nat) [mk_study "iminuit" [] [] false]%string [1%nat]).
  { rewrite ex_studies_state; rewrite ?E; try reflexivity; [|exact CA]. f_equal. unfold ex_two_fitters. rewrite ex_two_fitters_state; rewrite E; [reflexivity|reflexivity|exact CA]. }
  assert (S1 : zreached inv (ex_two_studies 1) = mk_zstate (mk_xstate (mk_mworld v [a0; a1]) [] [mk_fitter "iminuit" [] [] false; mk_fitter "iminuit" [] [] false]%string [0; 1]%nat) [mk_study "iminuit" [] [] false]%string [1%nat]).
  { rewrite ex_studies_state; rewrite ?E'; try reflexivity; [|exact CA']. f_equal. unfold ex_two_fitters. rewrite ex_two_fitters_state; rewrite E'; [reflexivity|reflexivity|exact CA']. }
  rewrite S0, S1. cbn [z_x xs_owner xs_m mw_models length nth_error].
  split; [apply ex_studies_disciplined|]. split; [reflexivity|]. split; [lia|]. split.
  { repeat constructor. exists 0%nat, 1%nat, envs, n, mt. split; [reflexivity|]. split; [reflexivity|discriminate]. }
  split. { cbn [answers]. unfold of_fitter, on_model, answer_of, fbind, on_world, fret. cbn [xs_m xs_pars xs_fitters xs_owner mw_models mw_heap nth_error fs_w fs_pars fs_fitters]. rewrite Y. reflexivity. }
  split; [apply zcomplete_more; [repeat constructor; intros t cid H; exact H|apply ex_studies_disciplined]|]. split; [reflexivity|]. split; [lia|].
  split; [|split; [exact (fun x => x)|exact Logic.I]].
  cbn [ztouches]. unfold study_of. cbn [z_owner z_x xs_m nth_error]. intros [X|(j & tid & X & (c1 & (ma & na & MA & IA) & c & p & CC & I) & (c2 & (mb & nb & MB & IB) & c' & p' & CC' & I'))]; [discriminate|].
  injection X as <-. cbn [mw_models mw_heap nth_error] in *. injection MA as <-. injection MB as <-.
  rewrite N1 in IA. rewrite N0 in IB. destruct IA as [IA|[]], IB as [IB|[]]. injection IA as _ <-. injection IB as _ <-.
  destruct (w_chans v) as [|x0 [|x1 [|]]]; try discriminate. injection TS as T0 T1. cbn in CC, CC'. injection CC as <-. injection CC' as <-.
  apply (in_map snd) in I, I'. rewrite T1 in I. rewrite T0 in I'. cbn in I, I'. destruct I as [I|[]], I' as [I'|[]]. congruence.
Qed.

(** A linearity test of a study of another model does matter if the models have a template object in common: it leaves the
    yield of model 0 at the last point tested. *)
Theorem C113_linearity_interferes : forall inv envs,
  let s := zreached inv (ex_two_studies 0) in let s' := fst (zstep inv (ZLinearity 0 envs "s" 8 8 1 0) s) in
  zdisciplined inv (ex_two_studies 0 ++ [ZLinearity 0 envs "s" 8 8 1 0]%string) /\
  answers 0 [QYield "s"]%string (z_x s) = [Ok (AValue (Fin 4))] /\ answers 0 [QYield "s"]%string (z_x s') = [Ok (AValue (Fin 8))].
Proof.
  intros inv envs s s'. split.
  { apply zcomplete_more; [|apply ex_studies_disciplined]. repeat constructor. intros t cid H. exact H. }
  assert (ST : exists m0 m1 w, mreached inv (ex_two 0) = mk_mworld w [m0; m1] /\ store w = model_new /\
     get_yield "s"%string (load m0 w) = (load m0 w, Ok (Fin 4)) /\
     exists w1, reset_parameters (load m1 w) = (w1, Ok tt) /\ exists w', (forall y, y = 8 -> set_yield "s"%string y w1 = (w', Ok tt)) /\ store w' = m1 /\ snd (get_yield "s"%string (load m0 w')) = Ok (Fin 8) /\ w_procs w' = ["s"]%string).
  { unfold mreached, ex_two, ex_binned, mworld_init, world_init. do 13 mrun_step. unfold mrun. cbn [fold_left]. do 3 eexists. split; [reflexivity|]. split; [reflexivity|].
    split; [lazy -[Rplus Rmult IZR]; do 3 f_equal; lra|]. eexists. split; [reflexivity|]. eexists. split; [intros y ->; reflexivity|]. split; [reflexivity|]. split; [lazy -[Rplus Rmult IZR]; do 3 f_equal; lra|]. reflexivity. }
  destruct ST as (m0 & m1 & w & E & CA & Y1 & w1 & R1 & w' & SY & MW & Y2 & PW).
  assert (SE : s = mk_zstate (mk_xstate (mk_mworld w [m0; m1]) [] [mk_fitter "iminuit" [] [] false; mk_fitter "iminuit" [] [] false]%string [0; 1]%nat) [mk_study "iminuit" [] [] false]%string [1%nat]).
  { unfold s. rewrite ex_studies_state; rewrite ?E; try reflexivity; [|exact CA]. f_equal. unfold ex_two_fitters. rewrite ex_two_fitters_state; rewrite E; [reflexivity|reflexivity|exact CA]. }
  unfold s'. rewrite SE. clear s s' SE E. split.
  - cbn [answers z_x]. unfold of_fitter, on_model, answer_of, fbind, on_world, fret. cbn [xs_m xs_pars xs_fitters xs_owner mw_models mw_heap nth_error fs_w fs_pars fs_fitters]. rewrite Y1. reflexivity.
  - set (fs := [mk_fitter "iminuit" [] [] false; mk_fitter "iminuit" [] [] false]%string).
    assert (G : exists t r, do_linearity_test envs 0 "s"%string 8 8 1 0 (mk_tstate (mk_fstate (load m1 w) [] fs) [mk_study "iminuit" [] [] false]%string) = (t, r) /\ ts_f t = mk_fstate w' [] fs).
    { unfold do_linearity_test. assert (L : exists y, np_linspace 8 8 1 = [y] /\ y = 8) by (eexists; split; [reflexivity|lra]). destruct L as (y & -> & L).
      cbn [linearity_points]. unfold linearity_point, reset_state, on_study, tbind, on_w, on_f, on_world. cbn [ts_studies ts_f nth_error fs_w fs_pars fs_fitters upd st_id]. rewrite R1.
      cbn [ts_studies ts_f fs_w fs_pars fs_fitters]. rewrite (SY y L). cbn [experiments ts_studies ts_f fs_w fs_pars fs_fitters]. unfold tret.
      unfold set_fitted, get_toy_results, check_state, get_study, on_study, tbind, tret, tlift. cbn [ts_studies ts_f nth_error fs_w fs_pars fs_fitters upd st_id st_fitted st_params st_errors].
      rewrite PW. cbn [index_of String.eqb Ascii.eqb Bool.eqb]. unfold result_parameters, check_state, get_study, tbind, tret, tlift. cbn. eauto. }
    destruct G as (t & r & G & TF). cbn [zstep]. unfold of_study. cbn [z_owner nth_error]. unfold on_zmodel. cbn [z_x z_studies z_owner xs_m xs_pars xs_fitters xs_owner mw_models mw_heap nth_error]. rewrite G.
    unfold zdrop. cbn [fst snd z_x]. rewrite TF. cbn [fs_w fs_pars fs_fitters].
    cbn [answers]. unfold of_fitter, on_model, answer_of, fbind, on_world, fret. cbn [xs_m xs_pars xs_fitters xs_owner mw_models mw_heap nth_error fs_w fs_pars fs_fitters upd app].
    rewrite load_load. destruct (get_yield "s"%string (load m0 w')) as [w2 r2]. cbn [snd] in Y2. subst r2. reflexivity.
Qed.
Print Assumptions C113_linearity_interferes.
