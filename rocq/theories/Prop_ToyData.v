(** Property theorems C115: toy studies and the data of their model. *)
From Coq Require Import Reals String ZArith Bool Arith List Lra Lia.
From Verif Require Import Model_Num Model_Hist Model_Utility Model_Template Model_World Model_Ops Model_Multi Model_Minimizer Model_Fitter Model_MultiFit Model_Toy Model_MultiToy Model_MultiToyAsk
  Spec_Matrix Spec_Min Spec_World Spec_Multi Spec_MultiFit Spec_Toy Spec_MultiToy Spec_MultiToyAsk Proof_Hist Proof_Matrix Proof_Template Proof_HistHeap Proof_Monad Proof_World Proof_Eval Proof_Route
  Proof_Min Proof_Fit Proof_Multi Proof_Multi2 Proof_Multi3 Proof_Multi4 Proof_MultiFit Proof_MultiFit2 Proof_Toy Proof_Toy2 Proof_Toy3 Proof_MultiToy Proof_MultiToy2 Proof_ToyPar Proof_ToyData
  Prop_World Prop_Multi Prop_MultiEx Prop_MultiFit Prop_MultiToy Prop_ToyEx.
Import ListNotations.
Local Open Scope R_scope.

Lemma no_nll_qs (P : string -> Prop) qs : Forall (fun q => forall x, q <> SNll x) qs -> Forall (fun q => no_nll q \/ (forall n, P n)) qs.
Proof. apply Forall_impl. intros q H. left. destruct q; try exact Logic.I. now apply (H x). Qed.
Lemma data_start inv l l' i k : inv_spec inv -> zdisciplined inv (l ++ l') ->
  let s := zreached inv l in study_of s i k -> (k < length (mw_models (xs_m (z_x s))))%nat -> zkeeps_but_data inv k s l' ->
  VI no_names i k s (zreached inv (l ++ l')) .
Proof.
  intros IS D s O K X. destruct (nth_error (mw_models (xs_m (z_x s))) k) as [m|] eqn:M; [|apply nth_error_None in M; lia].
  pose proof (zreached_inv inv l IS) as Z. fold s in Z.
  assert (C : coh (mw_heap (xs_m (z_x s)))) by (apply coh_zreached; [exact IS|]; eapply zcomplete_app; exact D).
  pose proof (coh_zreached inv (l ++ l') IS D) as C'.
  destruct (zrun_keptd inv l' i k m IS s Z M O X) as ((A1 & A2) & A3 & A4).
  assert (E : zreached inv (l ++ l') = zrun inv l' s) by (unfold s, zreached; now rewrite zrun_app). rewrite E in *.
  split; [exact O|]. split; [exact A3|]. split.
  { destruct (nth_error (z_studies s) i) as [st|] eqn:N.
    - destruct (A4 st N) as (st' & -> & Q). cbn. congruence.
    - exfalso. apply nth_error_None in N. pose proof (zlens_reached inv l) as L. unfold zlens in L. fold s in L.
      assert (i < length (z_owner s))%nat by (apply nth_error_Some; unfold study_of in O; congruence). lia. }
  exists m. split; [exact M|]. split; [exact A1|]. destruct Z as [(Q & W) _ _ _]. split; [exact (wfg_names _ (W m (or_intror (nth_error_In _ _ M))))|].
  split; [|split; now apply coh_load]. split; [now destruct m|]. split; [now destruct m|].
  now apply (vp_same no_names m (mw_heap (xs_m (z_x s))) (mw_heap (xs_m (z_x (zrun inv l' s))))).
Qed.

(** A toy study makes its own data: whatever data the model is given, whatever other toy studies do with it, whatever is
    evaluated and fitted without updating its templates, the toy experiments, linearity tests, results, pulls and yields
    are the same.  (Only the likelihood of the model, which is asked for directly, has to do with its data.) *)
Theorem C115_data : forall inv l l' i k qs, inv_spec inv -> zdisciplined inv (l ++ l') ->
  let s := zreached inv l in study_of s i k -> (k < length (mw_models (xs_m (z_x s))))%nat ->
  zkeeps_but_data inv k s l' -> Forall (fun o => ~ zstudies o i) l' -> Forall (fun q => forall x, q <> SNll x) qs ->
  study_answers i qs (zreached inv (l ++ l')) = study_answers i qs s.
Proof.
  intros inv l l' i k qs IS D s O K X NS NQ. destruct (data_start inv l l' i k IS D O K X) as (O1 & O2 & ID & B). fold s in O1, ID, B.
  symmetry. apply (study_answers_vrel no_names i k); [now apply no_nll_qs|]. split; [exact O1|]. split; [exact O2|]. split; [|exact B].
  destruct (nth_error (z_studies s) i) as [st|] eqn:N.
  - symmetry. unfold zreached. rewrite zrun_app. now apply C113_results_kept.
  - destruct (nth_error (z_studies (zreached inv (l ++ l'))) i); [destruct ID|reflexivity].
Qed.
Print Assumptions C115_data.

(** do_experiments starts anew: it has the same results when the study has made toy experiments before, and so has
    everything that is asked afterwards. *)
Theorem C115_repeat : forall inv l l' i k envs n mt qs, inv_spec inv -> zdisciplined inv (l ++ l') ->
  let s := zreached inv l in study_of s i k -> (k < length (mw_models (xs_m (z_x s))))%nat ->
  zkeeps_but_data inv k s l' -> Forall (fun q => forall x, q <> SNll x) qs ->
  study_answers i (SExperiments envs n mt :: qs) (zreached inv (l ++ l')) = study_answers i (SExperiments envs n mt :: qs) s.
Proof.
  intros inv l l' i k envs n mt qs IS D s O K X NQ. symmetry. apply (study_answers_anew no_names i k); [now apply no_nll_qs|]. now apply data_start.
Qed.
Print Assumptions C115_repeat.

(** C115_repeat applies to two models with a study of the second, which gets data, makes toy experiments and gets data by
    its channel; C115_data, to the same without the toy experiments. *)
Example C115_example : forall inv envs n mt h h' kw, let s := zreached inv (ex_two_studies 1) in
  let a := ZX (XCall (MCall 1 (OAddData kw))) in let b := ZExperiments 0 envs n mt in let c := ZX (XCall (MChan (CAddData h h'))) in
  zdisciplined inv (ex_two_studies 1 ++ [a; b; c]) /\ zdisciplined inv (ex_two_studies 1 ++ [a; c]) /\ study_of s 0 1 /\ (1 < length (mw_models (xs_m (z_x s))))%nat /\
  zkeeps_but_data inv 1 s [a; b; c] /\ zkeeps_but_data inv 1 s [a; c] /\ ~ zstudies a 0 /\ ~ zstudies c 0.
Proof.
  intros inv envs n mt h h' kw s a b c.
  split; [apply zcomplete_more; [repeat constructor; intros t cid H; exact H|apply ex_studies_disciplined]|].
  split; [apply zcomplete_more; [repeat constructor; intros t cid H; exact H|apply ex_studies_disciplined]|].
  assert (ST : length (mw_models (mreached inv (ex_two 1))) = 2%nat /\ canonical (mreached inv (ex_two 1))).
  { unfold mreached, ex_two, ex_binned, mworld_init, world_init. do 13 mrun_step. unfold mrun. cbn [fold_left]. split; reflexivity. }
  destruct ST as [L CA].
  assert (SE : s = mk_zstate (mk_xstate (mreached inv (ex_two 1)) [] [mk_fitter "iminuit" [] [] false; mk_fitter "iminuit" [] [] false]%string [0; 1]%nat) [mk_study "iminuit" [] [] false]%string [1%nat]).
  { unfold s. rewrite ex_studies_state; [|exact L|exact CA]. f_equal. unfold ex_two_fitters. now rewrite ex_two_fitters_state. }
  assert (O : study_of s 0 1) by (rewrite SE; reflexivity).
  split; [exact O|]. split; [rewrite SE; cbn [z_x xs_m]; rewrite L; lia|].
  split; [|split; [|split; intros []]].
  - split; [right; reflexivity|]. split; [right|split; [right; exact Logic.I|exact Logic.I]]. unfold a. cbn [replaces_data]. unfold study_of.
    pose proof (zx_step inv (XCall (MCall 1 (OAddData kw))) s) as [_ E]. exact (eq_trans (f_equal (fun l => nth_error l 0) E) O).
  - split; [right; reflexivity|]. split; [right; exact Logic.I|exact Logic.I].
Qed.

(** When the toy experiments succeed, the likelihood is the same afterwards, too: the model has the data of the last one. *)
Theorem C115_likelihood : forall inv l l' i k envs n mt qs, inv_spec inv -> zdisciplined inv (l ++ l') ->
  let s := zreached inv l in study_of s i k -> (k < length (mw_models (xs_m (z_x s))))%nat -> zkeeps_but_data inv k s l' ->
  (0 < n)%nat -> study_answers i [SExperiments envs n mt] s = [Ok SNone] ->
  study_answers i (SExperiments envs n mt :: qs) (zreached inv (l ++ l')) = study_answers i (SExperiments envs n mt :: qs) s.
Proof.
  intros inv l l' i k envs n mt qs IS D s O K X NP OK. symmetry. apply (study_answers_anew_all no_names i k); [exact NP|exact OK|]. now apply data_start.
Qed.
Print Assumptions C115_likelihood.

(** It applies to a model with one template and a study whose toy experiments all succeed. *)
Definition study_of_ops (L : list op) : list zop := map ZX (map XCall (MNew :: map (MCall 0) L)) ++ [ZStudy 0 "iminuit"]%string.
Lemma xrun_xcalls inv l : forall s, xs_m (xrun inv (map XCall l) s) = mrun inv l (xs_m s) /\ xs_pars (xrun inv (map XCall l) s) = xs_pars s /\
  xs_fitters (xrun inv (map XCall l) s) = xs_fitters s /\ xs_owner (xrun inv (map XCall l) s) = xs_owner s.
Proof. intros s. rewrite xrun_calls. auto. Qed.
Lemma one_state inv L : zreached inv (study_of_ops L) =
  mk_zstate (mk_xstate (mk_mworld (load model_new (reached inv L)) [store (reached inv L)]) [] [] []) [mk_study "iminuit" [] [] false]%string [0%nat].
Proof.
  assert (E : mreached inv (MNew :: map (MCall 0) L) = mk_mworld (load model_new (reached inv L)) [store (reached inv L)]).
  { unfold mreached. rewrite mrun_cons. change (fst (mstep inv MNew mworld_init)) with (mk_mworld world_init [model_new]).
    rewrite (mrun_calls inv 0 L (mk_mworld world_init [model_new]) model_new); reflexivity. }
  unfold zreached, study_of_ops. rewrite zrun_app, zrun_x. cbn [zstate_init z_x z_studies z_owner].
  assert (X : xrun inv (map XCall (MNew :: map (MCall 0) L)) xstate_init = mk_xstate (mk_mworld (load model_new (reached inv L)) [store (reached inv L)]) [] [] []).
  { rewrite xrun_calls. unfold mreached in E. cbn [xstate_init xs_m xs_pars xs_fitters xs_owner]. now rewrite E. }
  rewrite X. rewrite zrun_study; [reflexivity|reflexivity|cbn; lia].
Qed.
Definition ex_one_study : list zop := study_of_ops ex_toy_ops.
Lemma ex_one_state inv : zreached inv ex_one_study =
  mk_zstate (mk_xstate (mk_mworld (load model_new (reached inv ex_toy_ops)) [store (reached inv ex_toy_ops)]) [] [] []) [mk_study "iminuit" [] [] false]%string [0%nat].
Proof. exact (one_state inv ex_toy_ops). Qed.
Lemma ex_one_disciplined inv : zdisciplined inv ex_one_study.
Proof.
  apply zdisciplined_building. apply Forall_app. split; [|repeat constructor; intros s cid []].
  apply Forall_map, Forall_map. apply Forall_forall. intros o H. cbn in H. repeat (destruct H as [<-|H]); try contradiction; intros s cid; exact (fun x => x).
Qed.
Example C115_likelihood_example : forall inv envs n mt n' mt' kw, inv_spec inv -> (0 < mt)%nat -> let s := zreached inv ex_one_study in
  let l' := [ZX (XCall (MCall 0 (OAddData kw))); ZExperiments 0 envs n' mt'] in
  zdisciplined inv (ex_one_study ++ l') /\ study_of s 0 0 /\ (0 < length (mw_models (xs_m (z_x s))))%nat /\ zkeeps_but_data inv 0 s l' /\
  study_answers 0 [SExperiments (fun _ => ex_env 8) n mt] s = [Ok SNone].
Proof.
  intros inv envs n mt n' mt' kw IS MT s l'. split; [apply zcomplete_more; [repeat constructor; intros t cid H; exact H|apply ex_one_disciplined]|].
  assert (O : study_of s 0 0) by (unfold s; rewrite ex_one_state; reflexivity). split; [exact O|]. split; [unfold s; rewrite ex_one_state; cbn; lia|]. split.
  - split; [right; reflexivity|]. split; [right|exact Logic.I]. pose proof (zx_step inv (XCall (MCall 0 (OAddData kw))) s) as [_ E]. exact (eq_trans (f_equal (fun l => nth_error l 0) E) O).
  - unfold s. rewrite ex_one_state. destruct (ex_toy_state inv) as (TY & _ & _). revert TY. generalize (reached inv ex_toy_ops). intros w TY. cbn [study_answers]. unfold of_study. cbn [z_owner nth_error]. unfold on_zmodel.
    cbn [z_x xs_m xs_pars xs_fitters xs_owner mw_models mw_heap nth_error z_studies]. rewrite load_load, load_self.
    destruct (ex_do_experiments inv 8 n mt 0 (mk_tstate (mk_fstate w [] []) [mk_study "iminuit" [] [] false]) (mk_study "iminuit" [] [] false) IS MT TY eq_refl eq_refl) as (s' & E & _).
    unfold study_answer, tbind. rewrite E. reflexivity.
Qed.
