(** Property theorems C114: what a toy study returns, in a program with several models, fitters and studies. *)
From Coq Require Import Reals String ZArith Bool Arith List Lra Lia.
From Verif Require Import Model_Num Model_Hist Model_Utility Model_Template Model_World Model_Ops Model_Multi Model_Minimizer Model_Fitter Model_MultiFit Model_Toy Model_MultiToy Model_MultiToyAsk
  Spec_Matrix Spec_Min Spec_Multi Spec_MultiFit Spec_Toy Spec_MultiToy Spec_MultiToyAsk Proof_Hist Proof_Matrix Proof_Template Proof_HistHeap Proof_Monad Proof_World Proof_Eval Proof_Route
  Proof_Min Proof_Fit Proof_Multi Proof_Multi2 Proof_Multi3 Proof_Multi4 Proof_MultiFit Proof_MultiFit2 Proof_Toy Proof_Toy2 Proof_Toy3 Proof_MultiToy Proof_MultiToy2 Proof_ToyPar
  Prop_World Prop_Multi Prop_MultiEx Prop_MultiFit Prop_MultiToy.
Import ListNotations.
Local Open Scope R_scope.

(** Whatever fits, scans, evaluations and toy studies were made before, with whatever models: every sequence of toy
    experiments, linearity tests, result, pull and yield queries of a study has the results (and exceptions) it would have
    in a new process with the same objects, given the same random draws and optimizers. *)
Theorem C114_fresh : forall inv l i qs, inv_spec inv -> zdisciplined inv l -> let s := zreached inv l in
  study_answers i qs s = study_answers i qs (zfresh s).
Proof.
  intros inv l i qs IS D s. pose proof (coh_zreached inv l IS D) as C. destruct (zreached_inv inv l IS) as [(P & W) CA _ _]. fold s in C, W, CA.
  assert (N : forall t, (forall q, of_study i (study_answer i q) t = (t, Err OutOfModel)) -> study_answers i qs t = map (fun _ => Err OutOfModel) qs).
  { intros t H. clear - H. induction qs as [|q l IH]; [reflexivity|]. cbn [study_answers map]. rewrite H. f_equal. exact IH. }
  assert (X : nth_error (z_owner s) i = None \/ exists k, nth_error (z_owner s) i = Some k) by (destruct (nth_error (z_owner s) i); eauto).
  destruct X as [X|(k & X)].
  - rewrite !N; [reflexivity| |]; intros q; unfold of_study; cbn [zfresh z_owner]; now rewrite X.
  - destruct (nth_error (mw_models (xs_m (z_x s))) k) as [m|] eqn:M.
    + apply (study_answers_rel inv P i k); [exact IS|]. split; [exact X|]. split; [exact X|]. split; [reflexivity|]. split; [reflexivity|]. exists m. split; [exact M|]. split; [exact M|].
      constructor; [constructor; reflexivity|apply W; right; eapply nth_error_In; eauto|now apply coh_load|apply no_cache_coh; repeat split].
    + rewrite !N; [reflexivity| |]; intros q; unfold of_study, on_zmodel; cbn [zfresh xfresh mfresh z_x z_owner xs_owner xs_m mw_models]; now rewrite X, M.
Qed.
Print Assumptions C114_fresh.

(** Two programs which differ in what was evaluated, fitted and scanned, but have built the same objects, get the same
    results from their toy studies. *)
Theorem C114_same_objects : forall inv l l' i qs, inv_spec inv -> zdisciplined inv l -> zdisciplined inv l' ->
  zfresh (zreached inv l) = zfresh (zreached inv l') -> study_answers i qs (zreached inv l) = study_answers i qs (zreached inv l').
Proof. intros inv l l' i qs IS D D' E. rewrite (C114_fresh inv l i qs IS D), (C114_fresh inv l' i qs IS D'), E. reflexivity. Qed.
Print Assumptions C114_same_objects.

(** Whatever the program does with other models (building them, evaluating, fitting and scanning them, their toy studies),
    the toy studies of a model give the same results. *)
Theorem C114_independent : forall inv l l' i k qs, inv_spec inv -> zdisciplined inv (l ++ l') ->
  let s := zreached inv l in study_of s i k -> (k < length (mw_models (xs_m (z_x s))))%nat -> zkeeps inv k s l' ->
  study_answers i qs (zreached inv (l ++ l')) = study_answers i qs s.
Proof.
  intros inv l l' i k qs IS D s O K X. destruct (nth_error (mw_models (xs_m (z_x s))) k) as [m|] eqn:M; [|apply nth_error_None in M; lia].
  pose proof (zreached_inv inv l IS) as Z. fold s in Z.
  assert (C : coh (mw_heap (xs_m (z_x s)))) by (apply coh_zreached; [exact IS|]; eapply zcomplete_app; exact D).
  pose proof (coh_zreached inv (l ++ l') IS D) as C'.
  destruct (zrun_kept inv l' i k m IS s Z M O X) as ((A1 & A2) & A3 & A4).
  assert (E : zreached inv (l ++ l') = zrun inv l' s) by (unfold s, zreached; now rewrite zrun_app). rewrite E in *.
  assert (ST : nth_error (z_studies (zrun inv l' s)) i = nth_error (z_studies s) i).
  { destruct (nth_error (z_studies s) i) as [st|] eqn:N; [now apply C113_results_kept|]. exfalso. apply nth_error_None in N. pose proof (zlens_reached inv l) as L. unfold zlens in L. fold s in L.
    assert (i < length (z_owner s))%nat by (apply nth_error_Some; unfold study_of in O; congruence). lia. }
  symmetry. apply (study_answers_vrel all_names i k); [apply Forall_forall; intros q _; right; intros n; exact Logic.I|]. split; [exact O|]. split; [exact A3|]. split; [symmetry; exact ST|]. exists m. split; [exact M|]. split; [exact A1|].
  split; [destruct Z as [(Q & W) _ _ _]; exact (wfg_names _ (W m (or_intror (nth_error_In _ _ M))))|].
  split; [|split; now apply coh_load]. split; [now destruct m|]. split; [now destruct m|]. apply fp_vp. now apply load_heap.
Qed.
Print Assumptions C114_independent.

(** It applies to two models with a study of the second one, and a fit of the first one that updates its templates. *)
Example C114_independent_example : forall inv E gh n lim, let s := zreached inv (ex_two_studies 1) in let l' := [ZX (XDoFit E 0 true gh n lim)] in
  zdisciplined inv (ex_two_studies 1 ++ l') /\ study_of s 0 1 /\ (1 < length (mw_models (xs_m (z_x s))))%nat /\ zkeeps inv 1 s l'.
Proof.
  intros inv E gh n lim s l'. split; [apply zcomplete_more; [repeat constructor; intros t cid H; exact H|apply ex_studies_disciplined]|].
  assert (ST1 : exists m0 m1 w, mreached inv (ex_two 1) = mk_mworld w [m0; m1] /\ m_channels m0 = [("A", 0%nat)]%string /\ m_channels m1 = [("A", 1%nat)]%string /\ store w = model_new /\
    map (fun c => map snd (c_tmpls c)) (w_chans w) = [[0%nat]; [1%nat]]).
  { unfold mreached, ex_two, ex_binned, mworld_init, world_init. do 13 mrun_step. unfold mrun. cbn [fold_left]. do 3 eexists. split; [reflexivity|]. split; [reflexivity|]. split; [reflexivity|]. split; [reflexivity|]. reflexivity. }
  destruct ST1 as (m0 & m1 & v & E' & N0 & N1 & CA & TS).
  assert (SE : s = mk_zstate (mk_xstate (mk_mworld v [m0; m1]) [] [mk_fitter "iminuit" [] [] false; mk_fitter "iminuit" [] [] false]%string [0; 1]%nat) [mk_study "iminuit" [] [] false]%string [1%nat]).
  { unfold s. rewrite ex_studies_state; rewrite ?E'; try reflexivity; [|exact CA]. f_equal. unfold ex_two_fitters. rewrite ex_two_fitters_state; rewrite E'; [reflexivity|reflexivity|exact CA]. }
  clearbody s. subst s. split; [reflexivity|]. split; [cbn; lia|]. split; [|exact Logic.I].
  cbn [ztouches xtouches z_x xs_owner xs_m]. intros (i & j & tid & U & X & (c1 & (ma & na & MA & IA) & c & p & CC & I) & (c2 & (mb & nb & MB & IB) & c' & p' & CC' & I')).
  cbn [fit_updates] in U. subst i. injection X as <-. cbn [mw_models mw_heap nth_error] in *. injection MA as <-. injection MB as <-.
  rewrite N0 in IA. rewrite N1 in IB. destruct IA as [IA|[]], IB as [IB|[]]. injection IA as _ <-. injection IB as _ <-.
  destruct (w_chans v) as [|x0 [|x1 [|]]]; try discriminate. injection TS as T0 T1. cbn in CC, CC'. injection CC as <-. injection CC' as <-.
  apply (in_map snd) in I, I'. rewrite T0 in I. rewrite T1 in I'. cbn in I, I'. destruct I as [I|[]], I' as [I'|[]]. congruence.
Qed.

Lemma sa_step m0 m1 fs q l h st w' st' r :
  study_answer 0 q (mk_tstate (mk_fstate (load m1 h) [] fs) [st]) = (mk_tstate (mk_fstate w' [] fs) [st'], r) -> store w' = m1 ->
  let Z h st := mk_zstate (mk_xstate (mk_mworld h [m0; m1]) [] fs [0; 1]%nat) [st] [1%nat] in
  study_answers 0 (q :: l) (Z h st) = r :: study_answers 0 l (Z (load model_new w') st').
Proof.
  intros A B Z. cbn [study_answers]. unfold of_study, on_zmodel, Z. cbn [z_owner z_x z_studies xs_m xs_pars xs_fitters xs_owner mw_models mw_heap nth_error]. rewrite A.
  cbn [ts_f ts_studies fs_w fs_pars fs_fitters upd]. rewrite B, Nat.sub_diag. reflexivity.
Qed.
(** C114_fresh applies to two models with a study of the second, and its answers are not only exceptions. *)
Example C114_example : forall inv envs mt, let s := zreached inv (ex_two_studies 1) in
  zdisciplined inv (ex_two_studies 1) /\
  study_answers 0 [SRows; SYield "s"; SExperiments envs 0 mt; SRows; SSetYield "s" 8; SYield "s"]%string s =
  [Err RuntimeError; Ok (SNumber (Fin 4)); Ok SNone; Ok (STable [] []); Ok SNone; Ok (SNumber (Fin 8))].
Proof.
  intros inv envs mt s. split; [apply ex_studies_disciplined|].
  assert (ST : exists m0 m1 w, mreached inv (ex_two 1) = mk_mworld w [m0; m1] /\ store w = model_new /\ get_yield "s"%string (load m1 w) = (load m1 w, Ok (Fin 4)) /\
     exists w', set_yield "s"%string 8 (load m1 w) = (w', Ok tt) /\ store w' = m1 /\ snd (get_yield "s"%string w') = Ok (Fin 8)).
  { unfold mreached, ex_two, ex_binned, mworld_init, world_init. do 13 mrun_step. unfold mrun. cbn [fold_left]. do 3 eexists. split; [reflexivity|]. split; [reflexivity|].
    split; [lazy -[Rplus Rmult IZR]; do 3 f_equal; lra|]. eexists. split; [reflexivity|]. split; [reflexivity|]. lazy -[Rplus Rmult IZR]; do 2 f_equal; lra. }
  destruct ST as (m0 & m1 & w & E & CA & Y1 & w' & Y2 & Y3 & Y4).
  assert (SE : s = mk_zstate (mk_xstate (mk_mworld w [m0; m1]) [] [mk_fitter "iminuit" [] [] false; mk_fitter "iminuit" [] [] false]%string [0; 1]%nat) [mk_study "iminuit" [] [] false]%string [1%nat]).
  { unfold s. rewrite ex_studies_state; rewrite ?E; try reflexivity; [|exact CA]. f_equal. unfold ex_two_fitters. rewrite ex_two_fitters_state; rewrite E; [reflexivity|reflexivity|exact CA]. }
  rewrite SE. clear s SE E. set (fs := [mk_fitter "iminuit" [] [] false; mk_fitter "iminuit" [] [] false]%string).
  assert (L1 : forall w, store w = m1 -> load m1 (load model_new w) = w) by (intros v H; rewrite load_load, <- H; apply load_self).
  assert (SL : store (load m1 w) = m1) by now destruct m1.
  assert (LR : forall st, study_answer 0 SRows (mk_tstate (mk_fstate (load m1 w) [] fs) [st]) = (mk_tstate (mk_fstate (load m1 w) [] fs) [st], if st_fitted st then Ok (STable (st_params st) (st_errors st)) else Err RuntimeError)).
  { intros [a b c d]. unfold study_answer, result_parameters, result_uncertainties, check_state, get_study, tbind, tret, tlift. cbn. destruct d; reflexivity. }
  rewrite (sa_step m0 m1 fs _ _ w _ (load m1 w) _ _ (LR _) SL). cbn [st_fitted st_params st_errors]. f_equal.
  rewrite (sa_step m0 m1 fs _ _ _ _ (load m1 w) (mk_study "iminuit" [] [] false) (Ok (SNumber (Fin 4)))); [f_equal| |exact SL].
  2: { rewrite L1 by exact SL. unfold study_answer, tbind, tret, on_w, on_f, on_world. cbn [ts_f ts_studies fs_w fs_pars fs_fitters]. rewrite Y1. reflexivity. }
  rewrite (sa_step m0 m1 fs _ _ _ _ (load m1 w) (mk_study "iminuit" [] [] true) (Ok SNone)); [f_equal| |exact SL].
  2: { rewrite L1 by exact SL. reflexivity. }
  rewrite (sa_step m0 m1 fs _ _ _ _ (load m1 w) (mk_study "iminuit" [] [] true) (Ok (STable [] []))); [f_equal| |exact SL].
  2: { rewrite L1 by exact SL. apply LR. }
  rewrite (sa_step m0 m1 fs _ _ _ _ w' (mk_study "iminuit" [] [] true) (Ok SNone)); [f_equal| |exact Y3].
  2: { rewrite L1 by exact SL. unfold study_answer, tbind, tret, on_w, on_f, on_world. cbn [ts_f ts_studies fs_w fs_pars fs_fitters]. rewrite Y2. reflexivity. }
  cbn [study_answers]. unfold of_study, on_zmodel. cbn [z_owner z_x z_studies xs_m xs_pars xs_fitters xs_owner mw_models mw_heap nth_error]. rewrite L1 by exact Y3.
  unfold study_answer, tbind, tret, on_w, on_f, on_world. cbn [ts_f ts_studies fs_w fs_pars fs_fitters]. destruct (get_yield "s"%string w') as [w2 r2]. cbn [snd] in Y4. subst r2. reflexivity.
Qed.
