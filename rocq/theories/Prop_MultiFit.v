(** Property theorems C112: fits in a program with several MultiChannelTemplates and TemplateFitters. *)
From Coq Require Import Reals String ZArith Bool Arith List Lra Lia.
From Verif Require Import Model_Num Model_Hist Model_Utility Model_Template Model_World Model_Ops Model_Multi Model_Minimizer Model_Fitter Model_MultiFit
  Spec_Matrix Spec_Min Spec_Multi Spec_MultiFit Proof_Hist Proof_Matrix Proof_Template Proof_HistHeap Proof_Monad Proof_World Proof_Eval Proof_Route
  Proof_Min Proof_Fit Proof_Multi Proof_Multi2 Proof_Multi3 Proof_Multi4 Proof_MultiFit Proof_MultiFit2 Prop_World Prop_Multi Prop_MultiEx.
Import ListNotations.
Local Open Scope R_scope.

(** Several models and fitters of them, built and used in any interleaving, no channel getting templates or uncertainties
    after its own first evaluation.  Every sequence of fits, scans, significances, evaluations and yield queries made with
    a fitter and its model has the results it would have in a new process with the same objects: neither the fits and
    evaluations made before, nor the caches and Parameters objects shared with the other models and fitters matter. *)
Theorem C112_fresh : forall inv l i qs, inv_spec inv -> xdisciplined inv l -> let s := xreached inv l in
  answers i qs s = answers i qs (xfresh s).
Proof.
  intros inv l i qs IS D s. pose proof (coh_xreached inv l D) as C. destruct (xreached_inv inv l IS) as (W & CA & _). fold s in C, W, CA.
  assert (X : nth_error (xs_owner s) i = None \/ exists k, nth_error (xs_owner s) i = Some k) by (destruct (nth_error (xs_owner s) i); eauto).
  assert (Y : forall t, (forall q, of_fitter i (answer_of i q) t = (t, Err OutOfModel)) -> answers i qs t = map (fun _ => Err OutOfModel) qs).
  { intros t H. induction qs as [|q qs IH]; [reflexivity|]. cbn [answers map]. rewrite H. f_equal. exact IH. }
  destruct X as [X|(k & X)].
  - rewrite !Y; [reflexivity| |]; intros q; unfold of_fitter; cbn [xfresh xs_owner]; now rewrite X.
  - destruct (nth_error (mw_models (xs_m s)) k) as [m|] eqn:M.
    + apply (answers_rel i k). split; [exact X|]. split; [exact X|]. split; [reflexivity|]. exists m. split; [exact M|]. split; [exact M|].
      split; [|split; [exact C|apply no_cache_coh; repeat split]].
      destruct (fp_run inv [] IS (xs_m s) k m W CA M Logic.I) as [_ F]. cbn [mrun fold_left] in F. intros n cid H. destruct (F n cid H) as (c & A & B & T & DD).
      exists c. repeat split; auto.
    + rewrite !Y; [reflexivity| |]; intros q; unfold of_fitter, on_model; cbn [xfresh mfresh xs_owner xs_m mw_models]; now rewrite X, M.
Qed.
Print Assumptions C112_fresh.

(** Calls that do not change anything of model k and do not configure fitter i of it - fits, scans and significances of
    other models which share no template with model k, and fits without update_templates and scans of any model, with any
    fitter - leave all results of fitter i and of model k as they are. *)
Theorem C112_independent : forall inv l l' i k qs, inv_spec inv -> xdisciplined inv (l ++ l') ->
  let s := xreached inv l in let s' := xreached inv (l ++ l') in
  nth_error (xs_owner s) i = Some k -> (k < length (mw_models (xs_m s)))%nat -> xleaves inv i k s l' ->
  answers i qs s' = answers i qs s.
Proof.
  intros inv l l' i k qs IS D s s' O K X. destruct (nth_error (mw_models (xs_m s)) k) as [m|] eqn:M; [|apply nth_error_None in M; lia].
  destruct (xreached_inv inv l IS) as (W & CA & L). fold s in W, CA, L.
  assert (C' : coh (mw_heap (xs_m s'))) by now apply coh_xreached.
  assert (C : coh (mw_heap (xs_m s))) by (apply coh_xreached; eapply xcomplete_app; exact D).
  destruct (xrun_left inv l' i k IS s m W CA L M O X) as (A1 & A2 & A3 & A4).
  assert (E : xrun inv l' s = s') by (unfold s', s, xreached; now rewrite xrun_app). rewrite E in *.
  symmetry. apply (answers_rel i k). split; [exact O|]. split; [exact A3|]. split; [symmetry; exact A4|]. exists m. auto.
Qed.
Print Assumptions C112_independent.

(** ** Two corollaries with hypotheses about the state before only *)
(** fits without update_templates, scans and evaluations, with any fitter and any model *)
Definition reading (o : xop) : Prop :=
  match o with
  | XDoFit _ _ false _ _ _ | XProfile _ _ _ _ _ _ _ _ _ | XCall (MCall _ (ONll _)) | XCall (MChan (CNll _ _ _)) | XCall (MChan (CBinCounts _ _)) => True
  | _ => False
  end.
Lemma xcomplete_more inv l1 l2 : Forall (fun o => forall s cid, ~ xcompletes s o cid) l2 -> forall ev s, xcomplete_when_used inv ev s l1 -> xcomplete_when_used inv ev s (l1 ++ l2).
Proof.
  intros N. induction l1 as [|o l1 IH]; intros ev s H; [|destruct H as [A B]; split; auto].
  clear H. revert ev s. cbn [app]. induction N as [|o l2 N _ IH]; intros ev s; [exact Logic.I|]. split; [|apply IH]. intros cid C. exfalso. now apply (N s cid).
Qed.
Lemma reading_leaves inv i k l : Forall reading l -> forall s, xleaves inv i k s l.
Proof.
  induction 1 as [|o l R _ IH]; intros s; [exact Logic.I|]. split; [|split; [|apply IH]].
  - destruct o as [c| | | | |E j u g n li|E j p c n sg sm fn sch|]; try contradiction.
    + destruct c as [|j o|c]; try contradiction; [destruct o; try contradiction|destruct c; try contradiction]; intros [X|[(? & _ & X)|[(? & _ & X)|(? & _ & X)]]]; exact X.
    + destruct u; try contradiction. intros (? & ? & ? & X & _). exact X.
    + intros (? & ? & ? & X & _). exact X.
  - destruct o as [c| | | | |E j u g n li|E j p c n sg sm fn sch|]; try contradiction; exact (fun x => x).
Qed.
Lemma reading_quiet o : reading o -> forall s cid, ~ xcompletes s o cid.
Proof. destruct o as [c| | | | |E j u g n li|E j p c n sg sm fn sch|]; try contradiction; try (intros _ s cid H; exact H). destruct c as [|j o|c]; try contradiction; [destruct o; try contradiction|destruct c; try contradiction]; intros _ s0 c0 H; exact H. Qed.

(** Fits without update_templates, scans and evaluations change nothing for any later result: the same question, asked
    again, has the same answer. *)
Theorem C112_repeatable : forall inv l l' i k qs, inv_spec inv -> xdisciplined inv l -> Forall reading l' -> let s := xreached inv l in
  nth_error (xs_owner s) i = Some k -> (k < length (mw_models (xs_m s)))%nat -> answers i qs (xreached inv (l ++ l')) = answers i qs s.
Proof.
  intros inv l l' i k qs IS D R s O K. apply (C112_independent inv l l' i k); auto; [|now apply reading_leaves].
  apply xcomplete_more; [|exact D]. eapply Forall_impl; [|exact R]. intros o H. now apply reading_quiet.
Qed.
Print Assumptions C112_repeatable.

(** a fit, scan or significance with a fitter of a model of state s that shares no template object with model k *)
Definition fits_another (s : xstate) (k : nat) (o : xop) : Prop :=
  exists j kj, fits_with o j /\ nth_error (xs_owner s) j = Some kj /\ (kj < length (mw_models (xs_m s)))%nat /\
    forall tid, model_template (xs_m s) kj tid -> ~ model_template (xs_m s) k tid.
Lemma mrun_template inv k l x : inv_spec inv -> Forall fitop l -> forall s m, mwf s -> canonical s -> nth_error (mw_models s) x = Some m ->
  forall tid, model_template (mrun inv (map (MCall k) l) s) x tid -> model_template s x tid.
Proof.
  intros IS. induction 1 as [|o l O _ IH]; intros s m W C M tid T; [exact T|].
  change (mrun inv (map (MCall k) (o :: l)) s) with (mrun inv (map (MCall k) l) (fst (mstep inv (MCall k o) s))) in T.
  apply (model_template_fit inv k o x m); auto. eapply IH; [now apply mwf_step|now apply canonical_step|apply models_mstep; [exact M|now apply fitop_own]|exact T].
Qed.
Lemma fits_another_leave inv i k l : inv_spec inv -> forall s, mwf (xs_m s) -> canonical (xs_m s) -> lens s -> (k < length (mw_models (xs_m s)))%nat ->
  Forall (fits_another s k) l -> xleaves inv i k s l.
Proof.
  intros IS. induction l as [|o l IH]; intros s W C L K F; [exact Logic.I|]. inversion F as [|o' l' FO FL]; subst.
  destruct FO as (j & kj & FW & OJ & KJ & DJ).
  assert (MX : forall x, (x < length (mw_models (xs_m s)))%nat -> exists m, nth_error (mw_models (xs_m s)) x = Some m) by (intros x H; destruct (nth_error _ x) eqn:E; [eauto|apply nth_error_None in E; lia]).
  split; [|split].
  - assert (X : exists i0 j0 tid, fit_updates o i0 /\ nth_error (xs_owner s) i0 = Some j0 /\ model_template (xs_m s) j0 tid /\ model_template (xs_m s) k tid -> False).
    { exists j, kj, 0%nat. intros (_ & _ & A & B). now apply (DJ 0%nat). }
    clear X. destruct o as [c| | | | |E j' u g n li|E j' p c n sg sm fn sch|E j' p n]; try contradiction; cbn [fits_with] in FW; subst j';
      intros (i0 & j0 & tid & U & OI & A & B); cbn [fit_updates] in U; try contradiction; [destruct u; try contradiction|]; subst i0;
      rewrite OJ in OI; injection OI as <-; now apply (DJ tid).
  - destruct o; try contradiction; exact (fun x => x).
  - destruct (fit_ops inv o j s FW C) as [(-> & _)|(k' & lo & OJ' & LO & _ & E & E1 & E2)]; [apply IH; auto|].
    assert (k' = kj) by congruence. subst k'. destruct (xstep_inv inv o s IS W C) as [W' C'].
    assert (KX : forall x, (x < length (mw_models (xs_m s)))%nat -> (x < length (mw_models (xs_m (fst (xstep inv o s)))))%nat).
    { intros x H. destruct (MX x H) as (m & M). apply nth_error_Some. rewrite E. rewrite (mrun_models inv kj lo LO _ x m M). discriminate. }
    apply IH; auto; [now apply xstep_lens|]. eapply Forall_impl; [|exact FL]. intros o' (j1 & k1 & F1 & O1 & K1 & D1). exists j1, k1. rewrite E2. repeat split; auto.
    intros tid A B. rewrite E in A, B. destruct (MX k1 K1) as (m1 & M1), (MX k K) as (m & M). apply (D1 tid); [eapply mrun_template; eauto|eapply mrun_template; eauto].
Qed.
Theorem C112_other_fits : forall inv l l' i k qs, inv_spec inv -> xdisciplined inv l -> let s := xreached inv l in
  nth_error (xs_owner s) i = Some k -> (k < length (mw_models (xs_m s)))%nat -> Forall (fits_another s k) l' ->
  answers i qs (xreached inv (l ++ l')) = answers i qs s.
Proof.
  intros inv l l' i k qs IS D s O K F. destruct (xreached_inv inv l IS) as (W & CA & L). fold s in W, CA, L.
  apply (C112_independent inv l l' i k); auto; [|now apply fits_another_leave].
  apply xcomplete_more; [|exact D]. eapply Forall_impl; [|exact F]. intros o (j & kj & FW & _). destruct o; try contradiction; intros t cid H; exact H.
Qed.
Print Assumptions C112_other_fits.

(** ** Two models with a fitter each *)
Lemma xrun_calls inv l : forall s, xrun inv (map XCall l) s = mk_xstate (mrun inv l (xs_m s)) (xs_pars s) (xs_fitters s) (xs_owner s).
Proof.
  unfold xrun, mrun. induction l as [|o l IH]; intros s; [now destruct s|]. cbn [map fold_left]. rewrite IH. cbn [xstep]. destruct (mstep inv o (xs_m s)). reflexivity.
Qed.
Lemma ex_two_fitters_state inv l : length (mw_models (mreached inv l)) = 2%nat -> canonical (mreached inv l) ->
  xreached inv (map XCall l ++ [XNew 0 "iminuit"; XNew 1 "iminuit"]%string) =
  mk_xstate (mreached inv l) [] [mk_fitter "iminuit" [] [] false; mk_fitter "iminuit" [] [] false]%string [0; 1]%nat.
Proof.
  intros L C. unfold xreached. rewrite xrun_app, xrun_calls. cbn [xstate_init xs_m xs_pars xs_fitters xs_owner]. fold (mreached inv l).
  revert L C. generalize (mreached inv l). intros s L C. unfold xrun. cbn [fold_left].
  destruct s as [h ms]. cbn [mw_models] in L. destruct ms as [|m0 [|m1 [|]]]; try discriminate. unfold canonical in C. cbn [mw_heap] in C.
  destruct m0, m1. cbn [xstep]. unfold on_model. cbn [xs_m mw_models mw_heap nth_error fitter_new fs_w fs_pars fs_fitters xs_pars xs_fitters xs_owner app fst length upd].
  rewrite !load_load. replace (load model_new h) with h by (rewrite <- C; symmetry; apply load_self). reflexivity.
Qed.
Lemma xdisciplined_building inv l : Forall (fun o => forall s cid, ~ xevaluates s o cid) l -> xdisciplined inv l.
Proof.
  intros N. unfold xdisciplined. assert (X : forall (ev : nat -> Prop) s, (forall cid, ~ ev cid) -> xcomplete_when_used inv ev s l); [|apply X; auto].
  induction N as [|o l N _ IH]; intros ev s E; [exact Logic.I|]. split; [intros cid _; apply E|]. apply IH. intros cid [H|H]; [now apply (E cid)|now apply (N s cid)].
Qed.
Definition ex_two_fitters (second : nat) : list xop := map XCall (ex_two second) ++ [XNew 0 "iminuit"; XNew 1 "iminuit"]%string.
Lemma ex_two_disciplined inv second : xdisciplined inv (ex_two_fitters second).
Proof.
  apply xdisciplined_building. apply Forall_app. split.
  - apply Forall_forall. intros o H. apply in_map_iff in H as (c & <- & H). intros s cid. unfold ex_two in H. simpl in H. repeat (destruct H as [<-|H]); try contradiction; exact (fun x => x).
  - repeat constructor; intros s cid (? & ? & [] & _).
Qed.

(** C112_fresh, C112_other_fits, C112_repeatable and C112_independent apply to two models with their own templates, and any
    fits, scans and significances with the second fitter; the answers are not only exceptions. *)
Example C112_example : forall inv E1 E2 E3 sg sch g n lim fn, inv_spec inv ->
  let s := xreached inv (ex_two_fitters 1) in let l' := [XDoFit E1 1 true g n lim; XSignificance E2 1 "s" fn; XProfile E3 1 (PInt 0) 2 5 sg true fn sch]%string in
  xdisciplined inv (ex_two_fitters 1) /\ nth_error (xs_owner s) 0 = Some 0%nat /\ (0 < length (mw_models (xs_m s)))%nat /\ Forall (fits_another s 0) l' /\
  xleaves inv 0 0 s l' /\
  answers 0 [QYield "s"; QSetYield "s" 8; QYield "s"]%string s = [Ok (AValue (Fin 4)); Ok ANone; Ok (AValue (Fin 8))].
Proof.
  intros inv E1 E2 E3 sg sch g n lim fn IS s l'. split; [apply ex_two_disciplined|].
  assert (ST : exists m0 m1 w, mreached inv (ex_two 1) = mk_mworld w [m0; m1] /\ m_channels m0 = [("A", 0%nat)]%string /\ m_channels m1 = [("A", 1%nat)]%string /\ store w = model_new /\
    map (fun c => map snd (c_tmpls c)) (w_chans w) = [[0%nat]; [1%nat]] /\
    (let ask0 {A} (f : M A) w := f (load m0 w) in ask0 (get_yield "s"%string) w = (load m0 w, Ok (Fin 4)) /\ exists w', ask0 (set_yield "s"%string 8) w = (w', Ok tt) /\ store w' = m0 /\ snd (get_yield "s"%string w') = Ok (Fin 8))).
  { unfold mreached, ex_two, ex_binned, mworld_init, world_init. do 13 mrun_step. unfold mrun. cbn [fold_left]. do 3 eexists. split; [reflexivity|]. split; [reflexivity|]. split; [reflexivity|]. split; [reflexivity|].
    split; [reflexivity|]. cbv zeta. split; [lazy -[Rplus Rmult IZR]; do 3 f_equal; lra|]. eexists. split; [reflexivity|]. split; [reflexivity|]. lazy -[Rplus Rmult IZR]. do 2 f_equal; lra. }
  destruct ST as (m0 & m1 & w & E & N0 & N1 & CA & TS & Y1 & w' & Y2 & Y3 & Y4).
  assert (SE : s = mk_xstate (mk_mworld w [m0; m1]) [] [mk_fitter "iminuit" [] [] false; mk_fitter "iminuit" [] [] false]%string [0; 1]%nat).
  { unfold s, ex_two_fitters. rewrite ex_two_fitters_state; rewrite E; [reflexivity|reflexivity|exact CA]. }
  assert (O : nth_error (xs_owner s) 0 = Some 0%nat) by (rewrite SE; reflexivity). assert (K : (0 < length (mw_models (xs_m s)))%nat) by (rewrite SE; simpl; lia).
  assert (F : Forall (fits_another s 0) l').
  { assert (DJ : forall tid, model_template (xs_m s) 1 tid -> ~ model_template (xs_m s) 0 tid).
    { rewrite SE. cbn [xs_m]. intros tid (c1 & (ma & na & MA & IA) & c & p & CC & I) (c2 & (mb & nb & MB & IB) & c' & p' & CC' & I'). cbn in MA, MB. injection MA as <-. injection MB as <-.
      rewrite N1 in IA. rewrite N0 in IB. destruct IA as [IA|[]], IB as [IB|[]]. injection IA as _ <-. injection IB as _ <-. cbn [mw_heap] in *.
      destruct (w_chans w) as [|x0 [|x1 [|]]]; try discriminate. injection TS as T0 T1. cbn in CC, CC'. injection CC as <-. injection CC' as <-.
      apply (in_map snd) in I, I'. rewrite T1 in I. rewrite T0 in I'. cbn in I, I'. destruct I as [I|[]], I' as [I'|[]]. congruence. }
    repeat constructor; exists 1%nat, 1%nat; (split; [reflexivity|]); (split; [rewrite SE; reflexivity|]); (split; [rewrite SE; simpl; lia|exact DJ]). }
  destruct (xreached_inv inv (ex_two_fitters 1) IS) as (W & C & L). fold s in W, C, L.
  split; [exact O|]. split; [exact K|]. split; [exact F|]. split; [now apply fits_another_leave|].
  clear - SE Y1 Y2 Y3 Y4. rewrite SE. cbn [answers]. unfold of_fitter, on_model, answer_of, fbind, on_world, fret. cbn [xs_m xs_pars xs_fitters xs_owner mw_models mw_heap nth_error fs_w fs_pars fs_fitters].
  rewrite Y1. cbn [xs_m xs_pars xs_fitters xs_owner mw_models mw_heap nth_error fs_w fs_pars fs_fitters upd].
  replace (store (load m0 w)) with m0 by now destruct m0. rewrite !load_load.
  rewrite Y2. cbn [xs_m xs_pars xs_fitters xs_owner mw_models mw_heap nth_error fs_w fs_pars fs_fitters upd].
  rewrite load_load, Y3. replace (load m0 w') with w' by (rewrite <- Y3; symmetry; apply load_self). destruct (get_yield "s"%string w') as [w1 r1]. cbn [snd] in Y4. subst r1. reflexivity.
Qed.

(** Fits of another model do matter if it has a template object in common with the model: a significance of the process of
    model 1 leaves the yield of model 0 at zero. *)
Definition ex_still : ext := mk_ext (fun a => Stop (Ok (mk_mout (Fin 0) (ma_start a) (ma_start a) (Ok []) (Ok []) true)))
  (fun _ _ _ => Stop (Err RuntimeError)) (fun _ => Stop (Err RuntimeError)) (fun m => Ok m).
Theorem C112_shared_template_interferes : forall inv,
  let s := xreached inv (ex_two_fitters 0) in let s' := fst (xstep inv (XSignificance ex_still 1 "s" true) s) in
  xdisciplined inv (ex_two_fitters 0 ++ [XSignificance ex_still 1 "s" true]%string) /\
  answers 0 [QYield "s"]%string s = [Ok (AValue (Fin 4))] /\ answers 0 [QYield "s"]%string s' = [Ok (AValue (Fin 0))].
Proof.
  intros inv s s'. split.
  { apply xcomplete_more; [|apply ex_two_disciplined]. repeat constructor. intros t cid H. exact H. }
  assert (ST : exists m0 m1 w, mreached inv (ex_two 0) = mk_mworld w [m0; m1] /\ store w = model_new /\
     get_yield "s"%string (load m0 w) = (load m0 w, Ok (Fin 4)) /\ 
     param_names (load m1 w) = ["s_yield"; "A_s_bin_0"; "A_s_bin_1"]%string /\ nui_ids (load m1 w) = [PInt 1; PInt 2] /\ nll_x0 (load m1 w) = Ok (map Fin [4; 0; 0]) /\
     exists w', set_yield "s"%string 0 (load m1 w) = (w', Ok tt) /\ store w' = m1 /\ snd (get_yield "s"%string (load m0 w')) = Ok (Fin 0) /\
       param_names w' = ["s_yield"; "A_s_bin_0"; "A_s_bin_1"]%string /\ nui_ids w' = [PInt 1; PInt 2] /\ exists y, nll_x0 w' = Ok (map Fin [y; 0; 0])).
  { unfold mreached, ex_two, ex_binned, mworld_init, world_init. do 13 mrun_step. unfold mrun. cbn [fold_left]. do 3 eexists. split; [reflexivity|]. split; [reflexivity|].
    split; [lazy -[Rplus Rmult IZR]; do 3 f_equal; lra|]. split; [reflexivity|]. split; [reflexivity|]. split; [lazy -[Rplus Rmult IZR]; do 3 f_equal; lra|].
    eexists. split; [reflexivity|]. split; [reflexivity|]. split; [lazy -[Rplus Rmult IZR]; do 3 f_equal; lra|]. split; [reflexivity|]. split; [reflexivity|]. eexists. reflexivity. }
  destruct ST as (m0 & m1 & w & E & CA & Y1 & NA & NU & X & w' & SY & MW & Y2 & NA' & NU' & y & X').
  assert (SE : s = mk_xstate (mk_mworld w [m0; m1]) [] [mk_fitter "iminuit" [] [] false; mk_fitter "iminuit" [] [] false]%string [0; 1]%nat).
  { unfold s, ex_two_fitters. rewrite ex_two_fitters_state; rewrite E; [reflexivity|reflexivity|exact CA]. }
  unfold s'. rewrite SE. clear s s' SE E. split.
  - cbn [answers]. unfold of_fitter, on_model, answer_of, fbind, on_world, fret. cbn [xs_m xs_pars xs_fitters xs_owner mw_models mw_heap nth_error fs_w fs_pars fs_fitters]. rewrite Y1. reflexivity.
  - assert (G : fs_w (fst (get_significance ex_still 1 "s"%string true (mk_fstate (load m1 w) [] [mk_fitter "iminuit" [] [] false; mk_fitter "iminuit" [] [] false]%string))) = w').
    { Ltac lz := lazy -[Reqb Rplus Rmult Ropp Rinv IZR sqrt Rdiv Rltb Rleb ln xadd xmul xdiv xsub xopp xlog xlog1p xsqrt xltb load set_yield param_names nui_ids nll_x0].
      lz. rewrite NU, NA. lz. rewrite X. lz. replace (xltb (Fin 4) (Fin 0)) with false by (cbn; destruct (Rltb_spec 4 0); [lra|reflexivity]). lz. rewrite SY. lz. rewrite NA'. lz. rewrite X'. lz. reflexivity. }
    cbn [xstep]. unfold drop. match type of G with fs_w (fst ?g) = _ => destruct g as [t r] eqn:GS end. cbn [fst] in G. subst w'. unfold of_fitter at 1, on_model at 1. cbn [xs_m xs_pars xs_fitters xs_owner mw_models mw_heap nth_error]. rewrite ?GS.
    cbn [answers fst]. unfold of_fitter, on_model, answer_of, fbind, on_world, fret. cbn [xs_m xs_pars xs_fitters xs_owner mw_models mw_heap nth_error fs_w fs_pars fs_fitters upd fst].
    rewrite load_load. destruct (get_yield "s"%string (load m0 (fs_w t))) as [w2 r2]. cbn [snd] in Y2. subst r2. reflexivity.
Qed.
Print Assumptions C112_shared_template_interferes.
