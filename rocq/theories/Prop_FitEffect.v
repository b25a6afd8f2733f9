(** Properties C48, C49: effects of a fit on templates and on earlier results. *)
From Coq Require Import Reals String ZArith Bool Arith List Lra Lia.
From Verif Require Import Model_Num Model_Hist Model_Utility Model_Template Model_World Model_Ops Model_Minimizer Model_Fitter
  Spec_Matrix Spec_Min Spec_World Spec_Fit Spec_Stale Proof_HistHeap Proof_Eval Proof_Route Proof_Monad Proof_Names Proof_World Proof_Update Proof_Min Proof_Fit Proof_Fit2 Proof_Fit3 Proof_Fit4
  Prop_World Prop_Params Prop_Stale Prop_Minimizer Prop_Fitter.
Import ListNotations.
Local Open Scope R_scope.

(** ** C48.  E: arbitrary optimizers. *)
(** Without update_templates a fit changes no template, histogram, data, channel, ... in any state, whether
    it succeeds or raises. *)
Theorem C48_no_update : forall E i g n lim s, same_objects (fs_w s) (fs_w (fst (do_fit E i false g n lim s))).
Proof.
  intros E i g n lim s. destruct (do_fit_cases i false g n lim s) as [(e & ps & H)|(m & x & _ & _ & H)]; rewrite H.
  - repeat split.
  - unfold finish. pose proof (play_same (minimize E x g (mk_mstate (pars_new (param_names (fs_w s))) m)) (fs_w s)) as S.
    destruct (play nll _ (fs_w s)) as (w1 & st & [r|e]); exact S.
Qed.
Print Assumptions C48_no_update.
(** A successful fit with update_templates, in any state: the result is a new Parameters object, and the
    templates are those after update_parameters(result.params.values), called when nothing but caches had
    changed. *)
Theorem C48_update : forall E i g n lim s s' r, do_fit E i true g n lim s = (s', Ok r) ->
  exists p w1, nth_error (fs_pars s') (r_params r) = Some p /\ length (p_values p) = length (param_names (fs_w s)) /\
    same_objects (fs_w s) w1 /\ update_parameters (p_values p) w1 = (fs_w s', Ok tt).
Proof.
  intros E i g n lim s s' r D. destruct (do_fit_cases i true g n lim s) as [(e & ps & H)|(m & x & _ & MP & H)]; rewrite H in D; [discriminate|].
  unfold finish in D. pose proof (play_same (minimize E x g (mk_mstate (pars_new (param_names (fs_w s))) m)) (fs_w s)) as S.
  pose proof (min_values E x g (param_names (fs_w s)) m (fs_w s) _ eq_refl) as L.
  pose proof (fun w' s' r => minimize_result nll E x g (mk_mstate (pars_new (param_names (fs_w s))) m) (fs_w s) w' s' r) as MR.
  destruct (play nll _ (fs_w s)) as (w1 & st & [r0|e]); cbn [fst snd] in *; [|discriminate]. specialize (MR w1 st r0 eq_refl). cbn [ms_m] in MR.
  destruct (update_parameters (p_values (ms_p st)) w1) as (w2 & [[]|e]) eqn:U; [|discriminate]. injection D as <- <-.
  exists (ms_p st), w1. cbn [fs_pars fs_w]. rewrite MR, MP, nth_error_app2 by lia. rewrite Nat.sub_diag. auto.
Qed.
Print Assumptions C48_update.
(** For histories that add no templates after the first use: the effect is the one of calling
    update_parameters directly, and a fit that raises changes nothing. *)
Theorem C48_update_exactly_partial : forall inv l E i g n lim, inv_spec inv -> ftemplates_then_used l ->
  let s := freached inv l in let w := fs_w s in all_have_templates w ->
  forall s' v, do_fit E i true g n lim s = (s', v) ->
  match v with
  | Err _ => same_objects w (fs_w s')
  | Ok r => exists p, nth_error (fs_pars s') (r_params r) = Some p /\
              snd (update_parameters (p_values p) w) = Ok tt /\ same_objects (fst (update_parameters (p_values p) w)) (fs_w s')
  end.
Proof.
  intros inv l E i g n lim I B s w AT s' v D. destruct (ftemplates_world inv l B) as (l' & B' & EW). fold s w in EW.
  assert (K : cohG false w) by (rewrite EW; now apply templates_coh). assert (W : WF w) by (rewrite EW; now apply reached_wf).
  destruct (names_length inv l I) as (_ & NL). fold s w in NL.
  destruct (do_fit_cases i true g n lim s) as [(e & ps & H)|(m & x & HX & MP & H)]; rewrite H in D.
  { injection D as <- <-. repeat split. }
  assert (NE : w_channels w <> []).
  { destruct (C30_start_values_exist inv l' I) as (X & _). rewrite <- EW in X. destruct (X (ex_intro _ x HX)) as (j & nm & c & (cid & C1 & _) & _).
    intros Z. rewrite Z in C1. destruct j; discriminate. }
  unfold finish in D. pose proof (play_same (minimize E x g (mk_mstate (pars_new (param_names (fs_w s))) m)) (fs_w s)) as S.
  pose proof (play_pe (minimize E x g (mk_mstate (pars_new (param_names (fs_w s))) m)) w w (po_refl _ core_po w) K) as (C1 & K1).
  pose proof (min_values E x g (param_names (fs_w s)) m (fs_w s) _ eq_refl) as L. fold w in S, C1, K1, L, D. rewrite NL in L.
  pose proof (fun w' s' r => minimize_result nll E x g (mk_mstate (pars_new (param_names (fs_w s))) m) (fs_w s) w' s' r) as MR. fold w in MR.
  destruct (play nll _ w) as (w1 & st & [r0|e]); cbn [fst snd] in *; [|injection D as <- <-; exact S]. specialize (MR w1 st r0 eq_refl). cbn [ms_m] in MR.
  assert (W1 : WF w1 /\ w_channels w1 <> [] /\ all_have_templates w1 /\ num_params w1 = num_params w).
  { destruct C1. split; [eapply wf_core; eauto; constructor; auto|]. split; [congruence|]. split.
    - intros j nm c (cid & A1 & A2). apply (AT j nm c). exists cid. split; congruence.
    - unfold num_params, nui_offset. rewrite ce_procs, ce_channels, ce_chans. reflexivity. }
  destruct W1 as (W1 & NE1 & AT1 & NP1).
  destruct (update_spec w (p_values (ms_p st)) W K NE AT L) as (wa & ys & ns & Ca & Ea & Ua).
  destruct (update_spec w1 (p_values (ms_p st)) W1 K1 NE1 AT1 ltac:(congruence)) as (wb & ys' & ns' & Cb & Eb & Ub).
  rewrite Ub in D. injection D as <- <-. exists (ms_p st). cbn [fs_pars fs_w]. rewrite MR, MP, nth_error_app2 by lia. rewrite Nat.sub_diag. split; [reflexivity|]. rewrite Ua. split; [reflexivity|].
  cbn [fst]. assert (EP : per_channel_res w1 (p_values (ms_p st)) = per_channel_res w (p_values (ms_p st))).
  { unfold per_channel_res, mct_num_nui. rewrite (core_mct_chans _ _ C1), (ce_procs _ _ C1), (ce_channels _ _ C1), (ce_chans _ _ C1). reflexivity. }
  rewrite EP, Ea in Eb. injection Eb as <- <-.
  assert (EA : all_assigns w1 ys ns = all_assigns w ys ns) by (unfold all_assigns; rewrite (core_mct_chans _ _ C1); reflexivity).
  rewrite EA. destruct C1, Ca, Cb. unfold same_objects. cbn [set_tmpls w_hists w_tmpls w_chans w_channels w_procs w_cnames w_cvals w_cerrs]. repeat split; congruence.
Qed.
Print Assumptions C48_update_exactly_partial.
(** the hypotheses hold for the example of Prop_Fitter, used in a fit and a profile scan *)
Example ex_C48 : forall inv E sch, let l := map FOp ex_fit ++ [FNew "scipy"; FBounds 0 (PInt 1) (Some 0, Some 1); FProfile E 0 (PInt 0) 2 5 1 true false sch; FDoFit E 0 true true true None] in
  ftemplates_then_used l /\ ftemplates_then_used (map FOp ex_fit ++ [FNew "scipy"]) /\ all_have_templates (fs_w (freached inv (map FOp ex_fit ++ [FNew "scipy"]))).
Proof.
  intros inv E sch l. split; [|split].
  - exists (map FOp ex_fit), [FNew "scipy"; FBounds 0 (PInt 1) (Some 0, Some 1); FProfile E 0 (PInt 0) 2 5 1 true false sch; FDoFit E 0 true true true None]. split; [reflexivity|]. repeat constructor.
  - exists (map FOp ex_fit), [FNew "scipy"]. split; [reflexivity|]. repeat constructor.
  - unfold freached. rewrite frun_app, frun_ops. cbn [frun fold_left fstep fitter_new fst fbind fret fs_w fstate_init]. unfold ex_fit, ex_binned, world_init. do 7 run_step.
    intros i n c (cid & H1 & H2). destruct i as [|[|i]]; try discriminate. injection H1 as <- <-. injection H2 as <-. discriminate.
Qed.

(** ** C49 *)
(** The result of a fit refers to a Parameters object of its own: whatever is called afterwards (fits with this
    or other fitters, with other optimizers, scans, changes of the templates), its values, errors and matrices
    stay the same. *)
Theorem C49_results_are_kept : forall inv E i u g n lim s s' r l, do_fit E i u g n lim s = (s', Ok r) ->
  (exists p, nth_error (fs_pars s') (r_params r) = Some p) /\
  nth_error (fs_pars (frun inv l s')) (r_params r) = nth_error (fs_pars s') (r_params r) /\
  (* it is not the object of an earlier result *)
  (length (fs_pars s) <= r_params r)%nat.
Proof.
  intros inv E i u g n lim s s' r l D. destruct (do_fit_cases i u g n lim s) as [(e & ps & H)|(m & x & _ & MP & H)]; rewrite H in D; [discriminate|].
  assert (X : r_params r = length (fs_pars s) /\ length (fs_pars s') = S (length (fs_pars s))).
  { unfold finish in D. pose proof (fun w' s' r => minimize_result nll E x g (mk_mstate (pars_new (param_names (fs_w s))) m) (fs_w s) w' s' r) as MR.
    destruct (play nll _ (fs_w s)) as (w1 & st & [r0|e]); cbn [fst snd] in *; [|discriminate]. specialize (MR w1 st r0 eq_refl). cbn [ms_m] in MR. destruct u.
    - destruct (update_parameters _ w1) as (w2 & [[]|e]); [|discriminate]. injection D as <- <-. cbn [fs_pars]. rewrite app_length. simpl. split; [congruence|lia].
    - injection D as <- <-. cbn [fs_pars]. rewrite app_length. simpl. split; [congruence|lia]. }
  destruct X as (X1 & X2). split; [|split; [|lia]].
  - destruct (nth_error (fs_pars s') (r_params r)) eqn:E0; [eauto|]. apply nth_error_None in E0. lia.
  - apply frun_pars. lia.
Qed.
Print Assumptions C49_results_are_kept.
(** At the level of a minimizer the property is false: a second minimize() of the same minimizer overwrites
    the values of the first result, which refers to the same Parameters object. *)
Theorem C49_minimizer_refuted : forall (S : Type) (fcn : list xr -> S -> S * res xr) (w : S),
  let names := ["a"]%string in
  let E := mk_ext (fun _ => Stop (Err RuntimeError)) (fun x _ _ => Stop (Ok (mk_oout true x (Fin 0)))) (fun _ => Stop (Err RuntimeError)) (fun m => Ok m) in
  let st0 := mk_mstate (pars_new names) (min_new Scipy names 7) in
  exists st1 st2 r1 r2,
    play fcn (minimize E [Fin 1] false st0) w = (w, (st1, Ok r1)) /\ play fcn (minimize E [Fin 2] false st1) w = (w, (st2, Ok r2)) /\
    r_params r1 = r_params r2 /\ p_values (ms_p st1) = [Fin 1] /\ p_values (ms_p st2) = [Fin 2].
Proof. intros S fcn w names E st0. do 4 eexists. split; [reflexivity|]. split; [reflexivity|]. repeat split. Qed.
Print Assumptions C49_minimizer_refuted.
