(** Property C48 for all histories: what a fit with update_templates does to the templates. *)
From Coq Require Import Reals String ZArith Bool Arith List Lra Lia.
From Verif Require Import Model_Num Model_Hist Model_Utility Model_Template Model_World Model_Ops Model_Minimizer Model_Fitter
  Spec_Matrix Spec_Min Spec_World Spec_Fit Spec_Stale Proof_HistHeap Proof_Eval Proof_Route Proof_Monad Proof_Names Proof_World Proof_Update Proof_Min Proof_Fit Proof_Fit2 Proof_Fit3 Proof_Fit4
  Proof_Freeze Proof_Freeze2 Prop_World Prop_Params Prop_Stale Prop_Minimizer Prop_Fitter.
Import ListNotations.
Local Open Scope R_scope.

(** what a call does to the objects does not depend on the caches *)
Definition detc {A} (m : M A) : Prop := forall w w', core_eq w w' -> core_eq (fst (m w)) (fst (m w')) /\ snd (m w') = snd (m w).
Lemma dc_lift {A} (r : res A) : detc (lift r). Proof. intros w w' C. simpl. auto. Qed.
Lemma dc_ret {A} (a : A) : detc (ret a). Proof. intros w w' C. simpl. auto. Qed.
Lemma dc_get_chan i : detc (get_chan i). Proof. intros w w' C. unfold get_chan. cbn [fst snd]. rewrite (ce_chans _ _ C). auto. Qed.
Lemma dc_channels : detc (gets (fun w => map snd (w_channels w))). Proof. intros w w' C. unfold gets. cbn [fst snd]. rewrite (ce_channels _ _ C). auto. Qed.
Lemma dc_bind {A B} (m : M A) (k : A -> M B) : detc m -> (forall a, detc (k a)) -> detc (bind m k).
Proof.
  intros Hm Hk w w' C. unfold bind. destruct (Hm w w' C) as (C1 & E1). destruct (m w) as (w1 & r1), (m w') as (w1' & r1'). simpl in C1, E1. subst r1'.
  destruct r1 as [a|e]; [now apply Hk|auto].
Qed.
Lemma dc_forM {A} (f : A -> M unit) l : (forall a, detc (f a)) -> detc (forM f l).
Proof. intros H. induction l as [|a l IH]; simpl; [apply dc_ret|apply dc_bind; auto]. Qed.
Lemma dc_on_tmpl {A} i (f : tmpl -> tmpl * res A) : detc (on_tmpl i f).
Proof.
  intros w w' C. unfold on_tmpl. rewrite (ce_tmpls _ _ C). destruct (nth_error (w_tmpls w) i) as [t|]; [|auto]. destruct (f t) as (t' & r). cbn [fst snd]. split; [|reflexivity].
  destruct C. constructor; simpl; congruence.
Qed.
Lemma dc_ch_update cid y n : detc (ch_update_parameters cid y n).
Proof.
  unfold ch_update_parameters. apply dc_bind; [apply dc_get_chan|intros c]. apply dc_bind; [apply dc_lift|intros ys]. apply dc_bind; [apply dc_lift|intros ns].
  apply dc_forM. intros (((tid & eff) & y') & n'). apply dc_bind; [apply dc_on_tmpl|intros _; apply dc_on_tmpl].
Qed.

Lemma play_now {A} w (p : prog A) : small w -> forall w', core_eq w w' -> CI w' -> NOW w w' ->
  core_eq w (fst (play nll p w')) /\ CI (fst (play nll p w')) /\ NOW w (fst (play nll p w')).
Proof.
  intros Sm. induction p as [a|x k IH]; intros w' C K N; simpl; [auto|].
  destruct (pn_nll w Sm x w' C K N) as (w2 & E2 & C2 & K2 & N2 & _). rewrite E2. simpl. now apply IH.
Qed.
Lemma update_now w w1 x : small w -> CI w -> core_eq w w1 -> CI w1 -> NOW w w1 ->
  core_eq (fst (update_parameters x w)) (fst (update_parameters x w1)) /\ snd (update_parameters x w1) = snd (update_parameters x w).
Proof.
  intros Sm K C K1 N. unfold update_parameters, bind at 1 3 5 7.
  destruct (pn_per_channel w Sm x w (po_refl _ core_po w) K (NOW_refl w)) as (wa & Ea & Ca & _).
  destruct (pn_per_channel w Sm x w1 C K1 N) as (wb & Eb & Cb & _). rewrite Ea, Eb.
  assert (CC : core_eq wa wb). { destruct Ca, Cb. constructor; congruence. }
  destruct (per_channel_now w x) as [yn|e]; [|auto]. refine (dc_bind _ _ dc_channels _ wa wb CC). intros chs. apply dc_forM. intros q. apply dc_ch_update.
Qed.

(** ** C48: a model object with at most 128 channel objects, after any history whatsoever (templates, processes,
    covariances added after fits; failed calls; channels without templates), with arbitrary optimizers.
    do_fit(update_templates=True) either raises before it touches a template, or it does exactly what
    update_parameters(x), called in the state before the fit with x = the values of its Parameters object,
    does: the same effect on every template (in particular when update_parameters raises half way), and the
    same exception or none. *)
Theorem C48_update_exactly_128_partial : forall inv l E i g n lim, let s := freached inv l in let w := fs_w s in
  (length (w_chans w) <= 128)%nat -> forall s' v, do_fit E i true g n lim s = (s', v) ->
  (exists e, v = Err e /\ same_objects w (fs_w s')) \/
  exists p, nth_error (fs_pars s') (length (fs_pars s)) = Some p /\ length (p_values p) = length (param_names w) /\
    same_objects (fst (update_parameters (p_values p) w)) (fs_w s') /\
    match v with
    | Ok r => r_params r = length (fs_pars s) /\ snd (update_parameters (p_values p) w) = Ok tt
    | Err e => snd (update_parameters (p_values p) w) = Err e
    end.
Proof.
  intros inv l E i g n lim s w Sm s' v D. change (small w) in Sm. destruct (freached_world inv l) as (l' & EW). fold s w in EW.
  assert (K : CI w) by (rewrite EW in *; now apply CI_reached).
  destruct (do_fit_cases i true g n lim s) as [(e & ps & H)|(m & x & HX & MP & H)]; rewrite H in D.
  { injection D as <- <-. left. exists e. split; [reflexivity|repeat split]. }
  unfold finish in D. fold w in D.
  pose proof (play_same (minimize E x g (mk_mstate (pars_new (param_names w)) m)) w) as S.
  pose proof (play_now w (minimize E x g (mk_mstate (pars_new (param_names w)) m)) Sm w (po_refl _ core_po w) K (NOW_refl w)) as (C1 & K1 & N1).
  pose proof (min_values E x g (param_names w) m w _ eq_refl) as L.
  pose proof (fun w' s' r => minimize_result nll E x g (mk_mstate (pars_new (param_names w)) m) w w' s' r) as MR.
  destruct (play nll _ w) as (w1 & st & [r0|e]); cbn [fst snd] in *; [|injection D as <- <-; left; eauto]. specialize (MR w1 st r0 eq_refl). cbn [ms_m] in MR.
  destruct (update_now w w1 (p_values (ms_p st)) Sm K C1 K1 N1) as (C2 & R2). right. exists (ms_p st).
  destruct (update_parameters (p_values (ms_p st)) w1) as (w2 & [[]|e]); cbn [fst snd] in *; injection D as <- <-; cbn [fs_pars fs_w];
    rewrite nth_error_app2, Nat.sub_diag by lia; (split; [reflexivity|]); (split; [exact L|]); (split; [destruct C2; repeat split; auto|]); rewrite <- R2; [split; congruence|reflexivity].
Qed.
Print Assumptions C48_update_exactly_128_partial.

(** ** Every history with at most 128 define_channel calls meets the hypothesis *)
Definition LC (w w' : world) : Prop := (length (w_chans w') <= length (w_chans w))%nat.
Lemma lc_po : preorder LC. Proof. split; unfold LC; intros; lia. Qed.
Lemma lc_same w w' : w_chans w' = w_chans w -> LC w w'. Proof. unfold LC. intros ->. auto. Qed.
Lemma lc_on_hist {A} i (f : hist -> hist * res A) : pres LC (on_hist i f).
Proof. intros w. unfold on_hist. destruct (nth_error (w_hists w) i); [|apply lc_po]. destruct (f h). now apply lc_same. Qed.
Lemma lc_on_tmpl {A} i (f : tmpl -> tmpl * res A) : pres LC (on_tmpl i f).
Proof. intros w. unfold on_tmpl. destruct (nth_error (w_tmpls w) i); [|apply lc_po]. destruct (f t). now apply lc_same. Qed.
Lemma lc_on_chan {A} i (f : chan -> chan * res A) : pres LC (on_chan i f).
Proof. intros w. unfold on_chan. destruct (nth_error (w_chans w) i) as [c0|] eqn:E; [|apply lc_po]. destruct (f c0) as [c1 r]. unfold LC. cbn. now rewrite upd_length. Qed.
Lemma lc_core {A} (m : M A) : pres core_eq m -> pres LC m.
Proof. intros H w. apply lc_same, (ce_chans _ _ (H w)). Qed.
Lemma lc_alloc h : pres LC (alloc_hist h). Proof. intros w. now apply lc_same. Qed.
Lemma lc_tmpl_reset i : pres LC (tmpl_reset i). Proof. unfold tmpl_reset. pres_tac lc_po. apply lc_on_tmpl. Qed.
Definition def_channel (o : op) : bool := match o with ODefChannel _ _ _ => true | _ => false end.
Lemma lc_step inv o : def_channel o = false -> pres LC (step inv o).
Proof.
  intros D. destruct o; simpl; try discriminate; pres_tac lc_po; try apply lc_alloc; try apply lc_on_hist; try apply lc_on_tmpl; try apply lc_tmpl_reset.
  - intros w. now apply lc_same.
  - intros w. unfold define_process. destruct (smem _ _); now apply lc_same.
  - intros w. unfold mct_add_template. destruct (dget _ _ _); [|now apply lc_same]. destruct (smem _ _); [|now apply lc_same].
    apply (pres_bind lc_po); [apply (pres_get_tmpl lc_po)|intros t; apply lc_on_chan].
  - unfold mct_add_data. pres_tac lc_po. intros w. destruct (dget _ _ _); [|now apply lc_same].
    apply (pres_bind lc_po); [apply (pres_get_hist lc_po)|intros h; apply lc_on_chan].
  - intros w. unfold add_gaussian_constraint. destruct (smem _ _); now apply lc_same.
  - unfold set_yield. pres_tac lc_po. destruct (smem p a); pres_tac lc_po.
    destruct (dget String.eqb (c_tmpls a2) p); pres_tac lc_po. destruct (dget String.eqb (c_effs a2) p); pres_tac lc_po. apply lc_on_tmpl.
  - unfold reset_parameters, ch_reset. pres_tac lc_po. apply lc_tmpl_reset.
  - unfold update_parameters. pres_tac lc_po; [apply lc_core, core_per_channel|]. unfold ch_update_parameters. pres_tac lc_po.
    match goal with a : (_ * R * list xr * list xr)%type |- _ => destruct a as [[[tid eff] yy] nn] end. pres_tac lc_po; apply lc_on_tmpl.
  - apply lc_core, core_nll.
  - unfold generate_asimov_dataset, ch_asimov, ch_template_sum. pres_tac lc_po; try apply lc_alloc.
    destruct (c_ttype _); pres_tac lc_po. unfold ch_bin_edges. pres_tac lc_po. destruct (c_tmpls _) as [|[? ?] ?]; pres_tac lc_po.
  - unfold generate_toy_dataset, ch_toy, ch_template_sum. pres_tac lc_po; try apply lc_alloc.
    destruct (c_ttype _); pres_tac lc_po. unfold ch_bin_edges. pres_tac lc_po. destruct (c_tmpls _) as [|[? ?] ?]; pres_tac lc_po.
Qed.
Lemma lc_run inv l : Forall (fun o => def_channel o = false) l -> forall w, LC w (run inv l w).
Proof. induction 1 as [|o l D _ IH]; intros w; [apply lc_po|]. eapply lc_po; [apply (lc_step inv o D w)|apply IH]. Qed.
Definition fdef_channel (o : fop) : bool := match o with FOp o => def_channel o | _ => false end.
Lemma lc_fstep inv o s : (length (w_chans (fs_w (fst (fstep inv o s)))) <= length (w_chans (fs_w s)) + (if fdef_channel o then 1 else 0))%nat.
Proof.
  destruct (is_fit o) eqn:Fo.
  - assert (X : frame inv (fun o => def_channel o = false) s (fst (fstep inv o s))).
    { assert (R : frame inv (fun o => def_channel o = false) s s) by apply frame_refl'.
      destruct o; simpl; try discriminate; rewrite fbind_tt.
      - apply (do_fit_frame inv _ s); [reflexivity|reflexivity|exact R].
      - apply (profile_frame inv _ s); [reflexivity|exact R].
      - apply (significance_frame inv _ s); [reflexivity|reflexivity|exact R]. }
    destruct X as (_ & _ & _ & l' & A & E). rewrite E. pose proof (lc_run inv l' A (fs_w s)) as H. unfold LC in H. lia.
  - destruct o; try discriminate; simpl fdef_channel.
    + simpl fstep. unfold on_world. destruct (def_channel o) eqn:D.
      * destruct o; try discriminate. simpl. rewrite app_length. simpl. lia.
      * pose proof (lc_step inv o D (fs_w s)) as H. unfold LC in H. destruct (step inv o (fs_w s)). simpl in *. lia.
    + simpl. lia.
    + simpl. unfold fix_nui_params, on_fitter. destruct (nth_error _ _); simpl; lia.
    + simpl. unfold set_parameter_fixed, on_fitter. destruct (nth_error _ _); simpl; lia.
    + simpl. unfold set_parameter_bounds, on_fitter. destruct (nth_error _ _); simpl; lia.
Qed.
Lemma lc_frun inv l : forall s, (length (w_chans (fs_w (frun inv l s))) <= length (w_chans (fs_w s)) + length (filter fdef_channel l))%nat.
Proof.
  induction l as [|o l IH]; intros s; [simpl; lia|]. specialize (IH (fst (fstep inv o s))). pose proof (lc_fstep inv o s). change (frun inv (o :: l) s) with (frun inv l (fst (fstep inv o s))).
  simpl filter. destruct (fdef_channel o); simpl length; lia.
Qed.
Lemma few_channels : forall inv l, (length (w_chans (fs_w (freached inv l))) <= length (filter fdef_channel l))%nat.
Proof. intros inv l. apply (lc_frun inv l fstate_init). Qed.
(** for example: a fit, then a further template of a new process, and a second fit; with any optimizers *)
Example ex_C48_128 : forall inv E, (length (w_chans (fs_w (freached inv
  (map FOp ex_fit ++ [FNew "scipy"; FDoFit E 0 true true true None; FOp (ex_binned 5 1 1 2); FOp (OTemplate K1 "u" 2); FOp (ODefProcess "b"); FOp (OAddTemplate "A" "b" 1 1)]%string)))) <= 128)%nat.
Proof. intros inv E. eapply Nat.le_trans; [apply few_channels|]. simpl. lia. Qed.
