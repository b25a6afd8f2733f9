(** Proofs about TemplateFitter.do_fit in arbitrary states, and about histories of fits. *)
From Coq Require Import Reals String ZArith Bool Arith List Lra Lia.
From Verif Require Import Model_Num Model_Hist Model_Utility Model_Template Model_World Model_Ops Model_Minimizer Model_Fitter
  Spec_Matrix Spec_Min Spec_World Spec_Fit Spec_Stale Proof_HistHeap Proof_Eval Proof_Route Proof_Monad Proof_Names Proof_Min Proof_Fit Proof_Fit2 Proof_Fit3 Prop_World Prop_Stale.
Import ListNotations.
Local Open Scope R_scope.

Lemma upd_snoc {A} (l : list A) a b : upd (length l) b (l ++ [a]) = l ++ [b].
Proof. induction l; simpl; [reflexivity|]. f_equal. exact IHl. Qed.
(** a minimization with a Parameters object at the end of the heap *)
Lemma min_from_last E m x g w ps p fs : m_params m = length ps ->
  minimize_from E m x g (mk_fstate w (ps ++ [p]) fs) =
  let q := play nll (minimize E x g (mk_mstate p m)) w in
  (mk_fstate (fst q) (ps ++ [ms_p (fst (snd q))]) fs, rmap (fun v => (ms_m (fst (snd q)), v)) (snd (snd q))).
Proof.
  intros M. unfold minimize_from. simpl fs_pars. rewrite M, nth_error_app2 by lia. rewrite Nat.sub_diag. cbn [nth_error fs_w fs_fitters fs_pars]. cbv zeta.
  destruct (play nll (minimize E x g (mk_mstate p m)) w) as (w1 & st & r). cbn [fst snd]. rewrite ?M, upd_snoc. reflexivity.
Qed.

Definition finish (u : bool) (s : fstate) (q : world * (mstate * res mresult)) : fstate * res mresult :=
  let s1 := mk_fstate (fst q) (fs_pars s ++ [ms_p (fst (snd q))]) (fs_fitters s) in
  match snd (snd q) with
  | Err e => (s1, Err e)
  | Ok r => if u then match update_parameters (p_values (ms_p (fst (snd q)))) (fst q) with
                      | (w2, Ok _) => (mk_fstate w2 (fs_pars s1) (fs_fitters s1), Ok r)
                      | (w2, Err e) => (mk_fstate w2 (fs_pars s1) (fs_fitters s1), Err e)
                      end
            else (s1, Ok r)
  end.
Definition configure (f : fitter) (w : world) (n : bool) (lim : option bound) (m : minimizer) : res minimizer :=
  let names := param_names w in
  m <- (if n then fix_all names m (nui_ids w) else Ok m) ;;
  m <- (match lim with Some b => bound_all names m (map (fun j => (j, b)) (nui_ids w)) | None => Ok m end) ;;
  m <- fix_all names m (ft_fixed f) ;;
  bound_all names m (ft_bounds f).
Lemma configure_params f w n lim m m' : configure f w n lim m = Ok m' -> m_params m' = m_params m.
Proof.
  unfold configure. destruct (if n then fix_all _ m (nui_ids w) else Ok m) as [m1|e] eqn:E1; simpl; [|discriminate].
  assert (P1 : m_params m1 = m_params m). { destruct n; [apply fix_all_params in E1; congruence|injection E1 as <-; reflexivity]. }
  destruct (match lim with Some b => bound_all _ m1 (map (fun j => (j, b)) (nui_ids w)) | None => Ok m1 end) as [m2|e] eqn:E2; simpl; [|discriminate].
  assert (P2 : m_params m2 = m_params m). { destruct lim; [apply bound_all_params in E2; congruence|injection E2 as <-; exact P1]. }
  destruct (fix_all (param_names w) m2 (ft_fixed f)) as [m3|e] eqn:E3; simpl; [|discriminate]. intros E4. apply fix_all_params in E3. apply bound_all_params in E4. congruence.
Qed.
Lemma do_fit_form E i u g n lim w ps fs f k : nth_error fs i = Some f -> minimizer_class (ft_id f) = Ok k ->
  do_fit E i u g n lim (mk_fstate w ps fs) =
  let s1 := mk_fstate w (ps ++ [pars_new (param_names w)]) fs in
  match configure f w n lim (min_new k (param_names w) (length ps)) with
  | Err e => (s1, Err e)
  | Ok m => match nll_x0 w with
            | Err e => (s1, Err e)
            | Ok x => finish u (mk_fstate w ps fs) (play nll (minimize E x g (mk_mstate (pars_new (param_names w)) m)) w)
            end
  end.
Proof.
  intros Hf Hk. unfold do_fit. unfold fbind at 1, get_fitter. cbn [fs_fitters]. rewrite Hf.
  unfold fbind at 1, fget at 1. unfold fbind at 1, fget at 1. unfold fbind at 1, new_minimizer. cbn [fs_w fs_pars fs_fitters]. rewrite Hk. cbv zeta.
  pose proof (configure_params f w n lim (min_new k (param_names w) (length ps))) as CP. cbn [m_params min_new] in CP.
  set (m0 := min_new k (param_names w) (length ps)) in *. clearbody m0. unfold configure in *. cbv zeta in *.
  unfold fbind at 1, flift at 1. destruct (if n then fix_all (param_names w) m0 (nui_ids w) else Ok m0) as [m1|e]; cbn [rbind] in *; [|reflexivity].
  unfold fbind at 1, flift at 1. destruct (match lim with Some b => bound_all (param_names w) m1 (map (fun j => (j, b)) (nui_ids w)) | None => Ok m1 end) as [m2|e]; cbn [rbind] in *; [|reflexivity].
  unfold fbind at 1, flift at 1. destruct (fix_all (param_names w) m2 (ft_fixed f)) as [m3|e]; cbn [rbind] in *; [|reflexivity].
  unfold fbind at 1, flift at 1. destruct (bound_all (param_names w) m3 (ft_bounds f)) as [m4|e]; cbn [rbind] in *; [|reflexivity].
  unfold fbind at 1, x0. cbn [fs_w]. destruct (nll_x0 w) as [x|e]; [|reflexivity].
  specialize (CP m4 eq_refl). change (m_params m4 = length ps) in CP.
  unfold fbind at 1. rewrite min_from_last by exact CP. cbv zeta. unfold finish. cbn [fs_pars fs_fitters].
  pose proof (fun w' s' r => minimize_result nll E x g (mk_mstate (pars_new (param_names w)) m4) w w' s' r) as MR. cbn [ms_m] in MR. rewrite CP in MR.
  destruct (play nll (minimize E x g _) w) as (w1 & st & r). cbn [fst snd]. destruct r as [r|e]; [|reflexivity]. cbn [rmap].
  specialize (MR w1 st r eq_refl). unfold fbind at 1, get_pars. cbn [fs_pars snd]. rewrite MR, nth_error_app2 by lia. rewrite Nat.sub_diag. cbn [nth_error].
  destruct u; [|reflexivity]. unfold fbind, on_world. cbn [fs_w fs_pars fs_fitters]. destruct (update_parameters _ w1) as (w2 & [[]|e]); reflexivity.
Qed.
Lemma do_fit_cases i u g n lim s :
  (exists e ps, forall E, do_fit E i u g n lim s = (mk_fstate (fs_w s) ps (fs_fitters s), Err e)) \/
  exists m x, nll_x0 (fs_w s) = Ok x /\ m_params m = length (fs_pars s) /\
    forall E, do_fit E i u g n lim s = finish u s (play nll (minimize E x g (mk_mstate (pars_new (param_names (fs_w s))) m)) (fs_w s)).
Proof.
  destruct s as [w ps fs]. cbn [fs_w fs_pars fs_fitters]. destruct (nth_error fs i) as [f|] eqn:Hf.
  2:{ left. exists OutOfModel, ps. intros E. unfold do_fit, fbind, get_fitter. cbn [fs_fitters]. rewrite Hf. reflexivity. }
  destruct (minimizer_class (ft_id f)) as [k|e] eqn:Hk.
  2:{ left. exists e, ps. intros E. unfold do_fit, fbind, get_fitter, fget, new_minimizer. cbn [fs_fitters fs_w]. rewrite Hf, Hk. reflexivity. }
  pose proof (fun E => do_fit_form E i u g n lim w ps fs f k Hf Hk) as D. cbv zeta in D.
  pose proof (configure_params f w n lim (min_new k (param_names w) (length ps))) as CP.
  destruct (configure f w n lim _) as [m|e]; [|left; eauto]. destruct (nll_x0 w) as [x|e]; [|left; eauto].
  right. exists m, x. split; [reflexivity|]. split; [rewrite (CP m eq_refl); reflexivity|exact D].
Qed.

Lemma play_same {A} (p : prog A) : forall w, same_objects w (fst (play nll p w)).
Proof.
  induction p as [a|x k IH]; intros w; simpl; [repeat split|]. specialize (IH (snd (nll x w)) (fst (nll x w))). pose proof (C39_no_side_effect x w) as H.
  destruct IH as (A1 & A2 & A3 & A4 & A5 & A6 & A7 & A8), H as (B1 & B2 & B3 & B4 & B5 & B6 & B7 & B8). repeat split; congruence.
Qed.
Lemma play_pe {A} (p : prog A) : forall w w', core_eq w w' -> cohG false w' -> core_eq w (fst (play nll p w')) /\ cohG false (fst (play nll p w')).
Proof. induction p as [a|x k IH]; intros w w' C K; simpl; [auto|]. apply IH; [eapply core_trans; [exact C|apply core_nll]|now apply pe_nll]. Qed.
Lemma play_coh {A} (p : prog A) : forall w w', core_eq w w' -> coh w' -> core_eq w (fst (play nll p w')) /\ coh (fst (play nll p w')).
Proof. induction p as [a|x k IH]; intros w w' C K; simpl; [auto|]. destruct (pure_nll w x w' C K) as (w2 & E2 & C2 & K2). rewrite E2. simpl. apply IH; auto. Qed.
Lemma min_values E x g names m w q : q = play nll (minimize E x g (mk_mstate (pars_new names) m)) w -> length (p_values (ms_p (fst (snd q)))) = length names.
Proof.
  intros ->. destruct (play nll _ w) as (w1 & st & r) eqn:P. apply minimize_keep in P as (_ & _ & _ & _ & L & _). simpl in *. apply L. apply repeat_length.
Qed.

(** histories of fits as histories of template calls *)
Lemma fstep_ops inv o s : exists l', fs_w (fst (fstep inv o s)) = run inv l' (fs_w s) /\
  (fuses o = false -> Forall (fun o => uses o = false) l') /\ (fadds o = false -> Forall (fun o => adds o = false) l') /\
  (fadds_template o = false -> Forall (fun o => adds_template o = false) l').
Proof.
  destruct (is_fit o) eqn:Fo.
  - assert (X : frame inv (fun o => adds o = false) s (fst (fstep inv o s))).
    { assert (R : frame inv (fun o => adds o = false) s s) by apply frame_refl'.
      destruct o; simpl; try discriminate; rewrite fbind_tt.
      - apply (do_fit_frame inv _ s); [reflexivity|reflexivity|exact R].
      - apply (profile_frame inv _ s); [reflexivity|exact R].
      - apply (significance_frame inv _ s); [reflexivity|reflexivity|exact R]. }
    destruct X as (_ & _ & _ & l' & A & E). exists l'. split; [exact E|]. split; [destruct o; discriminate|]. split; [auto|]. intros _. eapply Forall_impl; [|exact A]. intros o'. destruct o'; simpl; auto.
  - destruct o; try discriminate.
    + exists [o]. split; [|simpl; auto]. simpl. unfold on_world. unfold run. simpl. destruct (step inv o (fs_w s)). reflexivity.
    + exists []. simpl. auto.
    + exists []. simpl. unfold fix_nui_params, on_fitter. destruct (nth_error _ _); simpl; auto.
    + exists []. simpl. unfold set_parameter_fixed, on_fitter. destruct (nth_error _ _); simpl; auto.
    + exists []. simpl. unfold set_parameter_bounds, on_fitter. destruct (nth_error _ _); simpl; auto.
Qed.
Lemma frun_ops_uses inv l : Forall (fun o => fuses o = false) l -> forall s, exists l', fs_w (frun inv l s) = run inv l' (fs_w s) /\ Forall (fun o => uses o = false) l'.
Proof.
  induction 1 as [|o l O _ IH]; intros s; [exists []; split; [reflexivity|constructor]|]. destruct (fstep_ops inv o s) as (l1 & E1 & U1 & _).
  destruct (IH (fst (fstep inv o s))) as (l2 & E2 & U2). exists (l1 ++ l2). split; [|apply Forall_app; auto]. rewrite run_app, <- E1. exact E2.
Qed.
Lemma frun_ops_adds inv l : Forall (fun o => fadds o = false) l -> forall s, exists l', fs_w (frun inv l s) = run inv l' (fs_w s) /\ Forall (fun o => adds o = false) l'.
Proof.
  induction 1 as [|o l O _ IH]; intros s; [exists []; split; [reflexivity|constructor]|]. destruct (fstep_ops inv o s) as (l1 & E1 & _ & U1 & _).
  destruct (IH (fst (fstep inv o s))) as (l2 & E2 & U2). exists (l1 ++ l2). split; [|apply Forall_app; auto]. rewrite run_app, <- E1. exact E2.
Qed.
Lemma frun_ops_adds_t inv l : Forall (fun o => fadds_template o = false) l -> forall s, exists l', fs_w (frun inv l s) = run inv l' (fs_w s) /\ Forall (fun o => adds_template o = false) l'.
Proof.
  induction 1 as [|o l O _ IH]; intros s; [exists []; split; [reflexivity|constructor]|]. destruct (fstep_ops inv o s) as (l1 & E1 & _ & _ & U1).
  destruct (IH (fst (fstep inv o s))) as (l2 & E2 & U2). exists (l1 ++ l2). split; [|apply Forall_app; auto]. rewrite run_app, <- E1. exact E2.
Qed.
Lemma ftemplates_world inv l : ftemplates_then_used l -> exists l', templates_then_used l' /\ fs_w (freached inv l) = reached inv l'.
Proof.
  intros (l1 & l2 & -> & U & A). unfold freached. rewrite frun_app. destruct (frun_ops_uses inv l1 U fstate_init) as (o1 & E1 & U1).
  destruct (frun_ops_adds_t inv l2 A (frun inv l1 fstate_init)) as (o2 & E2 & A2). exists (o1 ++ o2). split; [exists o1, o2; auto|].
  unfold reached. rewrite run_app. simpl in E1. rewrite <- E1. exact E2.
Qed.
Lemma fbuilt_world inv l : fbuilt_then_used l -> exists l', built_then_used l' /\ fs_w (freached inv l) = reached inv l'.
Proof.
  intros (l1 & l2 & -> & U & A). unfold freached. rewrite frun_app. destruct (frun_ops_uses inv l1 U fstate_init) as (o1 & E1 & U1).
  destruct (frun_ops_adds inv l2 A (frun inv l1 fstate_init)) as (o2 & E2 & A2). exists (o1 ++ o2). split; [exists o1, o2; auto|].
  unfold reached. rewrite run_app. simpl in E1. rewrite <- E1. exact E2.
Qed.
