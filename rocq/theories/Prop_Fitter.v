(** Properties C46, C47: what a TemplateFitter hands to its minimizer. *)
From Coq Require Import Reals String ZArith Bool Arith List Lra Lia.
From Verif Require Import Model_Num Model_Hist Model_Utility Model_Template Model_World Model_Ops Model_Minimizer Model_Fitter
  Spec_Matrix Spec_Min Spec_World Spec_Fit Proof_HistHeap Proof_Eval Proof_Route Proof_Min Proof_Fit Proof_Fit2 Proof_Fit3 Proof_Names Prop_World Prop_Minimizer.
Import ListNotations.
Local Open Scope R_scope.

Lemma nuisance_ids inv l k : inv_spec inv -> let w := fs_w (freached inv l) in
  (exists j, In j (nui_ids w) /\ resolves (param_names w) j k) <-> is_nuisance w k.
Proof.
  intros I w. destruct (names_length inv l I) as (A & B). fold w in A, B. rewrite (nui_ids_iff w k A). unfold is_nuisance. rewrite B. tauto.
Qed.
Lemma nuisance_dec w k : is_nuisance w k \/ ~ is_nuisance w k. Proof. unfold is_nuisance. lia. Qed.
Lemma calls_limits inv l0 id l lim n limits : inv_spec inv -> let w := fs_w (freached inv (l0 ++ FNew id :: l)) in
  consistent_ids (param_names w) l (num_fitters l0) ->
  length limits = length (param_names w) ->
  (forall k b, (k < length (param_names w))%nat -> nth_error limits k = Some b <-> bounds_by (param_names w) (the_calls inv l0 id l n lim) k b) ->
  limits_as_requested w l (num_fitters l0) lim limits.
Proof.
  intros I w CI L B. destruct (names_length inv (l0 ++ FNew id :: l) I) as (_ & N). fold w in N.
  pose proof (nuisance_ids inv (l0 ++ FNew id :: l)) as NI. split; [congruence|]. split.
  - intros k b LB. assert (K : (k < length (param_names w))%nat) by (destruct LB as (? & ? & ? & _ & R & _); eapply resolves_lt; eauto).
    apply B; [exact K|]. apply requests_last; assumption.
  - intros k K NB. rewrite <- N in K. destruct (requests_none (param_names w) l (num_fitters l0) (nui_ids w) n lim k NB) as (R1 & R2). split.
    + intros b -> U. apply B; [exact K|]. apply R1; [reflexivity|]. apply NI; auto.
    + intros H. apply B; [exact K|]. apply R2. destruct H as [H|H]; [auto|right]. intros X. apply H. apply (NI k I). exact X.
Qed.

Lemma calls_fixed inv l0 id l lim n k : inv_spec inv -> let w := fs_w (freached inv (l0 ++ FNew id :: l)) in
  fixed_by (param_names w) (the_calls inv l0 id l n lim) k <-> requested_fixed w l (num_fitters l0) n k.
Proof.
  intros I w. pose proof (nuisance_ids inv (l0 ++ FNew id :: l) k I) as NI. etransitivity; [apply requests_fixed|]. unfold requested_fixed.
  split; (intros [(A & B)|B]; [left; split; [exact A|apply NI; exact B]|right; exact B]).
Qed.

(** ** C46.  A fitter created by TemplateFitter(templates, id) after the calls l0 and used after the calls l
    (of any objects).  [rest] is what do_fit does with the result of Minuit: it does not depend on Minuit
    ([mi]), so args are the arguments Minuit gets.  Two restrictions: bounds of a parameter are always set with
    the same identifier, and the minimizer is iminuit (see the refutations below). *)
Theorem C46_requests_partial : forall inv l0 id l x u g n lim, inv_spec inv -> lower id = "iminuit"%string ->
  let s := freached inv (l0 ++ FNew id :: l) in let i := num_fitters l0 in let w := fs_w s in
  all_resolve (param_names w) l i -> consistent_ids (param_names w) l i -> nll_x0 w = Ok x ->
  exists args rest, (forall mi sl he iv, do_fit (mk_ext mi sl he iv) i u g n lim s = rest (play nll (mi args) w)) /\
    ma_start args = x /\ ma_name args = param_names w /\ ma_errordef args = 1 / 2 /\
    length (ma_fix args) = num_params w /\
    (forall k, (k < num_params w)%nat -> nth_error (ma_fix args) k = Some true <-> requested_fixed w l i n k) /\
    limits_as_requested w l i lim (ma_limit args).
Proof.
  intros inv l0 id l x u g n lim I ID s i w AR CI Hx.
  destruct (names_length inv (l0 ++ FNew id :: l) I) as (_ & N). fold s w in N.
  destruct (starts_iminuit inv l0 id l x I AR Hx u g n lim ID) as (args & rest & A1 & A2 & A3 & A4 & A5 & A6 & A7 & A8 & A9).
  exists args, rest. split; [exact A1|]. split; [exact A2|]. split; [exact A3|]. split; [exact A4|]. rewrite <- N. split; [exact A6|]. split.
  - intros k K. rewrite A8 by exact K. apply calls_fixed. exact I.
  - apply (calls_limits inv l0 id l lim n); auto.
Qed.
Print Assumptions C46_requests_partial.

(** The same for the scipy minimizer, if at most one parameter is to be fixed: a point satisfies the
    constraints handed to scipy iff this parameter keeps its start value. *)
Theorem C46_scipy_requests_partial : forall inv l0 id l a u g n lim, inv_spec inv -> lower id = "scipy"%string ->
  let s := freached inv (l0 ++ FNew id :: l) in let i := num_fitters l0 in let w := fs_w s in
  all_resolve (param_names w) l i -> consistent_ids (param_names w) l i -> nll_x0 w = Ok (map Fin a) ->
  (forall k k', requested_fixed w l i n k -> requested_fixed w l i n k' -> k = k') ->
  exists limits cs rest, (forall mi sl he iv, do_fit (mk_ext mi sl he iv) i u g n lim s = rest he iv (play nll (sl (map Fin a) limits cs) w)) /\
    (forall b, length b = num_params w -> satisfied cs (map Fin b) <-> forall k, requested_fixed w l i n k -> nth_error b k = nth_error a k) /\
    limits_as_requested w l i lim limits.
Proof.
  intros inv l0 id l a u g n lim I ID s i w AR CI Hx ONE.
  destruct (names_length inv (l0 ++ FNew id :: l) I) as (_ & N). fold s w in N.
  destruct (starts_scipy inv l0 id l (map Fin a) I AR Hx u g n lim ID) as (limits & fl & rest & A1 & A2 & A3 & A4 & _).
  exists limits, (create_constraints (map Fin a) fl), rest. split; [exact A1|]. split.
  - intros b LB.
    assert (LA : length a = num_params w).
    { destruct (freached_world inv (l0 ++ FNew id :: l)) as (l' & EW). fold s w in EW. destruct (C30_aligned inv l' I) as (_ & _ & _ & _ & X). rewrite <- EW in X.
      destruct (X _ Hx) as (L & _). now rewrite map_length in L. }
    assert (FX : forall k, In k fl <-> requested_fixed w l i n k).
    { intros k. rewrite A3. apply calls_fixed. exact I. }
    assert (LT : forall k, In k fl -> (k < length a)%nat).
    { intros k K. apply FX in K as [(_ & K)|(p & _ & R)]; [unfold is_nuisance in K; lia|]. apply resolves_lt in R. lia. }
    destruct fl as [|k0 f0] using rev_ind.
    + split; [|constructor]. intros _ k K. apply FX in K. destruct K.
    + clear IHf0. rewrite create_constraints_last, satisfied_repeat.
      assert (K0 : In k0 (f0 ++ [k0])) by (apply in_or_app; right; left; reflexivity).
      rewrite (late_zero (map Fin a) (map Fin b) k0 a b) by (auto; lia). rewrite !nth_error_map. pose proof (LT k0 K0) as L0.
      assert (IJ : option_map Fin (nth_error b k0) = option_map Fin (nth_error a k0) <-> nth_error b k0 = nth_error a k0).
      { destruct (nth_error b k0), (nth_error a k0); simpl; split; congruence. }
      rewrite IJ. split.
      * intros H k K. rewrite (ONE k k0 K) by (apply FX; exact K0). exact H.
      * intros H. apply H. apply FX. exact K0.
  - apply (calls_limits inv l0 id l lim n); auto.
Qed.
Print Assumptions C46_scipy_requests_partial.

(** An identifier that denotes no parameter, or an unknown minimizer, makes do_fit raise before a
    minimization is started; the templates are unchanged. *)
Lemma fix_all_err names ids : forall m, (exists p, In p ids /\ forall k, ~ resolves names p k) -> fix_all names m ids = Err ValueError.
Proof.
  unfold fix_all. induction ids as [|j ids IH] using rev_ind; intros m (p & P & R); [destruct P|]. rewrite fold_left_app. simpl.
  destruct (fold_left _ ids (Ok m)) as [m1|e] eqn:E; simpl.
  - apply in_app_or in P as [P|[<-|[]]].
    + exfalso. rewrite (IH m) in E by eauto. discriminate.
    + apply C15_rejects in R. unfold set_param_fixed. rewrite R. reflexivity.
  - clear P R IH. f_equal. revert m e E. induction ids as [|j' ids IH] using rev_ind; intros m e E; [discriminate|]. rewrite fold_left_app in E. simpl in E.
    destruct (fold_left _ ids (Ok m)) as [m1|e'] eqn:E'; simpl in E; [|injection E as <-; eapply IH; exact E'].
    unfold set_param_fixed in E. destruct (id_to_index names j') eqn:J; simpl in E; [discriminate|]. injection E as <-. now apply resolve_err in J.
Qed.
Theorem C46_unknown_parameter : forall inv l0 id l p E u g n lim, inv_spec inv -> lower id = "iminuit"%string \/ lower id = "scipy"%string ->
  let s := freached inv (l0 ++ FNew id :: l) in let i := num_fitters l0 in let w := fs_w s in
  In (FFixed i p) l -> (forall k, ~ resolves (param_names w) p k) ->
  snd (do_fit E i u g n lim s) = Err ValueError /\ fs_w (fst (do_fit E i u g n lim s)) = w.
Proof.
  intros inv l0 id l p E u g n lim I ID s i w P R.
  destruct (fitter_created inv l0 id l) as (f & F1 & F2 & F3 & _). fold s i in F1. fold i in F3.
  destruct (names_length inv (l0 ++ FNew id :: l) I) as (N & _). fold s w in N.
  assert (K : exists k, minimizer_class (ft_id f) = Ok k). { rewrite F2. unfold minimizer_class. destruct ID as [-> | ->]; simpl; eauto. }
  destruct K as (k & K).
  assert (Q : exists s', do_fit E i u g n lim s = (s', Err ValueError) /\ fs_w s' = w); [|destruct Q as (s' & -> & <-); auto].
  unfold do_fit. unfold fbind at 1, get_fitter. rewrite F1. unfold fbind at 1, fget at 1. unfold fbind at 1, fget at 1. unfold fbind at 1, new_minimizer at 1. rewrite K. fold w.
  pose proof (fitcalls_nui s k N n) as FN. fold w in FN. unfold fbind at 1, flift at 1. rewrite FN.
  assert (B : exists m', match lim with Some b => bound_all (param_names w) (calls (param_names w) (min_new k (param_names w) (length (fs_pars s))) (if n then map CFix (nui_ids w) else [])) (map (fun j => (j, b)) (nui_ids w))
     | None => Ok (calls (param_names w) (min_new k (param_names w) (length (fs_pars s))) (if n then map CFix (nui_ids w) else [])) end = Ok m').
  { destruct lim as [b|]; [|eauto]. rewrite bound_all_calls; [eauto|]. intros ib H. apply in_map_iff in H as (j & <- & J). apply nui_ids_resolve; auto. }
  destruct B as (m' & B). unfold fbind at 1, flift at 1. rewrite B.
  unfold fbind at 1, flift at 1. rewrite fix_all_err; [simpl; eauto|]. exists p. split; [rewrite F3; apply in_fixed_of; exact P|exact R].
Qed.
Print Assumptions C46_unknown_parameter.

(** ** A concrete setup: one channel with two bins, one process; parameters s_yield, A_s_bin_0, A_s_bin_1 *)
Lemma frun_ops inv l : forall s, frun inv (map FOp l) s = mk_fstate (run inv l (fs_w s)) (fs_pars s) (fs_fitters s).
Proof.
  induction l as [|o l IH]; intros s; [destruct s; reflexivity|]. simpl map. change (frun inv (FOp o :: map FOp l) s) with (frun inv (map FOp l) (fst (fstep inv (FOp o) s))).
  rewrite IH, run_cons. cbn [fstep]. unfold on_world. destruct (step inv o (fs_w s)). reflexivity.
Qed.
Definition is_config (o : fop) : bool := match o with FNew _ | FFixNui _ | FFixed _ _ | FBounds _ _ _ => true | _ => false end.
Lemma config_world inv l : Forall (fun o => is_config o = true) l -> forall s, fs_w (frun inv l s) = fs_w s /\ fs_pars (frun inv l s) = fs_pars s.
Proof.
  induction 1 as [|o l O _ IH]; intros s; [auto|]. change (frun inv (o :: l) s) with (frun inv l (fst (fstep inv o s))).
  destruct (IH (fst (fstep inv o s))) as (-> & ->). destruct o; try discriminate; simpl; unfold fix_nui_params, set_parameter_fixed, set_parameter_bounds, on_fitter; auto; destruct (nth_error _ _); auto.
Qed.
Definition ex_fit : list op := [ex_binned 1 3 1 2; ex_binned 2 2 1 2; OTemplate K1 "t" 0; ODefChannel "A" [2%nat] [(0, 2)]; ODefProcess "s";
   OAddTemplate "A" "s" 0 1; OAddData [("A", 1%nat)]]%string.
Lemma ex_fit_state inv : exists w y, reached inv ex_fit = w /\ param_names w = ["s_yield"; "A_s_bin_0"; "A_s_bin_1"]%string /\ w_procs w = ["s"%string] /\ num_params w = 3%nat /\
  nll_x0 w = Ok (map Fin [y; 0; 0]).
Proof.
  eexists. eexists. split; [reflexivity|]. unfold reached, ex_fit, ex_binned, world_init. do 7 run_step. cbv zeta. repeat split.
Qed.
Lemma ex_fit_config inv l : Forall (fun o => is_config o = true) l -> exists y,
  let w := fs_w (freached inv (map FOp ex_fit ++ l)) in
  param_names w = ["s_yield"; "A_s_bin_0"; "A_s_bin_1"]%string /\ w_procs w = ["s"%string] /\ num_params w = 3%nat /\ nll_x0 w = Ok (map Fin [y; 0; 0]).
Proof.
  intros C. destruct (ex_fit_state inv) as (w & y & E & H). exists y. unfold freached. rewrite frun_app, frun_ops. cbv zeta.
  destruct (config_world inv l C (mk_fstate (run inv ex_fit (fs_w fstate_init)) (fs_pars fstate_init) (fs_fitters fstate_init))) as (-> & _). cbn [fs_w].
  unfold reached in E. simpl fs_w. rewrite E. exact H.
Qed.

Definition three (inv : mat -> res mat) (l0 l : list fop) : Prop := exists y, let w := fs_w (freached inv (l0 ++ l)) in
  param_names w = ["s_yield"; "A_s_bin_0"; "A_s_bin_1"]%string /\ w_procs w = ["s"%string] /\ num_params w = 3%nat /\ nll_x0 w = Ok (map Fin [y; 0; 0]).
(** C46 is false if the same parameter is addressed once by name and once by index: the bounds are applied in
    the order of the first use of each identifier, so a later set_parameter_bounds call can be without effect. *)
Lemma mixed_gen : forall inv l0 b1 b2 b3 u g n lim, inv_spec inv -> num_fitters l0 = 0%nat ->
  let l := [FBounds 0 (PStr "s_yield") b1; FBounds 0 (PInt 0) b2; FBounds 0 (PStr "s_yield") b3] in
  let s := freached inv (l0 ++ FNew "iminuit" :: l) in
  three inv l0 (FNew "iminuit" :: l) ->
  last_bounds (param_names (fs_w s)) l 0 0 b3 /\
  exists args rest, (forall mi sl he iv, do_fit (mk_ext mi sl he iv) 0 u g n lim s = rest (play nll (mi args) (fs_w s))) /\
    nth_error (ma_limit args) 0 = Some b2.
Proof.
  intros inv l0 b1 b2 b3 u g n lim I NF l s (y & N & P & K & X). fold s in N, P, K, X.
  assert (R0 : resolves (param_names (fs_w s)) (PStr "s_yield") 0). { rewrite N. split; [reflexivity|]. intros j J. lia. }
  assert (R1 : resolves (param_names (fs_w s)) (PInt 0) 0). { rewrite N. split; [reflexivity|simpl; lia]. }
  split. { exists [FBounds 0 (PStr "s_yield") b1; FBounds 0 (PInt 0) b2], (PStr "s_yield"), []. split; [reflexivity|]. split; [exact R0|]. intros ? ? []. }
  destruct (starts_iminuit inv l0 "iminuit" l (map Fin [y; 0; 0]) I) with (u := u) (g := g) (n := n) (lim := lim) as (args & rest & A1 & _ & _ & _ & _ & _ & _ & _ & A9).
  - rewrite NF. fold s. split.
    + intros p H. simpl in H. repeat destruct H as [H|H]; try discriminate; destruct H.
    + intros p b H. simpl in H. repeat destruct H as [H|H]; try (injection H as <- <-; eauto); destruct H.
  - exact X.
  - reflexivity.
  - rewrite NF in A1. fold s in A1, A9. exists args, rest. split; [exact A1|]. apply A9; [rewrite N; simpl; lia|].
    assert (D : forall A : list mcall, bounds_by (param_names (fs_w s)) ((A ++ [CBounds (PStr "s_yield") b3]) ++ [CBounds (PInt 0) b2]) 0 b2).
    { intros A. apply bounds_by_snoc. left. split; [exact R1|reflexivity]. }
    unfold the_calls, fit_calls. fold s. rewrite NF. rewrite !app_assoc. change (map cbounds (dict_of [] (bounds_calls 0 l))) with ([CBounds (PStr "s_yield") b3] ++ [CBounds (PInt 0) b2]).
    rewrite (app_assoc _ [CBounds (PStr "s_yield") b3]). apply D.
Qed.
Theorem C46_mixed_identifiers_refuted : forall inv b1 b2 b3 u g n lim, inv_spec inv ->
  let l := [FBounds 0 (PStr "s_yield") b1; FBounds 0 (PInt 0) b2; FBounds 0 (PStr "s_yield") b3] in
  let s := freached inv (map FOp ex_fit ++ FNew "iminuit" :: l) in
  last_bounds (param_names (fs_w s)) l 0 0 b3 /\
  exists args rest, (forall mi sl he iv, do_fit (mk_ext mi sl he iv) 0 u g n lim s = rest (play nll (mi args) (fs_w s))) /\
    nth_error (ma_limit args) 0 = Some b2.
Proof.
  intros inv b1 b2 b3 u g n lim I l s. apply mixed_gen; [exact I|reflexivity|]. apply (ex_fit_config inv (FNew "iminuit" :: l)). repeat constructor.
Qed.
Print Assumptions C46_mixed_identifiers_refuted.

(** C46 is false for the scipy minimizer if more than one parameter is to be fixed: with fix_nui_params=True
    only the last nuisance parameter is constrained. *)
Lemma scipy_gen : forall inv l0 v u g lim, inv_spec inv -> num_fitters l0 = 0%nat -> three inv l0 [FNew "scipy"] ->
  let s := freached inv (l0 ++ [FNew "scipy"]) in let w := fs_w s in
  is_nuisance w 1 /\ is_nuisance w 2 /\
  exists y limits cs rest, nll_x0 w = Ok (map Fin [y; 0; 0]) /\
    (forall mi sl he iv, do_fit (mk_ext mi sl he iv) 0 u g true lim s = rest he iv (play nll (sl (map Fin [y; 0; 0]) limits cs) w)) /\
    satisfied cs (map Fin [y; v; 0]).
Proof.
  intros inv l0 v u g lim I NF (y & N & P & K & X) s w. fold s w in N, P, K, X.
  unfold is_nuisance. rewrite P, K. cbn [length]. split; [lia|]. split; [lia|].
  destruct (starts_scipy inv l0 "scipy" [] (map Fin [y; 0; 0]) I) with (u := u) (g := g) (n := true) (lim := lim) as (limits & fl & rest & A1 & _ & _ & _ & A5).
  - split; intros ? ; intros; contradiction.
  - exact X.
  - reflexivity.
  - exists y, limits, (create_constraints (map Fin [y; 0; 0]) fl), rest. split; [exact X|]. split; [fold s w in A1; rewrite NF in A1; exact A1|].
    assert (FL : fl = [1%nat; 2%nat]).
    { fold s w in A5. unfold the_calls, fit_calls in A5. fold s w in A5. unfold nui_ids in A5. rewrite P in A5.
      destruct (names_length inv (l0 ++ [FNew "scipy"]) I) as (NL & _). fold s w in NL. rewrite N, P in NL. cbn [length] in NL.
      replace (mct_num_nui w) with 2%nat in A5 by lia. rewrite N in A5. destruct lim; cbn in A5; injection A5 as ->; reflexivity. }
    rewrite FL. change [1%nat; 2%nat] with ([1%nat] ++ [2%nat]). rewrite create_constraints_last, satisfied_repeat.
    apply (late_zero _ _ 2 [y; 0; 0] [y; v; 0]); auto.
Qed.
Theorem C46_scipy_refuted : forall inv v u g lim, inv_spec inv ->
  let s := freached inv (map FOp ex_fit ++ [FNew "scipy"]) in let w := fs_w s in
  is_nuisance w 1 /\ is_nuisance w 2 /\
  exists y limits cs rest, nll_x0 w = Ok (map Fin [y; 0; 0]) /\
    (forall mi sl he iv, do_fit (mk_ext mi sl he iv) 0 u g true lim s = rest he iv (play nll (sl (map Fin [y; 0; 0]) limits cs) w)) /\
    satisfied cs (map Fin [y; v; 0]).
Proof.
  intros inv v u g lim I s w. apply scipy_gen; [exact I|reflexivity|]. apply (ex_fit_config inv [FNew "scipy"]). repeat constructor.
Qed.
Print Assumptions C46_scipy_refuted.

(** ** C47 is false: the flag set by TemplateFitter.fix_nui_params() is never read.  After any calls
    including fix_nui_params(), do_fit(fix_nui_params=False) leaves every parameter free that was not named in
    set_parameter_fixed, in particular the nuisance parameters. *)
Theorem C47_flag_ignored_refuted : forall inv l0 id l x u g lim, inv_spec inv -> lower id = "iminuit"%string ->
  let s := freached inv (l0 ++ FNew id :: l) in let i := num_fitters l0 in let w := fs_w s in
  In (FFixNui i) l -> (forall p, ~ In (FFixed i p) l) -> all_resolve (param_names w) l i -> nll_x0 w = Ok x ->
  exists args rest, (forall mi sl he iv, do_fit (mk_ext mi sl he iv) i u g false lim s = rest (play nll (mi args) w)) /\
    ma_fix args = repeat false (num_params w).
Proof.
  intros inv l0 id l x u g lim I ID s i w _ NF AR Hx.
  destruct (names_length inv (l0 ++ FNew id :: l) I) as (_ & N). fold s w in N.
  destruct (starts_iminuit inv l0 id l x I AR Hx u g false lim ID) as (args & rest & A1 & _ & _ & _ & _ & A6 & _ & A8 & _).
  exists args, rest. split; [exact A1|]. fold s w in A6, A8. rewrite N in A6, A8. rewrite <- A6.
  assert (G : forall fl : list bool, (forall k, (k < length fl)%nat -> nth_error fl k <> Some true) -> fl = repeat false (length fl)).
  { clear. induction fl as [|b fl IH]; intros H; [reflexivity|]. simpl. f_equal.
    - specialize (H 0%nat ltac:(simpl; lia)). simpl in H. destruct b; congruence.
    - apply IH. intros k K. apply (H (S k)). simpl. lia. }
  apply G. intros k K H. apply A8 in H; [|lia]. apply calls_fixed in H; [|exact I]. destruct H as [(H & _)|(p & P & _)]; [discriminate|exact (NF p P)].
Qed.
Print Assumptions C47_flag_ignored_refuted.
Example ex_C47 : forall inv, let l := [FFixNui 0] in let w := fs_w (freached inv (map FOp ex_fit ++ FNew "iminuit" :: l)) in
  num_fitters (map FOp ex_fit) = 0%nat /\ all_resolve (param_names w) l 0 /\ (exists x, nll_x0 w = Ok x) /\ is_nuisance w 1 /\ is_nuisance w 2.
Proof.
  intros inv l w. destruct (ex_fit_config inv (FNew "iminuit" :: l)) as (y & N & P & K & X); [repeat constructor|]. fold w in N, P, K, X.
  split; [reflexivity|]. split; [split; intros ?; intros H; simpl in H|].
  - destruct H as [H|[]]; discriminate.
  - intros H'. simpl in H'. destruct H' as [H'|[]]; discriminate.
  - split; [eauto|]. unfold is_nuisance. rewrite P, K. simpl. lia.
Qed.
(** C46's hypotheses: the same, with all kinds of configuration calls *)
Example ex_C46 : forall inv, let l := [FFixed 0 (PInt 1); FBounds 0 (PStr "s_yield") (Some 0, None); FFixed 0 (PStr "s_yield"); FBounds 0 (PInt 2) (None, None); FBounds 0 (PInt 2) (Some 1, Some 2)] in
  let w := fs_w (freached inv (map FOp ex_fit ++ FNew "IMinuit" :: l)) in
  lower "IMinuit" = "iminuit"%string /\ all_resolve (param_names w) l 0 /\ consistent_ids (param_names w) l 0 /\ (exists x, nll_x0 w = Ok x) /\
  last_bounds (param_names w) l 0 2 (Some 1, Some 2) /\ no_bounds (param_names w) l 0 1 /\
  requested_fixed w l 0 false 0 /\ requested_fixed w l 0 false 1 /\ ~ requested_fixed w l 0 false 2 /\ requested_fixed w l 0 true 2.
Proof.
  intros inv l w. destruct (ex_fit_config inv (FNew "IMinuit" :: l)) as (y & N & P & K & X); [repeat constructor|]. fold w in N, P, K, X. rewrite N.
  assert (RS : forall k, resolves ["s_yield"; "A_s_bin_0"; "A_s_bin_1"]%string (PStr "s_yield") k <-> k = 0%nat).
  { intros k. split; [|intros ->; split; [reflexivity|intros; lia]]. intros (A & B). destruct k as [|[|[|k]]]; simpl in A; try discriminate; auto. destruct k; discriminate. }
  assert (R1 : forall k z, resolves ["s_yield"; "A_s_bin_0"; "A_s_bin_1"]%string (PInt (Z.of_nat z)) k <-> k = z /\ (z < 3)%nat).
  { intros k z. simpl. split; [intros (A & B); apply Nat2Z.inj in A; lia|intros (-> & A); auto]. }
  pose proof (fun k => R1 k 1%nat) as Q1. pose proof (fun k => R1 k 2%nat) as Q2. change (Z.of_nat 1) with 1%Z in Q1. change (Z.of_nat 2) with 2%Z in Q2. clear R1.
  assert (FX : forall p, In (FFixed 0 p) l -> p = PInt 1 \/ p = PStr "s_yield") by (intros p H; simpl in H; repeat destruct H as [H|H]; try discriminate; try (injection H as <-; auto); destruct H).
  assert (BX : forall p b, In (FBounds 0 p b) l -> p = PStr "s_yield" \/ p = PInt 2) by (intros p b H; simpl in H; repeat destruct H as [H|H]; try discriminate; try (injection H as <- <-; auto); destruct H).
  split; [reflexivity|]. split; [split|split; [|split; [|split; [|split; [|split; [|split; [|split]]]]]]].
  - intros p H. apply FX in H as [-> | ->]; [exists 1%nat; apply Q1; lia|exists 0%nat; now apply RS].
  - intros p b H. apply BX in H as [-> | ->]; [exists 0%nat; now apply RS|exists 2%nat; apply Q2; lia].
  - intros p b p' b' k H H' R R'. apply BX in H, H'. destruct H as [-> | ->], H' as [-> | ->]; try reflexivity; exfalso.
    + apply RS in R. apply Q2 in R'. lia.
    + apply RS in R'. apply Q2 in R. lia.
  - eauto.
  - exists [FFixed 0 (PInt 1); FBounds 0 (PStr "s_yield") (Some 0, None); FFixed 0 (PStr "s_yield"); FBounds 0 (PInt 2) (None, None)], (PInt 2), []. split; [reflexivity|]. split; [apply Q2; lia|intros ? ? []].
  - intros p b H R. apply BX in H as [-> | ->]; [apply RS in R; lia|apply Q2 in R; lia].
  - right. exists (PStr "s_yield"). rewrite N. split; [simpl; auto|now apply RS].
  - right. exists (PInt 1). rewrite N. split; [simpl; auto|apply Q1; lia].
  - intros [(H & _)|(p & H & R)]; [discriminate|]. rewrite N in R. apply FX in H as [-> | ->]; [apply Q1 in R; lia|apply RS in R; lia].
  - left. split; [reflexivity|]. unfold is_nuisance. rewrite P, K. simpl. lia.
Qed.
