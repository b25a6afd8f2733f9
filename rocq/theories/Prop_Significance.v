(** Properties C54, C55: TemplateFitter.get_significance. *)
From Coq Require Import Reals String ZArith Bool Arith List Lra Lia.
From Verif Require Import Model_Num Model_Hist Model_Utility Model_Template Model_World Model_Ops Model_Minimizer Model_Fitter
  Spec_Matrix Spec_Min Spec_World Spec_Fit Spec_Stale Proof_HistHeap Proof_Eval Proof_Route Proof_Monad Proof_World Proof_Names Proof_Yield Proof_Update Proof_Min Proof_Fit Proof_Fit2 Proof_Fit3 Proof_Fit4 Proof_Pool Proof_Profile Proof_Sig
  Prop_World Prop_Params Prop_Minimizer Prop_Fitter Prop_Profile.
Import ListNotations.
Local Open Scope R_scope.

(** ** C54.  E: arbitrary optimizers; any state. *)
(** The value: y is the yield of the process in the fit with the configuration of the fitter.  If y < 0 the
    significance is 0.  Otherwise the yield of the process is set to zero and the fit repeated with the same
    configuration and the yield fixed; the significance is sqrt(2 (m2 - m1)) for the minima m1, m2. *)
Theorem C54_value : forall E i p fn s s' z, get_significance E i p fn s = (s', Ok z) ->
  let w := fs_w s in
  exists f kind x p1 r1 k y, nth_error (fs_fitters s) i = Some f /\ minimizer_class (ft_id f) = Ok kind /\ nll_x0 w = Ok x /\
    fit_run E kind w (requests w f fn) x p1 r1 /\ resolves (param_names w) (PStr (p ++ "_yield")) k /\ nth_error (p_values p1) k = Some y /\
    ((xltb y (Fin 0) = true /\ z = Fin 0) \/
     (xltb y (Fin 0) = false /\ exists w1 w2 x2 p2 r2, same_objects w w1 /\ set_yield p 0 w1 = (w2, Ok tt) /\ nll_x0 w2 = Ok x2 /\
        fit_run E kind w2 (requests w f fn ++ [CFix (PStr (p ++ "_yield"))]) x2 p2 r2 /\
        forall m1 m2, r_fcn_min r1 = Fin m1 -> r_fcn_min r2 = Fin m2 -> 
          (m1 <= m2 -> z = Fin (sqrt (2 * (m2 - m1)))) /\ (m2 < m1 -> z = NaN))).
Proof.
  intros E i p fn s s' z H w. destruct (sig_ok _ _ _ _ _ _ _ H) as (f & kind & x & p1 & r1 & k & y & w1 & H1 & H2 & H3 & (m & H4) & H5 & H6 & H7). fold w in H3, H4, H5, H7.
  exists f, kind, x, p1, r1, k, y. split; [exact H1|]. split; [exact H2|]. split; [exact H3|]. split; [do 3 eexists; exact H4|]. split; [exact H5|]. split; [exact H6|].
  destruct H7 as [(A & B & _)|(A & w2 & x2 & p2 & r2 & B & C & (m' & D) & Z)]; [auto|right]. split; [exact A|].
  pose proof (play_same (minimize E x true (mk_mstate (pars_new (param_names w)) (calls (param_names w) (min_new kind (param_names w) (length (fs_pars s))) (requests w f fn)))) w) as S1. rewrite H4 in S1. cbn [fst] in S1.
  exists w1, w2, x2, p2, r2. split; [exact S1|]. split; [exact B|]. split; [exact C|]. split.
  - exists (S (length (fs_pars s))), (fs_w s'), m'. pose proof (op_set_yield p 0 w1) as O. rewrite B in O. cbn [fst] in O. rewrite (op_names _ _ O). destruct (same_names _ _ S1) as (-> & _). exact D.
  - intros m1 m2 M1 M2. rewrite Z, M1, M2. cbn [xsub xmul xadd xopp xsqrt]. unfold Rltb. split; intros L; destruct (Rlt_dec _ 0) as [X|X]; try (exfalso; lra); [f_equal; f_equal; ring|reflexivity].
Qed.
Print Assumptions C54_value.

Lemma minuit_run E names cl a x w w' p m r : 
  play nll (minimize E x true (mk_mstate (pars_new names) (calls names (min_new IMinuit names a) cl))) w = (w', (mk_mstate p m, Ok r)) ->
  exists args o, snd (play nll (ex_minuit E args) w) = Ok o /\ r_fcn_min r = mo_fval o /\ ma_start args = x /\ ma_name args = names /\ ma_errordef args = 1 / 2 /\
    length (ma_fix args) = length names /\ length (ma_limit args) = length names /\
    (forall k, (k < length names)%nat -> nth_error (ma_fix args) k = Some true <-> fixed_by names cl k) /\
    (forall k b, (k < length names)%nat -> nth_error (ma_limit args) k = Some b <-> bounds_by names cl k b).
Proof.
  intros H. pose proof (agrees_calls names [] _ cl (agrees_new IMinuit names a)) as (LB & B & FX). cbn [app] in B, FX.
  pose proof (calls_kind names (min_new IMinuit names a) cl) as KD. set (m0 := calls names (min_new IMinuit names a) cl) in *. simpl in KD. destruct (m_fixed m0) as [fl|fl] eqn:MF; [|destruct KD]. destruct FX as (LF & FX).
  unfold minimize, mbind at 1, mget in H. cbn [pbind ms_m] in H. rewrite MF in H. unfold minimize_iminuit, mbind, mget, mplay in H. cbn [pbind ms_m ms_p pars_new p_names] in H.
  set (args := mk_margs x (map (xmul (Fin (5 / 100))) x) (1 / 2) fl names (m_bounds m0)) in *.
  rewrite !play_pbind in H. destruct (play nll (ex_minuit E args) w) as (w1 & [o|er]) eqn:PL; cbn [fst snd play pbind] in H; [|discriminate].
  exists args, o. rewrite PL. split; [reflexivity|]. split; [|repeat split; auto; try apply FX; try apply B; auto].
  unfold mset_fcn_min, mpars, set_values, set_errors, set_cov, set_corr, mlift, mset_success in H. cbn [pbind ms_m ms_p m_params m_fixed m_bounds m_success] in H.
  destruct (Nat.eqb _ _); cbn [pbind play snd ms_m ms_p] in H; [|discriminate]. destruct (Nat.eqb _ _); cbn [pbind play snd ms_m ms_p] in H; [|discriminate].
  destruct (mo_matrix o) as [c|er]; cbn [pbind ms_m ms_p] in H; [|discriminate]. destruct (mo_corr o) as [c'|er]; cbn [pbind ms_m ms_p play] in H; [|discriminate].
  assert (R : r = mk_mresult (mo_fval o) (m_params m0) (mo_valid o)) by congruence. rewrite R. reflexivity.
Qed.

(** With iminuit: the two Minuit runs of a call that does not return 0 because of a negative yield.  They have
    the same limits; the second one starts where the first one did, but with the yield at 0, and fixes the same
    parameters and the yield.  Their objective functions are the same.  Hence, if the yield itself is not
    fixed by the user and both runs find the minimum of their domain, the significance is a real number.
    Restrictions: no templates or covariances added after the first use, no template object used twice. *)
Theorem C54_likelihood_ratio_partial : forall inv l0 id l E p fn, inv_spec inv -> lower id = "iminuit"%string -> fbuilt_then_used (l0 ++ FNew id :: l) ->
  let s := freached inv (l0 ++ FNew id :: l) in let i := num_fitters l0 in let w := fs_w s in
  distinct_templates w ->
  forall s' z, get_significance E i p fn s = (s', Ok z) ->
  z = Fin 0 \/
  exists k w2 args1 args2 o1 o2,
    resolves (param_names w) (PStr (p ++ "_yield")) k /\
    snd (play nll (ex_minuit E args1) w) = Ok o1 /\ snd (play nll (ex_minuit E args2) w2) = Ok o2 /\
    nll_x0 w = Ok (ma_start args1) /\ ma_start args2 = upd k (Fin 0) (ma_start args1) /\
    (forall j, (j < num_params w)%nat -> nth_error (ma_fix args1) j = Some true <-> requested_fixed w l i fn j) /\
    (forall j, (j < num_params w)%nat -> nth_error (ma_fix args2) j = Some true <-> requested_fixed w l i fn j \/ j = k) /\
    ma_limit args2 = ma_limit args1 /\
    (consistent_ids (param_names w) l i -> limits_as_requested w l i None (ma_limit args1)) /\
    (forall v, snd (nll v w2) = snd (nll v w)) /\
    z = xsqrt (xmul (Fin 2) (xsub (mo_fval o2) (mo_fval o1))) /\
    (~ requested_fixed w l i fn k -> forall m1 m2, mo_fval o1 = Fin m1 -> mo_fval o2 = Fin m2 ->
       is_minimum (fun v => snd (nll v w)) (in_domain args1) m1 -> is_minimum (fun v => snd (nll v w2)) (in_domain args2) m2 ->
       z = Fin (sqrt (2 * (m2 - m1))) /\ 0 <= 2 * (m2 - m1)).
Proof.
  intros inv l0 id l E p fn I ID BU s i w DT s' z H.
  destruct (sig_ok _ _ _ _ _ _ _ H) as (f & kind & x & p1 & r1 & k & y & w1 & H1 & H2 & H3 & (m & H4) & H5 & H6 & H7). fold w in H3, H4, H5, H7.
  destruct (fitter_created inv l0 id l) as (f' & F1 & F2 & F3 & F4). fold s i in F1. assert (f' = f) by congruence. subst f'. fold i in F3, F4.
  rewrite F2 in H2. unfold minimizer_class in H2. rewrite ID in H2. cbn in H2. injection H2 as <-.
  destruct H7 as [(A & B & _)|(A & w2 & x2 & p2 & r2 & B & C & (m' & D) & Z)]; [left; exact B|right].
  destruct (fbuilt_world inv _ BU) as (l' & B' & EW). fold s w in EW.
  assert (K : coh w) by (rewrite EW; now apply built_coh).
  pose proof (play_coh (minimize E x true (mk_mstate (pars_new (param_names w)) (calls (param_names w) (min_new IMinuit (param_names w) (length (fs_pars s))) (requests w f fn)))) w w (po_refl _ core_po w) K) as (C1 & K1).
  destruct (play_run inv (minimize E x true (mk_mstate (pars_new (param_names w)) (calls (param_names w) (min_new IMinuit (param_names w) (length (fs_pars s))) (requests w f fn)))) w) as (xs & EX).
  rewrite H4 in C1, K1, EX. cbn [fst] in C1, K1, EX.
  assert (EW1 : w1 = reached inv (l' ++ map ONll xs)) by (unfold reached; rewrite run_app; rewrite EX, EW; reflexivity).
  assert (DT1 : distinct_templates w1).
  { destruct C1. intros a a' n n' c c' kk kk' q q' tid t t' (cid & X1 & X2) (cid' & Y1 & Y2) (T1 & T2) (U1 & U2). rewrite ce_channels, ce_chans in *. rewrite ce_tmpls in *.
    eapply DT; [exists cid; split; eassumption|exists cid'; split; eassumption|split; eassumption|split; eassumption]. }
  pose proof (op_set_yield p 0 w1) as O. pose proof (quiet_set_yield p 0 w1) as QU. rewrite B in O, QU. cbn [fst] in O, QU.
  assert (P : In p (w_procs w1)).
  { destruct (in_dec string_dec p (w_procs w1)) as [P|P]; [exact P|]. rewrite (set_yield_unknown w1 p 0 P) in B. discriminate. }
  apply In_nth_error in P as (q & Q).
  assert (X1 : nll_x0 w1 = Ok x). { destruct C1. unfold nll_x0, nui_params, nui_blocks, process_yields, process_yield, mct_chans in *. rewrite ce_tmpls, ce_chans, ce_channels, ce_procs. exact H3. }
  assert (KQ : k = q). { destruct C1. apply (yield_resolves inv l' p k q I); rewrite <- EW; [congruence|exact H5]. }
  subst q.
  assert (X2 : x2 = upd k (Fin 0) x). { rewrite EW1 in DT1, Q, B, X1. rewrite (x0_set_yield inv _ p 0 w2 k x x2 I DT1 Q B X1 C). f_equal. f_equal. ring. }
  destruct (names_length inv (l0 ++ FNew id :: l) I) as (NL & NP). fold s w in NL, NP.
  assert (RQ : requests w f fn = the_calls inv l0 id l fn None) by (unfold requests, the_calls, fit_calls; fold s w i; rewrite F3, F4; reflexivity).
  destruct (minuit_run _ _ _ _ _ _ _ _ _ _ H4) as (args1 & o1 & A1 & A2 & A3 & A4 & A5 & A6 & A7 & A8 & A9).
  destruct (minuit_run _ _ _ _ _ _ _ _ _ _ D) as (args2 & o2 & B1 & B2 & B3 & B4 & B5 & B6 & B7 & B8 & B9).
  assert (FX : forall j, fixed_by (param_names w) (requests w f fn) j <-> requested_fixed w l i fn j) by (intros j; rewrite RQ; apply calls_fixed; exact I).
  assert (FX2 : forall j, fixed_by (param_names w) (requests w f fn ++ [CFix (PStr (p ++ "_yield"))]) j <-> requested_fixed w l i fn j \/ j = k).
  { intros j. rewrite <- FX. etransitivity; [apply fixed_by_snoc|]. cbn. assert (RJ : resolves (param_names w) (PStr (p ++ "_yield")) j <-> j = k).
    { split; [intros R; eapply resolves_fun; eassumption|intros ->; exact H5]. } cbn in RJ. rewrite RJ. tauto. }
  assert (LM : ma_limit args2 = ma_limit args1).
  { apply nth_ext_eq. intros j. destruct (Nat.lt_ge_cases j (length (param_names w))) as [LT|GE].
    - destruct (nth_error (ma_limit args1) j) as [b|] eqn:L1; [|apply nth_error_None in L1; lia]. apply B9; [exact LT|]. apply A9 in L1; [|exact LT]. apply bounds_by_snoc. exact L1.
    - rewrite (proj2 (nth_error_None _ _)) by lia. symmetry. apply nth_error_None. lia. }
  assert (NV : forall v, snd (nll v w2) = snd (nll v w)).
  { intros v. destruct (pure_nll w v w (po_refl _ core_po w) K) as (wa & -> & _). destruct (pure_nll w2 v w2 (po_refl _ core_po w2) (quiet_coh _ _ _ QU K1)) as (wb & -> & _). cbn [snd].
    rewrite (op_nll w1 w2 v O). symmetry. destruct (pure_nll w v w1 C1 K1) as (wc & E1 & _). destruct (pure_nll w1 v w1 (po_refl _ core_po w1) K1) as (wd & E2 & _). congruence. }
  exists k, w2, args1, args2, o1, o2. split; [exact H5|]. split; [exact A1|]. split; [exact B1|]. split; [congruence|]. split; [congruence|].
  split; [intros j J; rewrite A8 by lia; apply FX|]. split; [intros j J; rewrite B8 by lia; apply FX2|]. split; [exact LM|]. split.
  { intros CI. apply (calls_limits inv l0 id l None fn); auto. intros j b J. rewrite <- RQ. apply A9. exact J. }
  split; [exact NV|]. split; [congruence|].
  intros NR m1 m2 M1 M2 (_ & MIN) ((v & V1 & V2) & _).
  assert (LE : m1 <= m2).
  { rewrite NV in V2. apply (MIN v m2); [|exact V2]. destruct V1 as (L & F & Bd). rewrite B3, X2 in L, F. rewrite upd_length in L. rewrite LM in Bd. split; [congruence|]. split; [|exact Bd].
    intros j J. assert (JL : (j < length (param_names w))%nat) by (rewrite <- A6; apply nth_error_Some; congruence). apply A8 in J; [|exact JL]. apply FX in J.
    rewrite A3. rewrite F; [|apply B8; [exact JL|apply FX2; left; exact J]]. apply upd_other. intros ->. contradiction. }
  rewrite Z, A2, B2, M1, M2. cbn [xsub xmul xadd xopp xsqrt]. unfold Rltb. destruct (Rlt_dec _ 0); [lra|]. split; [f_equal; f_equal; ring|lra].
Qed.
Print Assumptions C54_likelihood_ratio_partial.

(** With scipy C54 is false: the constraints of the second minimization (its only way to keep parameters fixed)
    are those of the yield; every other parameter to be fixed is free, in any state. *)
Lemma scipy_run E names cl a x w w' p m r : 
  play nll (minimize E x true (mk_mstate (pars_new names) (calls names (min_new Scipy names a) cl))) w = (w', (mk_mstate p m, Ok r)) ->
  exists limits fl o, m_fixed (calls names (min_new Scipy names a) cl) = Indices fl /\
    snd (play nll (ex_slsqp E x limits (create_constraints x fl)) w) = Ok o /\ r_fcn_min r = oo_fun o.
Proof.
  intros H. pose proof (calls_kind names (min_new Scipy names a) cl) as KD. set (m0 := calls names (min_new Scipy names a) cl) in *. simpl in KD. destruct (m_fixed m0) as [fl|fl] eqn:MF; [destruct KD|].
  unfold minimize, mbind at 1, mget in H. cbn [pbind ms_m] in H. rewrite MF in H. unfold minimize_scipy in H. unfold mbind at 1, mget in H. cbn [pbind ms_m] in H. unfold mbind at 1, mplay at 1 in H.
  rewrite !play_pbind in H. destruct (play nll (ex_slsqp E x (m_bounds m0) (create_constraints x fl)) w) as (w1 & [o|er]) eqn:PL; cbn [fst snd play pbind] in H; [|discriminate].
  exists (m_bounds m0), fl, o. split; [reflexivity|]. rewrite PL. split; [reflexivity|].
  unfold mbind at 1, mset_success at 1 in H. cbn [pbind ms_m ms_p] in H. destruct (oo_success o); [|discriminate].
  unfold mbind at 1, mpars at 1 in H. destruct (set_values _ _) as (pp & [[]|er]); cbn [pbind] in H; [|discriminate].
  unfold mbind at 1, mset_fcn_min at 1 in H. cbn [pbind ms_m ms_p] in H. unfold mbind at 1 in H. rewrite play_pbind in H.
  match type of H with context [play nll ?e w1] => destruct (play nll e w1) as (w2 & st & [u|er]) end; cbn [fst snd play pbind] in H; [|discriminate]. unfold mlift in H. cbn [play] in H. assert (R : r = mk_mresult (oo_fun o) (m_params m0) true) by congruence. now rewrite R.
Qed.
Theorem C54_scipy_refuted : forall E i p fn s s' z f, get_significance E i p fn s = (s', Ok z) -> nth_error (fs_fitters s) i = Some f -> lower (ft_id f) = "scipy"%string ->
  let w := fs_w s in z = Fin 0 \/
  exists k w2 x2 limits cs o m1, resolves (param_names w) (PStr (p ++ "_yield")) k /\ 
    snd (play nll (ex_slsqp E x2 limits cs) w2) = Ok o /\ z = xsqrt (xmul (Fin 2) (xsub (oo_fun o) m1)) /\
    forall a b, x2 = map Fin a -> length b = length a -> (k < length a)%nat -> satisfied cs (map Fin b) <-> nth_error b k = nth_error a k.
Proof.
  intros E i p fn s s' z f H F ID w.
  destruct (sig_ok _ _ _ _ _ _ _ H) as (f' & kind & x & p1 & r1 & k & y & w1 & H1 & H2 & H3 & (m & H4) & H5 & H6 & H7). fold w in H3, H4, H5, H7.
  assert (f' = f) by congruence. subst f'. unfold minimizer_class in H2. rewrite ID in H2. cbn in H2. injection H2 as <-.
  destruct H7 as [(A & B & _)|(A & w2 & x2 & p2 & r2 & B & C & (m' & D) & Z)]; [left; exact B|right].
  destruct (scipy_run _ _ _ _ _ _ _ _ _ _ D) as (limits & fl & o & FL & O & RO).
  exists k, w2, x2, limits, (create_constraints x2 fl), o, (r_fcn_min r1). split; [exact H5|]. split; [exact O|]. split; [congruence|].
  intros a b -> LB K.
  assert (SN : exists fl0, fl = fl0 ++ [k]).
  { rewrite calls_app in FL. cbn [calls fold_left call] in FL. apply resolve_iff in H5. unfold set_param_fixed in FL. rewrite H5 in FL. 
    pose proof (calls_kind (param_names w) (min_new Scipy (param_names w) (S (length (fs_pars s)))) (requests w f fn)) as KD. simpl in KD.
    destruct (m_fixed (calls (param_names w) (min_new Scipy (param_names w) (S (length (fs_pars s)))) (requests w f fn))) as [fl0|fl0]; [destruct KD|]. cbn [fst m_fixed] in FL. injection FL as <-. eauto. }
  destruct SN as (fl0 & ->). rewrite create_constraints_last, satisfied_repeat. rewrite (late_zero _ _ k a b) by auto. rewrite !nth_error_map.
  destruct (nth_error a k) as [u|] eqn:U, (nth_error b k) as [v|] eqn:V; cbn [option_map]; split; congruence.
Qed.
Print Assumptions C54_scipy_refuted.

(** ** C55 *)
(** What holds, for every outcome (also if the call raises): nothing but the yields of templates of the named
    process changes; nothing at all changes if the fitted yield is negative (C54_value: the result is 0 then). *)
Theorem C55_other_objects_partial : forall inv l E i p fn s' v, inv_spec inv -> let s := freached inv l in get_significance E i p fn s = (s', v) ->
  yields_zeroed false p (fs_w s) (fs_w s').
Proof. intros inv l E i p fn s' v I s H. pose proof (sig_zeroed inv l E i p fn I) as Z. cbv zeta in Z. fold s in Z. rewrite H in Z. exact Z. Qed.
Print Assumptions C55_other_objects_partial.
(** False: every call that does not find a negative yield leaves the yields of the process at zero. *)
Theorem C55_yield_lost_refuted : forall inv l E i p fn s' z, inv_spec inv -> let s := freached inv l in get_significance E i p fn s = (s', Ok z) -> 
  same_objects (fs_w s) (fs_w s') /\ z = Fin 0 \/ yields_zeroed true p (fs_w s) (fs_w s').
Proof.
  intros inv l E i p fn s' z I s H. destruct (sig_ok _ _ _ _ _ _ _ H) as (f & kind & x & p1 & r1 & k & y & w1 & H1 & H2 & H3 & (m & H4) & H5 & H6 & H7).
  pose proof (play_same (minimize E x true (mk_mstate (pars_new (param_names (fs_w s))) (calls (param_names (fs_w s)) (min_new kind (param_names (fs_w s)) (length (fs_pars s))) (requests (fs_w s) f fn)))) (fs_w s)) as S1.
  rewrite H4 in S1. cbn [fst] in S1. destruct H7 as [(_ & -> & ->)|(_ & w2 & x2 & p2 & r2 & B & C & (m' & D) & Z)]; [left; auto|right].
  destruct (freached_world inv l) as (l' & EW). fold s in EW.
  destruct (play_run inv (minimize E x true (mk_mstate (pars_new (param_names (fs_w s))) (calls (param_names (fs_w s)) (min_new kind (param_names (fs_w s)) (length (fs_pars s))) (requests (fs_w s) f fn)))) (fs_w s)) as (xs & EX).
  rewrite H4 in EX. cbn [fst] in EX. assert (W1 : WF w1) by (rewrite EX, EW; unfold reached; rewrite <- run_app; now apply reached_wf).
  destruct (in_dec string_dec p (w_procs w1)) as [P|P]; [|rewrite (set_yield_unknown w1 p 0 P) in B; discriminate].
  destruct (zero_yield w1 p W1 P) as (w2' & E2 & Z2). assert (w2' = w2) by congruence. subst w2'.
  match type of D with play nll ?e w2 = _ => pose proof (play_same e w2) as S2 end. rewrite D in S2. cbn [fst] in S2.
  change true with (false || (true || false))%bool. eapply zeroed_trans; [apply zeroed_refl; exact S1|]. eapply zeroed_trans; [exact Z2|apply zeroed_refl; exact S2].
Qed.
Print Assumptions C55_yield_lost_refuted.

(** ** A concrete call.  The optimizer of Prop_Profile reports the number of fixed parameters as minimum: 2 in
    the first run (the nuisance parameters), 3 in the second one (and the yield).  The significance is sqrt 2,
    and the yield of the template, 4 before, is 0 afterwards. *)
Lemma sig_runs : forall s f w2, nth_error (fs_fitters s) 0 = Some f -> ft_id f = "iminuit"%string -> ft_fixed f = [] -> ft_bounds f = [] ->
  let w := fs_w s in param_names w = ["s_yield"; "A_s_bin_0"; "A_s_bin_1"]%string -> nui_ids w = [PInt 1; PInt 2] -> nll_x0 w = Ok (map Fin [4; 0; 0]) ->
  set_yield "s" 0 (fst (nll (map Fin [4; 0; 0]) w)) = (w2, Ok tt) -> param_names w2 = param_names w -> nll_x0 w2 = Ok (map Fin [0; 0; 0]) ->
  exists s', get_significance ex_ext 0 "s" true s = (s', Ok (Fin (sqrt 2))).
Proof.
  intros s f w2 F ID FX BD w N NU X SY N2 X2. destruct s as [w0 ps fs]. cbn [fs_w fs_fitters] in *. subst w. unfold get_significance.
  set (names := ["s_yield"; "A_s_bin_0"; "A_s_bin_1"]%string) in *.
  assert (F0 : forall m, fix_all names m [] = Ok m) by reflexivity. assert (B0 : forall m, bound_all names m [] = Ok m) by reflexivity.
  assert (F1 : forall a, fix_all names (min_new IMinuit names a) [PInt 1; PInt 2] = Ok (mk_min a (Flags [false; true; true]) [(None, None);(None, None);(None, None)] None None)) by reflexivity.
  assert (F2 : forall a, fix_all names (mk_min a (Flags [false; true; true]) [(None, None);(None, None);(None, None)] None None) [PStr (yield_name "s")] = Ok (mk_min a (Flags [true; true; true]) [(None, None);(None, None);(None, None)] None None)) by reflexivity.
  unfold fbind at 1, get_fitter at 1. cbn [fs_fitters]. rewrite F. do 2 (unfold fbind at 1, fget at 1). cbn [fs_w]. rewrite N, NU, FX, BD, ID.
  unfold fbind at 1, new_minimizer at 1. change (minimizer_class "iminuit") with (@Ok min_kind IMinuit). cbn iota. cbn [fs_w fs_pars fs_fitters]. rewrite N.
  unfold fbind at 1, flift at 1. rewrite F1. unfold fbind at 1, flift at 1. rewrite F0. unfold fbind at 1, flift at 1. rewrite B0.
  unfold fbind at 1, x0 at 1. cbn [fs_w]. rewrite X. unfold fbind at 1. rewrite min_from_last by reflexivity. cbv zeta. erewrite ex_ext_runs by reflexivity. cbn [fst snd rmap ms_p ms_m].
  unfold fbind at 1, get_pars at 1. cbn [fs_pars r_params m_params]. rewrite nth_error_app2, Nat.sub_diag by lia. cbn [nth_error].
  unfold fbind at 1, flift at 1. match goal with |- context [getitem ?a ?b] => change (getitem a b) with (@Ok (xr * xr) (Fin 4, Fin 1)) end. cbn iota. cbn [fst snd xltb]. unfold Rltb at 1. destruct (Rlt_dec 4 0); [lra|]. cbn iota.
  unfold fbind at 1, on_world at 1. cbn [fs_w fs_pars fs_fitters]. rewrite SY. cbn iota.
  unfold fbind at 1, new_minimizer at 1. change (minimizer_class "iminuit") with (@Ok min_kind IMinuit). cbn iota. cbn [fs_w fs_pars fs_fitters]. rewrite N2, N.
  unfold fbind at 1, flift at 1. rewrite F1. unfold fbind at 1, flift at 1. rewrite F0. unfold fbind at 1, flift at 1. rewrite B0. unfold fbind at 1, flift at 1. rewrite F2.
  unfold fbind at 1, x0 at 1. cbn [fs_w]. rewrite X2. unfold fbind at 1. rewrite min_from_last by reflexivity. cbv zeta. erewrite ex_ext_runs by reflexivity. cbn [fst snd rmap ms_p ms_m r_fcn_min].
  unfold fret. eexists. f_equal. f_equal.
  assert (R3 : forall a b, reports a = 3 -> reports b = 2 -> xsqrt (xmul (Fin 2) (xsub (Fin (reports a)) (Fin (reports b)))) = Fin (sqrt 2)).
  { intros a b -> ->. cbn [xsub xopp xadd xmul xsqrt]. unfold Rltb. replace (2 * (3 + - (2))) with 2 by ring. destruct (Rlt_dec 2 0); [lra|reflexivity]. }
  apply R3; unfold reports; simpl; ring.
Qed.
Lemma ex_sig_state inv : exists w t, reached inv ex_fit = w /\ param_names w = ["s_yield"; "A_s_bin_0"; "A_s_bin_1"]%string /\ w_procs w = ["s"%string] /\ nui_ids w = [PInt 1; PInt 2] /\
  nll_x0 w = Ok (map Fin [4; 0; 0]) /\ distinct_templates w /\ uses_template_of w "s" 0 /\ nth_error (w_tmpls w) 0 = Some t /\ t_yield t = Fin 4.
Proof.
  eexists. eexists. split; [reflexivity|]. unfold reached, ex_fit, ex_binned, world_init. do 7 run_step. cbv zeta.
  assert (Q : 1 + (3 + 0) = 4) by lra.
  split; [reflexivity|]. split; [reflexivity|]. split; [reflexivity|]. split; [|split; [|split; [|split; [reflexivity|]]]].
  - replace 4 with (0 + (1 + (3 + 0))) by lra. reflexivity.
  - intros i i' n n' c c' k k' p p' tid t t' (cid & H1 & H2) (cid' & H1' & H2') (K & _) (K' & _).
    destruct i as [|[|i]]; try discriminate. injection H1 as <- <-. injection H2 as <-.
    destruct i' as [|[|i']]; try discriminate. injection H1' as <- <-. injection H2' as <-. split; auto.
    destruct k as [|[|k]]; try discriminate; destruct k' as [|[|k']]; try discriminate; auto.
  - exists 0%nat, "A"%string. eexists. exists 0%nat. eexists. split; [exists 0%nat; split; reflexivity|]. split; reflexivity.
  - cbn. f_equal. exact Q.
Qed.
Lemma ex_sig_zero : forall inv L w, inv_spec inv -> reached inv L = w -> w_procs w = ["s"%string] -> nll_x0 w = Ok (map Fin [4; 0; 0]) -> distinct_templates w ->
  exists w2, set_yield "s" 0 (fst (nll (map Fin [4; 0; 0]) w)) = (w2, Ok tt) /\ param_names w2 = param_names w /\ nll_x0 w2 = Ok (map Fin [0; 0; 0]).
Proof.
  intros inv L w I E P X DT. set (x := map Fin [4; 0; 0]) in *. set (w1 := fst (nll x w)).
  assert (E1 : w1 = reached inv (L ++ [ONll x])). { unfold reached. rewrite run_app. fold (reached inv L). rewrite E. unfold w1, run. cbn [fold_left step]. unfold bind. now destruct (nll x w) as (wa & [r|e]). }
  assert (W1 : WF w1) by (rewrite E1; now apply reached_wf).
  pose proof (nll_same x w) as S1. fold w1 in S1. pose proof S1 as (A1 & A2 & A3 & A4 & A5 & A6 & A7 & A8).
  assert (P1 : w_procs w1 = ["s"%string]) by congruence.
  destruct (zero_yield w1 "s" W1) as (w2 & E2 & Z2); [rewrite P1; left; reflexivity|].
  assert (DT1 : distinct_templates w1).
  { intros a a' n n' c c' kk kk' q q' tid t0 t' (cid & X1 & X2) (cid' & Y1 & Y2) (T1 & T2) (U1 & U2). rewrite A4 in X1, Y1. rewrite A3 in X2, Y2. rewrite A2 in T2, U2.
    eapply DT; [exists cid; split; eassumption|exists cid'; split; eassumption|split; eassumption|split; eassumption]. }
  assert (X1 : nll_x0 w1 = Ok x). { unfold nll_x0, nui_params, nui_blocks, process_yields, process_yield, mct_chans in *. rewrite A2, A3, A4, A5. exact X. }
  assert (E3 : w2 = reached inv (L ++ [ONll x; OSetYield "s" 0])).
  { change [ONll x; OSetYield "s" 0] with ([ONll x] ++ [OSetYield "s" 0]). rewrite app_assoc. unfold reached. rewrite run_app. fold (reached inv (L ++ [ONll x])). rewrite <- E1. unfold run. cbn [fold_left step]. now rewrite E2. }
  assert (X2 : exists x2, nll_x0 w2 = Ok x2).
  { destruct (C30_start_values_exist inv (L ++ [ONll x]) I) as (H & _). rewrite <- E1 in H. destruct H as (j & nm & c & C & NE); [eauto|].
    destruct (C30_start_values_exist inv (L ++ [ONll x; OSetYield "s" 0]) I) as (_ & H). rewrite <- E3 in H. apply H. exists j, nm, c. split; [|exact NE].
    destruct C as (cid & C1 & C2). destruct Z2 as (_ & B2 & B3 & _). exists cid. rewrite B2, B3. auto. }
  destruct X2 as (x2 & X2). assert (XX : x2 = map Fin [0; 0; 0]).
  { rewrite E1 in DT1, P1, E2, X1. rewrite (x0_set_yield inv _ "s" 0 w2 0 x x2 I DT1) by (auto; rewrite P1; reflexivity). rewrite Rmult_0_l. reflexivity. }
  subst x2. pose proof (op_set_yield "s" 0 w1) as O. rewrite E2 in O. cbn [fst] in O.
  exists w2. split; [exact E2|]. split; [|exact X2]. rewrite (op_names _ _ O). apply (same_names _ _ S1).
Qed.
Lemma ex_sig_gen : forall inv L w t s f, inv_spec inv -> reached inv L = w -> fs_w s = w -> nth_error (fs_fitters s) 0 = Some f -> ft_id f = "iminuit"%string -> ft_fixed f = [] -> ft_bounds f = [] ->
  param_names w = ["s_yield"; "A_s_bin_0"; "A_s_bin_1"]%string -> w_procs w = ["s"%string] -> nui_ids w = [PInt 1; PInt 2] ->
  nll_x0 w = Ok (map Fin [4; 0; 0]) -> distinct_templates w -> uses_template_of w "s" 0 -> nth_error (w_tmpls w) 0 = Some t ->
  exists s', get_significance ex_ext 0 "s" true s = (s', Ok (Fin (sqrt 2))).
Proof.
  intros inv L w t s f I E EW F ID FX BD N P NU X DT U T. destruct (ex_sig_zero inv L w I E P X DT) as (w2 & A & B & C).
  apply (sig_runs s f w2); auto; rewrite EW; auto.
Qed.
Lemma freached_new inv L id : fs_w (freached inv (map FOp L ++ [FNew id])) = reached inv L.
Proof.
  unfold freached. rewrite frun_app, frun_ops. destruct (config_world inv [FNew id] ltac:(repeat constructor) (mk_fstate (run inv L (fs_w fstate_init)) (fs_pars fstate_init) (fs_fitters fstate_init))) as (-> & _). reflexivity.
Qed.
Lemma ex_C54_C55_gen : forall inv L w t, inv_spec inv -> let l := map FOp L ++ [FNew "iminuit"] in let s := freached inv l in fbuilt_then_used l -> num_fitters (map FOp L) = 0%nat -> reached inv L = w ->
  param_names w = ["s_yield"; "A_s_bin_0"; "A_s_bin_1"]%string -> w_procs w = ["s"%string] -> nui_ids w = [PInt 1; PInt 2] ->
  nll_x0 w = Ok (map Fin [4; 0; 0]) -> distinct_templates w -> uses_template_of w "s" 0 -> nth_error (w_tmpls w) 0 = Some t -> t_yield t = Fin 4 ->
  distinct_templates (fs_w s) /\
  exists s' t t', get_significance ex_ext 0 "s" true s = (s', Ok (Fin (sqrt 2))) /\
    nth_error (w_tmpls (fs_w s)) 0 = Some t /\ t_yield t = Fin 4 /\ nth_error (w_tmpls (fs_w s')) 0 = Some t' /\ t_yield t' = Fin 0.
Proof.
  intros inv L w t I l s BU NF E N P NU X DT U T TY.
  assert (EW : fs_w s = w) by (unfold s, l; rewrite freached_new; exact E).
  destruct (fitter_created inv (map FOp L) "iminuit" []) as (f & F1 & F2 & F3 & F4). rewrite NF in F1. 
  fold l in F1. fold s in F1. 
  destruct (ex_sig_gen inv L w t s f I E EW F1 F2 F3 F4 N P NU X DT U T) as (s' & H).
  destruct (C55_yield_lost_refuted inv l ex_ext 0 "s" true s' _ I H) as [(_ & C)|Z].
  { exfalso. injection C as C. assert (0 < sqrt 2) by (apply sqrt_lt_R0; lra). lra. }
  fold s in Z. rewrite EW in Z. rewrite EW. split; [exact DT|]. destruct Z as (_ & _ & _ & _ & _ & _ & _ & _ & Z). destruct (Z 0%nat t T) as (_ & Z'). destruct (Z' U) as [V|(V & _)]; [|discriminate].
  exists s', t, (set_params t (Fin 0 :: t_nui t)). auto.
Qed.
Example ex_C54_C55 : forall inv, inv_spec inv -> let l := map FOp ex_fit ++ [FNew "iminuit"] in let s := freached inv l in
  fbuilt_then_used l /\ distinct_templates (fs_w s) /\
  exists s' t t', get_significance ex_ext 0 "s" true s = (s', Ok (Fin (sqrt 2))) /\
    nth_error (w_tmpls (fs_w s)) 0 = Some t /\ t_yield t = Fin 4 /\ nth_error (w_tmpls (fs_w s')) 0 = Some t' /\ t_yield t' = Fin 0.
Proof.
  intros inv I l s. destruct (ex_sig_state inv) as (w & t & E & N & P & NU & X & DT & U & T & TY).
  assert (BU : fbuilt_then_used l). { exists (map FOp ex_fit), [FNew "iminuit"]. split; [reflexivity|]. repeat constructor. }
  split; [exact BU|]. exact (ex_C54_C55_gen inv ex_fit w t I BU eq_refl E N P NU X DT U T TY).
Qed.

(** The same with scipy.  An optimizer that finds 0 as minimum if the constraints allow the nuisance parameters
    to move by 1, and 1 otherwise.  All nuisance parameters are to be fixed in both runs; they can move in
    the second run but not in the first one, so that the "significance" is sqrt(-2) = NaN. *)
Definition moved (x : list xr) : list xr := match x with [] => [] | y :: n => y :: map (fun v => xadd v (Fin 1)) n end.
Definition holds (cs : list constr) (x : list xr) : bool := forallb (fun c => match c x with Ok (Fin v) => Reqb v 0 | _ => false end) cs.
Definition ex_scipy : ext := mk_ext (fun _ => Stop (Err RuntimeError))
  (fun x _ cs => Ask x (fun _ => Stop (Ok (mk_oout true x (Fin (if holds cs (moved x) then 0 else 1))))))
  (fun x => Stop (Ok [[Fin 1; Fin 0; Fin 0]; [Fin 0; Fin 1; Fin 0]; [Fin 0; Fin 0; Fin 1]])) (fun m => Ok m).
Lemma ex_scipy_runs {S} (fcn : list xr -> S -> S * res xr) x p m fl w : m_fixed m = Indices fl -> length x = 3%nat -> length (p_names p) = 3%nat ->
  let rep := Fin (if holds (create_constraints x fl) (moved x) then 0 else 1) in
  exists st, play fcn (minimize ex_scipy x true (mk_mstate p m)) w = (fst (fcn x w), (st, Ok (mk_mresult rep (m_params m) true))) /\
    p_names (ms_p st) = p_names p /\ p_values (ms_p st) = x /\ length (p_errors (ms_p st)) = 3%nat.
Proof.
  intros F L N rep. unfold minimize, mbind at 1, mget. cbn [pbind ms_m]. rewrite F. unfold minimize_scipy, mbind, mget, mplay, mset_fcn_min, mset_success, mpars, mlift. cbn [pbind ms_m ms_p ex_scipy ex_slsqp ex_hessian ex_inv play oo_fun oo_x oo_success].
  unfold set_values, num_pars. cbn [p_names]. rewrite L, N. cbn [Nat.eqb pbind ms_m ms_p p_names]. 
  cbn [set_cov set_corr p_names p_values p_errors pbind ms_p ms_m]. unfold set_errors, num_pars. cbn [p_names]. rewrite N, map_length. 
  match goal with |- context [length (np_diagonal ?c)] => change (length (np_diagonal c)) with 3%nat end. cbn [Nat.eqb pbind ms_m ms_p play m_params m_fixed m_bounds].
  rewrite F. eexists. split; [reflexivity|]. cbn [ms_p p_names p_values p_errors]. split; [reflexivity|]. split; [reflexivity|]. reflexivity.
Qed.
Lemma sig_runs_scipy : forall s f w2, nth_error (fs_fitters s) 0 = Some f -> ft_id f = "scipy"%string -> ft_fixed f = [] -> ft_bounds f = [] ->
  let w := fs_w s in param_names w = ["s_yield"; "A_s_bin_0"; "A_s_bin_1"]%string -> nui_ids w = [PInt 1; PInt 2] -> nll_x0 w = Ok (map Fin [4; 0; 0]) ->
  set_yield "s" 0 (fst (nll (map Fin [4; 0; 0]) w)) = (w2, Ok tt) -> param_names w2 = param_names w -> nll_x0 w2 = Ok (map Fin [0; 0; 0]) ->
  exists s', get_significance ex_scipy 0 "s" true s = (s', Ok NaN).
Proof.
  intros s f w2 F ID FX BD w N NU X SY N2 X2. destruct s as [w0 ps fs]. cbn [fs_w fs_fitters] in *. subst w. unfold get_significance.
  set (names := ["s_yield"; "A_s_bin_0"; "A_s_bin_1"]%string) in *.
  assert (F0 : forall m, fix_all names m [] = Ok m) by reflexivity. assert (B0 : forall m, bound_all names m [] = Ok m) by reflexivity.
  assert (F1 : forall a, fix_all names (min_new Scipy names a) [PInt 1; PInt 2] = Ok (mk_min a (Indices [1; 2]%nat) [(None, None);(None, None);(None, None)] None None)) by reflexivity.
  assert (F2 : forall a, fix_all names (mk_min a (Indices [1; 2]%nat) [(None, None);(None, None);(None, None)] None None) [PStr (yield_name "s")] = Ok (mk_min a (Indices [1; 2; 0]%nat) [(None, None);(None, None);(None, None)] None None)) by reflexivity.
  unfold fbind at 1, get_fitter at 1. cbn [fs_fitters]. rewrite F. do 2 (unfold fbind at 1, fget at 1). cbn [fs_w]. rewrite N, NU, FX, BD, ID.
  unfold fbind at 1, new_minimizer at 1. change (minimizer_class "scipy") with (@Ok min_kind Scipy). cbn iota. cbn [fs_w fs_pars fs_fitters]. rewrite N.
  unfold fbind at 1, flift at 1. rewrite F1. unfold fbind at 1, flift at 1. rewrite F0. unfold fbind at 1, flift at 1. rewrite B0.
  unfold fbind at 1, x0 at 1. cbn [fs_w]. rewrite X. unfold fbind at 1. rewrite min_from_last by reflexivity. cbv zeta.
  edestruct (ex_scipy_runs nll (map Fin [4; 0; 0]) (pars_new names) (mk_min (length ps) (Indices [1; 2]%nat) [(None, None);(None, None);(None, None)] None None) [1; 2]%nat w0) as (st1 & R1 & S1 & S2 & S3); try reflexivity.
  rewrite R1. cbn [fst snd rmap ms_p ms_m].
  unfold fbind at 1, get_pars at 1. cbn [fs_pars r_params m_params]. rewrite nth_error_app2, Nat.sub_diag by lia. cbn [nth_error].
  assert (GI : exists e, getitem (ms_p st1) (PStr (yield_name "s")) = Ok (Fin 4, e)).
  { unfold getitem, param_id_to_index. rewrite S1, S2. destruct (p_errors (ms_p st1)) as [|e [|e1 [|e2 [|]]]]; try discriminate. exists e. reflexivity. }
  destruct GI as (e & GI). unfold fbind at 1, flift at 1. rewrite GI. cbn [fst snd xltb]. unfold Rltb at 1. destruct (Rlt_dec 4 0); [lra|]. cbn iota.
  unfold fbind at 1, on_world at 1. cbn [fs_w fs_pars fs_fitters]. rewrite SY. cbn iota.
  unfold fbind at 1, new_minimizer at 1. change (minimizer_class "scipy") with (@Ok min_kind Scipy). cbn iota. cbn [fs_w fs_pars fs_fitters]. rewrite N2, N.
  unfold fbind at 1, flift at 1. rewrite F1. unfold fbind at 1, flift at 1. rewrite F0. unfold fbind at 1, flift at 1. rewrite B0. unfold fbind at 1, flift at 1. rewrite F2.
  unfold fbind at 1, x0 at 1. cbn [fs_w]. rewrite X2. unfold fbind at 1. rewrite min_from_last by reflexivity. cbv zeta.
  match goal with |- context [mk_min ?a (Indices [1; 2; 0]%nat) _ _ _] => edestruct (ex_scipy_runs nll (map Fin [0; 0; 0]) (pars_new names) (mk_min a (Indices [1; 2; 0]%nat) [(None, None);(None, None);(None, None)] None None) [1; 2; 0]%nat w2) as (st2 & R2 & _); try reflexivity end.
  rewrite R2. cbn [fst snd rmap ms_p ms_m r_fcn_min]. unfold fret. eexists. f_equal. f_equal.
  replace (holds (create_constraints (map Fin [0; 0; 0]) [1; 2; 0]%nat) (moved (map Fin [0; 0; 0]))) with true.
  2:{ cbn. unfold Reqb. destruct (Req_EM_T _ 0); [reflexivity|lra]. }
  replace (holds (create_constraints (map Fin [4; 0; 0]) [1; 2]%nat) (moved (map Fin [4; 0; 0]))) with false.
  2:{ cbn. unfold Reqb. destruct (Req_EM_T _ 0); [lra|reflexivity]. }
  cbn [xsub xopp xadd xmul xsqrt]. unfold Rltb. destruct (Rlt_dec _ 0); [reflexivity|lra].
Qed.
Lemma C54_scipy_gen : forall inv L w, inv_spec inv -> let l := map FOp L ++ [FNew "scipy"] in let s := freached inv l in num_fitters (map FOp L) = 0%nat -> reached inv L = w ->
  param_names w = ["s_yield"; "A_s_bin_0"; "A_s_bin_1"]%string -> w_procs w = ["s"%string] -> nui_ids w = [PInt 1; PInt 2] -> nll_x0 w = Ok (map Fin [4; 0; 0]) -> distinct_templates w ->
  exists s', get_significance ex_scipy 0 "s" true s = (s', Ok NaN).
Proof.
  intros inv L w I l s NF E N P NU X DT.
  assert (EW : fs_w s = w) by (unfold s, l; rewrite freached_new; exact E).
  destruct (fitter_created inv (map FOp L) "scipy" []) as (f & F1 & F2 & F3 & F4). rewrite NF in F1. fold l in F1. fold s in F1.
  destruct (ex_sig_zero inv L w I E P X DT) as (w2 & A & B & C).
  apply (sig_runs_scipy s f w2); auto; rewrite EW; auto.
Qed.
Theorem C54_scipy_nan_refuted : forall inv, inv_spec inv -> let s := freached inv (map FOp ex_fit ++ [FNew "scipy"]) in
  exists s', get_significance ex_scipy 0 "s" true s = (s', Ok NaN).
Proof.
  intros inv I s. destruct (ex_sig_state inv) as (w & t & E & N & P & NU & X & DT & U & T & TY).
  exact (C54_scipy_gen inv ex_fit w I eq_refl E N P NU X DT).
Qed.
Print Assumptions C54_scipy_nan_refuted.
