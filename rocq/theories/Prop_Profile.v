(** Properties C51, C52, C53: TemplateFitter.profile. *)
From Coq Require Import Reals String ZArith Bool Arith List Lra Lia.
From Verif Require Import Model_Num Model_Hist Model_Utility Model_Template Model_World Model_Ops Model_Minimizer Model_Fitter
  Spec_Matrix Spec_Min Spec_World Spec_Fit Spec_Stale Proof_HistHeap Proof_Eval Proof_Route Proof_Monad Proof_Names Proof_Min Proof_Fit Proof_Fit2 Proof_Fit3 Proof_Fit4 Proof_Pool Proof_Sig Proof_Profile
  Prop_World Prop_Minimizer Prop_Fitter.
Import ListNotations.
Local Open Scope R_scope.

(** ** C51.  E: arbitrary optimizers (iminuit, scipy, numdifftools), calling the objective function any number
    of times at any points; sch: the order in which the worker processes take tasks and execute their steps. *)
(** The outcome of a scan (the arrays, or the exception, and the state of all objects afterwards) depends
    neither on the number of worker processes nor on the schedule: whenever the call has returned it is [out].
    It returns if every worker gets its turn often enough, and whatever happened so far the call can return.
    Without a worker process it raises ValueError (unless it has already raised another exception). *)
Theorem C51_schedule_independent : forall E i p n sigma sm fn s, exists (out : fstate * res (list xr * list xr * list xr)) rounds,
  (forall c sch, (0 < c)%nat -> let run := profile E i p c n sigma sm fn sch s in run = out \/ run = (fst out, Err OutOfModel)) /\
  (forall c sch, (0 < c)%nat -> fair c rounds sch -> profile E i p c n sigma sm fn sch s = out) /\
  (forall c sch, (0 < c)%nat -> exists sch', profile E i p c n sigma sm fn (sch ++ sch') s = out) /\
  (forall sch, exists e, profile E i p 0 n sigma sm fn sch s = (fst out, Err e) /\ (e = ValueError \/ snd out = Err e)).
Proof.
  intros E i p n sigma sm fn s. destruct (profile_pre E i p n sigma fn s) as (s1 & [(((minimum & points) & hesse) & tasks)|e]) eqn:P.
  - exists (s1, match mapr (task_value E) tasks with Ok vs => Ok (profile_post sm minimum points hesse vs) | Err e => Err e end), (list_sum (map (task_steps E) tasks)).
    assert (V : forall c sch, (0 < c)%nat -> imap_results (pl_done (pool_run E tasks sch (pool_new tasks c))) <> None ->
      profile E i p c n sigma sm fn sch s = (s1, match mapr (task_value E) tasks with Ok vs => Ok (profile_post sm minimum points hesse vs) | Err e => Err e end)).
    { intros c sch C H. rewrite profile_eq, P. unfold with_pool. destruct c as [|c]; [lia|]. cbn [Nat.eqb]. destruct (imap_results _) as [v|] eqn:V; [|congruence]. apply pool_value in V. subst v. destruct (mapr _ _); reflexivity. }
    split; [|split; [|split]].
    + intros c sch C. cbv zeta. destruct (imap_results (pl_done (pool_run E tasks sch (pool_new tasks c)))) eqn:V0; [left; apply V; [exact C|congruence]|right].
      rewrite profile_eq, P. unfold with_pool. destruct c as [|c]; [lia|]. cbn [Nat.eqb]. rewrite V0. reflexivity.
    + intros c sch C (rounds & -> & N & FR). apply V; [exact C|]. apply pool_fair; assumption.
    + intros c sch C. destruct (pool_completes E tasks c sch C) as (sch' & H). exists sch'. apply V; [exact C|exact H].
    + intros sch. exists ValueError. rewrite profile_eq, P. split; [reflexivity|left; reflexivity].
  - exists (s1, Err e), 0%nat. split; [|split; [|split]].
    + intros c sch C. left. rewrite profile_eq, P. reflexivity.
    + intros c sch C F. rewrite profile_eq, P. reflexivity.
    + intros c sch C. exists []. rewrite profile_eq, P. reflexivity.
    + intros sch. exists e. rewrite profile_eq, P. split; [reflexivity|right; reflexivity].
Qed.
Print Assumptions C51_schedule_independent.

(** However a scan ends (it returns, raises, or not all tasks have been finished yet), templates, channels, data,
    histograms and fitters are unchanged; the only new thing are Parameters objects (caches of the likelihood aside). *)
Theorem C51_no_side_effect : forall E i p c n sigma sm fn sch s, let s' := fst (profile E i p c n sigma sm fn sch s) in
  same_objects (fs_w s) (fs_w s') /\ fs_fitters s' = fs_fitters s /\
  (length (fs_pars s) <= length (fs_pars s'))%nat /\ forall a, (a < length (fs_pars s))%nat -> nth_error (fs_pars s') a = nth_error (fs_pars s) a.
Proof.
  intros E i p c n sigma sm fn sch s s'. set (ok := fun o => exists x, o = ONll x).
  destruct (profile_frame (fun m => Ok m) ok s ltac:(intros x; exists x; reflexivity) E i p c n sigma sm fn sch s (frame_refl' _ ok s)) as (A1 & A2 & A3 & l & L & W).
  fold s' in A1, A2, A3, W. split; [|auto]. rewrite W. clear - L. generalize (fs_w s) as w. induction L as [|o l (x & ->) L IH]; intros w; cbn [run]; [repeat split|].
  pose proof (nll_same x w) as S. set (w2 := fst (step (fun m => Ok m) (ONll x) w)) in *. specialize (IH w2). change (run (fun m => Ok m) (ONll x :: l) w) with (run (fun m => Ok m) l w2).
  assert (S' : same_objects w w2). { unfold w2. cbn [step]. unfold bind, ret. destruct (nll x w) as (w1 & [r|e]); exact S. }
  destruct S' as (B1 & B2 & B3 & B4 & B5 & B6 & B7 & B8). destruct IH as (D1 & D2 & D3 & D4 & D5 & D6 & D7 & D8). unfold same_objects. repeat split; congruence.
Qed.
Print Assumptions C51_no_side_effect.

(** What a scan returns: p and r are the result of the nominal fit, k the scanned parameter, v +- e its fitted
    value.  The i-th value is the minimum found by a new minimizer with the scanned parameter fixed, started
    at the nominal result with the scanned parameter set to the i-th point, on unchanged templates. *)
Theorem C51_scan : forall E i pid c n sigma sm fn sch s s' points values hesse,
  profile E i pid c n sigma sm fn sch s = (s', Ok (points, values, hesse)) ->
  let w := fs_w s in let names := param_names w in
  exists f kind x p r k v e raw,
    nth_error (fs_fitters s) i = Some f /\ minimizer_class (ft_id f) = Ok kind /\ nll_x0 w = Ok x /\
    nominal_fit E kind fn w x p r /\
    resolves names pid k /\ nth_error (p_values p) k = Some (Fin v) /\ nth_error (p_errors p) k = Some (Fin e) /\
    length points = n /\
    (forall j, (2 <= n)%nat -> (j < n)%nat -> nth_error points j = Some (Fin ((v - sigma * e) + INR j * (2 * sigma * e / INR (n - 1))))) /\
    Forall2 (fun pt y => minimum_found E kind names [CFix pid] (upd k pt (p_values p)) false (fresh w) = Ok y) points raw /\
    values = (if sm then map (fun y => xsub y (r_fcn_min r)) raw else raw) /\
    same_objects w (fs_w s').
Proof.
  intros E i pid c n sigma sm fn sch s s' points values hesse H w names. rewrite profile_eq in H.
  destruct (profile_pre E i pid n sigma fn s) as (s1 & [(((minimum & pts) & hs) & tasks)|er]) eqn:P; [|discriminate]. unfold with_pool in H. destruct (Nat.eqb c 0); [discriminate|].
  destruct (imap_results _) as [[vs|er]|] eqn:V; try discriminate. apply pool_value in V. 
  assert (s1 = s') by congruence. subst s1. assert (Q : profile_post sm minimum pts hs vs = (points, values, hesse)) by congruence. clear H.
  destruct (profile_pre_ok _ _ _ _ _ _ _ _ _ _ _ _ P) as (f & kind & x & p & m & r & k & v & e & H1 & H2 & H3 & H4 & H5 & H6 & H7 & H8 & H9 & H10 & H11 & H12 & H13 & H14 & H15).
  fold w names in H3, H4, H5, H12, H13, H14, H15.
  assert (QQ : pts = points /\ values = if sm then map (fun y => xsub y (r_fcn_min r)) vs else vs).
  { unfold profile_post in Q. subst minimum. destruct sm; injection Q as <- <- <-; auto. }
  destruct QQ as (-> & ->).
  assert (SO : same_objects w (fs_w s')).
  { pose proof (play_same (minimize E x true (mk_mstate (pars_new names) (calls names (min_new kind names (length (fs_pars s))) (if fn then map CFix (nui_ids w) else [])))) w) as S. rewrite H4 in S. exact S. }
  assert (FR : fresh (fs_w s') = fresh w). { unfold fresh. destruct SO as (A1 & A2 & A3 & A4 & A5 & A6 & A7 & A8). congruence. }
  exists f, kind, x, p, r, k, v, e, vs. split; [exact H1|]. split; [exact H2|]. split; [exact H3|]. split.
  { exists (length (fs_pars s)), (fs_w s'), m. exact H4. }
  split; [exact H5|]. split; [exact H6|]. split; [exact H7|]. split.
  { rewrite H8, map_length. unfold np_linspace. destruct n as [|[|n]]; [reflexivity|reflexivity|]. now rewrite map_length, seq_length. }
  split.
  { intros j N2 J. rewrite H8, nth_error_map. destruct n as [|[|n]]; [lia|lia|]. unfold np_linspace. rewrite nth_error_map.
    rewrite (nth_error_nth' _ 0%nat) by (rewrite seq_length; exact J). rewrite seq_nth by exact J. cbn [option_map plus]. do 2 f_equal. replace (S (S n) - 1)%nat with (S n) by lia.
    replace (v + sigma * e - (v - sigma * e)) with (2 * sigma * e) by ring. reflexivity. }
  split; [|split; [reflexivity|exact SO]].
  symmetry in V. rewrite H11 in V. clear - V FR H5 H12 H13 H14 H15. revert vs V. induction points as [|pt pts IH]; intros vs V; cbn [map mapr] in V.
  - injection V as <-. constructor.
  - rewrite <- H12 in H5, H13, H14, H15.
    rewrite (scan_value E (fs_w s') p m pt pid kind k H13 H5 H14 H15) in V. rewrite FR, H12 in V.
    destruct (minimum_found E kind names [CFix pid] (upd k pt (p_values p)) false (fresh w)) as [y|er] eqn:Y; [|discriminate]. cbn [rbind] in V.
    destruct (mapr (task_value E) _) as [ys|er] eqn:YS; [|discriminate]. injection V as <-. constructor; [exact Y|]. apply IH; try congruence.
Qed.
Print Assumptions C51_scan.

(** ** A concrete scan.  The optimizer evaluates the objective once and reports the number of fixed
    parameters plus ten times the number of bounded ones as minimum. *)
Definition reports (args : minuit_args) : R :=
  INR (length (filter (fun b : bool => b) (ma_fix args)) + 10 * length (filter (fun b => match b with (None, None) => false | _ => true end) (ma_limit args))).
Definition ex_ext : ext := mk_ext
  (fun args => Ask (ma_start args) (fun _ => Stop (Ok (mk_mout (Fin (reports args)) (ma_start args) (map (fun _ => Fin 1) (ma_start args)) (Ok []) (Ok []) true))))
  (fun _ _ _ => Stop (Err RuntimeError)) (fun _ => Stop (Err RuntimeError)) (fun m => Ok m).
Lemma profile_pre_runs E i pid n sigma (fn : bool) s f kind x m p r v e hesse w1 st : nth_error (fs_fitters s) i = Some f -> minimizer_class (ft_id f) = Ok kind ->
  let w := fs_w s in let names := param_names w in
  (if fn then fix_all names (min_new kind names (length (fs_pars s))) (nui_ids w) else Ok (min_new kind names (length (fs_pars s)))) = Ok m -> m_params m = length (fs_pars s) ->
  nll_x0 w = Ok x -> play nll (minimize E x true (mk_mstate (pars_new names) m)) w = (w1, (st, Ok r)) -> ms_p st = p -> getitem p pid = Ok (Fin v, Fin e) ->
  get_hesse_approx p (r_fcn_min r) pid (map Fin (np_linspace (v - sigma * e) (v + sigma * e) n)) = Ok hesse ->
  exists s1 points tasks, profile_pre E i pid n sigma fn s = (s1, Ok (r_fcn_min r, points, hesse, tasks)).
Proof.
  intros F MC w names FA MP X PL SP GI HE. pose proof (minimize_keep E x true _ _ _ _ _ _ _ PL) as (K1 & K2 & _). pose proof (minimize_result nll _ _ _ _ _ _ _ _ PL) as RP. cbn [ms_m] in K2, RP.
  unfold profile_pre. unfold fbind at 1, get_fitter. rewrite F. unfold fbind at 1, fget at 1. unfold fbind at 1, fget at 1. fold w. fold names. unfold fbind at 1, new_minimizer. rewrite MC. fold w. fold names.
  unfold fbind at 1, flift at 1. rewrite FA. unfold fbind at 1, x0. cbn [fs_w]. rewrite X. unfold fbind at 1. rewrite min_from_last by exact MP. cbv zeta. rewrite PL. cbn [fst snd rmap].
  unfold fbind at 1, get_pars. cbn [fs_pars]. rewrite K2, MP, nth_error_app2, Nat.sub_diag by lia. cbn [nth_error]. rewrite SP.
  unfold fbind at 1, flift at 1. rewrite GI. cbn [fst snd]. unfold fbind at 1, flift at 1. cbn [xmul xsub xopp xadd xlinspace].
  replace (v + - (sigma * e)) with (v - sigma * e) by ring.
  unfold fbind at 1, get_pars. cbn [fs_pars]. rewrite RP, MP, nth_error_app2, Nat.sub_diag by lia. cbn [nth_error].
  unfold fbind at 1, flift at 1. rewrite HE. unfold fbind, fget, fret. eauto.
Qed.
Lemma ex_ext_runs {S} (fcn : list xr -> S -> S * res xr) x g p m fl w : m_fixed m = Flags fl -> length x = length (p_names p) ->
  let rep := Fin (reports (mk_margs x (map (xmul (Fin (5 / 100))) x) (1 / 2) fl (p_names p) (m_bounds m))) in
  play fcn (minimize ex_ext x g (mk_mstate p m)) w =
  (fst (fcn x w), (mk_mstate (mk_pars (p_names p) x (map (fun _ => Fin 1) x) [] []) (mk_min (m_params m) (m_fixed m) (m_bounds m) (Some rep) (Some true)), Ok (mk_mresult rep (m_params m) true))).
Proof.
  intros F L rep. unfold minimize, mbind at 1, mget. cbn [pbind ms_m]. rewrite F. unfold minimize_iminuit, mbind, mget, mplay, mset_fcn_min, mset_success, mpars, mlift. cbn [pbind ms_m ms_p ex_ext ex_minuit ma_start play mo_fval mo_values mo_errors mo_matrix mo_corr mo_valid].
  unfold set_values, num_pars. cbn [p_names]. rewrite L, Nat.eqb_refl. cbn [pbind ms_m ms_p p_names]. unfold set_errors, num_pars. cbn [p_names]. rewrite map_length, L, Nat.eqb_refl. cbn [pbind ms_m ms_p set_cov set_corr p_names p_values p_errors play m_params m_fixed m_bounds].
  rewrite F. reflexivity.
Qed.
Lemma ex_scan_gen : forall s f y n sigma sm c sch, nth_error (fs_fitters s) 0 = Some f -> ft_id f = "iminuit"%string ->
  let w := fs_w s in param_names w = ["s_yield"; "A_s_bin_0"; "A_s_bin_1"]%string -> w_procs w = ["s"%string] -> mct_num_nui w = 2%nat -> nll_x0 w = Ok (map Fin [y; 0; 0]) ->
  (0 < c)%nat -> exists sch' s' points values hesse, profile ex_ext 0 (PInt 0) c n sigma sm true (sch ++ sch') s = (s', Ok (points, values, hesse)) /\
    values = repeat (Fin (if sm then -1 else 1)) n.
Proof.
  intros s f y n sigma sm c sch F ID w N P K X C.
  assert (NUI : nui_ids w = [PInt 1; PInt 2]) by (unfold nui_ids; rewrite P, K; reflexivity).
  assert (PP : exists s1 points hesse tasks, profile_pre ex_ext 0 (PInt 0) n sigma true s = (s1, Ok (Fin 2, points, hesse, tasks))).
  { edestruct (profile_pre_runs ex_ext 0 (PInt 0) n sigma true s f IMinuit (map Fin [y; 0; 0])) as (s1 & points & tasks & H).
    - exact F. - rewrite ID. reflexivity. - fold w. rewrite NUI, N. reflexivity. - reflexivity. - exact X.
    - fold w. rewrite N. apply ex_ext_runs; reflexivity. - reflexivity. - reflexivity. - reflexivity.
    - cbn [r_fcn_min mo_fval] in H. replace (reports _) with 2 in H; [|unfold reports; simpl; ring]. eauto. }
  destruct PP as (s1 & points & hesse & tasks & PP).
  destruct (pool_completes ex_ext tasks c sch C) as (sch' & PC). destruct (imap_results (pl_done (pool_run ex_ext tasks (sch ++ sch') (pool_new tasks c)))) as [vs|] eqn:IR; [|congruence].
  apply pool_value in IR as IV. destruct (profile_pre_ok _ _ _ _ _ _ _ _ _ _ _ _ PP) as (f' & kind & x & p & m & r & k & v & e & H1 & H2 & H3 & H4 & H5 & H6 & H7 & H8 & H9 & H10 & H11 & H12 & H13 & H14 & H15).
  assert (kind = IMinuit) by (rewrite F in H1; injection H1 as <-; rewrite ID in H2; injection H2 as <-; reflexivity). subst kind.
  fold w in H5, H12, H13, H14, H15. rewrite N in H5, H12, H13, H14, H15. destruct H5 as (H5 & H5'). assert (k = 0%nat) by lia. subst k.
  assert (TV : Forall (fun t => task_value ex_ext t = Ok (Fin 1)) tasks).
  { rewrite H11. apply Forall_forall. intros t T. apply in_map_iff in T as (pt & <- & T).
    rewrite (scan_value ex_ext (fs_w s1) p m pt (PInt 0) IMinuit 0); try rewrite H12; auto; [|split; auto].
    destruct (p_values p) as [|v0 [|v1 [|v2 [|v3 vl]]]]; simpl in H13; try lia. cbn [upd]. unfold minimum_found. 
    erewrite ex_ext_runs by reflexivity. cbn [snd r_fcn_min]. replace (reports _) with 1; [reflexivity|]. unfold reports; simpl; ring. }
  assert (MV : mapr (task_value ex_ext) tasks = Ok (repeat (Fin 1) n)).
  { assert (L : length tasks = n). { rewrite H11, H8, !map_length. unfold np_linspace. destruct n as [|[|n]]; [reflexivity|reflexivity|]. now rewrite map_length, seq_length. }
    rewrite <- L. clear - TV. induction TV as [|t l T _ IH]; [reflexivity|]. cbn [mapr length repeat]. rewrite T. cbn [rbind]. rewrite IH. reflexivity. }
  exists sch'. exists s1, points. destruct sm.
  - exists (map (fun v => xsub v (Fin 2)) (repeat (Fin 1) n)), (map (fun v => xsub v (Fin 2)) hesse). split.
    + rewrite profile_eq, PP. unfold with_pool. destruct c as [|c]; [lia|]. cbn [Nat.eqb]. rewrite IR, IV, MV. reflexivity.
    + clear. induction n; [reflexivity|]. simpl. rewrite IHn. repeat f_equal. ring.
  - exists (repeat (Fin 1) n), hesse. split; [|reflexivity]. rewrite profile_eq, PP. unfold with_pool. destruct c as [|c]; [lia|]. cbn [Nat.eqb]. rewrite IR, IV, MV. reflexivity.
Qed.

(** ** C52 *)
(** Every scan value is the outcome (or NaN, if minimize raised RuntimeError) of an optimizer run in which the
    scanned parameter is fixed at the scan point, and which depends on no other configuration: neither on
    fix_nui_params nor on set_parameter_fixed / set_parameter_bounds. *)
Lemma minuit_minimum E names pid k x g w y : resolves names pid k ->
  minimum_found E IMinuit names [CFix pid] x g w = Ok y ->
  let args := mk_margs x (map (xmul (Fin (5 / 100))) x) (1 / 2) (upd k true (repeat false (length names))) names (repeat (None, None) (length names)) in
  y = NaN \/ exists o, snd (play nll (ex_minuit E args) w) = Ok o /\ y = mo_fval o.
Proof.
  intros R H args. apply resolve_iff in R. unfold minimum_found in H. unfold min_new in H. cbn [calls fold_left call] in H. unfold set_param_fixed in H. rewrite R in H. cbn [fst m_fixed m_params m_bounds m_fcn_min m_success] in H.
  unfold minimize, mbind at 1, mget in H. cbn [pbind ms_m m_fixed] in H. unfold minimize_iminuit, mbind, mget, mplay in H. cbn [pbind ms_m ms_p m_fixed m_bounds pars_new p_names] in H.
  fold args in H. rewrite !play_pbind in H. destruct (play nll (ex_minuit E args) w) as (w1 & [o|er]); cbn [fst snd play pbind] in *.
  - unfold mset_fcn_min, mpars, set_values, set_errors, set_cov, set_corr, mlift, mset_success in H. cbn [pbind ms_m ms_p m_params m_fixed m_bounds m_success] in H.
    destruct (Nat.eqb _ _); cbn [pbind play snd ms_m ms_p] in H; [|discriminate]. destruct (Nat.eqb _ _); cbn [pbind play snd ms_m ms_p] in H; [|discriminate].
    destruct (mo_matrix o) as [c|er]; cbn [pbind ms_m ms_p] in H; [|destruct er; cbn [play snd] in H; try discriminate; left; congruence].
    destruct (mo_corr o) as [c'|er]; cbn [pbind ms_m ms_p] in H; [|destruct er; cbn [play snd] in H; try discriminate; left; congruence].
    right. exists o. split; [reflexivity|]. cbn [play snd r_fcn_min] in H. congruence.
  - destruct er; try discriminate; left; congruence.
Qed.
Lemma f2_impl {A B} (P Q : A -> B -> Prop) l l' : (forall a b, P a b -> Q a b) -> Forall2 P l l' -> Forall2 Q l l'.
Proof. intros H. induction 1; constructor; auto. Qed.
Theorem C52_scan_runs_partial : forall E i pid c n sigma sm fn sch s s' points values hesse f,
  profile E i pid c n sigma sm fn sch s = (s', Ok (points, values, hesse)) ->
  nth_error (fs_fitters s) i = Some f -> lower (ft_id f) = "iminuit"%string ->
  let w := fs_w s in let names := param_names w in
  exists k nominal minimum raw, resolves names pid k /\ length nominal = length names /\
    Forall2 (fun pt y => exists args,
        ma_start args = upd k pt nominal /\
        (forall j, nth_error (ma_fix args) j = Some true <-> j = k) /\
        ma_limit args = repeat (None, None) (length names) /\
        (y = NaN \/ exists o, snd (play nll (ex_minuit E args) (fresh w)) = Ok o /\ y = mo_fval o)) points raw /\
    values = (if sm then map (fun y => xsub y minimum) raw else raw).
Proof.
  intros E i pid c n sigma sm fn sch s s' points values hesse f H F ID w names.
  destruct (C51_scan _ _ _ _ _ _ _ _ _ _ _ _ _ _ H) as (f' & kind & x & p & r & k & v & e & raw & H1 & H2 & H3 & H4 & H5 & H6 & H7 & H8 & H9 & H10 & H11 & _).
  assert (f' = f) by congruence. subst f'. unfold minimizer_class in H2. rewrite ID in H2. cbn in H2. injection H2 as <-.
  exists k, (p_values p), (r_fcn_min r), raw. split; [exact H5|]. split.
  { destruct H4 as (a & w' & m & H4). pose proof (minimize_keep E x true _ _ _ _ _ _ _ H4) as (K1 & K2 & K3 & K4 & K5 & K6). cbn [ms_p pars_new p_names p_values] in K5. rewrite repeat_length in K5. apply K5. reflexivity. }
  split; [|exact H11]. pose proof (resolves_lt _ _ _ H5) as KL. eapply f2_impl; [|exact H10]. intros pt y Y. eapply minuit_minimum in Y; [|exact H5].
  eexists. split; [|split; [|split; [|exact Y]]]; [reflexivity| |reflexivity]. cbn [ma_fix]. intros j. split.
  - intros J. apply upd_some in J as [(<- & _)|(_ & J)]; [reflexivity|]. apply nth_error_In, repeat_spec in J. discriminate.
  - intros ->. apply upd_same. rewrite repeat_length. exact KL.
Qed.
Print Assumptions C52_scan_runs_partial.
(** Hence fixed nuisance parameters, set_parameter_fixed and set_parameter_bounds are not respected.  With
    fix_nui_params=True, parameter 1 fixed and parameter 2 bounded, three parameters should be fixed and one
    bounded at every point of a scan of parameter 0; an optimizer that returns the number of fixed parameters
    plus ten times the number of bounded ones finds 1 at every point. *)
Lemma C52_gen : forall inv l0 n sigma c, inv_spec inv -> num_fitters l0 = 0%nat -> (0 < c)%nat ->
  let l := [FFixed 0 (PInt 1); FBounds 0 (PInt 2) (Some 0, Some 1)] in
  let s := freached inv (l0 ++ FNew "iminuit" :: l) in let w := fs_w s in three inv l0 (FNew "iminuit" :: l) ->
  requested_fixed w l 0 true 1 /\ requested_fixed w l 0 true 2 /\ last_bounds (param_names w) l 0 2 (Some 0, Some 1) /\
  exists sch s' points values hesse, profile ex_ext 0 (PInt 0) c n sigma false true sch s = (s', Ok (points, values, hesse)) /\ values = repeat (Fin 1) n.
Proof.
  intros inv l0 n sigma c I NF C l s w (y & N & P & K & X). fold s in N, P, K, X. fold w in N, P, K, X.
  assert (NU : mct_num_nui w = 2%nat). { destruct (names_length inv (l0 ++ FNew "iminuit" :: l) I) as (NL & _). fold s w in NL. rewrite N, P in NL. simpl in NL. lia. }
  assert (IN : forall k, (1 <= k < 3)%nat -> requested_fixed w l 0 true k). { intros k J. left. split; [reflexivity|]. unfold is_nuisance. rewrite P, K. simpl. lia. }
  split; [apply IN; lia|]. split; [apply IN; lia|]. split.
  { exists [FFixed 0 (PInt 1)], (PInt 2), []. split; [reflexivity|]. split; [rewrite N; split; [reflexivity|simpl; lia]|intros ? ? []]. }
  destruct (fitter_created inv l0 "iminuit" l) as (f & F1 & F2 & _). rewrite NF in F1. fold s in F1.
  destruct (ex_scan_gen s f y n sigma false c [] F1 F2 N P NU X C) as (sch & s' & points & values & hesse & H & HV). cbn [app] in H. eauto 7.
Qed.
Theorem C52_requests_ignored_refuted : forall inv n sigma c, inv_spec inv -> (0 < c)%nat ->
  let l := [FFixed 0 (PInt 1); FBounds 0 (PInt 2) (Some 0, Some 1)] in
  let s := freached inv (map FOp ex_fit ++ FNew "iminuit" :: l) in let w := fs_w s in
  requested_fixed w l 0 true 1 /\ requested_fixed w l 0 true 2 /\ last_bounds (param_names w) l 0 2 (Some 0, Some 1) /\
  exists sch s' points values hesse, profile ex_ext 0 (PInt 0) c n sigma false true sch s = (s', Ok (points, values, hesse)) /\ values = repeat (Fin 1) n.
Proof.
  intros inv n sigma c I C l s w. apply C52_gen; [exact I|reflexivity|exact C|]. apply (ex_fit_config inv (FNew "iminuit" :: l)). repeat constructor.
Qed.
Print Assumptions C52_requests_ignored_refuted.

(** ** C53.  The Hesse approximation at x = v + t e, where v +- e is the fitted value: t^2/2 above the minimum
    found by the nominal fit (or above 0 with subtract_min), if e is not zero and the minimum is finite. *)
Theorem C53_parabola : forall E i pid c n sigma sm fn sch s s' points values hesse,
  profile E i pid c n sigma sm fn sch s = (s', Ok (points, values, hesse)) ->
  let w := fs_w s in
  exists f kind x p r k v e,
    nth_error (fs_fitters s) i = Some f /\ minimizer_class (ft_id f) = Ok kind /\ nll_x0 w = Ok x /\ nominal_fit E kind fn w x p r /\
    resolves (param_names w) pid k /\ nth_error (p_values p) k = Some (Fin v) /\ nth_error (p_errors p) k = Some (Fin e) /\
    (forall m, r_fcn_min r = Fin m -> e <> 0 ->
      Forall2 (fun pt h => exists t, pt = Fin (v + t * e) /\ h = Fin ((if sm then 0 else m) + t * t / 2)) points hesse) /\
    (* an uncertainty of 0: no parabola, all points are v and all values are NaN *)
    (e = 0 -> Forall2 (fun pt h => pt = Fin v /\ h = NaN) points hesse).
Proof.
  intros E i pid c n sigma sm fn sch s s' points values hesse H w. rewrite profile_eq in H.
  destruct (profile_pre E i pid n sigma fn s) as (s1 & [(((minimum & pts) & hs) & tasks)|er]) eqn:P; [|discriminate]. unfold with_pool in H. destruct (Nat.eqb c 0); [discriminate|].
  destruct (imap_results _) as [[vs|er]|] eqn:V; try discriminate. assert (Q : profile_post sm minimum pts hs vs = (points, values, hesse)) by congruence. clear H.
  destruct (profile_pre_ok _ _ _ _ _ _ _ _ _ _ _ _ P) as (f & kind & x & p & m & r & k & v & e & H1 & H2 & H3 & H4 & H5 & H6 & H7 & H8 & H9 & H10 & H11 & H12 & H13 & H14 & H15).
  fold w in H3, H4, H5, H12, H13, H14, H15.
  assert (QQ : pts = points /\ hesse = if sm then map (fun y => xsub y (r_fcn_min r)) hs else hs).
  { unfold profile_post in Q. subst minimum. destruct sm; injection Q as <- <- <-; auto. }
  destruct QQ as (-> & ->). unfold get_hesse_approx, get_param_value, param_id_to_index in H10. pose proof H5 as H5'. rewrite <- H12 in H5'. apply resolve_iff in H5'. rewrite H5' in H10. cbn [rbind] in H10. unfold at_ in H10. rewrite H6, H7 in H10. cbn [rbind] in H10. apply (f_equal (fun q => match q with Ok a => a | Err _ => [] end)) in H10. cbv beta iota in H10. subst hs.
  exists f, kind, x, p, r, k, v, e. split; [exact H1|]. split; [exact H2|]. split; [exact H3|]. split; [exists (length (fs_pars s)), (fs_w s1), m; exact H4|].
  split; [exact H5|]. split; [exact H6|]. split; [exact H7|].
  assert (SH : (if sm then map (fun y => xsub y (r_fcn_min r)) (map (fun x => xadd (xmul (xmul (Fin (1 / 2)) (xsq (xdiv (Fin 1) (Fin e)))) (xsq (xsub x (Fin v)))) minimum) points)
     else map (fun x => xadd (xmul (xmul (Fin (1 / 2)) (xsq (xdiv (Fin 1) (Fin e)))) (xsq (xsub x (Fin v)))) minimum) points) =
     map (fun x => let h := xadd (xmul (xmul (Fin (1 / 2)) (xsq (xdiv (Fin 1) (Fin e)))) (xsq (xsub x (Fin v)))) minimum in if sm then xsub h (r_fcn_min r) else h) points) by (destruct sm; [apply map_map|reflexivity]).
  rewrite SH. clear SH. assert (PF : Forall (fun pt => exists z, pt = Fin z /\ (e = 0 -> z = v)) points).
  { rewrite H8. apply Forall_forall. intros pt T. apply in_map_iff in T as (z & <- & T). exists z. split; [reflexivity|]. intros ->. rewrite Rmult_0_r, Rplus_0_r, Rminus_0_r in T. clear - T.
    unfold np_linspace in T. destruct n as [|[|n]]; [destruct T|destruct T as [<-|[]]; reflexivity|]. apply in_map_iff in T as (j & <- & _). unfold Rdiv. rewrite Rminus_diag_eq by reflexivity. ring. }
  clear - PF H9. split.
  - intros mm MM E0. subst minimum. rewrite MM. induction PF as [|pt l (z & -> & _) _ IH]; [constructor|]. cbn [map]. constructor; [|exact IH]. exists ((z - v) / e). split; [f_equal; field; exact E0|].
    unfold xsq, xdiv, Reqb. destruct (Req_EM_T e 0); [contradiction|]. cbn. destruct sm; f_equal; field; exact E0.
  - intros ->. induction PF as [|pt l (z & -> & Z) _ IH]; [constructor|]. cbn [map]. constructor; [|exact IH]. specialize (Z eq_refl). subst z. split; [reflexivity|].
    unfold xsq, xdiv, Reqb. destruct (Req_EM_T 0 0) as [_|C]; [|congruence]. destruct (Req_EM_T 1 0) as [C|_]; [lra|]. cbn. unfold xinf, xinf_mul, Rltb, Reqb.
    destruct (Rlt_dec 1 0); [lra|]. cbn. unfold xinf_mul, Reqb, Rltb. destruct (Req_EM_T (1 / 2) 0); [lra|]. destruct (Rlt_dec (1 / 2) 0); [lra|]. cbn. 
    unfold xinf_mul, Reqb. destruct (Req_EM_T _ 0) as [_|C]; [|exfalso; apply C; ring]. destruct sm; reflexivity.
Qed.
Print Assumptions C53_parabola.
