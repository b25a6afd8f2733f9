(** Property C110: the covariance matrix of a fit with fixed parameters, and the post-fit uncertainties calculated from it. *)
From Coq Require Import Reals String ZArith Bool Arith List Lra Lia.
From Verif Require Import Model_Num Model_Hist Model_Utility Model_Template Model_World Model_Ops Model_Plot Model_Minimizer Model_Fitter
  Spec_Hist Spec_Matrix Spec_Min Spec_World Spec_Nll Spec_Stale Spec_Fit Spec_Plot Spec_PostFit Proof_HistHeap Proof_Matrix Proof_Utility Proof_Eval Proof_Route Proof_Min Proof_Fit Proof_Fit2 Proof_Fit3 Proof_Names
  Proof_Plot Proof_Plot2 Proof_Plot3 Prop_World Prop_Minimizer Prop_Fitter Prop_Plot Prop_Stale.
Import ListNotations.
Local Open Scope R_scope.

Lemma play_may {S A} (fcn : list xr -> S -> S * res xr) (p : prog A) : forall w, may_return p (snd (play fcn p w)).
Proof. induction p as [a|x k IH]; intros w; cbn [play may_return snd]; [reflexivity|]. eexists. apply IH. Qed.

(** what a successful IMinuitMinimizer.minimize stores *)
Lemma iminuit_success {S} (fcn : list xr -> S -> S * res xr) E x g p m f w w1 st r : m_fixed m = Flags f ->
  play fcn (minimize E x g (mk_mstate p m)) w = (w1, (st, Ok r)) ->
  exists o c, may_return (ex_minuit E (minuit_start x f (p_names p) (m_bounds m))) (Ok o) /\ mo_matrix o = Ok c /\
    p_values (ms_p st) = mo_values o /\ p_errors (ms_p st) = mo_errors o /\ p_cov (ms_p st) = c /\ length (mo_values o) = length (p_names p).
Proof.
  intros MF. unfold minimize, mbind, mget. cbn [pbind ms_m]. rewrite MF.
  unfold minimize_iminuit, mbind, mget, mplay. cbn [pbind ms_m ms_p]. rewrite pbind_assoc, play_pbind.
  change (mk_margs x (map (xmul (Fin (5 / 100))) x) (1 / 2) f (p_names p) (m_bounds m)) with (minuit_start x f (p_names p) (m_bounds m)).
  pose proof (play_may fcn (ex_minuit E (minuit_start x f (p_names p) (m_bounds m))) w) as MR.
  destruct (play fcn (ex_minuit E _) w) as (w2 & [o|e]); cbn [snd] in MR; [|discriminate].
  cbn [pbind]. unfold mset_fcn_min. cbn [pbind ms_m ms_p]. unfold mpars at 1. cbn [ms_p ms_m]. unfold set_values, num_pars.
  destruct (Nat.eqb_spec (length (mo_values o)) (length (p_names p))) as [LV|]; cbn [pbind play]; [|discriminate].
  unfold mpars at 1. cbn [ms_p ms_m]. unfold set_errors, num_pars. cbn [p_names].
  destruct (Nat.eqb_spec (length (mo_errors o)) (length (p_names p))) as [LE|]; cbn [pbind play]; [|discriminate].
  unfold mlift at 1. destruct (mo_matrix o) as [c|e] eqn:CM; cbn [pbind play]; [|discriminate].
  unfold mpars at 1. cbn [ms_p ms_m set_cov pbind]. unfold mlift at 1. destruct (mo_corr o) as [q|e]; cbn [pbind play]; [|discriminate].
  unfold mpars. cbn [ms_p ms_m set_corr pbind]. unfold mset_success, mlift. cbn [pbind play ms_m ms_p]. intros [= <- <- <-].
  exists o, c. cbn [ms_p p_values p_errors p_cov]. auto 10.
Qed.

Lemma fst_on_world_pars {A} (m : M A) s : fs_pars (fst (on_world m s)) = fs_pars s.
Proof. unfold on_world. destruct (m (fs_w s)). reflexivity. Qed.

Lemma filter_seq_sorted f n : forall a i j, (i < j < length (filter f (seq a n)))%nat ->
  (nth i (filter f (seq a n)) 0 < nth j (filter f (seq a n)) 0)%nat.
Proof.
  induction n as [|n IH]; intros a i j H; cbn [seq filter] in *; [cbn in H; lia|].
  destruct (f a); [|apply IH; exact H]. cbn [length] in H. destruct i as [|i], j as [|j]; cbn [nth]; try lia.
  - assert (IN : In (nth j (filter f (seq (S a) n)) 0%nat) (filter f (seq (S a) n))) by (apply nth_In; lia).
    apply filter_In in IN as (IN & _). apply in_seq in IN. lia.
  - apply IH. lia.
Qed.

(** ** A successful fit with the iminuit minimizer of a fitter created by TemplateFitter(templates, id) after the calls l0
    and used after the calls l: the row r of the covariance matrix of the result belongs to the r-th parameter that is not
    fixed, not to parameter r, and the matrix has num_params - (number of fixed parameters) rows and columns. *)
Theorem C110_rows_refuted : forall inv l0 id l x E cov u g n lim s' r, inv_spec inv -> lower id = "iminuit"%string ->
  let s := freached inv (l0 ++ FNew id :: l) in let i := num_fitters l0 in let w := fs_w s in
  all_resolve (param_names w) l i -> nll_x0 w = Ok x -> skips_fixed cov (ex_minuit E) ->
  do_fit E i u g n lim s = (s', Ok r) ->
  exists rp o free, nth_error (fs_pars s') (r_params r) = Some rp /\
    enumerates free (fun k => (k < num_params w)%nat /\ ~ requested_fixed w l i n k) /\
    length (p_values rp) = num_params w /\ p_values rp = mo_values o /\ p_errors rp = mo_errors o /\
    p_cov rp = map (fun a => map (cov o a) free) free.
Proof.
  intros inv l0 id l x E cov u g n lim s' r I ID s i w AR Hx SK DF.
  assert (Hk : minimizer_class id = Ok IMinuit) by (unfold minimizer_class; rewrite ID; reflexivity).
  pose proof (starts_eq inv l0 id l x I AR Hx IMinuit E u g n lim Hk) as SE. fold s i in SE. rewrite SE in DF. clear SE.
  destruct (names_length inv (l0 ++ FNew id :: l) I) as (_ & N). fold s w in N.
  unfold run_min in DF. fold w in DF. set (names := param_names w) in *. set (cl := the_calls inv l0 id l n lim) in *.
  set (a := length (fs_pars s)) in *. set (m := calls names (min_new IMinuit names a) cl) in *.
  pose proof (agrees_calls names [] _ cl (agrees_new IMinuit names a)) as (_ & _ & FX). fold m in FX. cbn [app] in FX.
  pose proof (calls_kind names (min_new IMinuit names a) cl) as KD. fold m in KD. cbn in KD. destruct (m_fixed m) as [fl|fl] eqn:MF; [|destruct KD].
  destruct FX as (LF & FX).
  destruct (play nll (minimize E x g (mk_mstate (pars_new names) m)) w) as (w1 & st & rr) eqn:PL. unfold after_min in DF. fold s in DF.
  destruct rr as [r0|e]; [|discriminate].
  pose proof (minimize_result nll _ _ _ _ _ _ _ _ PL) as RP. cbn [ms_m] in RP. unfold m in RP. rewrite calls_params in RP. cbn [min_new m_params] in RP.
  destruct (iminuit_success nll E x g (pars_new names) m fl w w1 st r0 MF PL) as (o & c & MR & MM & V1 & V2 & V3 & V4).
  cbn [pars_new p_names] in MR, V4. pose proof (SK _ o c MR MM) as EC.
  exists (ms_p st), o, (Spec_PostFit.free (minuit_start x fl names (m_bounds m))). split; [|split; [|split; [|split; [|split]]]].
  - unfold fbind in DF. destruct u.
    + pose proof (fst_on_world_pars (update_parameters (p_values (ms_p st))) (mk_fstate w1 (fs_pars s ++ [ms_p st]) (fs_fitters s))) as FP.
      destruct (on_world _ _) as (s1 & [v|e]); [|discriminate]. injection DF as <- <-. cbn [fst fs_pars] in FP. rewrite FP, RP.
      rewrite nth_error_app2 by lia. rewrite Nat.sub_diag. reflexivity.
    + cbn in DF. injection DF as <- <-. cbn [fs_pars]. rewrite RP. rewrite nth_error_app2 by lia. rewrite Nat.sub_diag. reflexivity.
  - split; [|apply filter_seq_sorted]. intros k. unfold Spec_PostFit.free. rewrite filter_In, in_seq. cbn [minuit_start ma_fix ma_name]. rewrite N.
    assert (Q : (k < num_params w)%nat -> nth k fl false = true <-> requested_fixed w l i n k).
    { intros K. pose proof (calls_fixed inv l0 id l lim n k I) as CF. cbv zeta in CF. fold s w i names cl in CF. rewrite <- CF. rewrite <- FX by lia.
      assert (LK : (k < length fl)%nat) by (rewrite LF; lia). rewrite (nth_error_nth' fl false LK). split; congruence. }
    split.
    + intros (K & B). assert (K1 : (k < num_params w)%nat) by lia. split; [exact K1|]. intros RF. apply (Q K1) in RF. rewrite RF in B. discriminate.
    + intros (K & B). split; [lia|]. destruct (nth k fl false) eqn:F; [|reflexivity]. exfalso. apply B. apply (Q K). reflexivity.
  - rewrite V1, V4. exact N.
  - exact V1.
  - exact V2.
  - congruence.
Qed.
Print Assumptions C110_rows_refuted.

Lemma enumerates_tl h t a n : enumerates (h :: t) (fun k => (a <= k < a + S n)%nat) -> h = a /\ enumerates t (fun k => (S a <= k < S a + n)%nat).
Proof.
  intros (IN & SO).
  assert (HA : (a <= h < a + S n)%nat) by (apply IN; left; reflexivity).
  assert (LT : forall k, In k t -> (h < k)%nat).
  { intros k K. apply (In_nth _ _ 0%nat) in K as (j & J & <-). apply (SO 0%nat (S j)). cbn [length]. lia. }
  assert (h = a). { destruct (proj2 (IN a)) as [E|K]; [lia|exact E|]. apply LT in K. lia. } subst h. split; [reflexivity|]. split.
  - intros k. split.
    + intros K. pose proof (LT k K). pose proof (proj1 (IN k) (or_intror K)). lia.
    + intros K. destruct (proj2 (IN k)) as [E|Q]; [lia|lia|exact Q].
  - intros i j H. apply (SO (S i) (S j)). cbn [length]. lia.
Qed.
Lemma enumerates_seq n : forall l a, enumerates l (fun k => (a <= k < a + n)%nat) -> l = seq a n.
Proof.
  induction n as [|n IH]; intros l a H.
  - destruct l as [|h t]; [reflexivity|]. destruct (proj1 (proj1 H h) (or_introl eq_refl)). lia.
  - destruct l as [|h t]; [exfalso; apply (proj2 (proj1 H a)); lia|]. apply enumerates_tl in H as (-> & H). cbn [seq]. f_equal. apply IH. exact H.
Qed.
Lemma enumerates_short l n k : (forall j, In j l -> (j < n)%nat) -> (forall i j, (i < j < length l)%nat -> (nth i l 0 < nth j l 0)%nat) ->
  (k < n)%nat -> ~ In k l -> (length l < n)%nat.
Proof.
  intros B SO K NK.
  assert (ND : NoDup (k :: l)).
  { constructor; [exact NK|]. apply (NoDup_nth l 0%nat). intros i j Hi Hj E. destruct (Nat.lt_trichotomy i j) as [L|[L|L]]; [|exact L|].
    - pose proof (SO i j). lia.
    - pose proof (SO j i). lia. }
  assert (IC : incl (k :: l) (seq 0 n)). { intros j [<-|J]; apply in_seq; [lia|]. specialize (B j J). lia. }
  apply (NoDup_incl_length ND) in IC. cbn [length] in IC. rewrite seq_length in IC. lia.
Qed.

(** If no parameter is fixed, the matrix is the covariance matrix of all the parameters (as C78 needs it). *)
Theorem C110_all_free : forall inv l0 id l x E cov u g n lim s' r, inv_spec inv -> lower id = "iminuit"%string ->
  let s := freached inv (l0 ++ FNew id :: l) in let i := num_fitters l0 in let w := fs_w s in
  all_resolve (param_names w) l i -> nll_x0 w = Ok x -> skips_fixed cov (ex_minuit E) ->
  do_fit E i u g n lim s = (s', Ok r) ->
  (forall k, ~ requested_fixed w l i n k) ->
  exists rp o, nth_error (fs_pars s') (r_params r) = Some rp /\ p_values rp = mo_values o /\ length (p_values rp) = num_params w /\
    length (p_cov rp) = num_params w /\
    forall a b, (a < num_params w)%nat -> (b < num_params w)%nat -> mnth (p_cov rp) a b = cov o a b.
Proof.
  intros inv l0 id l x E cov u g n lim s' r I ID s i w AR Hx SK DF NF.
  destruct (C110_rows_refuted inv l0 id l x E cov u g n lim s' r I ID AR Hx SK DF) as (rp & o & fr & A1 & A2 & A3 & A4 & _ & A5).
  fold s i w in A2, A3.
  assert (FR : fr = seq 0 (num_params w)).
  { apply enumerates_seq. destruct A2 as (A2 & A2'). split; [|exact A2']. intros k. rewrite A2. pose proof (NF k). split; [intros (? & ?); lia|]. intros K. split; [lia|auto]. }
  exists rp, o. split; [exact A1|]. split; [exact A4|]. split; [exact A3|]. rewrite A5, FR. split; [rewrite map_length, seq_length; reflexivity|].
  intros a b Ha Hb. unfold mnth. rewrite (nth_indep _ [] (map (cov o (num_params w)) (seq 0 (num_params w)))) by (rewrite map_length, seq_length; exact Ha).
  rewrite (map_nth (fun a => map (cov o a) (seq 0 (num_params w)))). rewrite seq_nth by exact Ha.
  unfold vnth. rewrite (nth_indep _ _ (cov o (0 + a)%nat 0%nat)) by (rewrite map_length, seq_length; exact Hb).
  rewrite (map_nth (cov o (0 + a)%nat)), seq_nth by exact Hb. reflexivity.
Qed.
Print Assumptions C110_all_free.

(** ** The uncertainties calculated from such a matrix *)
(** get_post_fit_bin_uncertainty with a covariance matrix of another shape than the parameters raises ValueError (in
    [jac @ covariance]); the plot is left with the stack drawn, without uncertainties and without data. *)
Theorem C110_shape : forall jac inv l x name cid c view es (v : nat -> nat -> R) rp m V, inv_spec inv -> templates_then_used l ->
  let w := reached inv l in let np := num_params w in let n := v_nb view in
  one_channel w name cid c -> c_dim c = Some 1%nat -> describes w x 0 view -> (0 < n)%nat -> c_tmpls c <> [] ->
  (forall k, (k < v_nt view)%nat -> v_total view k <> 0) ->
  valid_edges es -> length es = S n ->
  on_templates w c (fun k t h => h_edges h = [mk_edges false es] /\ t_values t = Ok (vec_of n (v k))) ->
  p_values rp = vec_of np x -> length (p_cov rp) = m -> (forall row, In row (p_cov rp) -> length row = V) -> (m <> np \/ (0 < m)%nat /\ V <> np) ->
  exists w' layers, plot_post_fit_stacked_on jac cid rp UPropagate w = ((w', [DHist layers es]), PErr (Py ValueError)).
Proof.
  intros jac inv l x name cid c view es v rp m V I B w np n (CH & CC & PO) D DE N0 NE TN VE LE T PV LC RL NSQ.
  assert (NT : v_nt view = length (c_tmpls c)).
  { destruct DE as (n0 & c0 & (cid0 & E1 & E2) & _ & NT & _). rewrite CH in E1. injection E1 as _ <-. congruence. }
  assert (NT0 : (0 < v_nt view)%nat) by (rewrite NT; destruct (c_tmpls c); [congruence|simpl; lia]).
  destruct (C61_bin_counts_partial inv l x name cid c view I B CH CC PO DE N0 NT0 TN) as (w' & E). fold w np n in E.
  apply (post_fit_fails jac w cid c es n v rp UPropagate (Py ValueError) CC D NE VE LE T). exists w'. unfold post_fit_errors.
  rewrite (pbind_ok _ _ w w' [] (vec_of n (expected view))) by (unfold pm; rewrite PV, E; reflexivity). cbv zeta.
  rewrite PV, vec_of_length.
  assert (SQ : square np (p_cov rp) = false).
  { destruct (square np (p_cov rp)) eqn:SQ; [|reflexivity]. exfalso. unfold square in SQ. apply andb_prop in SQ as (S1 & S2). apply Nat.eqb_eq in S1.
    destruct NSQ as [N|(M & N)]; [congruence|]. destruct (p_cov rp) as [|row rest] eqn:PC; [cbn in LC; lia|].
    unfold rows_ok in S2. cbn [forallb] in S2. apply andb_prop in S2 as (S2 & _). apply Nat.eqb_eq in S2. apply N. rewrite <- S2. symmetry. apply RL. left. reflexivity. }
  rewrite SQ.
  assert (RE : rectangular (p_cov rp) = true).
  { unfold rectangular. destruct (p_cov rp) as [|row rest]; [reflexivity|]. apply forallb_forall. intros q Q. apply Nat.eqb_eq.
    rewrite (RL q), (RL row); [reflexivity|left; reflexivity|right; exact Q]. }
  rewrite RE. reflexivity.
Qed.
Print Assumptions C110_shape.

(** Hence, after a fit in which some parameter is fixed (by set_parameter_fixed or fix_nui_params=True), the post-fit plot
    with bin_uncertainty "propagate" raises ValueError, in every state w2 of the same templates. *)
Theorem C110_fixed_refuted : forall jac inv l0 id l x E cov u g n lim s' r k l2 y name cid c view es (v : nat -> nat -> R), inv_spec inv -> lower id = "iminuit"%string ->
  let s := freached inv (l0 ++ FNew id :: l) in let i := num_fitters l0 in let w := fs_w s in
  all_resolve (param_names w) l i -> nll_x0 w = Ok x -> skips_fixed cov (ex_minuit E) ->
  do_fit E i u g n lim s = (s', Ok r) ->
  requested_fixed w l i n k ->
  let w2 := reached inv l2 in let nb := v_nb view in
  templates_then_used l2 -> num_params w2 = num_params w ->
  one_channel w2 name cid c -> c_dim c = Some 1%nat -> describes w2 y 0 view -> (0 < nb)%nat -> c_tmpls c <> [] ->
  (forall k, (k < v_nt view)%nat -> v_total view k <> 0) ->
  valid_edges es -> length es = S nb ->
  on_templates w2 c (fun k t h => h_edges h = [mk_edges false es] /\ t_values t = Ok (vec_of nb (v k))) ->
  exists rp, nth_error (fs_pars s') (r_params r) = Some rp /\ (length (p_cov rp) < num_params w2)%nat /\
    (p_values rp = vec_of (num_params w2) y ->
     exists w3 layers, plot_post_fit_stacked_on jac cid rp UPropagate w2 = ((w3, [DHist layers es]), PErr (Py ValueError))).
Proof.
  intros jac inv l0 id l x E cov u g n lim s' r k l2 y name cid c view es v I ID s i w AR Hx SK DF RF w2 nb B NP OC D DE N0 NE TN VE LE T.
  destruct (C110_rows_refuted inv l0 id l x E cov u g n lim s' r I ID AR Hx SK DF) as (rp & o & fr & A1 & A2 & A3 & A4 & _ & A5).
  fold s i w in A2, A3.
  assert (KL : (k < num_params w)%nat).
  { destruct RF as [(_ & Q)|(p & _ & R)]; [unfold is_nuisance in Q; lia|]. apply resolves_lt in R.
    destruct (names_length inv (l0 ++ FNew id :: l) I) as (_ & N). fold s w in N. lia. }
  assert (SH : (length (p_cov rp) < num_params w)%nat).
  { rewrite A5, map_length. apply (enumerates_short fr (num_params w) k); [intros j J; apply A2 in J as (J & _); exact J|apply A2|exact KL|].
    intros J. apply A2 in J as (_ & J). exact (J RF). }
  exists rp. split; [exact A1|]. split; [lia|]. intros PV.
  apply (C110_shape jac inv l2 y name cid c view es v rp (length (p_cov rp)) (length fr) I B OC D DE N0 NE TN VE LE T PV eq_refl).
  - intros row RW. rewrite A5 in RW. apply in_map_iff in RW as (q & <- & _). apply map_length.
  - left. fold w2. lia.
Qed.
Print Assumptions C110_fixed_refuted.

(** ** scipy without get_hesse: the covariance matrix of the result is zero *)
Lemma scipy_success {S} (fcn : list xr -> S -> S * res xr) E x p m f w w1 st r : m_fixed m = Indices f ->
  play fcn (minimize E x false (mk_mstate p m)) w = (w1, (st, Ok r)) ->
  p_errors (ms_p st) = p_errors p /\ p_cov (ms_p st) = p_cov p.
Proof.
  intros MF. unfold minimize, mbind, mget. cbn [pbind ms_m]. rewrite MF.
  unfold minimize_scipy, mbind, mget, mplay. cbn [pbind ms_m]. rewrite pbind_assoc, play_pbind.
  destruct (play fcn (ex_slsqp E _ _ _) w) as (w2 & [o|e]); [|discriminate].
  cbn [pbind]. unfold mset_success. cbn [pbind ms_m ms_p]. destruct (oo_success o); [|discriminate].
  unfold mpars at 1. cbn [ms_p ms_m]. unfold set_values, num_pars.
  destruct (Nat.eqb_spec (length (oo_x o)) (length (p_names p))) as [LV|]; cbn [pbind play]; [|discriminate].
  unfold mset_fcn_min, mlift. cbn [pbind play ms_m ms_p]. intros [= <- <- <-]. auto.
Qed.
Theorem C110_scipy_zero : forall inv l0 id l x E u n lim s' r, inv_spec inv -> lower id = "scipy"%string ->
  let s := freached inv (l0 ++ FNew id :: l) in let i := num_fitters l0 in let w := fs_w s in
  all_resolve (param_names w) l i -> nll_x0 w = Ok x ->
  do_fit E i u false n lim s = (s', Ok r) ->
  exists rp, nth_error (fs_pars s') (r_params r) = Some rp /\
    p_errors rp = vec_of (num_params w) (fun _ => 0) /\ p_cov rp = mat_of (num_params w) (fun _ _ => 0).
Proof.
  intros inv l0 id l x E u n lim s' r I ID s i w AR Hx DF.
  assert (Hk : minimizer_class id = Ok Scipy) by (unfold minimizer_class; rewrite ID; reflexivity).
  pose proof (starts_eq inv l0 id l x I AR Hx Scipy E u false n lim Hk) as SE. fold s i in SE. rewrite SE in DF. clear SE.
  destruct (names_length inv (l0 ++ FNew id :: l) I) as (_ & N). fold s w in N.
  unfold run_min in DF. fold w in DF. set (names := param_names w) in *. set (cl := the_calls inv l0 id l n lim) in *.
  set (a := length (fs_pars s)) in *. set (m := calls names (min_new Scipy names a) cl) in *.
  pose proof (calls_kind names (min_new Scipy names a) cl) as KD. fold m in KD. cbn in KD. destruct (m_fixed m) as [fl|fl] eqn:MF; [destruct KD|].
  destruct (play nll (minimize E x false (mk_mstate (pars_new names) m)) w) as (w1 & st & rr) eqn:PL. unfold after_min in DF. fold s in DF.
  destruct rr as [r0|e]; [|discriminate].
  pose proof (minimize_result nll _ _ _ _ _ _ _ _ PL) as RP. cbn [ms_m] in RP. unfold m in RP. rewrite calls_params in RP. cbn [min_new m_params] in RP.
  destruct (scipy_success nll E x (pars_new names) m fl w w1 st r0 MF PL) as (V1 & V2). cbn [pars_new p_errors p_cov] in V1, V2. rewrite N in V1, V2.
  assert (RV : forall (A : Type) (z : A) k, repeat z k = map (fun _ => z) (seq 0 k)).
  { intros A z k. generalize 0%nat. induction k as [|k IH]; intros b; [reflexivity|]. cbn [repeat seq map]. f_equal. apply IH. }
  exists (ms_p st). split; [|split].
  - unfold fbind in DF. destruct u.
    + pose proof (fst_on_world_pars (update_parameters (p_values (ms_p st))) (mk_fstate w1 (fs_pars s ++ [ms_p st]) (fs_fitters s))) as FP.
      destruct (on_world _ _) as (s1 & [v|e]); [|discriminate]. injection DF as <- <-. cbn [fst fs_pars] in FP. rewrite FP, RP.
      rewrite nth_error_app2 by lia. rewrite Nat.sub_diag. reflexivity.
    + cbn in DF. injection DF as <- <-. cbn [fs_pars]. rewrite RP. rewrite nth_error_app2 by lia. rewrite Nat.sub_diag. reflexivity.
  - rewrite V1, RV. reflexivity.
  - rewrite V2, RV. unfold mat_of. apply map_ext. intros ?. apply RV.
Qed.
Print Assumptions C110_scipy_zero.
(** The post-fit plot then shows no uncertainty at all, silently: every bar has the height 0. *)
Theorem C110_scipy_refuted : forall jac inv l0 id l x E u n lim s' r l2 y name cid c view es (v : nat -> nat -> R) d q J, inv_spec inv -> lower id = "scipy"%string ->
  let s := freached inv (l0 ++ FNew id :: l) in let i := num_fitters l0 in let w := fs_w s in
  all_resolve (param_names w) l i -> nll_x0 w = Ok x ->
  do_fit E i u false n lim s = (s', Ok r) ->
  let w2 := reached inv l2 in let nb := v_nb view in
  templates_then_used l2 -> num_params w2 = num_params w ->
  one_channel w2 name cid c -> c_dim c = Some 1%nat -> describes w2 y 0 view -> (0 < nb)%nat -> c_tmpls c <> [] ->
  (forall k, (k < v_nt view)%nat -> v_total view k <> 0) ->
  valid_edges es -> length es = S nb ->
  on_templates w2 c (fun k t h => h_edges h = [mk_edges false es] /\ t_values t = Ok (vec_of nb (v k))) ->
  has_data_hist w2 c nb es d q ->
  jac (vec_of (num_params w2) y) = rmat_of nb (num_params w2) J ->
  exists rp, nth_error (fs_pars s') (r_params r) = Some rp /\
    (p_values rp = vec_of (num_params w2) y ->
     exists w3 layers bars pts, plot_post_fit_stacked_on jac cid rp UPropagate w2 = ((w3, DHist layers es :: bars :: pts), POk tt) /\
       forall b, (b < nb)%nat -> let t := sumn (length (c_tmpls c)) (fun k => v k b) in bar_shows bars b (nth b es 0) (nth (S b) es 0) t t).
Proof.
  intros jac inv l0 id l x E u n lim s' r l2 y name cid c view es v d q J I ID s i w AR Hx DF w2 nb B NP OC D DE N0 NE TN VE LE T HD JA.
  destruct (C110_scipy_zero inv l0 id l x E u n lim s' r I ID AR Hx DF) as (rp & A1 & A2 & A3). fold s w in A2, A3.
  exists rp. split; [exact A1|]. intros PV.
  assert (SY : symmetric (num_params w2) (fun _ _ => 0)) by (intros ? ? _ _; reflexivity).
  assert (PS : psd (num_params w2) (fun _ _ => 0)).
  { intros z. unfold quad. apply sumn_nonneg. intros a _. rewrite sumn_zero; [lra|]. intros; ring. }
  destruct (C78_propagate_partial jac inv l2 y name cid c view es v d q rp (fun _ _ => 0) J I B OC D DE N0 NE TN VE LE T HD PV) as (w3 & layers & bars & pts & P1 & _ & P2 & _).
  { fold w2. rewrite NP. exact A3. } { exact SY. } { exact PS. } { exact JA. }
  exists w3, layers, bars, pts. split; [exact P1|]. intros b Hb t. destruct (P2 b Hb) as (_ & P3). cbv zeta in P3. fold w2 in P3.
  match type of P3 with bar_shows _ _ _ _ (_ - sqrt ?a) _ => replace a with 0 in P3 end.
  - rewrite sqrt_0, Rminus_0_r, Rplus_0_r in P3. exact P3.
  - symmetry. apply sumn_zero. intros k _. apply sumn_zero. intros; ring.
Qed.
Print Assumptions C110_scipy_refuted.

(** ** Concrete cases: the templates of ex_plot_ops, a Minuit and a scipy that return the values 4, 7, 0, 0, 0, 0. *)
Definition ex_pf_values : list xr := vec_of 6 (fun i => nth i [4; 7; 0; 0; 0; 0] 0).
Definition ex_pf_ext : ext :=
  mk_ext (fun a => Stop (Ok (mk_mout (Fin 0) ex_pf_values (vec_of 6 (fun _ => 1))
            (Ok (map (fun i => map (fun j => if Nat.eqb i j then Fin 1 else Fin 0) (Spec_PostFit.free a)) (Spec_PostFit.free a))) (Ok []) true)))
    (fun x b cs => Stop (Ok (mk_oout true ex_pf_values (Fin 0)))) (fun _ => Stop (Ok [])) (fun _ => Err LinAlgError).
Lemma ex_pf_contract : skips_fixed (fun _ i j => if Nat.eqb i j then Fin 1 else Fin 0) (ex_minuit ex_pf_ext).
Proof. intros a o c M. cbn in M. injection M as <-. cbn [mo_matrix]. intros [= <-]. reflexivity. Qed.
Lemma ex_pf_fit inv l0 id g n : inv_spec inv ->
  (lower id = "iminuit" \/ lower id = "scipy" /\ g = false)%string ->
  let s := freached inv (l0 ++ [FNew id]) in num_params (fs_w s) = 6%nat -> (exists x, nll_x0 (fs_w s) = Ok x) ->
  exists s' r, do_fit ex_pf_ext (num_fitters l0) false g n None s = (s', Ok r) /\
    exists rp, nth_error (fs_pars s') (r_params r) = Some rp /\ p_values rp = ex_pf_values.
Proof.
  intros I ID s NP (x & Hx).
  destruct (names_length inv (l0 ++ [FNew id]) I) as (_ & N). fold s in N. rewrite NP in N.
  assert (AR : all_resolve (param_names (fs_w s)) [] (num_fitters l0)) by (split; intros; contradiction).
  destruct ID as [ID|(ID & ->)].
  - assert (Hk : minimizer_class id = Ok IMinuit) by (unfold minimizer_class; rewrite ID; reflexivity).
    pose proof (starts_eq inv l0 id [] x I AR Hx IMinuit ex_pf_ext false g n None Hk) as SE. fold s in SE. rewrite SE. clear SE. unfold run_min. fold s.
    set (names := param_names (fs_w s)) in *. set (m := calls names _ _).
    pose proof (calls_kind names (min_new IMinuit names (length (fs_pars s))) (the_calls inv l0 id [] n None)) as KD. fold m in KD. cbn in KD.
    destruct (m_fixed m) as [fl|fl] eqn:MF; [|destruct KD].
    edestruct (C104_minuit_stores world nll ex_pf_ext x g (pars_new names) m fl (fs_w s) (fs_w s)) as (p' & m' & r & P1 & _ & P2 & _ & _ & _ & _ & P3 & _); [exact MF|reflexivity| | |reflexivity|reflexivity|].
    { cbn. exact (eq_sym N). } { cbn. exact (eq_sym N). }
    rewrite P1. unfold after_min. fold s. cbn [ms_p]. unfold fbind, fret. do 2 eexists. split; [reflexivity|]. cbn [fs_pars].
    exists p'. split; [|exact P2]. rewrite P3. unfold m. rewrite calls_params. cbn [min_new m_params]. rewrite nth_error_app2 by lia. rewrite Nat.sub_diag. reflexivity.
  - assert (Hk : minimizer_class id = Ok Scipy) by (unfold minimizer_class; rewrite ID; reflexivity).
    pose proof (starts_eq inv l0 id [] x I AR Hx Scipy ex_pf_ext false false n None Hk) as SE. fold s in SE. rewrite SE. clear SE. unfold run_min. fold s.
    set (names := param_names (fs_w s)) in *. set (m := calls names _ _).
    pose proof (calls_kind names (min_new Scipy names (length (fs_pars s))) (the_calls inv l0 id [] n None)) as KD. fold m in KD. cbn in KD.
    destruct (m_fixed m) as [fl|fl] eqn:MF; [destruct KD|].
    edestruct (C104_without_hesse_refuted world nll ex_pf_ext x (pars_new names) m fl (fs_w s) (fs_w s)) as (p' & m' & r & P1 & _ & P2 & _ & _ & _ & _ & P3 & _); [exact MF|reflexivity|reflexivity| |].
    { cbn. exact (eq_sym N). }
    rewrite P1. unfold after_min. fold s. cbn [ms_p]. unfold fbind, fret. do 2 eexists. split; [reflexivity|]. cbn [fs_pars].
    exists p'. split; [|exact P2]. rewrite P3. unfold m. rewrite calls_params. cbn [min_new m_params]. rewrite nth_error_app2 by lia. rewrite Nat.sub_diag. reflexivity.
Qed.
Lemma ex_pf_world_gen inv ops id : fs_w (freached inv (map FOp ops ++ [FNew id])) = reached inv ops.
Proof.
  unfold freached. rewrite frun_app, frun_ops.
  destruct (config_world inv [FNew id] ltac:(repeat constructor) (mk_fstate (run inv ops (fs_w fstate_init)) (fs_pars fstate_init) (fs_fitters fstate_init))) as (-> & _).
  reflexivity.
Qed.
Lemma ex_pf_world inv id : fs_w (freached inv (map FOp (ex_plot_ops 1) ++ [FNew id])) = reached inv (ex_plot_ops 1).
Proof. apply ex_pf_world_gen. Qed.
Lemma ex_pf_x0 inv : exists x, nll_x0 (reached inv (ex_plot_ops 1)) = Ok x.
Proof. unfold reached, world_init, ex_plot_ops, ex_binned. do 10 run_step. cbv zeta. eexists. reflexivity. Qed.
Lemma ex_pf_hyps inv : let w := reached inv (ex_plot_ops 1) in templates_then_used (ex_plot_ops 1) /\ num_params w = 6%nat /\
  exists c view, one_channel w "A" 0 c /\ c_dim c = Some 1%nat /\ describes w (fun i => nth i [4; 7; 0; 0; 0; 0] 0) 0 view /\ v_nb view = 2%nat /\ c_tmpls c <> [] /\
    length (c_tmpls c) = 2%nat /\ (forall k, (k < v_nt view)%nat -> v_total view k <> 0) /\
    on_templates w c (fun k t h => h_edges h = [mk_edges false [0; 1; 4]] /\ t_values t = Ok (vec_of 2 (ex_plot_values k))) /\
    has_data_hist w c 2 [0; 1; 4] (fun b => nth b [1; 3] 0) (fun _ => 1 * 1).
Proof.
  destruct (ex_plot_state inv 1 ltac:(lra) ltac:(lra)) as (c & A & C & _ & D & NT & NB & NE & T & HD).
  destruct (ex_plot_one inv c C) as (ONE & NP & P1 & P2). destruct (ex_plot_describes inv) as (view & DE & VB & VT & TOT).
  assert (BT : built_then_used (ex_plot_ops 1)).
  { exists (ex_plot_ops 1), []. rewrite app_nil_r. split; [reflexivity|]. split; [unfold ex_plot_ops, ex_binned; repeat constructor|constructor]. }
  split; [exact (Prop_Params.built_templates _ BT)|]. split; [exact NP|]. exists c, view. split; [exact ONE|]. split; [exact D|]. split; [exact DE|]. split; [exact VB|].
  split; [exact NE|]. split; [exact NT|]. split; [rewrite VT; exact TOT|]. split; [|exact HD].
  revert T. apply on_templates_impl. intros [|k] t h (X & Y & _); auto.
Qed.
(** iminuit, fix_nui_params=True: the fit succeeds, the plot fails. *)
Example C110_fixed_example : forall jac inv, inv_spec inv -> exists s' r rp,
  do_fit ex_pf_ext 0 false true true None (freached inv (map FOp (ex_plot_ops 1) ++ [FNew "iminuit"])) = (s', Ok r) /\
  nth_error (fs_pars s') (r_params r) = Some rp /\ p_values rp = ex_pf_values /\
  exists w3 layers, plot_post_fit_stacked_on jac 0 rp UPropagate (reached inv (ex_plot_ops 1)) = ((w3, [DHist layers [0; 1; 4]]), PErr (Py ValueError)).
Proof.
  intros jac inv I. destruct (ex_pf_hyps inv) as (B & NP & c & view & ONE & D & DE & VB & NE & _ & TOT & T & _).
  set (l0 := map FOp (ex_plot_ops 1)). pose proof (ex_pf_world inv "iminuit") as EW. fold l0 in EW.
  assert (NF : num_fitters l0 = 0%nat) by reflexivity.
  destruct (ex_pf_fit inv l0 "iminuit" true true I (or_introl eq_refl)) as (s' & r & DF & rp & R1 & R2).
  { rewrite EW. exact NP. } { rewrite EW. apply ex_pf_x0. } rewrite NF in DF.
  exists s', r, rp. split; [exact DF|]. split; [exact R1|]. split; [exact R2|].
  destruct (ex_pf_x0 inv) as (x & Hx).
  destruct (C110_fixed_refuted jac inv l0 "iminuit" [] x ex_pf_ext (fun _ i j => if Nat.eqb i j then Fin 1 else Fin 0) false true true None s' r 2
    (ex_plot_ops 1) (fun i => nth i [4; 7; 0; 0; 0; 0] 0) "A"%string 0%nat c view [0; 1; 4] ex_plot_values I eq_refl) as (rp' & Q1 & _ & Q2).
  { rewrite NF. split; intros; contradiction. } { rewrite EW. exact Hx. } { exact ex_pf_contract. } { rewrite NF. exact DF. }
  { left. split; [reflexivity|]. unfold is_nuisance. rewrite EW, NP. destruct (ex_plot_state inv 1 ltac:(lra) ltac:(lra)) as (? & _ & _ & -> & _). cbn. lia. }
  { exact B. } { rewrite EW. reflexivity. } { exact ONE. } { exact D. } { exact DE. } { rewrite VB. lia. } { exact NE. } { exact TOT. } { exact ex_edges014. } { rewrite VB. reflexivity. } { rewrite VB. exact T. }
  assert (rp' = rp) by congruence. subst rp'. apply Q2. rewrite NP. exact R2.
Qed.
(** scipy, get_hesse=False: bars of height 0. *)
Example C110_scipy_example : forall inv, inv_spec inv -> exists s' r rp,
  do_fit ex_pf_ext 0 false false false None (freached inv (map FOp (ex_plot_ops 1) ++ [FNew "scipy"])) = (s', Ok r) /\
  nth_error (fs_pars s') (r_params r) = Some rp /\ p_values rp = ex_pf_values /\
  exists w3 layers bars pts, plot_post_fit_stacked_on (fun _ => rmat_of 2 6 (fun _ i => nth i [3; 4; 0; 0; 0; 0] 0)) 0 rp UPropagate (reached inv (ex_plot_ops 1))
    = ((w3, DHist layers [0; 1; 4] :: bars :: pts), POk tt) /\ bar_shows bars 1 1 4 8 8.
Proof.
  intros inv I. destruct (ex_pf_hyps inv) as (B & NP & c & view & ONE & D & DE & VB & NE & NT & TOT & T & HD).
  set (l0 := map FOp (ex_plot_ops 1)). pose proof (ex_pf_world inv "scipy") as EW. fold l0 in EW.
  assert (NF : num_fitters l0 = 0%nat) by reflexivity.
  destruct (ex_pf_fit inv l0 "scipy" false false I (or_intror (conj eq_refl eq_refl))) as (s' & r & DF & rp & R1 & R2).
  { rewrite EW. exact NP. } { rewrite EW. apply ex_pf_x0. } rewrite NF in DF.
  exists s', r, rp. split; [exact DF|]. split; [exact R1|]. split; [exact R2|].
  destruct (ex_pf_x0 inv) as (x & Hx).
  destruct (C110_scipy_refuted (fun _ => rmat_of 2 6 (fun _ i => nth i [3; 4; 0; 0; 0; 0] 0)) inv l0 "scipy" [] x ex_pf_ext false false None s' r
    (ex_plot_ops 1) (fun i => nth i [4; 7; 0; 0; 0; 0] 0) "A"%string 0%nat c view [0; 1; 4] ex_plot_values (fun b => nth b [1; 3] 0) (fun _ => 1 * 1) (fun _ i => nth i [3; 4; 0; 0; 0; 0] 0) I eq_refl) as (rp' & Q1 & Q2).
  { rewrite NF. split; intros; contradiction. } { rewrite EW. exact Hx. } { rewrite NF. exact DF. }
  { exact B. } { rewrite EW. reflexivity. } { exact ONE. } { exact D. } { exact DE. } { rewrite VB. lia. } { exact NE. } { exact TOT. } { exact ex_edges014. } { rewrite VB. reflexivity. } { rewrite VB. exact T. }
  { rewrite VB. exact HD. } { rewrite NP, VB. reflexivity. }
  assert (rp' = rp) by congruence. subst rp'. destruct Q2 as (w3 & layers & bars & pts & E & S); [rewrite NP; exact R2|].
  exists w3, layers, bars, pts. split; [exact E|]. specialize (S 1%nat). rewrite VB, NT in S. specialize (S ltac:(lia)). cbn in S.
  replace (0 + 3 + 5) with 8 in S by ring. exact S.
Qed.
