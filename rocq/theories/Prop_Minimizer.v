(** C15, C43, C44, C45, C50: Parameters and the minimizers. *)
From Coq Require Import Reals String ZArith Bool Arith List Lra Lia.
From Verif Require Import Model_Num Model_Utility Model_World Model_Minimizer Spec_Min Proof_Min Proof_HistHeap Proof_Route.
Import ListNotations.
Local Open Scope R_scope.

(** ** C15 *)
Theorem C15_resolves : forall names i k, id_to_index names i = Ok k <-> resolves names i k.
Proof. exact resolve_iff. Qed.
Print Assumptions C15_resolves.
Theorem C15_rejects : forall names i, (forall k, ~ resolves names i k) <-> id_to_index names i = Err ValueError.
Proof.
  intros names i. split.
  - intros N. destruct (id_to_index names i) as [k|e] eqn:E.
    + apply resolve_iff in E. destruct (N _ E).
    + now rewrite (resolve_err _ _ _ E).
  - intros E k R. apply resolve_iff in R. congruence.
Qed.
Print Assumptions C15_rejects.
(** Lookups of a Parameters object (with one value and one error per name, which always holds: C43) by any
    identifier give value and error of the denoted parameter; others are rejected with ValueError. *)
Theorem C15_lookup : forall p i, length (p_values p) = length (p_names p) -> length (p_errors p) = length (p_names p) ->
  (forall k, resolves (p_names p) i k -> exists v e, nth_error (p_values p) k = Some v /\ nth_error (p_errors p) k = Some e /\
     param_id_to_index p i = Ok k /\ get_param_value p i = Ok v /\ get_param_error p i = Ok e /\ getitem p i = Ok (v, e)) /\
  ((forall k, ~ resolves (p_names p) i k) ->
     param_id_to_index p i = Err ValueError /\ get_param_value p i = Err ValueError /\ get_param_error p i = Err ValueError /\ getitem p i = Err ValueError).
Proof.
  intros p i LV LE. split.
  - intros k R. pose proof (resolves_lt _ _ _ R) as K. apply resolve_iff in R.
    destruct (nth_error (p_values p) k) as [v|] eqn:V; [|apply nth_error_None in V; lia].
    destruct (nth_error (p_errors p) k) as [e|] eqn:Er; [|apply nth_error_None in Er; lia].
    exists v, e. unfold getitem, get_param_value, get_param_error, param_id_to_index. rewrite R. cbn [rbind]. unfold at_. rewrite V, Er. repeat split; reflexivity.
  - intros N. apply C15_rejects in N. unfold getitem, get_param_value, get_param_error, param_id_to_index. rewrite N. repeat split; reflexivity.
Qed.
Print Assumptions C15_lookup.
(** The name and the index of a parameter are equivalent identifiers if names are unique. *)
Theorem C15_name_index_agree : forall p k s, NoDup (p_names p) -> nth_error (p_names p) k = Some s ->
  param_id_to_index p (PStr s) = Ok k /\ param_id_to_index p (PInt (Z.of_nat k)) = Ok k /\
  getitem p (PStr s) = getitem p (PInt (Z.of_nat k)) /\ get_param_value p (PStr s) = get_param_value p (PInt (Z.of_nat k)) /\
  get_param_error p (PStr s) = get_param_error p (PInt (Z.of_nat k)).
Proof.
  intros p k s ND NS.
  assert (A : id_to_index (p_names p) (PStr s) = Ok k).
  { apply resolve_iff. split; [exact NS|]. intros j J H. assert (j = k); [|lia].
    apply (proj1 (NoDup_nth_error _) ND); [apply nth_error_Some; congruence|congruence]. }
  assert (B : id_to_index (p_names p) (PInt (Z.of_nat k)) = Ok k).
  { apply resolve_iff. split; [reflexivity|]. apply nth_error_Some. congruence. }
  unfold getitem, get_param_value, get_param_error, param_id_to_index. rewrite A, B. repeat split; reflexivity.
Qed.
Print Assumptions C15_name_index_agree.
Example ex_C15 : resolves ["a"; "b"; "a"]%string (PStr "b") 1 /\ resolves ["a"; "b"; "a"]%string (PStr "a") 0 /\
  resolves ["a"; "b"; "a"]%string (PInt 2) 2 /\ ~ (exists k, resolves ["a"; "b"; "a"]%string (PInt (-1)) k) /\
  param_id_to_index (pars_new ["a"; "b"]%string) (PStr "b") = Ok 1%nat.
Proof.
  split; [|split; [|split; [|split]]].
  - split; [reflexivity|]. intros [|[|j]] J; simpl; try lia. discriminate.
  - split; [reflexivity|]. lia.
  - split; [reflexivity|simpl; lia].
  - intros (k & H & _). lia.
  - reflexivity.
Qed.

(** ** C43 *)
Theorem C43_lengths : forall names l, let p := assign_all (pars_new names) l in
  p_names p = names /\ length (p_values p) = length names /\ length (p_errors p) = length names.
Proof.
  intros names l. cbv zeta.
  assert (G : forall l p, p_names p = names /\ length (p_values p) = length names /\ length (p_errors p) = length names ->
    p_names (assign_all p l) = names /\ length (p_values (assign_all p l)) = length names /\ length (p_errors (assign_all p l)) = length names).
  { clear. induction l as [|a l IH]; intros p H; simpl; [exact H|]. apply IH. destruct H as (H1 & H2 & H3).
    destruct a; simpl; unfold set_values, set_errors, num_pars; simpl; try (repeat split; assumption).
    - destruct (Nat.eqb_spec (length v) (length (p_names p))) as [E|E]; simpl; repeat split; try assumption. congruence.
    - destruct (Nat.eqb_spec (length v) (length (p_names p))) as [E|E]; simpl; repeat split; try assumption. congruence. }
  apply G. simpl. rewrite !repeat_length. repeat split.
Qed.
Print Assumptions C43_lengths.
(** a new Parameters object: every value, error, covariance and correlation is 0, and every identifier that denotes a
    parameter reads 0 +- 0 *)
Theorem C43_initial : forall names, let p := pars_new names in
  p_names p = names /\
  (forall k, (k < length names)%nat -> nth_error (p_values p) k = Some (Fin 0) /\ nth_error (p_errors p) k = Some (Fin 0)) /\
  length (p_cov p) = length names /\ length (p_corr p) = length names /\
  (forall row, In row (p_cov p) \/ In row (p_corr p) -> length row = length names /\ forall v, In v row -> v = Fin 0) /\
  (forall i k, resolves names i k -> getitem p i = Ok (Fin 0, Fin 0) /\ get_param_value p i = Ok (Fin 0) /\ get_param_error p i = Ok (Fin 0)).
Proof.
  intros names p.
  assert (R : forall (A : Type) (a : A) n k, (k < n)%nat -> nth_error (repeat a n) k = Some a).
  { intros A a n. induction n as [|n IH]; intros [|k] L; simpl; try lia; [reflexivity|]. apply IH. lia. }
  split; [reflexivity|]. split. { intros k L. split; apply R, L. }
  split; [apply repeat_length|]. split; [apply repeat_length|].
  split. { intros row [H|H]; apply repeat_spec in H; subst row; (split; [apply repeat_length|]); intros v V; apply repeat_spec in V; exact V. }
  intros i k H. assert (L : (k < length names)%nat).
  { destruct i; simpl in H; try tauto. destruct H as (H & _). apply nth_error_Some. congruence. }
  assert (I : param_id_to_index p i = Ok k) by (apply C15_resolves; exact H).
  unfold getitem, get_param_value, get_param_error. rewrite I. unfold rbind, at_, p, pars_new. cbn [p_values p_errors]. rewrite R by exact L. auto.
Qed.
Print Assumptions C43_initial.
(** An assignment of the wrong length raises ValueError and changes nothing; any other one stores exactly
    the new value and leaves the other properties alone. *)
Theorem C43_assignments : forall names l a, let p := assign_all (pars_new names) l in
  match a with
  | AValues v => (length v <> length names -> assign p a = (p, Err ValueError)) /\
      (length v = length names -> snd (assign p a) = Ok tt /\ p_values (fst (assign p a)) = v /\
        p_errors (fst (assign p a)) = p_errors p /\ p_cov (fst (assign p a)) = p_cov p /\ p_corr (fst (assign p a)) = p_corr p)
  | AErrors v => (length v <> length names -> assign p a = (p, Err ValueError)) /\
      (length v = length names -> snd (assign p a) = Ok tt /\ p_errors (fst (assign p a)) = v /\
        p_values (fst (assign p a)) = p_values p /\ p_cov (fst (assign p a)) = p_cov p /\ p_corr (fst (assign p a)) = p_corr p)
  | ACov m => snd (assign p a) = Ok tt /\ p_cov (fst (assign p a)) = m /\ p_values (fst (assign p a)) = p_values p /\
        p_errors (fst (assign p a)) = p_errors p /\ p_corr (fst (assign p a)) = p_corr p
  | ACorr m => snd (assign p a) = Ok tt /\ p_corr (fst (assign p a)) = m /\ p_values (fst (assign p a)) = p_values p /\
        p_errors (fst (assign p a)) = p_errors p /\ p_cov (fst (assign p a)) = p_cov p
  end.
Proof.
  intros names l a p. destruct (C43_lengths names l) as (N & _). fold p in N.
  destruct a; simpl; unfold set_values, set_errors, num_pars; rewrite ?N; try (repeat split; reflexivity);
    (split; intros H; [apply Nat.eqb_neq in H|apply Nat.eqb_eq in H]; rewrite H; [reflexivity|repeat split]).
Qed.
Print Assumptions C43_assignments.
Example ex_C43 : let p := assign_all (pars_new ["a"; "b"]%string) [AValues [Fin 1; Fin 2]; AErrors [Fin 3]; AValues [Fin 4]] in
  p_values p = [Fin 1; Fin 2] /\ p_errors p = [Fin 0; Fin 0].
Proof. split; reflexivity. Qed.

(** ** C44: the arguments with which Minuit is started, after any sequence of calls.  [rest] is what
    minimize does with Minuit's result; it does not depend on Minuit ([mi]), so args are what Minuit gets. *)
Theorem C44_handed_to_minuit : forall names l p x0 gh, p_names p = names ->
  let m := calls names (min_new IMinuit names 0) l in
  exists args rest, (forall mi sl he iv, minimize (mk_ext mi sl he iv) x0 gh (mk_mstate p m) = pbind (mi args) rest) /\
    ma_start args = x0 /\ ma_name args = names /\ ma_errordef args = 1 / 2 /\
    ma_error args = map (xmul (Fin (5 / 100))) x0 /\
    length (ma_fix args) = length names /\ length (ma_limit args) = length names /\
    (forall k, (k < length names)%nat -> nth_error (ma_fix args) k = Some true <-> fixed_by names l k) /\
    (forall k b, (k < length names)%nat -> nth_error (ma_limit args) k = Some b <-> bounds_by names l k b).
Proof.
  intros names l p x0 gh NP m. pose proof (agrees_calls names [] _ l (agrees_new IMinuit names 0)) as (LB & B & FX). simpl in FX. fold m in LB, B, FX.
  pose proof (calls_kind names (min_new IMinuit names 0) l) as KD. fold m in KD. simpl in KD. destruct (m_fixed m) as [f|f] eqn:MF; [|destruct KD]. destruct FX as (LF & FX).
  exists (mk_margs x0 (map (xmul (Fin (5 / 100))) x0) (1 / 2) f names (m_bounds m)). eexists. split.
  - intros mi sl he iv. unfold minimize. unfold mbind at 1. unfold mget at 1. cbn [pbind ms_m]. rewrite MF.
    unfold minimize_iminuit. unfold mbind at 1. unfold mget at 1. cbn [pbind ms_m]. unfold mbind at 1. unfold mget at 1. cbn [pbind ms_p]. rewrite NP.
    unfold mbind at 1. unfold mplay. cbn [ex_minuit].
    rewrite pbind_assoc. cbn [pbind]. reflexivity.
  - cbn [ma_start ma_name ma_errordef ma_fix ma_limit ma_error]. repeat split; auto; try (apply FX; auto); try (apply B; auto).
Qed.
Print Assumptions C44_handed_to_minuit.
Example ex_C44 : let names := ["a"; "b"; "c"]%string in
  let l := [CFix (PStr "a"); CRelease; CFix (PInt 2); CFix (PStr "z"); CBounds (PStr "b") (Some 0, None); CBounds (PInt 1) (Some 0, Some 1)] in
  m_fixed (calls names (min_new IMinuit names 0) l) = Flags [false; false; true] /\
  m_bounds (calls names (min_new IMinuit names 0) l) = [(None, None); (Some 0, Some 1); (None, None)] /\
  fixed_by names l 2 /\ ~ fixed_by names l 0 /\ bounds_by names l 1 (Some 0, Some 1).
Proof.
  cbv zeta. split; [reflexivity|]. split; [reflexivity|].
  pose proof (agrees_calls ["a"; "b"; "c"]%string [] _ [CFix (PStr "a"); CRelease; CFix (PInt 2); CFix (PStr "z"); CBounds (PStr "b") (Some 0, None); CBounds (PInt 1) (Some 0, Some 1)]
     (agrees_new IMinuit ["a"; "b"; "c"]%string 0)) as (_ & B & _ & FX). 
  split; [|split].
  - apply (FX 2%nat); [simpl; lia|reflexivity].
  - intros H. apply FX in H; [discriminate|simpl; lia].
  - apply B; [simpl; lia|reflexivity].
Qed.

(** ** C45 *)
(** what scipy is started with; every constraint is about the parameter fixed last *)
Lemma scipy_starts names l p x0 gh : 
  let m := calls names (min_new Scipy names 0) l in
  exists f, m_fixed m = Indices f /\ (forall k, In k f <-> fixed_by names l k) /\ agrees names l m /\
  exists rest, forall mi sl he iv, minimize (mk_ext mi sl he iv) x0 gh (mk_mstate p m) = pbind (sl x0 (m_bounds m) (create_constraints x0 f)) (rest he iv).
Proof.
  intros m. pose proof (agrees_calls names [] _ l (agrees_new Scipy names 0)) as AG. simpl in AG. fold m in AG. pose proof AG as (LB & B & FX).
  pose proof (calls_kind names (min_new Scipy names 0) l) as KD. fold m in KD. simpl in KD. destruct (m_fixed m) as [f|f] eqn:MF; [destruct KD|].
  exists f. split; [reflexivity|]. split; [exact FX|]. split; [exact AG|]. eexists (fun he iv => _). intros mi sl he iv.
  unfold minimize. unfold mbind at 1. unfold mget at 1. cbn [pbind ms_m]. rewrite MF.
  unfold minimize_scipy. unfold mbind at 1. unfold mget at 1. cbn [pbind ms_m]. 
  unfold mbind at 1. unfold mplay at 1. cbn [ex_slsqp].
  rewrite pbind_assoc. cbn [pbind ex_hessian ex_inv]. reflexivity.
Qed.
Lemma late_zero x0 x k (a b : list R) : x0 = map Fin a -> x = map Fin b -> (k < length a)%nat -> length b = length a ->
  late x0 k x = Ok (Fin 0) <-> nth_error x k = nth_error x0 k.
Proof.
  intros -> -> K L. unfold late, at_. rewrite !nth_error_map.
  destruct (nth_error a k) as [u|] eqn:U; [|apply nth_error_None in U; lia]. destruct (nth_error b k) as [v|] eqn:V; [|apply nth_error_None in V; lia].
  simpl. split; [intros [= H]; do 2 f_equal; lra|]. intros [= ->]. do 2 f_equal. lra.
Qed.
(** Holds if at most one parameter is fixed. *)
Theorem C45_one_fixed_partial : forall names l p x0 gh a b x, x0 = map Fin a -> x = map Fin b -> length a = length names -> length b = length names ->
  (forall k k', fixed_by names l k -> fixed_by names l k' -> k = k') ->
  let m := calls names (min_new Scipy names 0) l in
  exists limits cs rest, (forall mi sl he iv, minimize (mk_ext mi sl he iv) x0 gh (mk_mstate p m) = pbind (sl x0 limits cs) (rest he iv)) /\
    length limits = length names /\
    (forall k b', (k < length names)%nat -> nth_error limits k = Some b' <-> bounds_by names l k b') /\
    (satisfied cs x <-> forall k, fixed_by names l k -> nth_error x k = nth_error x0 k).
Proof.
  intros names l p x0 gh a b x HX0 HX LA LB ONE m. destruct (scipy_starts names l p x0 gh) as (f & MF & FX & (BL & B & _) & rest & RS). fold m in MF, BL, B, RS.
  exists (m_bounds m), (create_constraints x0 f), rest. split; [exact RS|]. split; [exact BL|]. split; [exact B|].
  assert (LT : forall k, fixed_by names l k -> (k < length a)%nat). { intros k (l1 & i & l2 & _ & R & _). rewrite LA. eapply resolves_lt; eauto. }
  destruct f as [|k0 f0] using rev_ind.
  - split; [|constructor]. intros _ k K. apply FX in K. destruct K.
  - clear IHf0. rewrite create_constraints_last, satisfied_repeat.
    assert (K0 : fixed_by names l k0) by (apply FX; apply in_or_app; right; left; reflexivity).
    rewrite (late_zero x0 x k0 a b) by (auto; congruence). split.
    + intros H k K. rewrite (ONE k k0 K K0). exact H.
    + intros H. apply H. exact K0.
Qed.
Print Assumptions C45_one_fixed_partial.
(** False in general: with two fixed parameters scipy is only told to keep the one fixed last; the first
    one may take any value. *)
Theorem C45_two_fixed_refuted : forall p gh v, let names := ["a"; "b"]%string in
  let l := [CFix (PStr "a"); CFix (PStr "b")] in
  let m := calls names (min_new Scipy names 0) l in
  fixed_by names l 0 /\ fixed_by names l 1 /\
  exists limits cs rest, (forall mi sl he iv, minimize (mk_ext mi sl he iv) [Fin 1; Fin 2] gh (mk_mstate p m) = pbind (sl [Fin 1; Fin 2] limits cs) (rest he iv)) /\
    satisfied cs [Fin v; Fin 2].
Proof.
  intros p gh v names l m. destruct (scipy_starts names l p [Fin 1; Fin 2] gh) as (f & MF & FX & _ & rest & RS). fold m in MF, RS.
  split; [apply FX; unfold m in MF; simpl in MF; injection MF as <-; simpl; auto|]. split; [apply FX; unfold m in MF; simpl in MF; injection MF as <-; simpl; auto|].
  exists (m_bounds m), (create_constraints [Fin 1; Fin 2] f), rest. split; [exact RS|].
  unfold m in MF. simpl in MF. injection MF as <-. change [0%nat; 1%nat] with ([0%nat] ++ [1%nat]). rewrite create_constraints_last, satisfied_repeat.
  apply (late_zero _ _ 1 [1; 2] [v; 2]); simpl; auto.
Qed.
Print Assumptions C45_two_fixed_refuted.

(** ** C50 *)
(** [S], [fcn], [w]: the objective function and its state. *)
Theorem C50_failure : forall (S : Type) (fcn : list xr -> S -> S * res xr) E x0 gh p m f w w1 o,
  m_fixed m = Indices f ->
  play fcn (ex_slsqp E x0 (m_bounds m) (create_constraints x0 f)) w = (w1, Ok o) -> oo_success o = false ->
  exists m', play fcn (minimize E x0 gh (mk_mstate p m)) w = (w1, (mk_mstate p m', Err RuntimeError)) /\
    m_params m' = m_params m /\ m_fcn_min m' = m_fcn_min m /\ m_fixed m' = m_fixed m /\ m_bounds m' = m_bounds m /\ m_success m' = Some false.
Proof.
  intros S fcn E x0 gh p m f w w1 o MF PL SU. unfold minimize, mbind, mget. cbn [pbind ms_m]. rewrite MF.
  unfold minimize_scipy, mbind, mget, mplay. cbn [pbind ms_m]. rewrite pbind_assoc, play_pbind, PL. cbn [pbind]. unfold mset_success. cbn [pbind]. rewrite SU.
  unfold mlift. cbn [play]. eexists. split; [reflexivity|]. cbn [m_params m_fcn_min m_fixed m_bounds m_success]. auto 10.
Qed.
Print Assumptions C50_failure.
(** whatever the reason of a failure of the optimizer itself *)
Theorem C50_exception : forall (S : Type) (fcn : list xr -> S -> S * res xr) E x0 gh p m f w w1 e,
  m_fixed m = Indices f ->
  play fcn (ex_slsqp E x0 (m_bounds m) (create_constraints x0 f)) w = (w1, Err e) ->
  play fcn (minimize E x0 gh (mk_mstate p m)) w = (w1, (mk_mstate p m, Err e)).
Proof.
  intros S fcn E x0 gh p m f w w1 e MF PL. unfold minimize, mbind, mget. cbn [pbind ms_m]. rewrite MF.
  unfold minimize_scipy, mbind, mget, mplay. cbn [pbind ms_m]. rewrite pbind_assoc, play_pbind, PL. reflexivity.
Qed.
Print Assumptions C50_exception.
Theorem C50_success : forall (S : Type) (fcn : list xr -> S -> S * res xr) E x0 p m f w w1 o w2 h c,
  m_fixed m = Indices f ->
  play fcn (ex_slsqp E x0 (m_bounds m) (create_constraints x0 f)) w = (w1, Ok o) -> oo_success o = true ->
  length (oo_x o) = length (p_names p) ->
  (* the numerical Hesse matrix at the optimum and its inverse *)
  play fcn (ex_hessian E (oo_x o)) w1 = (w2, Ok h) -> ex_inv E h = Ok c -> length c = length (p_names p) ->
  exists p' m' r, play fcn (minimize E x0 true (mk_mstate p m)) w = (w2, (mk_mstate p' m', Ok r)) /\
    p_names p' = p_names p /\ p_values p' = oo_x o /\ p_cov p' = c /\ p_corr p' = cov2corr c /\
    length (p_errors p') = length (p_names p) /\
    (forall k, (k < length (p_names p))%nat -> nth_error (p_errors p') k = Some (xsqrt (mnth c k k))) /\
    r_fcn_min r = oo_fun o /\ r_params r = m_params m /\ r_success r = true /\
    m_fcn_min m' = Some (oo_fun o) /\ m_success m' = Some true /\ m_fixed m' = m_fixed m /\ m_bounds m' = m_bounds m.
Proof.
  intros S fcn E x0 p m f w w1 o w2 h c MF PL SU LX HS IV LC. unfold minimize, mbind, mget. cbn [pbind ms_m]. rewrite MF.
  unfold minimize_scipy, mbind, mget, mplay. cbn [pbind ms_m]. rewrite pbind_assoc, play_pbind, PL. cbn [pbind]. unfold mset_success. cbn [pbind]. rewrite SU.
  unfold mpars at 1. cbn [ms_p ms_m]. unfold set_values, num_pars. rewrite LX, Nat.eqb_refl. cbn [pbind]. unfold mset_fcn_min. cbn [pbind ms_m ms_p].
  rewrite !pbind_assoc, play_pbind, HS. cbn [pbind]. unfold mlift at 1. cbn [pbind]. rewrite IV. cbn [pbind]. unfold mpars. cbn [ms_p ms_m set_cov set_corr pbind].
  unfold set_errors, num_pars. cbn [p_names]. 
  assert (LD : length (map xsqrt (np_diagonal c)) = length (p_names p)). { rewrite map_length. unfold np_diagonal. rewrite map_length, seq_length. exact LC. }
  rewrite LD, Nat.eqb_refl. cbn [pbind]. unfold mlift. cbn [pbind play]. do 3 eexists. split; [reflexivity|]. cbn [p_names p_values p_cov p_corr p_errors r_fcn_min r_params r_success m_params m_fcn_min m_success m_fixed m_bounds].
  split; [reflexivity|]. split; [reflexivity|]. split; [reflexivity|]. split; [reflexivity|]. split; [exact LD|]. split.
  - intros k K. rewrite nth_error_map. unfold np_diagonal. rewrite nth_error_map. rewrite (nth_error_nth' _ O) by (rewrite seq_length; lia). rewrite seq_nth by lia. reflexivity.
  - repeat split; auto.
Qed.
Print Assumptions C50_success.
Example ex_C50 : let E := mk_ext (fun _ => Stop (Err RuntimeError)) (fun x b cs => Ask x (fun v => match v with Ok f => Stop (Ok (mk_oout true x f)) | Err e => Stop (Err e) end))
    (fun _ => Stop (Ok [[Fin 4]])) (fun _ => Ok [[Fin (1 / 4)]]) in
  let names := ["a"]%string in
  exists p m r, play (fun x (w : unit) => (w, Ok (Fin 7))) (minimize E [Fin 3] true (mk_mstate (pars_new names) (min_new Scipy names 0))) tt = (tt, (mk_mstate p m, Ok r)) /\
    p_values p = [Fin 3] /\ p_cov p = [[Fin (1 / 4)]] /\ r_fcn_min r = Fin 7.
Proof.
  cbv zeta. set (E := mk_ext _ _ _ _).
  destruct (C50_success unit (fun x (w : unit) => (w, Ok (Fin 7))) E [Fin 3] (pars_new ["a"]%string) (min_new Scipy ["a"]%string 0) [] tt tt
    (mk_oout true [Fin 3] (Fin 7)) tt [[Fin 4]] [[Fin (1 / 4)]]) as (p & m & r & H & H1 & H2 & H3 & H4 & H5 & H6 & H7 & _); try reflexivity.
  exists p, m, r. auto.
Qed.

(** ** C104: what minimize makes of the optimizer's results *)
(** what Minuit is started with (see C44) *)
Definition minuit_start (x0 : list xr) (flags : list bool) (names : list string) (bounds : list bound) :=
  mk_margs x0 (map (xmul (Fin (5 / 100))) x0) (1 / 2) flags names bounds.
(** Minuit has covariance and correlation matrix: everything is stored as Minuit gives it, valid or not. *)
Theorem C104_minuit_stores : forall (S : Type) (fcn : list xr -> S -> S * res xr) E x0 gh p m f w w1 o c r,
  m_fixed m = Flags f ->
  play fcn (ex_minuit E (minuit_start x0 f (p_names p) (m_bounds m))) w = (w1, Ok o) ->
  length (mo_values o) = length (p_names p) -> length (mo_errors o) = length (p_names p) ->
  mo_matrix o = Ok c -> mo_corr o = Ok r ->
  exists p' m' res, play fcn (minimize E x0 gh (mk_mstate p m)) w = (w1, (mk_mstate p' m', Ok res)) /\
    p_names p' = p_names p /\ p_values p' = mo_values o /\ p_errors p' = mo_errors o /\ p_cov p' = c /\ p_corr p' = r /\
    r_fcn_min res = mo_fval o /\ r_params res = m_params m /\ r_success res = mo_valid o /\
    m_fcn_min m' = Some (mo_fval o) /\ m_success m' = Some (mo_valid o) /\ m_params m' = m_params m /\
    m_fixed m' = m_fixed m /\ m_bounds m' = m_bounds m.
Proof.
  intros S fcn E x0 gh p m f w w1 o c r MF PL LV LE CM CR. unfold minimize, mbind, mget. cbn [pbind ms_m]. rewrite MF.
  unfold minimize_iminuit, mbind, mget, mplay. cbn [pbind ms_m ms_p]. unfold minuit_start in PL. rewrite pbind_assoc, play_pbind, PL. cbn [pbind].
  unfold mset_fcn_min. cbn [pbind ms_m ms_p]. unfold mpars at 1. cbn [ms_p ms_m]. unfold set_values, num_pars. rewrite LV, Nat.eqb_refl. cbn [pbind].
  unfold mpars at 1. cbn [ms_p ms_m]. unfold set_errors, num_pars. cbn [p_names]. rewrite LE, Nat.eqb_refl. cbn [pbind]. unfold mlift at 1. rewrite CM. cbn [pbind].
  unfold mpars at 1. cbn [ms_p ms_m set_cov pbind]. unfold mlift at 1. rewrite CR. cbn [pbind]. unfold mpars. cbn [ms_p ms_m set_corr pbind].
  unfold mset_success, mlift. cbn [pbind play ms_m ms_p]. do 3 eexists. split; [reflexivity|]. repeat split; auto.
Qed.
Print Assumptions C104_minuit_stores.
(** Minuit has no covariance matrix (np_matrix raises): minimize raises that exception, after values, errors and minimum have
    been replaced; covariance and correlation and the success flag are still those of an earlier call. *)
Theorem C104_no_matrix_refuted : forall (S : Type) (fcn : list xr -> S -> S * res xr) E x0 gh p m f w w1 o e,
  m_fixed m = Flags f ->
  play fcn (ex_minuit E (minuit_start x0 f (p_names p) (m_bounds m))) w = (w1, Ok o) ->
  length (mo_values o) = length (p_names p) -> length (mo_errors o) = length (p_names p) -> mo_matrix o = Err e ->
  exists p' m', play fcn (minimize E x0 gh (mk_mstate p m)) w = (w1, (mk_mstate p' m', Err e)) /\
    p_names p' = p_names p /\ p_values p' = mo_values o /\ p_errors p' = mo_errors o /\ p_cov p' = p_cov p /\ p_corr p' = p_corr p /\
    m_fcn_min m' = Some (mo_fval o) /\ m_success m' = m_success m.
Proof.
  intros S fcn E x0 gh p m f w w1 o e MF PL LV LE CM. unfold minimize, mbind, mget. cbn [pbind ms_m]. rewrite MF.
  unfold minimize_iminuit, mbind, mget, mplay. cbn [pbind ms_m ms_p]. unfold minuit_start in PL. rewrite pbind_assoc, play_pbind, PL. cbn [pbind].
  unfold mset_fcn_min. cbn [pbind ms_m ms_p]. unfold mpars at 1. cbn [ms_p ms_m]. unfold set_values, num_pars. rewrite LV, Nat.eqb_refl. cbn [pbind].
  unfold mpars at 1. cbn [ms_p ms_m]. unfold set_errors, num_pars. cbn [p_names]. rewrite LE, Nat.eqb_refl. cbn [pbind]. unfold mlift at 1. rewrite CM. cbn [pbind play].
  do 2 eexists. split; [reflexivity|]. repeat split; auto.
Qed.
Print Assumptions C104_no_matrix_refuted.
(** Minuit itself fails: nothing is stored. *)
Theorem C104_minuit_exception : forall (S : Type) (fcn : list xr -> S -> S * res xr) E x0 gh p m f w w1 e,
  m_fixed m = Flags f -> play fcn (ex_minuit E (minuit_start x0 f (p_names p) (m_bounds m))) w = (w1, Err e) ->
  play fcn (minimize E x0 gh (mk_mstate p m)) w = (w1, (mk_mstate p m, Err e)).
Proof.
  intros S fcn E x0 gh p m f w w1 e MF PL. unfold minimize, mbind, mget. cbn [pbind ms_m]. rewrite MF.
  unfold minimize_iminuit, mbind, mget, mplay. cbn [pbind ms_m ms_p]. unfold minuit_start in PL. rewrite pbind_assoc, play_pbind, PL. reflexivity.
Qed.
Print Assumptions C104_minuit_exception.
(** scipy without get_hesse: new values, while errors, covariance and correlation are still those of an earlier call (zeros in
    a new minimizer), i.e. they need not belong to the values. *)
Theorem C104_without_hesse_refuted : forall (S : Type) (fcn : list xr -> S -> S * res xr) E x0 p m f w w1 o,
  m_fixed m = Indices f ->
  play fcn (ex_slsqp E x0 (m_bounds m) (create_constraints x0 f)) w = (w1, Ok o) -> oo_success o = true ->
  length (oo_x o) = length (p_names p) ->
  exists p' m' r, play fcn (minimize E x0 false (mk_mstate p m)) w = (w1, (mk_mstate p' m', Ok r)) /\
    p_names p' = p_names p /\ p_values p' = oo_x o /\ p_errors p' = p_errors p /\ p_cov p' = p_cov p /\ p_corr p' = p_corr p /\
    r_fcn_min r = oo_fun o /\ r_params r = m_params m /\ r_success r = true /\ m_fcn_min m' = Some (oo_fun o) /\ m_success m' = Some true.
Proof.
  intros S fcn E x0 p m f w w1 o MF PL SU LX. unfold minimize, mbind, mget. cbn [pbind ms_m]. rewrite MF.
  unfold minimize_scipy, mbind, mget, mplay. cbn [pbind ms_m]. rewrite pbind_assoc, play_pbind, PL. cbn [pbind]. unfold mset_success. cbn [pbind]. rewrite SU.
  unfold mpars at 1. cbn [ms_p ms_m]. unfold set_values, num_pars. rewrite LX, Nat.eqb_refl. cbn [pbind]. unfold mset_fcn_min. cbn [pbind ms_m ms_p].
  unfold mlift. cbn [pbind play]. do 3 eexists. split; [reflexivity|]. repeat split; auto.
Qed.
Print Assumptions C104_without_hesse_refuted.

(** scipy, and the Hesse matrix cannot be calculated or inverted: minimize raises that exception after values and minimum have
    been replaced and the success flag has been set. *)
Theorem C104_singular_hesse_refuted : forall (S : Type) (fcn : list xr -> S -> S * res xr) E x0 p m f w w1 o w2 v e,
  m_fixed m = Indices f ->
  play fcn (ex_slsqp E x0 (m_bounds m) (create_constraints x0 f)) w = (w1, Ok o) -> oo_success o = true ->
  length (oo_x o) = length (p_names p) ->
  play fcn (ex_hessian E (oo_x o)) w1 = (w2, v) -> (h <- v ;; ex_inv E h) = Err e ->
  exists p' m', play fcn (minimize E x0 true (mk_mstate p m)) w = (w2, (mk_mstate p' m', Err e)) /\
    p_names p' = p_names p /\ p_values p' = oo_x o /\ p_errors p' = p_errors p /\ p_cov p' = p_cov p /\ p_corr p' = p_corr p /\
    m_fcn_min m' = Some (oo_fun o) /\ m_success m' = Some true.
Proof.
  intros S fcn E x0 p m f w w1 o w2 v e MF PL SU LX HS IV. unfold minimize, mbind, mget. cbn [pbind ms_m]. rewrite MF.
  unfold minimize_scipy, mbind, mget, mplay. cbn [pbind ms_m]. rewrite pbind_assoc, play_pbind, PL. cbn [pbind]. unfold mset_success. cbn [pbind]. rewrite SU.
  unfold mpars at 1. cbn [ms_p ms_m]. unfold set_values, num_pars. rewrite LX, Nat.eqb_refl. cbn [pbind]. unfold mset_fcn_min. cbn [pbind ms_m ms_p].
  rewrite !pbind_assoc, play_pbind, HS. destruct v as [h|e']; cbn [pbind rbind] in *.
  - unfold mlift at 1. rewrite IV. cbn [pbind play]. do 2 eexists. split; [reflexivity|]. repeat split; auto.
  - injection IV as ->. cbn [play]. do 2 eexists. split; [reflexivity|]. repeat split; auto.
Qed.
Print Assumptions C104_singular_hesse_refuted.

(** A concrete Minuit (that returns after one call of the objective) for the hypotheses, with and without matrix: *)
Definition ex_minuit_stub (has : bool) : ext :=
  mk_ext (fun a => Ask (ma_start a) (fun v => match v with
      | Ok f => Stop (Ok (mk_mout f (ma_start a) (ma_error a) (if has then Ok [[Fin 4]] else Err RuntimeError) (if has then Ok [[Fin 1]] else Err RuntimeError) has))
      | Err e => Stop (Err e) end))
    (fun x b cs => Ask x (fun v => match v with Ok f => Stop (Ok (mk_oout true x f)) | Err e => Stop (Err e) end))
    (fun _ => Stop (Ok [[Fin 0]])) (fun _ => Err LinAlgError).
Example ex_C104 : let names := ["a"]%string in let fcn := fun x (w : unit) => (w, Ok (Fin 7) : res xr) in
  (exists p m r, play fcn (minimize (ex_minuit_stub true) [Fin 3] true (mk_mstate (pars_new names) (min_new IMinuit names 0))) tt = (tt, (mk_mstate p m, Ok r)) /\
     p_values p = [Fin 3] /\ p_cov p = [[Fin 4]]) /\
  (exists p m, play fcn (minimize (ex_minuit_stub false) [Fin 3] true (mk_mstate (pars_new names) (min_new IMinuit names 0))) tt = (tt, (mk_mstate p m, Err RuntimeError)) /\
     p_values p = [Fin 3] /\ p_cov p = [[Fin 0]]) /\
  (exists p m, play fcn (minimize (ex_minuit_stub true) [Fin 3] true (mk_mstate (pars_new names) (min_new Scipy names 0))) tt = (tt, (mk_mstate p m, Err LinAlgError)) /\
     p_values p = [Fin 3] /\ p_cov p = [[Fin 0]]) /\
  (exists p m r, play fcn (minimize (ex_minuit_stub true) [Fin 3] false (mk_mstate (pars_new names) (min_new Scipy names 0))) tt = (tt, (mk_mstate p m, Ok r)) /\
     p_values p = [Fin 3] /\ p_errors p = [Fin 0]).
Proof.
  cbv zeta. split; [|split; [|split]].
  - edestruct (C104_minuit_stores unit (fun x (w : unit) => (w, Ok (Fin 7))) (ex_minuit_stub true) [Fin 3] true (pars_new ["a"]%string) (min_new IMinuit ["a"]%string 0) (repeat false 1) tt)
      as (p & m & r & H & H1 & H2 & H3 & H4 & _); try reflexivity; exists p, m, r; auto.
  - edestruct (C104_no_matrix_refuted unit (fun x (w : unit) => (w, Ok (Fin 7))) (ex_minuit_stub false) [Fin 3] true (pars_new ["a"]%string) (min_new IMinuit ["a"]%string 0) (repeat false 1) tt)
      as (p & m & H & H1 & H2 & H3 & H4 & _); try reflexivity; exists p, m; auto.
  - edestruct (C104_singular_hesse_refuted unit (fun x (w : unit) => (w, Ok (Fin 7))) (ex_minuit_stub true) [Fin 3] (pars_new ["a"]%string) (min_new Scipy ["a"]%string 0) [] tt)
      as (p & m & H & H1 & H2 & H3 & H4 & _); try reflexivity; exists p, m; auto.
  - edestruct (C104_without_hesse_refuted unit (fun x (w : unit) => (w, Ok (Fin 7))) (ex_minuit_stub true) [Fin 3] (pars_new ["a"]%string) (min_new Scipy ["a"]%string 0) [] tt)
      as (p & m & r & H & H1 & H2 & H3 & H4 & _); try reflexivity; exists p, m, r; auto.
Qed.
