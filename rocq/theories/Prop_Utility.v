(** Property theorems C11-C14, C16, C17, C58-C60: utility.py, stats.py, error propagation. *)
From Coq Require Import Reals String ZArith Bool Arith List Lra Lia.
From Verif Require Import Model_Num Model_Hist Model_Utility Model_Template Model_World Spec_Matrix
  Proof_Hist Proof_Hist2 Proof_Hist3 Proof_Matrix Proof_Utility.
Import ListNotations.
Local Open Scope R_scope.

(** C11 *)
Theorem C11_cov2corr_is_correlation : forall n A,
  symmetric n A -> psd n A -> (forall i, (i < n)%nat -> 0 < A i i) ->
  exists C, cov2corr (mat_of n A) = mat_of n C /\
    symmetric n C /\ psd n C /\
    (forall i, (i < n)%nat -> C i i = 1) /\
    (forall i j, (i < n)%nat -> (j < n)%nat ->
       C i j = A i j / (sqrt (A i i) * sqrt (A j j)) /\ -1 <= C i j <= 1).
Proof. exact cov2corr_is_correlation. Qed.
Print Assumptions C11_cov2corr_is_correlation.

(** C12: false with the variances; holds with the standard deviations. *)
Theorem C12_corr2cov_inverse_refuted :
  exists n A, symmetric n A /\ psd n A /\ (forall i, (i < n)%nat -> 0 < A i i) /\
    corr2cov (cov2corr (mat_of n A)) (np_diagonal (mat_of n A)) <> mat_of n A.
Proof. exact corr2cov_not_inverse. Qed.
Print Assumptions C12_corr2cov_inverse_refuted.

Theorem C12_corr2cov_with_std_partial : forall n A, (forall i, (i < n)%nat -> 0 < A i i) ->
  corr2cov (cov2corr (mat_of n A)) (vec_of n (fun i => sqrt (A i i))) = mat_of n A.
Proof. exact corr2cov_roundtrip_std. Qed.
Print Assumptions C12_corr2cov_with_std_partial.

(** what the documented call returns instead *)
Theorem C12_corr2cov_with_variances : forall n A, (forall i, (i < n)%nat -> 0 < A i i) ->
  corr2cov (cov2corr (mat_of n A)) (vec_of n (fun i => A i i))
  = mat_of n (fun i j => A i j * sqrt (A i i) * sqrt (A j j)).
Proof. exact corr2cov_variance. Qed.
Print Assumptions C12_corr2cov_with_variances.

(** C13 *)
Theorem C13_systematic_cov_valid : forall n nom up down,
  exists S d, get_systematic_cov_mat (vec_of n nom) (vec_of n up) (vec_of n down) = Ok (mat_of n S) /\
    symmetric n S /\ psd n S /\
    (forall i j, S i j = d i * d j) /\
    (forall i, S i i = ((Rabs (up i - nom i) + Rabs (down i - nom i)) / 2) ^ 2) /\
    (forall i, Rabs (d i) = (Rabs (up i - nom i) + Rabs (down i - nom i)) / 2) /\
    (forall i, (down i <= up i -> 0 <= d i) /\ (up i < down i -> d i <= 0)).
Proof. exact systematic_cov_valid. Qed.
Print Assumptions C13_systematic_cov_valid.

(** C14 *)
Theorem C14_swap_up_down_refuted :
  exists n nom up down,
    get_systematic_cov_mat (vec_of n nom) (vec_of n up) (vec_of n down)
    <> get_systematic_cov_mat (vec_of n nom) (vec_of n down) (vec_of n up).
Proof. exact systematic_cov_swap_refuted. Qed.
Print Assumptions C14_swap_up_down_refuted.

Theorem C14_swap_up_down_partial : forall n nom up down,
  (forall i, (i < n)%nat -> up i = down i -> up i = nom i) ->
  get_systematic_cov_mat (vec_of n nom) (vec_of n up) (vec_of n down)
  = get_systematic_cov_mat (vec_of n nom) (vec_of n down) (vec_of n up).
Proof. exact systematic_cov_swap. Qed.
Print Assumptions C14_swap_up_down_partial.
(** exactly when: the result changes iff some bin has up = down <> nominal and another has up <> down *)
Theorem C14_swap_up_down_iff : forall n nom up down,
  get_systematic_cov_mat (vec_of n nom) (vec_of n up) (vec_of n down)
  = get_systematic_cov_mat (vec_of n nom) (vec_of n down) (vec_of n up) <->
  ~ (exists i j, (i < n)%nat /\ (j < n)%nat /\ up i = down i /\ up i <> nom i /\ up j <> down j).
Proof.
  intros n nom up down. rewrite !systematic_cov.
  assert (T : forall i, up i = down i -> sdiff (nom i) (down i) (up i) = sdiff (nom i) (up i) (down i)) by (intros i E; rewrite E; reflexivity).
  assert (N : forall i, up i <> down i -> sdiff (nom i) (down i) (up i) = - sdiff (nom i) (up i) (down i)).
  { intros i E. unfold sdiff. destruct (Rltb_spec (down i) (up i)), (Rltb_spec (up i) (down i)); lra. }
  assert (Z : forall i, sdiff (nom i) (up i) (down i) = 0 <-> up i = nom i /\ down i = nom i).
  { intros i. unfold sdiff. pose proof (Rabs_pos (up i - nom i)) as P. pose proof (Rabs_pos (down i - nom i)) as Q. split.
    - intros E. assert (Rabs (up i - nom i) = 0 /\ Rabs (down i - nom i) = 0) as (A & B) by (destruct (Rltb _ _); split; lra).
      split; [destruct (Req_dec (up i - nom i) 0) as [|X]; [lra|apply Rabs_no_R0 in X; lra]|destruct (Req_dec (down i - nom i) 0) as [|X]; [lra|apply Rabs_no_R0 in X; lra]].
    - intros (A & B). rewrite A, B, Rminus_diag_eq, Rabs_R0 by reflexivity. lra. }
  split.
  - intros E (i & j & Hi & Hj & U & V & W).
    assert (OkI : forall a b : mat, Ok a = Ok b -> a = b) by congruence. apply OkI in E. apply mat_of_inj with (i := i) (j := j) in E; try assumption.
    rewrite (T i U), (N j W) in E.
    assert (A : sdiff (nom i) (up i) (down i) <> 0) by (intros X; apply Z in X; tauto).
    assert (B : sdiff (nom j) (up j) (down j) <> 0) by (intros X; apply Z in X; destruct X; congruence).
    pose proof (Rmult_integral_contrapositive_currified _ _ A B). lra.
  - intros H. f_equal. apply mat_of_ext. intros i j Hi Hj.
    destruct (Req_dec (up i) (down i)) as [Ei|Ei], (Req_dec (up j) (down j)) as [Ej|Ej].
    + rewrite (T i Ei), (T j Ej). reflexivity.
    + rewrite (T i Ei), (N j Ej). destruct (Req_dec (up i) (nom i)) as [X|X]; [|exfalso; apply H; exists i, j; auto].
      assert (sdiff (nom i) (up i) (down i) = 0) as -> by (apply Z; split; congruence). ring.
    + rewrite (N i Ei), (T j Ej). destruct (Req_dec (up j) (nom j)) as [X|X]; [|exfalso; apply H; exists j, i; auto].
      assert (sdiff (nom j) (up j) (down j) = 0) as -> by (apply Z; split; congruence). ring.
    + rewrite (N i Ei), (N j Ej). ring.
Qed.
Print Assumptions C14_swap_up_down_iff.


(** C16 *)
Theorem C16_xlogyx_value : forall x y, c1e_100 <= x -> 0 < y -> xlogyx (Fin x) (Fin y) = Fin (x * ln (y / x)).
Proof. exact xlogyx_value. Qed.
Print Assumptions C16_xlogyx_value.
Theorem C16_xlogyx_small_or_nan : forall x y, xltb x (Fin c1e_100) = true \/ x = NaN -> xlogyx x y = Fin 0.
Proof. exact xlogyx_small. Qed.
Print Assumptions C16_xlogyx_small_or_nan.
Theorem C16_xlogyx_zero_expectation : forall x, c1e_100 <= x -> xlogyx (Fin x) (Fin 0) = NInf.
Proof. exact xlogyx_zero. Qed.
Print Assumptions C16_xlogyx_zero_expectation.
Theorem C16_xlogyx_negative_expectation : forall x y, c1e_100 <= x -> y < 0 -> xlogyx (Fin x) (Fin y) = NaN.
Proof. exact xlogyx_neg. Qed.
Print Assumptions C16_xlogyx_negative_expectation.

(** C17.  [until_none sizes] are the sizes up to and including the first None, [size_total] the sum of
    the sizes (None counting 0). *)
Theorem C17_split_is_prefix : forall A (it : list A) sizes,
  exists rest, it = concat (array_split_into it sizes) ++ rest.
Proof. exact @array_split_prefix. Qed.
Print Assumptions C17_split_is_prefix.
Theorem C17_split_complete : forall A (it : list A) sizes,
  In None sizes \/ (length it <= size_total sizes)%nat -> concat (array_split_into it sizes) = it.
Proof. exact @array_split_complete. Qed.
Print Assumptions C17_split_complete.
Theorem C17_nothing_after_none : forall A (it : list A) sizes,
  length (array_split_into it sizes) = length (until_none sizes).
Proof. exact @array_split_count. Qed.
Print Assumptions C17_nothing_after_none.
Theorem C17_sizes : forall A (it : list A) sizes k n,
  nth_error (until_none sizes) k = Some (Some n) ->
  exists c, nth_error (array_split_into it sizes) k = Some c /\
    length c = Nat.min n (length it - size_total (firstn k sizes)).
Proof. exact @array_split_sizes. Qed.
Print Assumptions C17_sizes.

(** C58.  The p-value is an arbitrary function of chi2 and dof. *)
Theorem C58_pearson_value : forall pval n d e dof, (forall i, (i < n)%nat -> 0 < e i) ->
  pearson_chi2_test pval (vec_of n d) (vec_of n e) dof =
  let c := sumn n (fun i => (d i - e i) ^ 2 / e i) in
  Ok (Fin c, xdiv (Fin c) (Fin (IZR dof)), pval (Fin c) dof).
Proof. exact pearson_value. Qed.
Print Assumptions C58_pearson_value.
Theorem C58_pearson_distance : forall n d e, (forall i, (i < n)%nat -> 0 < e i) ->
  let c := sumn n (fun i => (d i - e i) ^ 2 / e i) in
  0 <= c /\ (c = 0 <-> forall i, (i < n)%nat -> d i = e i).
Proof. exact pearson_distance. Qed.
Print Assumptions C58_pearson_distance.
(** the test with given uncertainties *)
Theorem C58_default_value : forall pval n d e u dof, (forall i, (i < n)%nat -> u i <> 0) ->
  default_chi2_test pval (vec_of n d) (vec_of n e) (vec_of n u) dof =
  let c := sumn n (fun i => ((d i - e i) / u i) ^ 2) in
  Ok (Fin c, xdiv (Fin c) (Fin (IZR dof)), pval (Fin c) dof).
Proof.
  intros pval n d e u dof Hu. unfold default_chi2_test.
  rewrite (bcast_vec n d e xsub (fun i => d i - e i)) by (intros; reflexivity). cbn [rbind].
  rewrite (bcast_vec n (fun i => d i - e i) u _ (fun i => ((d i - e i) / u i) ^ 2)).
  - cbn [rbind]. rewrite np_sum_vec. reflexivity.
  - intros i Hi. specialize (Hu i Hi). unfold xsq, xmul. rewrite xdiv_fin by (apply Rmult_integral_contrapositive_currified; assumption). f_equal. field. assumption.
Qed.
Print Assumptions C58_default_value.
Theorem C58_default_distance : forall n d e u, (forall i, (i < n)%nat -> u i <> 0) ->
  let c := sumn n (fun i => ((d i - e i) / u i) ^ 2) in
  0 <= c /\ (c = 0 <-> forall i, (i < n)%nat -> d i = e i).
Proof.
  intros n d e u Hu c.
  assert (P : forall i, (i < n)%nat -> 0 <= ((d i - e i) / u i) ^ 2) by (intros; apply pow2_ge_0).
  split; [apply sumn_nonneg; exact P|]. split.
  - intros E i Hi. pose proof (sumn_eq0 _ _ P E i Hi) as Z. specialize (Hu i Hi).
    assert ((d i - e i) / u i = 0) by nra. assert (D : d i - e i = (d i - e i) / u i * u i) by (field; assumption). rewrite H in D. lra.
  - intros E. apply sumn_zero. intros i Hi. rewrite E by assumption. unfold Rdiv. ring.
Qed.
Print Assumptions C58_default_distance.
(** a bin without uncertainty in which data and expectation differ makes the statistic infinite *)
Lemma np_sum_pinf l : In PInf l -> (forall a, In a l -> a = PInf \/ exists r, a = Fin r) -> np_sum l = PInf.
Proof.
  assert (Q : forall l, (forall a, In a l -> a = PInf \/ exists r, a = Fin r) -> np_sum l = PInf \/ exists r, np_sum l = Fin r).
  { clear l. induction l as [|a l IH]; intros H; simpl; [right; eauto|]. destruct (IH (fun b Hb => H b (or_intror Hb))) as [->|(r & ->)]; destruct (H a (or_introl eq_refl)) as [->|(q & ->)]; simpl; eauto. }
  induction l as [|a l IH]; intros I H; [destruct I|]. simpl. destruct I as [->|I].
  - destruct (Q l (fun b Hb => H b (or_intror Hb))) as [->|(r & ->)]; reflexivity.
  - rewrite IH; auto; [|intros b Hb; apply H; now right]. destruct (H a (or_introl eq_refl)) as [->|(q & ->)]; reflexivity.
Qed.
Theorem C58_no_uncertainty : forall pval n d e u dof k, (k < n)%nat -> u k = 0 ->
  (forall i, (i < n)%nat -> u i = 0 -> d i <> e i) ->
  exists r p, default_chi2_test pval (vec_of n d) (vec_of n e) (vec_of n u) dof = Ok (PInf, r, p).
Proof.
  intros pval n d e u dof k Hk U H. unfold default_chi2_test. rewrite (bcast_vec n d e xsub (fun i => d i - e i)) by (intros; reflexivity). cbn [rbind].
  unfold bcast. rewrite !vec_of_length, Nat.eqb_refl. cbn [rbind].
  set (g := fun a b => xdiv (xsq a) (xsq b)).
  assert (T : forall i, (i < n)%nat -> (u i = 0 -> g (Fin (d i - e i)) (Fin (u i)) = PInf) /\ (u i <> 0 -> exists r, g (Fin (d i - e i)) (Fin (u i)) = Fin r)).
  { intros i Hi. split.
    - intros Z. specialize (H i Hi Z). rewrite Z. unfold g, xsq, xmul, xdiv. destruct (Reqb_spec (0 * 0) 0) as [_|N]; [|lra].
      assert (0 < (d i - e i) * (d i - e i)) by nra.
      destruct (Reqb_spec ((d i - e i) * (d i - e i)) 0) as [X|_]; [lra|]. destruct (Rltb_spec ((d i - e i) * (d i - e i)) 0) as [X|_]; [lra|]. reflexivity.
    - intros N. unfold g, xsq, xmul. rewrite xdiv_fin by (apply Rmult_integral_contrapositive_currified; assumption). eauto. }
  assert (M : map2 g (vec_of n (fun i => d i - e i)) (vec_of n u) = map (fun i => g (Fin (d i - e i)) (Fin (u i))) (seq 0 n)).
  { unfold vec_of. generalize (seq 0 n) as l. induction l as [|a l IH]; simpl; congruence. }
  rewrite M, np_sum_pinf; [eauto| |].
  - apply in_map_iff. exists k. split; [apply T; auto|apply in_seq; lia].
  - intros a I. apply in_map_iff in I as (i & <- & I). apply in_seq in I. destruct (Req_dec (u i) 0); [left|right]; apply T; auto; lia.
Qed.
Print Assumptions C58_no_uncertainty.

(** C59: [dev n v] is v - n - n ln(v/n), the Poisson term of the likelihood. *)
Theorem C59_cowan_empty_bin_refuted : forall pval n d e dof k, (k < n)%nat -> d k = 0 -> 0 < e k ->
  exists r p, cowan_binned_likelihood_gof pval (vec_of n d) (vec_of n e) dof = Ok (NaN, r, p).
Proof. exact cowan_empty_bin_nan. Qed.
Print Assumptions C59_cowan_empty_bin_refuted.
Theorem C59_cowan_value_partial : forall pval n d e dof, (forall i, (i < n)%nat -> 0 < d i /\ 0 < e i) ->
  cowan_binned_likelihood_gof pval (vec_of n d) (vec_of n e) dof =
  let c := 2 * sumn n (fun i => e i - d i - d i * ln (e i / d i)) in
  Ok (Fin c, xdiv (Fin c) (Fin (IZR dof)), pval (Fin c) dof).
Proof. exact cowan_value. Qed.
Print Assumptions C59_cowan_value_partial.
Theorem C59_cowan_distance_partial : forall n d e, (forall i, (i < n)%nat -> 0 < d i /\ 0 < e i) ->
  let c := 2 * sumn n (fun i => e i - d i - d i * ln (e i / d i)) in
  0 <= c /\ (c = 0 <-> forall i, (i < n)%nat -> d i = e i).
Proof. exact cowan_distance. Qed.
Print Assumptions C59_cowan_distance_partial.

(** C60.  J C J^T with J of shape (nb, np). *)
Theorem C60_propagation_value : forall nb np J C,
  propagate_parameter_uncertainties nb np (rmat_of nb np J) (mat_of np C)
  = mat_of nb (fun a b => sumn np (fun l => sumn np (fun k => J a k * C k l) * J b l)).
Proof. exact propagation_value. Qed.
Print Assumptions C60_propagation_value.
Theorem C60_propagation_valid : forall nb np J C, symmetric np C -> psd np C ->
  let V a b := sumn np (fun l => sumn np (fun k => J a k * C k l) * J b l) in
  symmetric nb V /\ psd nb V /\
  get_post_fit_bin_uncertainty nb np (rmat_of nb np J) (mat_of np C) = vec_of nb (fun b => sqrt (V b b)).
Proof. exact propagation_valid. Qed.
Print Assumptions C60_propagation_valid.

(** ** Non-vacuity: a valid covariance matrix with correlations *)
Example ex_cov : let A i j := delta i j + 1 in symmetric 3 A /\ psd 3 A /\ (forall i, (i < 3)%nat -> 0 < A i i).
Proof.
  cbv zeta; split; [|split].
  - intros i j _ _. unfold delta. rewrite Nat.eqb_sym. reflexivity.
  - intros v. unfold quad, delta; simpl.
    replace (_ + _) with (v 0%nat ^ 2 + v 1%nat ^ 2 + v 2%nat ^ 2 + (v 0%nat + v 1%nat + v 2%nat) ^ 2) by ring.
    pose proof (pow2_ge_0 (v 0%nat)). pose proof (pow2_ge_0 (v 1%nat)). pose proof (pow2_ge_0 (v 2%nat)).
    pose proof (pow2_ge_0 (v 0%nat + v 1%nat + v 2%nat)). lra.
  - intros i _. unfold delta. rewrite Nat.eqb_refl. lra.
Qed.
Example ex_xlogyx : c1e_100 <= 5.
Proof.
  unfold c1e_100. apply Rle_trans with 1; [|lra]. rewrite <- Rinv_1. apply Rinv_le_contravar; [lra|].
  apply pow_R1_Rle; lra.
Qed.
Example ex_swap : forall i, (i < 2)%nat -> (fun i => INR i + 1) i = (fun i => - INR i) i -> (fun i => INR i + 1) i = 0.
Proof. intros i _ H. simpl in *. pose proof (pos_INR i). lra. Qed.
