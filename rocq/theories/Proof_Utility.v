(** Proofs for utility.py (xlogyx, array_split_into), stats.py and error propagation. *)
From Coq Require Import Reals String ZArith Bool Arith List Lra Lia.
From Verif Require Import Model_Num Model_Hist Model_Utility Model_Template Model_World Spec_Matrix
  Proof_Hist Proof_Hist2 Proof_Matrix.
Import ListNotations.
Local Open Scope R_scope.

(** *** C16 *)
Lemma c1e_100_pos : 0 < c1e_100.
Proof. unfold c1e_100. apply Rinv_0_lt_compat, pow_lt. lra. Qed.

Lemma xlogyx_value x y : c1e_100 <= x -> 0 < y -> xlogyx (Fin x) (Fin y) = Fin (x * ln (y / x)).
Proof.
  pose proof c1e_100_pos as Hc. intros Hx Hy. unfold xlogyx. simpl xisnan. simpl xltb. cbn iota.
  destruct (Rltb_spec x c1e_100); [lra|].
  destruct (Rltb_spec x y) as [Hlt|Hge].
  - unfold xsub; simpl. destruct (Reqb_spec x 0); [lra|]. unfold xlog1p.
    assert (E : 1 + (y + - x) / x = y / x) by (field; lra).
    assert (0 < y / x) by (apply Rdiv_lt_0_compat; lra).
    destruct (Rltb_spec ((y + - x) / x) (-1)); [lra|]. destruct (Reqb_spec ((y + - x) / x) (-1)); [lra|].
    simpl. rewrite E. reflexivity.
  - unfold xsub; simpl. destruct (Reqb_spec y 0); [lra|]. unfold xlog1p.
    assert (E : 1 + (x + - y) / y = / (y / x)) by (field; lra).
    assert (0 < y / x) by (apply Rdiv_lt_0_compat; lra).
    assert (0 < / (y / x)) by (apply Rinv_0_lt_compat; assumption).
    destruct (Rltb_spec ((x + - y) / y) (-1)); [lra|]. destruct (Reqb_spec ((x + - y) / y) (-1)); [lra|].
    simpl. rewrite E, ln_Rinv by assumption. f_equal. ring.
Qed.
Lemma xlogyx_small x y : xltb x (Fin c1e_100) = true \/ x = NaN -> xlogyx x y = Fin 0.
Proof. intros [H| ->]; unfold xlogyx; [|reflexivity]. destruct (xisnan x); [reflexivity|]. rewrite H. reflexivity. Qed.
Lemma xlogyx_zero x : c1e_100 <= x -> xlogyx (Fin x) (Fin 0) = NInf.
Proof.
  pose proof c1e_100_pos as Hc. intros Hx. unfold xlogyx; simpl.
  destruct (Rltb_spec x c1e_100); [lra|]. destruct (Rltb_spec x 0); [lra|].
  unfold xsub; simpl. destruct (Reqb_spec 0 0); [|lra]. destruct (Reqb_spec (x + -0) 0); [lra|].
  destruct (Rltb_spec (x + -0) 0); [lra|]. simpl. unfold xinf_mul. destruct (Reqb_spec (-x) 0); [lra|].
  destruct (Rltb_spec (-x) 0); [reflexivity|lra].
Qed.
Lemma xlogyx_neg x y : c1e_100 <= x -> y < 0 -> xlogyx (Fin x) (Fin y) = NaN.
Proof.
  pose proof c1e_100_pos as Hc. intros Hx Hy. unfold xlogyx; simpl.
  destruct (Rltb_spec x c1e_100); [lra|]. destruct (Rltb_spec x y); [lra|].
  unfold xsub; simpl. destruct (Reqb_spec y 0); [lra|]. unfold xlog1p.
  assert (E : (x + - y) / y = x / y - 1) by (field; lra).
  assert (x / y < 0). { unfold Rdiv. assert (/ y < 0) by (apply Rinv_lt_0_compat; assumption). nra. }
  destruct (Rltb_spec ((x + - y) / y) (-1)); [reflexivity|lra].
Qed.

(** *** C17 *)
Lemma array_split_prefix {A} (it : list A) sizes :
  exists rest, it = concat (array_split_into it sizes) ++ rest.
Proof.
  revert it; induction sizes as [|[n|] sizes IH]; intros it; simpl.
  - exists it; reflexivity.
  - destruct (IH (skipn n it)) as [rest E]. exists rest. rewrite <- app_assoc, <- E. symmetry; apply firstn_skipn.
  - exists []. rewrite !app_nil_r. reflexivity.
Qed.
Definition size_total (sizes : list (option nat)) : nat :=
  fold_right (fun o acc => match o with Some n => n + acc | None => acc end)%nat 0%nat sizes.
Lemma array_split_complete {A} (it : list A) sizes :
  In None sizes \/ (length it <= size_total sizes)%nat -> concat (array_split_into it sizes) = it.
Proof.
  revert it; induction sizes as [|[n|] sizes IH]; intros it H; simpl in *.
  - destruct H as [[]|H]. destruct it; simpl in *; [reflexivity|lia].
  - rewrite IH; [apply firstn_skipn|]. destruct H as [[H|H]|H]; [discriminate|left; assumption|].
    right. rewrite skipn_length. lia.
  - apply app_nil_r.
Qed.
Fixpoint until_none (sizes : list (option nat)) : list (option nat) :=
  match sizes with [] => [] | None :: _ => [None] | Some n :: s => Some n :: until_none s end.
Lemma array_split_count {A} (it : list A) sizes :
  length (array_split_into it sizes) = length (until_none sizes).
Proof. revert it; induction sizes as [|[n|] sizes IH]; intros it; simpl; auto. Qed.
Lemma array_split_sizes {A} (it : list A) sizes : forall k n,
  nth_error (until_none sizes) k = Some (Some n) ->
  exists c, nth_error (array_split_into it sizes) k = Some c /\
    length c = Nat.min n (length it - size_total (firstn k sizes)).
Proof.
  revert it; induction sizes as [|[m|] sizes IH]; intros it k n Hk; simpl in *.
  - destruct k; discriminate.
  - destruct k as [|k]; simpl in *.
    + inversion Hk; subst. exists (firstn n it). split; [reflexivity|]. rewrite firstn_length. lia.
    + destruct (IH (skipn m it) k n Hk) as (c & Hc & Hl). exists c. split; [assumption|].
      rewrite Hl, skipn_length. lia.
  - destruct k as [|k]; simpl in *; [discriminate|]. destruct k; discriminate.
Qed.

(** *** C58 *)
Lemma pearson_value pval n d e dof : (forall i, (i < n)%nat -> 0 < e i) ->
  pearson_chi2_test pval (vec_of n d) (vec_of n e) dof =
  let c := sumn n (fun i => (d i - e i) ^ 2 / e i) in
  Ok (Fin c, xdiv (Fin c) (Fin (IZR dof)), pval (Fin c) dof).
Proof.
  intros He. unfold pearson_chi2_test.
  rewrite (bcast_vec n d e xsub (fun i => d i - e i)) by (intros; reflexivity). cbn [rbind].
  rewrite (bcast_vec n (fun i => d i - e i) e _ (fun i => (d i - e i) ^ 2 / e i)).
  - cbn [rbind]. rewrite np_sum_vec. reflexivity.
  - intros i Hi. specialize (He i Hi). unfold xsq, xmul. rewrite xdiv_fin by lra. f_equal. f_equal. ring.
Qed.
Lemma sumn_eq0 n f : (forall i, (i < n)%nat -> 0 <= f i) -> sumn n f = 0 -> forall i, (i < n)%nat -> f i = 0.
Proof.
  intros H E i Hi. destruct (Req_dec (f i) 0) as [|Hne]; auto. exfalso.
  assert (0 < sumn n f) by (apply (sumn_pos n f i); auto; specialize (H i Hi); lra). lra.
Qed.
Lemma pearson_distance n d e : (forall i, (i < n)%nat -> 0 < e i) ->
  let c := sumn n (fun i => (d i - e i) ^ 2 / e i) in
  0 <= c /\ (c = 0 <-> forall i, (i < n)%nat -> d i = e i).
Proof.
  intros He. cbv zeta.
  assert (P : forall i, (i < n)%nat -> 0 <= (d i - e i) ^ 2 / e i).
  { intros i Hi. specialize (He i Hi). apply Rmult_le_pos; [apply pow2_ge_0|]. apply Rlt_le, Rinv_0_lt_compat; assumption. }
  split; [apply sumn_nonneg; exact P|]. split.
  - intros E i Hi. pose proof (sumn_eq0 _ _ P E i Hi) as Z. specialize (He i Hi).
    assert ((d i - e i) ^ 2 = 0).
    { apply Rmult_integral in Z as [|Z]; [assumption|]. exfalso. assert (/ e i <> 0) by (apply Rinv_neq_0_compat; lra). contradiction. }
    nra.
  - intros E. apply sumn_zero. intros i Hi. rewrite E by assumption. replace ((e i - e i) ^ 2) with 0 by ring. unfold Rdiv; ring.
Qed.

(** *** Poisson deviance *)
Definition dev (n v : R) : R := v - n - n * ln (v / n).
Lemma ln_le_sub1 y : 0 < y -> ln y <= y - 1.
Proof. intros H. pose proof (exp_ineq1_le (ln y)) as E. rewrite exp_ln in E by assumption. lra. Qed.
Lemma ln_lt_sub1 y : 0 < y -> y <> 1 -> ln y < y - 1.
Proof.
  intros H Hne. assert (ln y <> 0). { intros E. apply Hne. rewrite <- (exp_ln y H), E. apply exp_0. }
  pose proof (exp_ineq1 (ln y) H0) as E. rewrite exp_ln in E by assumption. lra.
Qed.
Lemma dev_nonneg n v : 0 < n -> 0 < v -> 0 <= dev n v.
Proof.
  intros Hn Hv. unfold dev. assert (0 < v / n) by (apply Rdiv_lt_0_compat; lra).
  pose proof (ln_le_sub1 (v / n) H) as L. assert (n * ln (v / n) <= n * (v / n - 1)) by (apply Rmult_le_compat_l; lra).
  replace (n * (v / n - 1)) with (v - n) in H0 by (field; lra). lra.
Qed.
Lemma dev_zero n v : 0 < n -> 0 < v -> dev n v = 0 -> n = v.
Proof.
  intros Hn Hv E. destruct (Req_dec n v) as [|Hne]; auto. exfalso. unfold dev in E.
  assert (0 < v / n) by (apply Rdiv_lt_0_compat; lra).
  assert (v / n <> 1). { intros E1. apply Hne. apply (Rmult_eq_compat_r n) in E1. unfold Rdiv in E1. rewrite Rmult_assoc, Rinv_l in E1; lra. }
  pose proof (ln_lt_sub1 (v / n) H H0) as L. assert (n * ln (v / n) < n * (v / n - 1)) by (apply Rmult_lt_compat_l; lra).
  replace (n * (v / n - 1)) with (v - n) in H1 by (field; lra). lra.
Qed.
Lemma dev_same n : 0 < n -> dev n n = 0.
Proof. intros H. unfold dev. replace (n / n) with 1 by (field; lra). rewrite ln_1. lra. Qed.

(** *** C59 *)
Lemma cowan_value pval n d e dof : (forall i, (i < n)%nat -> 0 < d i /\ 0 < e i) ->
  cowan_binned_likelihood_gof pval (vec_of n d) (vec_of n e) dof =
  let c := 2 * sumn n (fun i => dev (d i) (e i)) in
  Ok (Fin c, xdiv (Fin c) (Fin (IZR dof)), pval (Fin c) dof).
Proof.
  intros H. unfold cowan_binned_likelihood_gof.
  rewrite (bcast_vec n d e _ (fun i => dev (d i) (e i))).
  - cbn [rbind]. rewrite np_sum_vec. reflexivity.
  - intros i Hi. destruct (H i Hi) as [Hd He]. rewrite xdiv_fin by lra. unfold xlog.
    assert (0 < d i / e i) by (apply Rdiv_lt_0_compat; lra).
    destruct (Rltb_spec (d i / e i) 0); [lra|]. destruct (Reqb_spec (d i / e i) 0); [lra|].
    unfold xsub; simpl. f_equal. unfold dev. replace (d i / e i) with (/ (e i / d i)) by (field; lra).
    rewrite ln_Rinv by (apply Rdiv_lt_0_compat; lra). ring.
Qed.
Lemma cowan_distance n d e : (forall i, (i < n)%nat -> 0 < d i /\ 0 < e i) ->
  let c := 2 * sumn n (fun i => dev (d i) (e i)) in
  0 <= c /\ (c = 0 <-> forall i, (i < n)%nat -> d i = e i).
Proof.
  intros H. cbv zeta. assert (P : forall i, (i < n)%nat -> 0 <= dev (d i) (e i)) by (intros i Hi; destruct (H i Hi); apply dev_nonneg; assumption).
  pose proof (sumn_nonneg _ _ P). split; [lra|]. split.
  - intros E i Hi. destruct (H i Hi). apply dev_zero; try assumption. apply (sumn_eq0 n (fun i => dev (d i) (e i))); auto. lra.
  - intros E. rewrite sumn_zero; [lra|]. intros i Hi. rewrite <- E by assumption. apply dev_same. apply H; assumption.
Qed.
Lemma np_sum_nan l : In NaN l -> np_sum l = NaN.
Proof.
  induction l as [|a l IH]; intros H; [destruct H|]. simpl. destruct H as [->|H]; [reflexivity|].
  rewrite IH by assumption. destruct a; reflexivity.
Qed.
Lemma cowan_empty_bin_nan pval n d e dof k : (k < n)%nat -> d k = 0 -> 0 < e k ->
  exists r p, cowan_binned_likelihood_gof pval (vec_of n d) (vec_of n e) dof = Ok (NaN, r, p).
Proof.
  intros Hk Hd He. unfold cowan_binned_likelihood_gof, bcast. rewrite !vec_of_length, Nat.eqb_refl. cbn [rbind].
  rewrite (np_sum_nan _) ; [eexists; eexists; reflexivity|].
  assert (E : nth k (map2 (fun n0 e0 : xr => xsub (xadd (xmul n0 (xlog (xdiv n0 e0))) e0) n0) (vec_of n d) (vec_of n e)) (Fin 0) = NaN).
  { rewrite (map2_nth _ _ _ _ NaN NaN) by (rewrite vec_of_length; assumption).
    change (nth k (vec_of n d) NaN) with (vnth (vec_of n d) k). change (nth k (vec_of n e) NaN) with (vnth (vec_of n e) k).
    rewrite !vnth_vec by assumption. rewrite Hd. rewrite xdiv_fin by lra. replace (0 / e k) with 0 by (field; lra).
    unfold xlog. destruct (Rltb_spec 0 0); [lra|]. destruct (Reqb_spec 0 0); [|lra]. simpl. unfold xinf_mul.
    destruct (Reqb_spec 0 0); [reflexivity|lra]. }
  rewrite <- E. apply nth_In. rewrite map2_length, !vec_of_length. lia.
Qed.

(** *** C60 *)
Definition rmat_of (r c : nat) (A : nat -> nat -> R) : mat := map (fun i => vec_of c (A i)) (seq 0 r).
Lemma mnth_rmat r c A i j : (i < r)%nat -> (j < c)%nat -> mnth (rmat_of r c A) i j = Fin (A i j).
Proof. intros Hi Hj. unfold mnth, rmat_of. rewrite nth_map_seq by assumption. apply vnth_vec; assumption. Qed.
Lemma np_mm_rmat r k c A B : np_mm r k c (rmat_of r k A) (rmat_of k c B) = rmat_of r c (fun i j => sumn k (fun l => A i l * B l j)).
Proof.
  unfold np_mm, rmat_of at 3, vec_of. apply map_ext_in. intros i Hi. apply in_seq in Hi.
  apply map_ext_in. intros j Hj. apply in_seq in Hj.
  rewrite <- xsum_n_sumn. unfold xsum_n. f_equal. apply map_ext_in. intros l Hl. apply in_seq in Hl.
  rewrite !mnth_rmat by lia. reflexivity.
Qed.
Lemma np_transpose_rmat r c A : np_transpose r c (rmat_of r c A) = rmat_of c r (fun j i => A i j).
Proof.
  unfold np_transpose, rmat_of at 2, vec_of. apply map_ext_in. intros j Hj. apply in_seq in Hj.
  apply map_ext_in. intros i Hi. apply in_seq in Hi. rewrite mnth_rmat by lia. reflexivity.
Qed.
Lemma propagation_value nb np J C :
  propagate_parameter_uncertainties nb np (rmat_of nb np J) (mat_of np C) = mat_of nb (jcjt np J C).
Proof.
  unfold propagate_parameter_uncertainties. change (mat_of np C) with (rmat_of np np C).
  rewrite np_mm_rmat, np_transpose_rmat, np_mm_rmat. reflexivity.
Qed.
Lemma propagation_valid nb np J C : symmetric np C -> psd np C ->
  symmetric nb (jcjt np J C) /\ psd nb (jcjt np J C) /\
  get_post_fit_bin_uncertainty nb np (rmat_of nb np J) (mat_of np C) = vec_of nb (fun b => sqrt (jcjt np J C b b)).
Proof.
  intros Hs Hp. assert (P : psd nb (jcjt np J C)) by (intros v; rewrite quad_jcjt; apply Hp).
  split; [|split; [exact P|]].
  - intros a b Ha Hb. unfold jcjt.
    transitivity (sumn np (fun l => sumn np (fun k => J a k * C k l * J b l))).
    { apply sumn_ext; intros l Hl. rewrite sumn_scal_r. reflexivity. }
    rewrite sumn_swap. apply sumn_ext; intros l Hl. rewrite <- sumn_scal_r. apply sumn_ext; intros k Hk.
    rewrite (Hs l k) by assumption. ring.
  - unfold get_post_fit_bin_uncertainty. rewrite propagation_value, np_diagonal_mat. apply map_vec.
    intros b Hb. apply xsqrt_pos. rewrite <- (quad_one nb) by assumption. apply P.
Qed.
