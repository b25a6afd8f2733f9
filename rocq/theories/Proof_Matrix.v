(** Lemmas about sums, vectors and matrices. *)
From Coq Require Import Reals String ZArith Bool Arith List Lra Lia.
From Verif Require Import Model_Num Model_Hist Model_Utility Spec_Matrix Proof_Hist Proof_Hist2.
Import ListNotations.
Local Open Scope R_scope.

Lemma sumn_ext n f g : (forall i, (i < n)%nat -> f i = g i) -> sumn n f = sumn n g.
Proof. induction n as [|n IH]; intros H; simpl; auto. rewrite IH by (intros; apply H; lia). rewrite H by lia. reflexivity. Qed.
Lemma sumn_zero n f : (forall i, (i < n)%nat -> f i = 0) -> sumn n f = 0.
Proof. induction n as [|n IH]; intros H; simpl; auto. rewrite IH by (intros; apply H; lia). rewrite H by lia. lra. Qed.
Lemma sumn_plus n f g : sumn n (fun i => f i + g i) = sumn n f + sumn n g.
Proof. induction n as [|n IH]; simpl; [lra|]. rewrite IH. lra. Qed.
Lemma sumn_minus n f g : sumn n (fun i => f i - g i) = sumn n f - sumn n g.
Proof. induction n as [|n IH]; simpl; [lra|]. rewrite IH. lra. Qed.
Lemma sumn_scal n c f : sumn n (fun i => c * f i) = c * sumn n f.
Proof. induction n as [|n IH]; simpl; [lra|]. rewrite IH. lra. Qed.
Lemma sumn_scal_r n c f : sumn n (fun i => f i * c) = sumn n f * c.
Proof. induction n as [|n IH]; simpl; [lra|]. rewrite IH. lra. Qed.
Lemma sumn_swap n m f : sumn n (fun i => sumn m (fun j => f i j)) = sumn m (fun j => sumn n (fun i => f i j)).
Proof.
  induction n as [|n IH]; simpl.
  - symmetry; apply sumn_zero; auto.
  - rewrite IH, <- sumn_plus. reflexivity.
Qed.
Lemma sumn_nonneg n f : (forall i, (i < n)%nat -> 0 <= f i) -> 0 <= sumn n f.
Proof. induction n as [|n IH]; intros H; simpl; [lra|]. assert (0 <= f n) by (apply H; lia). assert (0 <= sumn n f) by (apply IH; intros; apply H; lia). lra. Qed.
Lemma sumn_pos n f i : (forall i, (i < n)%nat -> 0 <= f i) -> (i < n)%nat -> 0 < f i -> 0 < sumn n f.
Proof.
  induction n as [|n IH]; intros H Hi Hp; [lia|]. simpl.
  assert (0 <= sumn n f) by (apply sumn_nonneg; intros; apply H; lia).
  assert (0 <= f n) by (apply H; lia).
  destruct (Nat.eq_dec i n) as [->|]; [lra|]. assert (0 < sumn n f) by (apply IH; auto; lia). lra.
Qed.
Lemma sumn_single n k f : (k < n)%nat -> (forall i, (i < n)%nat -> i <> k -> f i = 0) -> sumn n f = f k.
Proof.
  induction n as [|n IH]; intros Hk H; [lia|]. simpl. destruct (Nat.eq_dec k n) as [->|Hne].
  - rewrite sumn_zero; [lra|]. intros i Hi; apply H; lia.
  - rewrite IH; [rewrite (H n); [lra|lia|lia]|lia|intros; apply H; lia].
Qed.
Lemma sumn_split n m f : sumn (n + m) f = sumn n f + sumn m (fun i => f (n + i)%nat).
Proof.
  induction m as [|m IH]; simpl; [rewrite Nat.add_0_r; lra|].
  rewrite Nat.add_succ_r. simpl. rewrite IH. lra.
Qed.
Lemma sumn_delta_l n k f : (k < n)%nat -> sumn n (fun i => delta k i * f i) = f k.
Proof.
  intros H. rewrite (sumn_single n k); [|assumption|intros i Hi Hne; unfold delta; destruct (Nat.eqb_spec k i); [lia|lra]].
  unfold delta. rewrite Nat.eqb_refl. lra.
Qed.
Lemma sumn_delta_r n k f : (k < n)%nat -> sumn n (fun i => f i * delta i k) = f k.
Proof.
  intros H. rewrite (sumn_single n k); [|assumption|intros i Hi Hne; unfold delta; destruct (Nat.eqb_spec i k); [lia|lra]].
  unfold delta. rewrite Nat.eqb_refl. lra.
Qed.

Lemma Rsuml_seq_sumn n f : Rsuml (map f (seq 0 n)) = sumn n f.
Proof.
  induction n as [|n IH]; auto. rewrite seq_S, map_app, Rsuml_app, IH. simpl. lra.
Qed.

Lemma np_sum_vec n f : np_sum (vec_of n f) = Fin (sumn n f).
Proof. unfold vec_of. rewrite <- (map_map f Fin), np_sum_Fin, Rsuml_seq_sumn. reflexivity. Qed.

Lemma vec_of_length n f : length (vec_of n f) = n.
Proof. unfold vec_of. rewrite map_length, seq_length. reflexivity. Qed.
Lemma mat_of_length n A : length (mat_of n A) = n.
Proof. unfold mat_of. rewrite map_length, seq_length. reflexivity. Qed.
Lemma vnth_vec n f i : (i < n)%nat -> vnth (vec_of n f) i = Fin (f i).
Proof. intros H. unfold vnth, vec_of. rewrite nth_map_seq by assumption. reflexivity. Qed.
Lemma nth_mat_of n A i : (i < n)%nat -> nth i (mat_of n A) [] = vec_of n (A i).
Proof. intros H. unfold mat_of. rewrite nth_map_seq by assumption. reflexivity. Qed.
Lemma mnth_mat n A i j : (i < n)%nat -> (j < n)%nat -> mnth (mat_of n A) i j = Fin (A i j).
Proof. intros Hi Hj. unfold mnth. rewrite nth_mat_of by assumption. apply vnth_vec; assumption. Qed.
Lemma vec_of_ext n f g : (forall i, (i < n)%nat -> f i = g i) -> vec_of n f = vec_of n g.
Proof. intros H. unfold vec_of. apply map_ext_in. intros i Hi. apply in_seq in Hi. rewrite H by lia. reflexivity. Qed.
Lemma mat_of_ext n A B : (forall i j, (i < n)%nat -> (j < n)%nat -> A i j = B i j) -> mat_of n A = mat_of n B.
Proof. intros H. unfold mat_of. apply map_ext_in. intros i Hi. apply in_seq in Hi. apply vec_of_ext. intros; apply H; lia. Qed.
Lemma vec_of_inj n f g i : vec_of n f = vec_of n g -> (i < n)%nat -> f i = g i.
Proof. intros H Hi. assert (E : vnth (vec_of n f) i = vnth (vec_of n g) i) by (rewrite H; reflexivity). rewrite !vnth_vec in E by assumption. congruence. Qed.
Lemma mat_of_inj n A B i j : mat_of n A = mat_of n B -> (i < n)%nat -> (j < n)%nat -> A i j = B i j.
Proof. intros H Hi Hj. assert (E : mnth (mat_of n A) i j = mnth (mat_of n B) i j) by (rewrite H; reflexivity). rewrite !mnth_mat in E by assumption. congruence. Qed.

Lemma xsum_n_sumn n f : xsum_n n (fun j => Fin (f j)) = Fin (sumn n f).
Proof. unfold xsum_n. apply np_sum_vec. Qed.

Lemma map2_vec n f g (op : xr -> xr -> xr) (o : R -> R -> R) :
  (forall a b, op (Fin a) (Fin b) = Fin (o a b)) ->
  map2 op (vec_of n f) (vec_of n g) = vec_of n (fun i => o (f i) (g i)).
Proof.
  intros H. unfold vec_of. generalize (seq 0 n) as l. induction l as [|a l IH]; simpl; auto.
  rewrite H, IH. reflexivity.
Qed.
Lemma map2_vec_in n f g (op : xr -> xr -> xr) h :
  (forall i, (i < n)%nat -> op (Fin (f i)) (Fin (g i)) = Fin (h i)) ->
  map2 op (vec_of n f) (vec_of n g) = vec_of n h.
Proof.
  intros H. unfold vec_of.
  assert (G : forall l, (forall i, In i l -> (i < n)%nat) ->
    map2 op (map (fun i => Fin (f i)) l) (map (fun i => Fin (g i)) l) = map (fun i => Fin (h i)) l).
  { induction l as [|a l IH]; intros Hl; simpl; auto. rewrite H by (apply Hl; left; auto).
    rewrite IH; auto. intros; apply Hl; right; auto. }
  apply G. intros i Hi. apply in_seq in Hi. lia.
Qed.
Lemma bcast_vec n f g (op : xr -> xr -> xr) h :
  (forall i, (i < n)%nat -> op (Fin (f i)) (Fin (g i)) = Fin (h i)) ->
  bcast op (vec_of n f) (vec_of n g) = Ok (vec_of n h).
Proof. intros H. unfold bcast. rewrite !vec_of_length, Nat.eqb_refl. f_equal. apply map2_vec_in; assumption. Qed.

Lemma map_vec n f (op : xr -> xr) h :
  (forall i, (i < n)%nat -> op (Fin (f i)) = Fin (h i)) -> map op (vec_of n f) = vec_of n h.
Proof. intros H. unfold vec_of. rewrite map_map. apply map_ext_in. intros i Hi. apply in_seq in Hi. apply H; lia. Qed.

Lemma np_matmul_mat n A B : np_matmul n (mat_of n A) (mat_of n B) = mat_of n (fun i j => sumn n (fun k => A i k * B k j)).
Proof.
  unfold np_matmul, mat_of at 3, vec_of. apply map_ext_in. intros i Hi. apply in_seq in Hi.
  apply map_ext_in. intros j Hj. apply in_seq in Hj.
  rewrite <- xsum_n_sumn. unfold xsum_n. f_equal. apply map_ext_in. intros k Hk. apply in_seq in Hk.
  rewrite !mnth_mat by lia. reflexivity.
Qed.
Lemma np_diag_vec n f : np_diag (vec_of n f) = mat_of n (fun i j => delta i j * f i).
Proof.
  unfold np_diag, mat_of. rewrite vec_of_length. apply map_ext_in. intros i Hi. apply in_seq in Hi.
  unfold vec_of at 2. apply map_ext. intros j. rewrite vnth_vec by lia. unfold delta. destruct (Nat.eqb i j); f_equal; lra.
Qed.
Lemma np_diagonal_mat n A : np_diagonal (mat_of n A) = vec_of n (fun i => A i i).
Proof.
  unfold np_diagonal, vec_of. rewrite mat_of_length. apply map_ext_in. intros i Hi. apply in_seq in Hi.
  rewrite mnth_mat by lia. reflexivity.
Qed.
Lemma np_madd_mat n A B : np_madd (mat_of n A) (mat_of n B) = mat_of n (fun i j => A i j + B i j).
Proof.
  unfold np_madd, mat_of. generalize (seq 0 n) as l. induction l as [|a l IH]; simpl; auto.
  rewrite IH. f_equal. apply map2_vec. reflexivity.
Qed.
Lemma np_outer_vec n f g : np_outer (vec_of n f) (vec_of n g) = mat_of n (fun i j => f i * g j).
Proof. unfold np_outer, mat_of, vec_of. rewrite map_map. apply map_ext. intros i. rewrite map_map. reflexivity. Qed.

Lemma rows_ok_mat n A : rows_ok n (mat_of n A) = true.
Proof. unfold rows_ok, mat_of. apply forallb_forall. intros r Hr. apply in_map_iff in Hr as [i [<- _]]. rewrite vec_of_length. apply Nat.eqb_refl. Qed.
Lemma square_mat n A : square n (mat_of n A) = true.
Proof. unfold square. rewrite mat_of_length, Nat.eqb_refl, rows_ok_mat. reflexivity. Qed.

Lemma xsqrt_pos r : 0 <= r -> xsqrt (Fin r) = Fin (sqrt r).
Proof. intros H. unfold xsqrt. destruct (Rltb_spec r 0); [lra|reflexivity]. Qed.
Lemma xdiv_fin a b : b <> 0 -> xdiv (Fin a) (Fin b) = Fin (a / b).
Proof. intros H. unfold xdiv. destruct (Reqb_spec b 0); [contradiction|reflexivity]. Qed.

(** ** cov2corr *)
Definition corr_of (A : nat -> nat -> R) (i j : nat) : R := A i j / (sqrt (A i i) * sqrt (A j j)).

Lemma cov2corr_mat n A : (forall i, (i < n)%nat -> 0 < A i i) ->
  cov2corr (mat_of n A) = mat_of n (corr_of A).
Proof.
  intros Hp. unfold cov2corr. rewrite mat_of_length, np_diagonal_mat.
  assert (Hs : forall i, (i < n)%nat -> 0 < sqrt (A i i)) by (intros; apply sqrt_lt_R0; auto).
  rewrite (map_vec n (fun i => A i i) _ (fun i => 1 / sqrt (A i i))).
  2:{ intros i Hi. specialize (Hp i Hi); specialize (Hs i Hi). rewrite xsqrt_pos by lra. apply xdiv_fin. lra. }
  rewrite np_diag_vec.
  assert (E : map (map xnan_to_num) (mat_of n (fun i j => delta i j * (1 / sqrt (A i i))))
     = mat_of n (fun i j => delta i j * (1 / sqrt (A i i)))).
  { unfold mat_of. rewrite map_map. apply map_ext. intros i. apply map_vec. reflexivity. }
  rewrite E, !np_matmul_mat. apply mat_of_ext. intros i j Hi Hj.
  specialize (Hs i Hi) as Hsi; specialize (Hs j Hj) as Hsj.
  rewrite (sumn_single n i); [|assumption|].
  - unfold delta at 1. rewrite Nat.eqb_refl. rewrite (sumn_single n j); [|assumption|].
    + unfold delta. rewrite Nat.eqb_refl. unfold corr_of. field. split; lra.
    + intros k Hk Hne. unfold delta. destruct (Nat.eqb_spec k j); [contradiction|lra].
  - intros k Hk Hne. unfold delta at 1. destruct (Nat.eqb_spec i k); [lia|lra].
Qed.

Lemma quad_ext n A B v w : (forall i j, (i < n)%nat -> (j < n)%nat -> A i j = B i j) ->
  (forall i, (i < n)%nat -> v i = w i) -> quad n A v = quad n B w.
Proof. intros HA Hv. unfold quad. apply sumn_ext; intros i Hi. apply sumn_ext; intros j Hj. rewrite HA, !Hv by assumption. reflexivity. Qed.

Lemma quad_corr n A v : (forall i, (i < n)%nat -> 0 < A i i) ->
  quad n (corr_of A) v = quad n A (fun i => v i / sqrt (A i i)).
Proof.
  intros Hp. unfold quad. apply sumn_ext; intros i Hi. apply sumn_ext; intros j Hj.
  assert (0 < sqrt (A i i)) by (apply sqrt_lt_R0; auto). assert (0 < sqrt (A j j)) by (apply sqrt_lt_R0; auto).
  unfold corr_of. field. split; lra.
Qed.

Lemma quad_two n A i j a b : (i < n)%nat -> (j < n)%nat -> i <> j ->
  quad n A (fun k => a * delta k i + b * delta k j) = a * a * A i i + a * b * A i j + b * a * A j i + b * b * A j j.
Proof.
  intros Hi Hj Hne. unfold quad.
  assert (E : forall f, sumn n (fun k => (a * delta k i + b * delta k j) * f k) = a * f i + b * f j).
  { intros f. transitivity (sumn n (fun k => a * (f k * delta k i) + b * (f k * delta k j))).
    - apply sumn_ext; intros; ring.
    - rewrite sumn_plus, !sumn_scal, !sumn_delta_r by assumption. reflexivity. }
  transitivity (sumn n (fun k => (a * delta k i + b * delta k j) * (a * A k i + b * A k j))).
  - apply sumn_ext; intros k Hk. rewrite <- (E (fun l => A k l)). rewrite <- sumn_scal. apply sumn_ext; intros; ring.
  - rewrite (E (fun k => a * A k i + b * A k j)). ring.
Qed.
Lemma quad_one n A i : (i < n)%nat -> quad n A (fun k => delta k i) = A i i.
Proof.
  intros Hi. unfold quad. rewrite (sumn_single n i); [|assumption|].
  - rewrite (sumn_single n i); [|assumption|].
    + unfold delta. rewrite Nat.eqb_refl. lra.
    + intros k Hk Hne. unfold delta at 2. destruct (Nat.eqb_spec k i); [contradiction|lra].
  - intros k Hk Hne. apply sumn_zero. intros j Hj. unfold delta at 1. destruct (Nat.eqb_spec k i); [contradiction|lra].
Qed.

Lemma cov2corr_is_correlation n A :
  symmetric n A -> psd n A -> (forall i, (i < n)%nat -> 0 < A i i) ->
  exists C, cov2corr (mat_of n A) = mat_of n C /\
    symmetric n C /\ psd n C /\
    (forall i, (i < n)%nat -> C i i = 1) /\
    (forall i j, (i < n)%nat -> (j < n)%nat ->
       C i j = A i j / (sqrt (A i i) * sqrt (A j j)) /\ -1 <= C i j <= 1).
Proof.
  intros Hs Hpsd Hp. exists (corr_of A). split; [apply cov2corr_mat; assumption|].
  assert (Sq : forall i, (i < n)%nat -> 0 < sqrt (A i i)) by (intros; apply sqrt_lt_R0; auto).
  assert (Sym : symmetric n (corr_of A)).
  { intros i j Hi Hj. unfold corr_of. rewrite (Hs i j) by assumption. specialize (Sq i Hi) as S1; specialize (Sq j Hj) as S2.
    field. split; lra. }
  assert (Psd : psd n (corr_of A)) by (intros v; rewrite quad_corr by assumption; apply Hpsd).
  assert (Diag : forall i, (i < n)%nat -> corr_of A i i = 1).
  { intros i Hi. unfold corr_of. rewrite sqrt_sqrt by (apply Rlt_le; auto). unfold Rdiv. apply Rinv_r. apply Rgt_not_eq, Hp; assumption. }
  split; [exact Sym|]. split; [exact Psd|]. split; [exact Diag|].
  intros i j Hi Hj. split; [reflexivity|]. destruct (Nat.eq_dec i j) as [->|Hne]; [rewrite Diag by assumption; lra|].
  pose proof (Psd (fun k => 1 * delta k i + 1 * delta k j)) as Q1.
  pose proof (Psd (fun k => 1 * delta k i + (-1) * delta k j)) as Q2.
  rewrite quad_two in Q1, Q2 by assumption. rewrite (Sym j i), !Diag in Q1, Q2 by assumption. lra.
Qed.

(** ** corr2cov *)
Lemma corr2cov_mat n C s : corr2cov (mat_of n C) (vec_of n s) = mat_of n (fun i j => s i * C i j * s j).
Proof.
  unfold corr2cov. rewrite mat_of_length, np_diag_vec, !np_matmul_mat. apply mat_of_ext. intros i j Hi Hj.
  rewrite (sumn_single n i); [|assumption|].
  - unfold delta at 1. rewrite Nat.eqb_refl. rewrite (sumn_single n j); [|assumption|].
    + unfold delta. rewrite Nat.eqb_refl. lra.
    + intros k Hk Hne. unfold delta. destruct (Nat.eqb_spec k j); [contradiction|lra].
  - intros k Hk Hne. unfold delta at 1. destruct (Nat.eqb_spec i k); [lia|lra].
Qed.
Lemma corr2cov_roundtrip_std n A : (forall i, (i < n)%nat -> 0 < A i i) ->
  corr2cov (cov2corr (mat_of n A)) (vec_of n (fun i => sqrt (A i i))) = mat_of n A.
Proof.
  intros Hp. rewrite cov2corr_mat by assumption. rewrite corr2cov_mat. apply mat_of_ext. intros i j Hi Hj.
  assert (0 < sqrt (A i i)) by (apply sqrt_lt_R0; auto). assert (0 < sqrt (A j j)) by (apply sqrt_lt_R0; auto).
  unfold corr_of. field. split; lra.
Qed.
(** with variances the result is sigma_i sigma_j times the covariance *)
Lemma corr2cov_variance n A : (forall i, (i < n)%nat -> 0 < A i i) ->
  corr2cov (cov2corr (mat_of n A)) (vec_of n (fun i => A i i))
  = mat_of n (fun i j => A i j * sqrt (A i i) * sqrt (A j j)).
Proof.
  intros Hp. rewrite cov2corr_mat by assumption. rewrite corr2cov_mat. apply mat_of_ext. intros i j Hi Hj.
  assert (0 < sqrt (A i i)) by (apply sqrt_lt_R0; auto). assert (0 < sqrt (A j j)) by (apply sqrt_lt_R0; auto).
  unfold corr_of. transitivity ((sqrt (A i i) * sqrt (A i i)) * (A i j / (sqrt (A i i) * sqrt (A j j))) * (sqrt (A j j) * sqrt (A j j))).
  - rewrite !sqrt_sqrt by (apply Rlt_le; auto). reflexivity.
  - field. split; lra.
Qed.
Lemma corr2cov_not_inverse :
  exists n A, symmetric n A /\ psd n A /\ (forall i, (i < n)%nat -> 0 < A i i) /\
    corr2cov (cov2corr (mat_of n A)) (np_diagonal (mat_of n A)) <> mat_of n A.
Proof.
  exists 1%nat, (fun _ _ => 4). split; [intros i j; reflexivity|]. split.
  { intros v. unfold quad; simpl. nra. }
  split; [intros; lra|]. rewrite np_diagonal_mat, corr2cov_variance by (intros; lra).
  intros H. apply mat_of_inj with (i := 0%nat) (j := 0%nat) in H; try lia.
  assert (sqrt 4 * sqrt 4 = 4) by (apply sqrt_sqrt; lra). nra.
Qed.

(** ** get_systematic_cov_mat *)
Definition sdiff (nom up down : R) : R :=
  (if Rltb up down then -1 else 1) * ((Rabs (up - nom) + Rabs (down - nom)) / 2).
Lemma signed_diff_fin a b c : signed_diff (Fin a) (Fin b) (Fin c) = Fin (sdiff a b c).
Proof.
  unfold signed_diff, sdiff, xsub, xltb; simpl. destruct (Reqb_spec 2 0); [lra|].
  destruct (Rltb b c); simpl; unfold Rminus; reflexivity.
Qed.
Lemma map3_signed n a b c :
  map3 signed_diff (vec_of n a) (vec_of n b) (vec_of n c) = vec_of n (fun i => sdiff (a i) (b i) (c i)).
Proof.
  unfold vec_of. generalize (seq 0 n) as l. induction l as [|x l IH]; cbn [map map3]; auto.
  rewrite signed_diff_fin, IH. reflexivity.
Qed.
Lemma systematic_cov n nom up down :
  get_systematic_cov_mat (vec_of n nom) (vec_of n up) (vec_of n down)
  = Ok (mat_of n (fun i j => sdiff (nom i) (up i) (down i) * sdiff (nom j) (up j) (down j))).
Proof.
  unfold get_systematic_cov_mat. rewrite !vec_of_length, Nat.eqb_refl. cbn [andb].
  rewrite map3_signed, np_outer_vec. reflexivity.
Qed.
Lemma quad_outer n d v : quad n (fun i j => d i * d j) v = sumn n (fun i => d i * v i) * sumn n (fun i => d i * v i).
Proof.
  unfold quad. rewrite <- sumn_scal_r. apply sumn_ext; intros i Hi. rewrite <- sumn_scal. apply sumn_ext; intros; ring.
Qed.
Lemma systematic_cov_valid n nom up down :
  exists S d, get_systematic_cov_mat (vec_of n nom) (vec_of n up) (vec_of n down) = Ok (mat_of n S) /\
    symmetric n S /\ psd n S /\
    (forall i j, S i j = d i * d j) /\
    (forall i, S i i = ((Rabs (up i - nom i) + Rabs (down i - nom i)) / 2) ^ 2) /\
    (forall i, Rabs (d i) = (Rabs (up i - nom i) + Rabs (down i - nom i)) / 2) /\
    (forall i, (down i <= up i -> 0 <= d i) /\ (up i < down i -> d i <= 0)).
Proof.
  exists (fun i j => sdiff (nom i) (up i) (down i) * sdiff (nom j) (up j) (down j)),
         (fun i => sdiff (nom i) (up i) (down i)).
  split; [apply systematic_cov|]. split; [intros i j _ _; ring|].
  assert (P : forall i, 0 <= (Rabs (up i - nom i) + Rabs (down i - nom i)) / 2).
  { intros i. pose proof (Rabs_pos (up i - nom i)). pose proof (Rabs_pos (down i - nom i)). lra. }
  split. { intros v. rewrite (quad_outer n (fun i => sdiff (nom i) (up i) (down i))). nra. }
  split; [reflexivity|]. split; [|split].
  - intros i. unfold sdiff. destruct (Rltb _ _); ring.
  - intros i. unfold sdiff. specialize (P i). destruct (Rltb _ _).
    + match goal with |- Rabs (_ * ?a) = _ => replace (-1 * a) with (- a) by ring end.
      rewrite Rabs_Ropp. apply Rabs_pos_eq; assumption.
    + rewrite Rmult_1_l. apply Rabs_pos_eq; assumption.
  - intros i. unfold sdiff. specialize (P i). destruct (Rltb_spec (up i) (down i)); split; intros; lra.
Qed.
Lemma systematic_cov_swap n nom up down :
  (forall i, (i < n)%nat -> up i = down i -> up i = nom i) ->
  get_systematic_cov_mat (vec_of n nom) (vec_of n up) (vec_of n down)
  = get_systematic_cov_mat (vec_of n nom) (vec_of n down) (vec_of n up).
Proof.
  intros H. rewrite !systematic_cov. f_equal.
  assert (E : forall i, (i < n)%nat -> sdiff (nom i) (down i) (up i) = - sdiff (nom i) (up i) (down i)).
  { intros i Hi. unfold sdiff.
    destruct (Rltb_spec (down i) (up i)), (Rltb_spec (up i) (down i)); try lra.
    assert (up i = down i) as E by lra. pose proof (H i Hi E) as E2.
    replace (down i) with (nom i) by lra. replace (up i) with (nom i) by lra.
    rewrite Rminus_diag_eq by reflexivity. rewrite Rabs_R0. lra. }
  apply mat_of_ext. intros i j Hi Hj. rewrite !E by assumption. ring.
Qed.
Lemma systematic_cov_swap_refuted :
  exists n nom up down,
    get_systematic_cov_mat (vec_of n nom) (vec_of n up) (vec_of n down)
    <> get_systematic_cov_mat (vec_of n nom) (vec_of n down) (vec_of n up).
Proof.
  exists 2%nat, (fun _ => 0), (fun _ => 1), (fun i => match i with O => 1 | _ => 0 end).
  rewrite !systematic_cov. intros H.
  assert (OkI : forall a b : mat, Ok a = Ok b -> a = b) by congruence. apply OkI in H as E. clear H.
  apply mat_of_inj with (i := 0%nat) (j := 1%nat) in E; try lia. unfold sdiff in E.
  destruct (Rltb_spec 1 1) in E; [lra|]. destruct (Rltb_spec 1 0) in E; [lra|]. destruct (Rltb_spec 0 1) in E; [|lra].
  rewrite Rminus_0_r, Rabs_R1 in E. replace (0 - 0) with 0 in E by lra. rewrite Rabs_R0 in E. lra.
Qed.

(** ** error propagation: J C J^T for a rectangular Jacobian with m rows and n columns *)
Definition jcjt (n : nat) (J C : nat -> nat -> R) (a b : nat) : R :=
  sumn n (fun l => sumn n (fun k => J a k * C k l) * J b l).
Lemma quad_jcjt m n J C v : quad m (jcjt n J C) v = quad n C (fun k => sumn m (fun a => v a * J a k)).
Proof.
  unfold quad, jcjt.
  transitivity (sumn m (fun a => sumn m (fun b => sumn n (fun l => sumn n (fun k => v a * J a k * C k l * (J b l * v b)))))).
  { apply sumn_ext; intros a Ha. apply sumn_ext; intros b Hb.
    rewrite <- sumn_scal, <- sumn_scal_r. apply sumn_ext; intros l Hl.
    rewrite <- sumn_scal_r, <- sumn_scal, <- sumn_scal_r. apply sumn_ext; intros; ring. }
  transitivity (sumn n (fun k => sumn n (fun l => sumn m (fun a => sumn m (fun b => v a * J a k * C k l * (J b l * v b)))))).
  { rewrite (sumn_ext m _ (fun a => sumn n (fun l => sumn n (fun k => sumn m (fun b => v a * J a k * C k l * (J b l * v b)))))).
    2:{ intros a Ha. rewrite sumn_swap. apply sumn_ext; intros l Hl. apply sumn_swap. }
    rewrite sumn_swap. rewrite (sumn_swap n n). apply sumn_ext; intros l Hl.
    rewrite sumn_swap. reflexivity. }
  apply sumn_ext; intros k Hk. apply sumn_ext; intros l Hl.
  rewrite <- sumn_scal_r, <- sumn_scal_r. apply sumn_ext; intros a Ha.
  rewrite <- sumn_scal. apply sumn_ext; intros; ring.
Qed.
