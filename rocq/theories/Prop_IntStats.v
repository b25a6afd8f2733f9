(** C109: goodness-of-fit statistics of integer arrays. *)
From Coq Require Import Reals String ZArith Bool Arith List Lra Lia.
From Verif Require Import Model_Num Model_Hist Model_Utility Model_IntWeights Model_IntStats Spec_Matrix Spec_IntWeights
  Proof_Hist Proof_Matrix Proof_Utility Proof_IntWeights.
Import ListNotations.
Local Open Scope R_scope.

(** arrays of n integers *)
Definition ints (n : nat) (f : nat -> Z) : list Z := map f (seq 0 n).

Lemma ints_length n f : length (ints n f) = n.
Proof. unfold ints. rewrite map_length, seq_length. reflexivity. Qed.

Lemma map2_ints {C} n f g (op : Z -> Z -> C) : map2 op (ints n f) (ints n g) = map (fun i => op (f i) (g i)) (seq 0 n).
Proof. unfold ints. induction (seq 0 n) as [|i l IH]; simpl; congruence. Qed.

Lemma bcast_ints {C} n f g (op : Z -> Z -> C) :
  bcast op (ints n f) (ints n g) = Ok (map (fun i => op (f i) (g i)) (seq 0 n)).
Proof. unfold bcast. rewrite !ints_length, Nat.eqb_refl, map2_ints. reflexivity. Qed.

Lemma holds_unique ty a b q : holds ty a -> holds ty b -> a = (b + n_values ty * q)%Z -> a = b.
Proof.
  intros Ha Hb E. pose proof (n_values_pos ty). pose proof (holds_width ty _ _ Ha Hb). pose proof (holds_width ty _ _ Hb Ha).
  assert (q = 0)%Z by nia. subst q. lia.
Qed.

(** wrapping the difference first changes nothing *)
Lemma iwrap_sq ty a : iwrap ty (iwrap ty a * iwrap ty a) = iwrap ty (a * a).
Proof.
  destruct (iwrap_cong ty a) as [q E]. destruct (iwrap_cong ty (a * a)) as [r F].
  destruct (iwrap_cong ty (iwrap ty a * iwrap ty a)) as [s G].
  set (w := iwrap ty a) in *.
  apply (holds_unique ty _ _ (r - s - 2 * w * q - n_values ty * q * q)); try apply iwrap_holds.
  assert (a * a = w * w + n_values ty * (2 * w * q + n_values ty * q * q))%Z by (rewrite E at 1 2; ring).
  lia.
Qed.

Lemma int_diff_sq_ints ty n d e :
  int_diff_sq ty (ints n d) (ints n e) = Ok (ints n (fun i => iwrap ty ((d i - e i) * (d i - e i)))).
Proof.
  unfold int_diff_sq. rewrite bcast_ints. cbn [rbind]. f_equal. unfold ints. rewrite map_map. apply map_ext.
  intros i. apply iwrap_sq.
Qed.

Lemma choose_nat (P : nat -> nat -> Prop) n : (forall i, (i < n)%nat -> exists k, P i k) ->
  exists f, forall i, (i < n)%nat -> P i (f i).
Proof.
  induction n as [|n IH]; intros H.
  - exists (fun _ => 0%nat). intros i Hi. lia.
  - destruct IH as [f Hf]; [intros; apply H; lia|]. destruct (H n) as [k Hk]; [lia|].
    exists (fun i => if Nat.eqb i n then k else f i). intros i Hi. destruct (Nat.eqb_spec i n) as [->|Hne]; [assumption|].
    apply Hf. lia.
Qed.

(** The statistic of integer arrays with positive expectations: the documented chi2 less, for every bin, a multiple of
    2^bits over the expectation; the multiple is 0 exactly if the type can represent the square of the bin's deviation.
    (The deviation itself may be negative for an unsigned type.) *)
Theorem C109_pearson : forall pval ty n d e dof, (forall i, (i < n)%nat -> (0 < e i)%Z) ->
  exists k : nat -> nat,
    let c := sumn n (fun i => (IZR (d i) - IZR (e i)) ^ 2 / IZR (e i))
             - IZR (n_values ty) * sumn n (fun i => INR (k i) / IZR (e i)) in
    int_pearson_chi2_test pval ty (ints n d) (ints n e) dof
      = Ok (Fin c, xdiv (Fin c) (Fin (IZR dof)), pval (Fin c) dof)
    /\ forall i, (i < n)%nat -> (k i = 0%nat <-> holds ty ((d i - e i) * (d i - e i))).
Proof.
  intros pval ty n d e dof He.
  destruct (choose_nat (fun i k => ((d i - e i) * (d i - e i) = iwrap ty ((d i - e i) * (d i - e i)) + n_values ty * Z.of_nat k)%Z
    /\ (k = 0%nat <-> holds ty ((d i - e i) * (d i - e i)))) n) as [k Hk].
  { intros i _. apply iwrap_nat. apply Z.square_nonneg. }
  exists k. intros c. split; [|intros i Hi; apply Hk; assumption].
  unfold int_pearson_chi2_test. rewrite int_diff_sq_ints. cbn [rbind]. rewrite bcast_ints. cbn [rbind].
  assert (E : map (fun i => xdiv (z2x (iwrap ty ((d i - e i) * (d i - e i)))) (z2x (e i))) (seq 0 n)
    = vec_of n (fun i => (IZR (d i) - IZR (e i)) ^ 2 / IZR (e i) - IZR (n_values ty) * (INR (k i) / IZR (e i)))).
  { unfold vec_of. apply map_ext_in. intros i Hi. apply in_seq in Hi. destruct (Hk i) as [Ek _]; [lia|].
    assert (0 < IZR (e i)) by (apply IZR_lt, He; lia).
    unfold z2x. rewrite xdiv_fin by lra. f_equal.
    assert (Hw : IZR (iwrap ty ((d i - e i) * (d i - e i))) = (IZR (d i) - IZR (e i)) ^ 2 - IZR (n_values ty) * INR (k i)).
    { rewrite INR_IZR_INZ, <- mult_IZR. rewrite <- minus_IZR. rewrite <- Rsqr_pow2. unfold Rsqr. rewrite <- mult_IZR, <- minus_IZR.
      f_equal. lia. }
    rewrite Hw. field. lra. }
  rewrite E, np_sum_vec, sumn_minus, sumn_scal. reflexivity.
Qed.

(** It is the documented one exactly if that holds for all bins; otherwise it is too small. *)
Theorem C109_pearson_exact_iff : forall pval ty n d e dof, (forall i, (i < n)%nat -> (0 < e i)%Z) ->
  exists c, int_pearson_chi2_test pval ty (ints n d) (ints n e) dof
      = Ok (Fin c, xdiv (Fin c) (Fin (IZR dof)), pval (Fin c) dof)
    /\ c <= sumn n (fun i => (IZR (d i) - IZR (e i)) ^ 2 / IZR (e i))
    /\ (c = sumn n (fun i => (IZR (d i) - IZR (e i)) ^ 2 / IZR (e i))
        <-> forall i, (i < n)%nat -> holds ty ((d i - e i) * (d i - e i))).
Proof.
  intros pval ty n d e dof He. destruct (C109_pearson pval ty n d e dof He) as (k & E & Hk).
  eexists. split; [exact E|].
  assert (0 < IZR (n_values ty)) as Hn by (apply IZR_lt, n_values_pos).
  assert (P : forall i, (i < n)%nat -> 0 <= INR (k i) / IZR (e i)).
  { intros i Hi. apply Rmult_le_pos; [apply pos_INR|]. left. apply Rinv_0_lt_compat, IZR_lt, He. assumption. }
  pose proof (sumn_nonneg _ _ P) as P'. split; [nra|]. split.
  - intros F. assert (Z0 : sumn n (fun i => INR (k i) / IZR (e i)) = 0) by nra.
    intros i Hi. apply Hk; [assumption|]. pose proof (sumn_eq0 _ _ P Z0 i Hi) as Zi. simpl in Zi.
    assert (0 < IZR (e i)) by (apply IZR_lt, He; assumption).
    apply INR_eq. simpl. replace (INR (k i)) with (INR (k i) / IZR (e i) * IZR (e i)) by (field; lra). rewrite Zi. ring.
  - intros F. rewrite (sumn_zero n (fun i => INR (k i) / IZR (e i))); [ring|]. intros i Hi.
    rewrite (proj2 (Hk i Hi) (F i Hi)). simpl. unfold Rdiv. ring.
Qed.

(** If all squares fit, both tests behave as with float arrays, bins with expectation or uncertainty 0 included. *)
Theorem C109_exact : forall pval ty n d e u dof,
  (forall i, (i < n)%nat -> holds ty ((d i - e i) * (d i - e i)) /\ holds ty (u i * u i)) ->
  let fl f := vec_of n (fun i => IZR (f i)) in
  int_pearson_chi2_test pval ty (ints n d) (ints n e) dof = pearson_chi2_test pval (fl d) (fl e) dof
  /\ int_default_chi2_test pval ty (ints n d) (ints n e) (ints n u) dof
     = default_chi2_test pval (fl d) (fl e) (fl u) dof.
Proof.
  intros pval ty n d e u dof H fl.
  assert (B : forall (op : xr -> xr -> xr) f g, bcast op (vec_of n f) (vec_of n g)
    = Ok (map (fun i => op (Fin (f i)) (Fin (g i))) (seq 0 n))).
  { intros op f g. unfold bcast. rewrite !vec_of_length, Nat.eqb_refl. f_equal. unfold vec_of.
    induction (seq 0 n) as [|i l IH]; simpl; congruence. }
  assert (D : bcast xsub (fl d) (fl e) = Ok (vec_of n (fun i => IZR (d i) - IZR (e i)))) by (apply bcast_vec; reflexivity).
  split.
  - unfold int_pearson_chi2_test, pearson_chi2_test. rewrite int_diff_sq_ints, D. cbn [rbind]. rewrite bcast_ints. unfold fl. rewrite B. cbn [rbind].
    assert (E : map (fun i => xdiv (z2x (iwrap ty ((d i - e i) * (d i - e i)))) (z2x (e i))) (seq 0 n)
      = map (fun i => xdiv (xsq (Fin (IZR (d i) - IZR (e i)))) (Fin (IZR (e i)))) (seq 0 n)).
    { apply map_ext_in. intros i Hi. apply in_seq in Hi. rewrite iwrap_id by (apply H; lia).
      unfold z2x, xsq, xmul. rewrite mult_IZR, minus_IZR. reflexivity. }
    rewrite E. reflexivity.
  - unfold int_default_chi2_test, default_chi2_test. rewrite int_diff_sq_ints, D. cbn [rbind]. rewrite bcast_ints. unfold fl. rewrite B. cbn [rbind].
    assert (E : map (fun i => xdiv (z2x (iwrap ty ((d i - e i) * (d i - e i)))) (z2x (iwrap ty (u i * u i)))) (seq 0 n)
      = map (fun i => xdiv (xsq (Fin (IZR (d i) - IZR (e i)))) (xsq (Fin (IZR (u i))))) (seq 0 n)).
    { apply map_ext_in. intros i Hi. apply in_seq in Hi. rewrite !iwrap_id by (apply H; lia).
      unfold z2x, xsq, xmul. rewrite !mult_IZR, minus_IZR. reflexivity. }
    rewrite E. reflexivity.
Qed.

(** C58 does not carry over to integer arrays: the statistic can vanish for different arrays (uint16: 256 observed, 512
    expected), can be negative (int32: 100000 observed, 50000 expected), and uncertainties different from zero can count
    as none (uint16: 256). *)
Theorem C109_distance_refuted : forall pval dof,
  (exists r p, int_pearson_chi2_test pval (Unsigned 16) [256%Z] [512%Z] dof = Ok (Fin 0, r, p))
  /\ (exists c r p, int_pearson_chi2_test pval (Signed 32) [100000%Z] [50000%Z] dof = Ok (Fin c, r, p) /\ c < 0)
  /\ (exists r p, int_default_chi2_test pval (Unsigned 16) [3%Z] [2%Z] [256%Z] dof = Ok (PInf, r, p)).
Proof.
  assert (xdiv_z : forall a b, b <> 0%Z -> xdiv (z2x a) (z2x b) = Fin (IZR a / IZR b))
    by (intros a b Hb; apply xdiv_fin, not_0_IZR, Hb).
  assert (P : forall pval ty a b dof,
    int_pearson_chi2_test pval ty [a] [b] dof =
      let c := xadd (xdiv (z2x (iwrap ty ((a - b) * (a - b)))) (z2x b)) (Fin 0) in Ok (c, xdiv c (z2x dof), pval c dof)).
  { intros. unfold int_pearson_chi2_test, int_diff_sq. cbn [bcast length Nat.eqb map2 map rbind]. rewrite iwrap_sq. reflexivity. }
  assert (Q : forall pval ty a b u dof,
    int_default_chi2_test pval ty [a] [b] [u] dof =
      let c := xadd (xdiv (z2x (iwrap ty ((a - b) * (a - b)))) (z2x (iwrap ty (u * u)))) (Fin 0) in
      Ok (c, xdiv c (z2x dof), pval c dof)).
  { intros. unfold int_default_chi2_test, int_diff_sq. cbn [bcast length Nat.eqb map2 map rbind]. rewrite iwrap_sq. reflexivity. }
  intros pval dof. repeat split.
  - do 2 eexists. rewrite P. cbv zeta.
    change (iwrap (Unsigned 16) ((256 - 512) * (256 - 512))) with 0%Z. rewrite xdiv_z by (intro; discriminate).
    cbn [xadd]. unfold Rdiv. rewrite Rmult_0_l, Rplus_0_l. reflexivity.
  - do 3 eexists. split.
    + rewrite P. cbv zeta.
      change (iwrap (Signed 32) ((100000 - 50000) * (100000 - 50000))) with (-1794967296)%Z.
      rewrite xdiv_z by (intro; discriminate). cbn [xadd]. reflexivity.
    + lra.
  - do 2 eexists. rewrite Q. cbv zeta.
    change (iwrap (Unsigned 16) (256 * 256)) with 0%Z. change (iwrap (Unsigned 16) ((3 - 2) * (3 - 2))) with 1%Z.
    assert (D : xdiv (z2x 1) (z2x 0) = PInf).
    { unfold z2x, xdiv. destruct (Reqb_spec 0 0) as [_|N]; [|lra]. destruct (Reqb_spec 1 0) as [N|_]; [lra|].
      destruct (Rltb_spec 1 0) as [N|_]; [lra|]. reflexivity. }
    rewrite D. cbn [xadd]. reflexivity.
Qed.

(** the hypotheses of C109_pearson_exact_iff are met, with fitting squares and a negative unsigned deviation *)
Theorem C109_ex : forall i, (i < 2)%nat ->
  (0 < nth i [4; 9] 0)%Z /\ holds (Unsigned 8) ((nth i [3; 20] 0 - nth i [4; 9] 0) * (nth i [3; 20] 0 - nth i [4; 9] 0))%Z.
Proof. intros [|[|i]] H; simpl; lia. Qed.
