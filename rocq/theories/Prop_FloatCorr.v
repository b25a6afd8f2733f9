(** Property C111: correlation matrices calculated in double precision. *)
From Coq Require Import Reals ZArith Bool Arith List Lra Lia Permutation.
From Flocq Require Import Core Relative.
From Verif Require Import Model_Num Model_Hist Model_Float Model_FloatCorr Spec_Hist Spec_Float Spec_Matrix Proof_Float Proof_Float2 Proof_Matrix.
Import ListNotations.
Local Open Scope R_scope.

(** a sum with one term different from 0 is exact, in any order *)
Lemma single_sum n f i s : (i < n)%nat -> double (f i) -> (forall k, (k < n)%nat -> k <> i -> f k = 0) ->
  sum_fl (map f (seq 0 n)) s -> s = f i.
Proof.
  intros Hi (k & e & E & K & L) Z S.
  assert (AB : forall g, (forall j, (j < n)%nat -> j <> i -> g j = 0) -> Rsuml (map g (seq 0 n)) = g i).
  { intros g G. assert (Q : forall m a, (forall j, (a <= j < a + m)%nat -> j <> i -> g j = 0) ->
      Rsuml (map g (seq a m)) = if andb (Nat.leb a i) (Nat.ltb i (a + m)) then g i else 0).
    { intros m. induction m as [|m IH]; intros a A; cbn [seq map].
      - replace (andb (Nat.leb a i) (Nat.ltb i (a + 0))) with false; [reflexivity|]. destruct (Nat.leb_spec a i), (Nat.ltb_spec i (a + 0)); try reflexivity; lia.
      - replace (Rsuml (g a :: map g (seq (Datatypes.S a) m))) with (g a + Rsuml (map g (seq (Datatypes.S a) m))) by reflexivity.
        rewrite IH by (intros; apply A; lia). destruct (Nat.eq_dec a i) as [->|N].
        + replace (Nat.leb (Datatypes.S i) i) with false by (symmetry; apply Nat.leb_gt; lia). rewrite Nat.leb_refl.
          replace (Nat.ltb i (i + Datatypes.S m)) with true by (symmetry; apply Nat.ltb_lt; lia). cbn [andb]. lra.
        + rewrite (A a) by lia. replace (Nat.leb (Datatypes.S a) i) with (Nat.leb a i) by (destruct (Nat.leb_spec a i), (Nat.leb_spec (Datatypes.S a) i); try reflexivity; lia).
          replace (i <? Datatypes.S a + m)%nat with (i <? a + Datatypes.S m)%nat by (f_equal; lia). lra. }
    rewrite (Q n 0%nat) by (intros; apply G; lia). destruct (Nat.leb_spec 0 i), (Nat.ltb_spec i (0 + n)); cbn; try lia; reflexivity. }
  rewrite (sum_exact e _ s L S), AB; auto.
  - intros x X. apply in_map_iff in X as (j & <- & J). apply in_seq in J. destruct (Nat.eq_dec j i) as [->|N].
    + exists k. exact E.
    + rewrite (Z j) by lia. exists 0%Z. ring.
  - rewrite map_map, (AB (fun j => Rabs (f j))).
    + rewrite E, Rabs_mult, (Rabs_pos_eq (b2 e)) by apply bpow_ge_0. rewrite bpow_plus. apply Rmult_le_compat_r; [apply bpow_ge_0|].
      rewrite <- abs_IZR, bpow53. apply IZR_le. lia.
    + intros j J N. rewrite (Z j J N). apply Rabs_R0.
Qed.
Lemma fmul_0_l x : fmul 0 x = 0. Proof. unfold fmul. rewrite Rmult_0_l. apply fl_0. Qed.
Lemma fmul_0_r x : fmul x 0 = 0. Proof. unfold fmul. rewrite Rmult_0_r. apply fl_0. Qed.
Lemma fmul_double x y : double (fmul x y). Proof. apply fl_double. Qed.
(** products with diagonal matrices *)
Lemma matmul_diag_r n a d r : matmul_fl n a (fun i j => if Nat.eqb i j then d i else 0) r -> forall i j, (i < n)%nat -> (j < n)%nat -> r i j = fmul (a i j) (d j).
Proof.
  intros M i j Hi Hj. rewrite (single_sum n (fun k => fmul (a i k) (if Nat.eqb k j then d k else 0)) j (r i j) Hj).
  - rewrite Nat.eqb_refl. reflexivity.
  - apply fmul_double.
  - intros k _ N. destruct (Nat.eqb_spec k j); [congruence|]. apply fmul_0_r.
  - exact (M i j Hi Hj).
Qed.
Lemma matmul_diag_l n a d r : matmul_fl n (fun i j => if Nat.eqb i j then d i else 0) a r -> forall i j, (i < n)%nat -> (j < n)%nat -> r i j = fmul (d i) (a i j).
Proof.
  intros M i j Hi Hj. rewrite (single_sum n (fun k => fmul (if Nat.eqb i k then d i else 0) (a k j)) i (r i j) Hi).
  - rewrite Nat.eqb_refl. reflexivity.
  - apply fmul_double.
  - intros k _ N. destruct (Nat.eqb_spec i k); [congruence|]. apply fmul_0_l.
  - exact (M i j Hi Hj).
Qed.
Lemma cov2corr_entry n cov r : cov2corr_fl n cov r -> forall i j, (i < n)%nat -> (j < n)%nat ->
  r i j = fmul (fdiv 1 (fsqrt (cov i i))) (fmul (cov i j) (fdiv 1 (fsqrt (cov j j)))).
Proof.
  intros (m & M1 & M2) i j Hi Hj. unfold dinv_fl in *.
  rewrite (matmul_diag_l n m (fun i => fdiv 1 (fsqrt (cov i i))) r M2 i j Hi Hj).
  rewrite (matmul_diag_r n cov (fun i => fdiv 1 (fsqrt (cov i i))) m M1 i j Hi Hj). reflexivity.
Qed.
(** there is a result: the order in which the zeros are added does not matter *)
Lemma sum_exists l : Forall double l -> exists s, sum_fl l s.
Proof.
  induction l as [|x l IH]; intros H; [exists 0; constructor|]. apply Forall_cons_iff in H as (H & T). destruct (IH T) as (s & S).
  exists (fadd x s). change (x :: l) with ([x] ++ l). apply sum_two; [constructor|exact S].
Qed.
Lemma single_sum_ok n f i : (i < n)%nat -> (forall k, (k < n)%nat -> double (f k)) -> (forall k, (k < n)%nat -> k <> i -> f k = 0) ->
  sum_fl (map f (seq 0 n)) (f i).
Proof.
  intros Hi D Z. destruct (sum_exists (map f (seq 0 n))) as (s & S).
  - apply Forall_forall. intros x X. apply in_map_iff in X as (k & <- & K). apply in_seq in K. apply D. lia.
  - rewrite <- (single_sum n f i s Hi (D i Hi) Z S). exact S.
Qed.
Lemma matmul_diag_ok n a d : matmul_fl n a (fun i j => if Nat.eqb i j then d i else 0) (fun i j => fmul (a i j) (d j)) /\
  matmul_fl n (fun i j => if Nat.eqb i j then d i else 0) a (fun i j => fmul (d i) (a i j)).
Proof.
  split; intros i j Hi Hj.
  - pose proof (single_sum_ok n (fun k => fmul (a i k) (if Nat.eqb k j then d k else 0)) j Hj) as H. cbv beta in H. rewrite Nat.eqb_refl in H. apply H.
    + intros. apply fmul_double.
    + intros k _ N. destruct (Nat.eqb_spec k j); [congruence|]. apply fmul_0_r.
  - pose proof (single_sum_ok n (fun k => fmul (if Nat.eqb i k then d i else 0) (a k j)) i Hi) as H. cbv beta in H. rewrite Nat.eqb_refl in H. apply H.
    + intros. apply fmul_double.
    + intros k _ N. destruct (Nat.eqb_spec i k); [congruence|]. apply fmul_0_l.
Qed.
(** every matrix has a result, and only one: C111_determined below *)
Lemma cov2corr_total n cov : exists r, cov2corr_fl n cov r.
Proof.
  set (d := fun i => fdiv 1 (fsqrt (cov i i))). exists (fun i j => fmul (d i) (fmul (cov i j) (d j))), (fun i j => fmul (cov i j) (d j)).
  split; [apply (matmul_diag_ok n cov d)|apply (matmul_diag_ok n (fun i j => fmul (cov i j) (d j)) d)].
Qed.

(** relative errors *)
Lemma rel_mul a b A B : Rabs (a - 1) <= A -> Rabs (b - 1) <= B -> Rabs (a * b - 1) <= A + B + A * B.
Proof.
  intros HA HB. replace (a * b - 1) with ((a - 1) + (b - 1) + (a - 1) * (b - 1)) by ring.
  eapply Rle_trans; [apply Rabs_triang|]. apply Rplus_le_compat.
  - eapply Rle_trans; [apply Rabs_triang|]. lra.
  - rewrite Rabs_mult. apply Rmult_le_compat; auto using Rabs_pos.
Qed.
Lemma fl_near x : b2 (-1022) <= Rabs x -> exists f, Rabs (f - 1) <= u /\ fl x = x * f.
Proof. intros H. destruct (fl_rel x H) as (d & D & E). exists (1 + d). split; [|exact E]. replace (1 + d - 1) with d by ring. exact D. Qed.
Lemma b2_double e : 2 * b2 e = b2 (1 + e). Proof. rewrite bpow_plus. reflexivity. Qed.
Lemma b2_sqrt e : sqrt (b2 (2 * e)) = b2 e.
Proof. replace (2 * e)%Z with (e + e)%Z by lia. rewrite bpow_plus. apply sqrt_square. apply bpow_ge_0. Qed.
Lemma dinv_near v : b2 (-500) <= v <= b2 500 -> exists f, Rabs (f - 1) <= 2 * u + 4 * u * u /\ fdiv 1 (fsqrt v) = / sqrt v * f /\ b2 (-251) <= fdiv 1 (fsqrt v).
Proof.
  intros (L & U). pose proof u_pos as U0. pose proof u_small as U1. pose proof (bpow_gt_0 radix2 (-500)) as P0.
  assert (S1 : b2 (-250) <= sqrt v) by (rewrite <- (b2_sqrt (-250)); apply sqrt_le_1_alt; exact L).
  assert (S2 : sqrt v <= b2 250) by (rewrite <- (b2_sqrt 250); apply sqrt_le_1_alt; exact U).
  set (s := sqrt v) in *. pose proof (bpow_gt_0 radix2 (-250)) as P1.
  unfold fdiv, fsqrt. fold s. destruct (fl_near s) as (f & F & ->).
  { rewrite Rabs_pos_eq by lra. eapply Rle_trans; [|exact S1]. apply bpow_le. lia. }
  apply Rabs_le_inv in F.
  assert (IF : / f * f = 1) by (apply Rinv_l; lra). assert (IP : 0 < / f) by (apply Rinv_0_lt_compat; lra).
  assert (G : Rabs (/ f - 1) <= u + 2 * u * u).
  { replace (/ f - 1) with (/ f * (1 - f)) by (field; lra). rewrite Rabs_mult, Rabs_pos_eq by lra.
    assert (/ f <= 1 + 2 * u) by nra. assert (Rabs (1 - f) <= u) by (apply Rabs_le; lra).
    replace (u + 2 * u * u) with ((1 + 2 * u) * u) by ring. apply Rmult_le_compat; auto using Rabs_pos. lra. }
  assert (H1 : b2 (-250) <= / s). { change (-250)%Z with (- (250))%Z. rewrite bpow_opp. apply Rinv_le; [lra|exact S2]. }
  assert (EQ : 1 / (s * f) = / s * / f) by (field; split; lra). rewrite EQ.
  apply Rabs_le_inv in G. assert (G' : 9/10 <= / f) by nra.
  assert (D : b2 (-250) = 2 * b2 (-251)) by (rewrite b2_double; reflexivity). pose proof (bpow_gt_0 radix2 (-251)) as P2.
  assert (H2 : 18/10 * b2 (-251) <= / s * / f) by nra.
  assert (LE : b2 (-1022) <= b2 (-251)) by (apply bpow_le; lia).
  destruct (fl_near (/ s * / f)) as (h & H & E). { rewrite Rabs_pos_eq; nra. }
  rewrite E. exists (/ f * h). split; [|split; [ring|]].
  - eapply Rle_trans; [apply (rel_mul _ _ (u + 2 * u * u) u)|]; [apply Rabs_le; lra|exact H|]. nra.
  - apply Rabs_le_inv in H. nra.
Qed.

(** the sizes for which no operation underflows or overflows *)
Definition moderate (n : nat) (cov : nat -> nat -> R) : Prop :=
  (forall i, (i < n)%nat -> bpow radix2 (-500) <= cov i i <= bpow radix2 500) /\
  (forall i j, (i < n)%nat -> (j < n)%nat -> cov i j = 0 \/ bpow radix2 (-500) <= Rabs (cov i j)).
(** the correlation in real numbers (C11) *)
Definition correlation (cov : nat -> nat -> R) (i j : nat) : R := cov i j / (sqrt (cov i i) * sqrt (cov j j)).

(** ** C111.  The result does not depend on the order in which np.matmul adds. *)
Theorem C111_determined : forall n cov, (exists r, cov2corr_fl n cov r) /\
  forall r r', cov2corr_fl n cov r -> cov2corr_fl n cov r' -> forall i j, (i < n)%nat -> (j < n)%nat -> r i j = r' i j.
Proof.
  intros n cov. split; [apply cov2corr_total|]. intros r r' H H' i j Hi Hj. rewrite (cov2corr_entry n cov r H), (cov2corr_entry n cov r' H') by assumption. reflexivity.
Qed.
Print Assumptions C111_determined.
(** Every entry of cov2corr has a relative error of at most 2^-50. *)
Theorem C111_close_partial : forall n cov r, moderate n cov -> cov2corr_fl n cov r -> forall i j, (i < n)%nat -> (j < n)%nat ->
  Rabs (r i j - correlation cov i j) <= bpow radix2 (-50) * Rabs (correlation cov i j).
Proof.
  intros n cov r (V & C) H i j Hi Hj. rewrite (cov2corr_entry n cov r H i j Hi Hj). unfold correlation.
  destruct (dinv_near _ (V i Hi)) as (f & F & Ef & Bf). destruct (dinv_near _ (V j Hj)) as (g & G & Eg & Bg).
  set (di := fdiv 1 (fsqrt (cov i i))) in *. set (dj := fdiv 1 (fsqrt (cov j j))) in *. set (c := cov i j) in *.
  pose proof u_pos as U0. pose proof u_small as U1.
  assert (E50 : bpow radix2 (-50) = 8 * u) by (unfold u; change (-50)%Z with (3 + -53)%Z; rewrite bpow_plus; reflexivity).
  destruct (C i j Hi Hj) as [Z|Z]; fold c in Z.
  { rewrite Z, fmul_0_l, fmul_0_r. unfold Rdiv. rewrite Rmult_0_l, Rminus_0_r, Rabs_R0. lra. }
  pose proof (bpow_gt_0 radix2 (-251)) as P1. pose proof (bpow_gt_0 radix2 (-500)) as P2. pose proof (bpow_gt_0 radix2 (-751)) as P3.
  assert (Q1 : b2 (-751) <= Rabs (c * dj)).
  { rewrite Rabs_mult, (Rabs_pos_eq dj) by lra. change (-751)%Z with (-500 + -251)%Z. rewrite bpow_plus. apply Rmult_le_compat; lra. }
  unfold fmul at 2. destruct (fl_near (c * dj)) as (p & P & ->). { eapply Rle_trans; [|exact Q1]. apply bpow_le. lia. }
  assert (P' := P). apply Rabs_le_inv in P'.
  assert (Q2 : b2 (-1003) <= Rabs (di * (c * dj * p))).
  { rewrite !Rabs_mult, (Rabs_pos_eq di), (Rabs_pos_eq p) by lra. rewrite <- Rabs_mult.
    change (-1003)%Z with (-251 + (-751 + -1))%Z. rewrite !bpow_plus. apply Rmult_le_compat; try lra.
    - apply Rmult_le_pos; apply bpow_ge_0.
    - apply Rmult_le_compat; try lra; try apply bpow_ge_0. change (b2 (-1)) with (/ 2). lra. }
  unfold fmul. destruct (fl_near (di * (c * dj * p))) as (q & Q & ->). { eapply Rle_trans; [|exact Q2]. apply bpow_le. lia. }
  rewrite Ef, Eg. set (a := / sqrt (cov i i)) in *. set (b := / sqrt (cov j j)) in *.
  replace (c / (sqrt (cov i i) * sqrt (cov j j))) with (a * c * b).
  2:{ unfold a, b. field. pose proof (V i Hi). pose proof (V j Hj). split; apply Rgt_not_eq, sqrt_lt_R0; lra. }
  replace (a * f * (c * (b * g) * p) * q - a * c * b) with ((f * g * p * q - 1) * (a * c * b)) by ring.
  rewrite Rabs_mult. apply Rmult_le_compat_r; [apply Rabs_pos|]. rewrite E50.
  eapply Rle_trans; [apply (rel_mul _ _ _ u (rel_mul _ _ _ u (rel_mul _ _ _ _ F G) P) Q)|].
  set (A := 2 * u + 4 * u * u). assert (HA : A <= 21/10 * u) by (unfold A; nra). assert (0 <= A) by (unfold A; nra).
  set (B := A + A + A * A). assert (HB : B <= 43/10 * u) by (unfold B; nra). assert (0 <= B) by (unfold B; nra).
  set (D := B + u + B * u). assert (HD : D <= 54/10 * u) by (unfold D; nra). nra.
Qed.
Print Assumptions C111_close_partial.

(** Hence, for a covariance matrix: a diagonal of 1, entries between -1 and 1 and symmetry hold up to 2^-50 and 2^-49. *)
Theorem C111_correlation_partial : forall n cov r, symmetric n cov -> psd n cov -> moderate n cov -> cov2corr_fl n cov r ->
  forall i j, (i < n)%nat -> (j < n)%nat ->
    Rabs (r i i - 1) <= bpow radix2 (-50) /\ Rabs (r i j) <= 1 + bpow radix2 (-50) /\ Rabs (r i j - r j i) <= bpow radix2 (-49) /\
    (cov i j = 0 -> r i j = 0).
Proof.
  intros n cov r SY PS MO H i j Hi Hj. pose proof MO as (V & _). pose proof (bpow_gt_0 radix2 (-500)) as P0. pose proof (bpow_gt_0 radix2 (-50)) as P1.
  assert (VP : forall k, (k < n)%nat -> 0 < cov k k) by (intros k K; specialize (V k K); lra).
  destruct (cov2corr_is_correlation n cov SY PS VP) as (C & _ & CS & _ & C1 & CR).
  assert (EC : forall a b, (a < n)%nat -> (b < n)%nat -> correlation cov a b = C a b /\ Rabs (C a b) <= 1).
  { intros a b Ha Hb. destruct (CR a b Ha Hb) as (E & R). split; [symmetry; exact E|apply Rabs_le; exact R]. }
  assert (CL : forall a b, (a < n)%nat -> (b < n)%nat -> Rabs (r a b - C a b) <= bpow radix2 (-50)).
  { intros a b Ha Hb. destruct (EC a b Ha Hb) as (E & R). pose proof (C111_close_partial n cov r MO H a b Ha Hb) as K. rewrite E in K.
    eapply Rle_trans; [exact K|]. nra. }
  split; [|split; [|split]].
  - rewrite <- (C1 i Hi). apply CL; exact Hi.
  - destruct (EC i j Hi Hj) as (_ & R). specialize (CL i j Hi Hj). replace (r i j) with (C i j + (r i j - C i j)) by ring.
    eapply Rle_trans; [apply Rabs_triang|]. lra.
  - pose proof (CL i j Hi Hj) as A. pose proof (CL j i Hj Hi) as B. rewrite (CS j i Hj Hi) in B.
    assert (E49 : bpow radix2 (-49) = 2 * bpow radix2 (-50)) by (rewrite b2_double; reflexivity). rewrite E49.
    apply Rabs_le_inv in A. apply Rabs_le_inv in B. apply Rabs_le. lra.
  - intros Z. rewrite (cov2corr_entry n cov r H i j Hi Hj), Z, fmul_0_l, fmul_0_r. reflexivity.
Qed.
Print Assumptions C111_correlation_partial.

(** Without any rounding if the standard deviations are powers of two (e.g. 1). *)
Theorem C111_exact_powers : forall n cov r (k : nat -> Z),
  (forall i, (i < n)%nat -> (Z.abs (k i) <= 250)%Z /\ cov i i = bpow radix2 (2 * k i)) ->
  (forall i j, (i < n)%nat -> (j < n)%nat -> exists m e, cov i j = IZR m * bpow radix2 e /\ (Z.abs m < 2 ^ 53)%Z /\ (-500 <= e)%Z) ->
  cov2corr_fl n cov r -> forall i j, (i < n)%nat -> (j < n)%nat -> r i j = correlation cov i j.
Proof.
  intros n cov r k V C H i j Hi Hj. rewrite (cov2corr_entry n cov r H i j Hi Hj). unfold correlation.
  assert (D : forall a, (a < n)%nat -> fdiv 1 (fsqrt (cov a a)) = b2 (- k a)).
  { intros a A. destruct (V a A) as (K & ->). unfold fdiv, fsqrt. rewrite b2_sqrt.
    assert (DB : forall z, (-1074 <= z)%Z -> double (b2 z)) by (intros z Z; exists 1%Z, z; split; [ring|split; [lia|exact Z]]).
    rewrite (fl_id (b2 (k a))) by (apply DB; lia). unfold Rdiv. rewrite Rmult_1_l, <- bpow_opp. apply fl_id, DB. lia. }
  rewrite (D i Hi), (D j Hj). destruct (V i Hi) as (Ki & ->). destruct (V j Hj) as (Kj & ->). destruct (C i j Hi Hj) as (m & e & -> & M & E).
  assert (X1 : fmul (IZR m * b2 e) (b2 (- k j)) = IZR m * b2 (e + - k j)).
  { unfold fmul. rewrite Rmult_assoc, <- bpow_plus. apply fl_id. exists m, (e + - k j)%Z. split; [reflexivity|]. split; [exact M|lia]. }
  rewrite X1. assert (X2 : fmul (b2 (- k i)) (IZR m * b2 (e + - k j)) = IZR m * b2 (- k i + (e + - k j))).
  { unfold fmul. replace (b2 (- k i) * (IZR m * b2 (e + - k j))) with (IZR m * (b2 (- k i) * b2 (e + - k j))) by ring. rewrite <- bpow_plus.
    apply fl_id. exists m, (- k i + (e + - k j))%Z. split; [reflexivity|]. split; [exact M|lia]. }
  rewrite X2, !b2_sqrt. rewrite !bpow_plus, !bpow_opp. field. split; apply Rgt_not_eq, bpow_gt_0.
Qed.
Print Assumptions C111_exact_powers.

(** In general not: a variance of 6 gives a correlation of a parameter with itself above 1 ... *)
Lemma inv_sqrt_6 : fdiv 1 (fsqrt 6) = IZR 7354347395230783 * b2 (-54).
Proof.
  pose proof (sqrt_sqrt 6 ltac:(lra)) as S. pose proof (sqrt_pos 6) as P.
  assert (Q : fsqrt 6 = IZR 5515760546423086 * b2 (-51)).
  { unfold fsqrt. apply fl_calc; [lia|split; cbn; nra|]. apply Rabs_def1; cbn; nra. }
  rewrite Q. unfold fdiv. apply fl_calc; [lia|split; cbn; lra|]. apply Rabs_def1; cbn; lra.
Qed.
Theorem C111_diagonal_refuted : exists cov r, cov2corr_fl 1 cov r /\ symmetric 1 cov /\ psd 1 cov /\ cov 0%nat 0%nat = 6 /\ 1 < r 0%nat 0%nat.
Proof.
  exists (fun _ _ => 6), (fun i j => fmul (fdiv 1 (fsqrt 6)) (fmul 6 (fdiv 1 (fsqrt 6)))). split; [|split; [|split; [|split; [reflexivity|]]]].
  - exists (fun _ _ => fmul 6 (fdiv 1 (fsqrt 6))). split; intros i j Hi Hj; cbn [seq map]; assert (i = 0%nat) as -> by lia; assert (j = 0%nat) as -> by lia; unfold dinv_fl; cbn [Nat.eqb]; constructor.
  - intros i j _ _. reflexivity.
  - intros x. unfold quad. cbn. nra.
  - rewrite inv_sqrt_6.
    assert (M : fmul 6 (IZR 7354347395230783 * b2 (-54)) = IZR 5515760546423087 * b2 (-51)).
    { unfold fmul. apply fl_calc; [lia|split; cbn; lra|]. apply Rabs_def1; cbn; lra. }
    rewrite M. assert (R : fmul (IZR 7354347395230783 * b2 (-54)) (IZR 5515760546423087 * b2 (-51)) = IZR 4503599627370497 * b2 (-52)).
    { unfold fmul. apply fl_calc; [lia|split; cbn; lra|]. apply Rabs_def1; cbn; lra. }
    rewrite R. cbn. lra.
Qed.
Print Assumptions C111_diagonal_refuted.
(** ... and the correlation matrix of the symmetric covariance matrix (2, 3; 3, 6) is not symmetric. *)
Theorem C111_symmetric_refuted : exists cov, symmetric 2 cov /\ psd 2 cov /\ moderate 2 cov /\ (exists r, cov2corr_fl 2 cov r) /\
  forall r, cov2corr_fl 2 cov r -> r 0%nat 1%nat <> r 1%nat 0%nat.
Proof.
  set (cov := fun i j => match i, j with 0%nat, 0%nat => 2 | 1%nat, 1%nat => 6 | _, _ => 3 end). exists cov. split; [|split; [|split; [|split]]].
  - intros [|[|i]] [|[|j]] Hi Hj; cbn; reflexivity || lia.
  - intros x. unfold quad, cov. cbn [sumn]. pose proof (pow2_ge_0 (x 0%nat + 3/2 * x 1%nat)). pose proof (pow2_ge_0 (x 1%nat)).
    match goal with |- 0 <= ?e => replace e with (2 * (x 0%nat + 3/2 * x 1%nat) ^ 2 + 3/2 * x 1%nat ^ 2) by field end. lra.
  - assert (A : b2 (-500) <= 1) by (change 1 with (b2 0); apply bpow_le; lia).
    assert (B : b2 3 <= b2 500) by (apply bpow_le; lia). change (b2 3) with 8 in B. split.
    + intros [|[|i]] Hi; unfold cov; try lia; lra.
    + intros [|[|i]] [|[|j]] Hi Hj; unfold cov; try lia; right; rewrite Rabs_pos_eq; lra.
  - apply cov2corr_total.
  - intros r H. rewrite (cov2corr_entry 2 cov r H 0 1), (cov2corr_entry 2 cov r H 1 0) by lia. unfold cov.
    pose proof (sqrt_sqrt 2 ltac:(lra)) as S2. pose proof (sqrt_pos 2) as P2. pose proof (sqrt_sqrt 6 ltac:(lra)) as S6. pose proof (sqrt_pos 6) as P6.
    assert (Q2 : fsqrt 2 = IZR 6369051672525773 * b2 (-52)). { unfold fsqrt. apply fl_calc; [lia|split; cbn; nra|]. apply Rabs_def1; cbn; nra. }
    assert (Q6 : fsqrt 6 = IZR 5515760546423086 * b2 (-51)). { unfold fsqrt. apply fl_calc; [lia|split; cbn; nra|]. apply Rabs_def1; cbn; nra. }
    assert (D2 : fdiv 1 (fsqrt 2) = IZR 6369051672525772 * b2 (-53)). { rewrite Q2. unfold fdiv. apply fl_calc; [lia|split; cbn; lra|]. apply Rabs_def1; cbn; lra. }
    assert (D6 : fdiv 1 (fsqrt 6) = IZR 7354347395230783 * b2 (-54)). { rewrite Q6. unfold fdiv. apply fl_calc; [lia|split; cbn; lra|]. apply Rabs_def1; cbn; lra. }
    rewrite D2, D6.
    assert (M6 : fmul 3 (IZR 7354347395230783 * b2 (-54)) = IZR 5515760546423087 * b2 (-52)). { unfold fmul. apply fl_calc; [lia|split; cbn; lra|]. apply Rabs_def1; cbn; lra. }
    assert (M2 : fmul 3 (IZR 6369051672525772 * b2 (-53)) = IZR 4776788754394329 * b2 (-51)). { unfold fmul. apply fl_calc; [lia|split; cbn; lra|]. apply Rabs_def1; cbn; lra. }
    rewrite M6, M2.
    assert (R1 : fmul (IZR 6369051672525772 * b2 (-53)) (IZR 5515760546423087 * b2 (-52)) = IZR 7800463371553962 * b2 (-53)). { unfold fmul. apply fl_calc; [lia|split; cbn; lra|]. apply Rabs_def1; cbn; lra. }
    assert (R2 : fmul (IZR 7354347395230783 * b2 (-54)) (IZR 4776788754394329 * b2 (-51)) = IZR 7800463371553963 * b2 (-53)). { unfold fmul. apply fl_calc; [lia|split; cbn; lra|]. apply Rabs_def1; cbn; lra. }
    rewrite R1, R2. cbn. lra.
Qed.
Print Assumptions C111_symmetric_refuted.
(** corr2cov: relative error at most 2^-51 *)
Theorem C111_corr2cov_partial : forall n corr var r,
  (forall i j, (i < n)%nat -> (j < n)%nat -> corr i j = 0 \/ bpow radix2 (-300) <= Rabs (corr i j)) ->
  (forall i, (i < n)%nat -> bpow radix2 (-300) <= Rabs (var i)) ->
  corr2cov_fl n corr var r -> forall i j, (i < n)%nat -> (j < n)%nat ->
  let c := var i * corr i j * var j in Rabs (r i j - c) <= bpow radix2 (-51) * Rabs c.
Proof.
  intros n corr var r C V (m & M1 & M2) i j Hi Hj c. unfold c.
  rewrite (matmul_diag_l n m var r M2 i j Hi Hj), (matmul_diag_r n corr var m M1 i j Hi Hj).
  pose proof u_pos as U0. pose proof u_small as U1.
  assert (E51 : bpow radix2 (-51) = 4 * u) by (unfold u; change (-51)%Z with (2 + -53)%Z; rewrite bpow_plus; reflexivity).
  destruct (C i j Hi Hj) as [Z|Z].
  { rewrite Z, fmul_0_l, fmul_0_r, Rmult_0_r, Rmult_0_l, Rminus_0_r, Rabs_R0. lra. }
  pose proof (V i Hi) as Vi. pose proof (V j Hj) as Vj.
  assert (Q1 : b2 (-600) <= Rabs (corr i j * var j)).
  { rewrite Rabs_mult. change (-600)%Z with (-300 + -300)%Z. rewrite bpow_plus. apply Rmult_le_compat; try apply bpow_ge_0; assumption. }
  unfold fmul at 2. destruct (fl_near (corr i j * var j)) as (p & P & ->). { eapply Rle_trans; [|exact Q1]. apply bpow_le. lia. }
  assert (P' := P). apply Rabs_le_inv in P'.
  assert (Q2 : b2 (-901) <= Rabs (var i * (corr i j * var j * p))).
  { rewrite Rabs_mult, (Rabs_mult _ p), (Rabs_pos_eq p) by lra. change (-901)%Z with (-300 + (-600 + -1))%Z. rewrite !bpow_plus.
    apply Rmult_le_compat; try apply bpow_ge_0; try assumption; [apply Rmult_le_pos; apply bpow_ge_0|].
    apply Rmult_le_compat; try apply bpow_ge_0; try assumption. change (b2 (-1)) with (/ 2). lra. }
  unfold fmul. destruct (fl_near (var i * (corr i j * var j * p))) as (q & Q & ->). { eapply Rle_trans; [|exact Q2]. apply bpow_le. lia. }
  replace (var i * (corr i j * var j * p) * q - var i * corr i j * var j) with ((p * q - 1) * (var i * corr i j * var j)) by ring.
  rewrite Rabs_mult. apply Rmult_le_compat_r; [apply Rabs_pos|]. rewrite E51. eapply Rle_trans; [apply (rel_mul _ _ u u P Q)|]. nra.
Qed.
Print Assumptions C111_corr2cov_partial.
(** concrete case of the exact theorem: variances 4 and 1, covariance 1 *)
Example C111_exact_example : forall r, cov2corr_fl 2 (fun i j => match i, j with 0%nat, 0%nat => 4 | _, _ => 1 end) r -> r 0%nat 1%nat = 1 / 2.
Proof.
  intros r H. rewrite (fun V C => C111_exact_powers 2 _ r (fun i => match i with 0%nat => 1%Z | _ => 0%Z end) V C H 0%nat 1%nat ltac:(lia) ltac:(lia)).
  - unfold correlation. replace 4 with (2 * 2) by ring. rewrite sqrt_square by lra. rewrite sqrt_1. lra.
  - intros [|[|i]] Hi; cbn; try lia; split; try lia; lra.
  - intros i j Hi Hj. destruct i as [|i], j as [|j]; [exists 4%Z, 0%Z|exists 1%Z, 0%Z|exists 1%Z, 0%Z|exists 1%Z, 0%Z]; (split; [cbn [bpow]; lra|split; [reflexivity|lia]]).
Qed.
