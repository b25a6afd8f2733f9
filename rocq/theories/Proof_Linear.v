(** Positive definite matrices are invertible (elimination of the last index). *)
From Coq Require Import Reals List Arith Lra Lia.
From Verif Require Import Model_Num Spec_Matrix Proof_Matrix.
Local Open Scope R_scope.

(** quadratic form with one more index *)
Lemma quad_S n A v :
  quad (S n) A v = quad n A v + v n * sumn n (fun j => (A j n + A n j) * v j) + v n * A n n * v n.
Proof.
  unfold quad. cbn [sumn]. rewrite sumn_plus.
  rewrite (sumn_ext n (fun i => (A i n + A n i) * v i) (fun i => A i n * v i + A n i * v i)) by (intros; ring).
  rewrite sumn_plus.
  rewrite (sumn_ext n (fun i => v i * A i n * v n) (fun i => v n * (A i n * v i))) by (intros; ring).
  rewrite (sumn_ext n (fun j => v n * A n j * v j) (fun j => v n * (A n j * v j))) by (intros; ring).
  rewrite !sumn_scal. ring.
Qed.

Definition schur (n : nat) (A : nat -> nat -> R) (i j : nat) : R := A i j - A i n * A n j / A n n.

Lemma schur_symmetric n A : symmetric (S n) A -> symmetric n (schur n A).
Proof.
  intros H i j Hi Hj. unfold schur. rewrite (H i j), (H i n), (H n j) by lia.
  unfold Rdiv. ring.
Qed.

Lemma posdef_diag n A i : posdef n A -> (i < n)%nat -> 0 < A i i.
Proof.
  intros H Hi. rewrite <- (quad_one n A i Hi). apply H. exists i; split; auto.
  unfold delta. rewrite Nat.eqb_refl. lra.
Qed.

Lemma quad_schur n A v : symmetric (S n) A -> A n n <> 0 ->
  quad n (schur n A) v =
  quad (S n) A (fun i => if Nat.eqb i n then - sumn n (fun j => A n j * v j) / A n n else v i).
Proof.
  intros Hs Ha. rewrite quad_S. rewrite Nat.eqb_refl.
  set (s := sumn n (fun j => A n j * v j)).
  rewrite (quad_ext n A A _ v) by (auto; intros i Hi; destruct (Nat.eqb_spec i n); lia || auto).
  rewrite (sumn_ext n (fun j => (A j n + A n j) * (if Nat.eqb j n then - s / A n n else v j)) (fun j => 2 * (A n j * v j))).
  2:{ intros j Hj. rewrite (Hs j n) by lia. destruct (Nat.eqb_spec j n); [lia|]. ring. }
  rewrite sumn_scal. fold s.
  unfold quad. rewrite (sumn_ext n (fun i => sumn n (fun j => v i * schur n A i j * v j))
     (fun i => sumn n (fun j => v i * A i j * v j) - (A n i * v i) * (s / A n n))).
  2:{ intros i Hi. unfold schur.
      rewrite (sumn_ext n _ (fun j => v i * A i j * v j - (v i * A i n / A n n) * (A n j * v j))) by (intros; unfold Rdiv; ring).
      rewrite sumn_minus, sumn_scal. fold s. rewrite (Hs i n) by lia. unfold Rdiv; ring. }
  rewrite sumn_minus, sumn_scal_r. fold s. field. auto.
Qed.

Lemma schur_posdef n A : symmetric (S n) A -> posdef (S n) A -> posdef n (schur n A).
Proof.
  intros Hs Hp v [i [Hi Hv]].
  assert (Ha : 0 < A n n) by (apply (posdef_diag (S n)); auto).
  rewrite quad_schur by (auto; lra).
  apply Hp. exists i; split; [lia|]. destruct (Nat.eqb_spec i n); [lia|auto].
Qed.

(** the inverse assembled from the inverse T of the Schur complement *)
Definition assemble (n : nat) (A T : nat -> nat -> R) (i j : nat) : R :=
  if Nat.eqb i n then
    if Nat.eqb j n then / A n n + sumn n (fun k => A n k * sumn n (fun l => T k l * A l n)) / (A n n * A n n)
    else - sumn n (fun k => A n k * T k j) / A n n
  else
    if Nat.eqb j n then - sumn n (fun l => T i l * A l n) / A n n
    else T i j.

Lemma assemble_right n A T : A n n <> 0 ->
  (forall i j, (i < n)%nat -> (j < n)%nat -> sumn n (fun k => schur n A i k * T k j) = delta i j) ->
  forall i j, (i < S n)%nat -> (j < S n)%nat -> sumn (S n) (fun k => A i k * assemble n A T k j) = delta i j.
Proof.
  intros Ha HT i j Hi Hj. cbn [sumn].
  (* sum over k<n of schur i k * X k = sum A i k X k - A i n/a * sum A n k X k *)
  assert (HS : forall X i, sumn n (fun k => A i k * X k) =
             sumn n (fun k => schur n A i k * X k) + A i n / A n n * sumn n (fun k => A n k * X k)).
  { intros X i0. rewrite <- sumn_scal, <- sumn_plus. apply sumn_ext; intros; unfold schur; field; auto. }
  destruct (Nat.eq_dec j n) as [->|Hjn].
  - rewrite (sumn_ext n _ (fun k => A i k * ((fun k => - sumn n (fun l => T k l * A l n) / A n n) k))).
    2:{ intros k Hk. unfold assemble. rewrite Nat.eqb_refl. destruct (Nat.eqb_spec k n); [lia|reflexivity]. }
    unfold assemble at 1. rewrite Nat.eqb_refl.
    set (u := fun k => sumn n (fun l => T k l * A l n)). fold u.
    rewrite (sumn_ext n _ (fun k => (A i k * u k) * (- / A n n))) by (intros; unfold u, Rdiv; ring).
    rewrite sumn_scal_r.
    change (sumn n (fun k => A n k * sumn n (fun l => T k l * A l n))) with (sumn n (fun k => A n k * u k)).
    destruct (Nat.eq_dec i n) as [->|Hin].
    + unfold delta; rewrite Nat.eqb_refl. field. auto.
    + rewrite (HS u i).
      assert (Hu : sumn n (fun k => schur n A i k * u k) = A i n) by (clear HS; unfold u;
        rewrite (sumn_ext n (fun k => schur n A i k * sumn n (fun l => T k l * A l n)) (fun k => sumn n (fun l => schur n A i k * T k l * A l n)));
        [rewrite sumn_swap; rewrite (sumn_ext n _ (fun l => delta i l * A l n)); [apply (sumn_delta_l n i (fun l => A l n)); lia|intros l Hl; rewrite sumn_scal_r, HT by lia; reflexivity]
        |intros; rewrite <- sumn_scal; apply sumn_ext; intros; ring]).
      rewrite Hu. unfold delta. destruct (Nat.eqb_spec i n); [lia|]. field. auto.
  - rewrite (sumn_ext n _ (fun k => A i k * (fun k => T k j) k)).
    2:{ intros k Hk. unfold assemble. destruct (Nat.eqb_spec k n); [lia|]. destruct (Nat.eqb_spec j n); [lia|reflexivity]. }
    unfold assemble at 1. rewrite Nat.eqb_refl. destruct (Nat.eqb_spec j n); [lia|].
    destruct (Nat.eq_dec i n) as [->|Hin].
    + unfold delta. destruct (Nat.eqb_spec n j); [lia|]. field. auto.
    + rewrite (HS (fun k => T k j) i), HT by lia. field. auto.
Qed.

Lemma assemble_symmetric n A T : symmetric (S n) A -> symmetric n T -> symmetric (S n) (assemble n A T).
Proof.
  intros HA HT i j Hi Hj. unfold assemble.
  assert (E : forall k, (k < n)%nat -> sumn n (fun l => T k l * A l n) = sumn n (fun l => A n l * T l k)).
  { intros k Hk. apply sumn_ext; intros l Hl. rewrite (HT k l), (HA l n) by lia. ring. }
  destruct (Nat.eqb_spec i n), (Nat.eqb_spec j n); subst; auto.
  - rewrite E by lia. reflexivity.
  - rewrite E by lia. reflexivity.
  - apply HT; lia.
Qed.

Lemma symmetric_right_inverse n A B : symmetric n A -> symmetric n B ->
  (forall i j, (i < n)%nat -> (j < n)%nat -> sumn n (fun k => A i k * B k j) = delta i j) ->
  inverse_of n A B.
Proof.
  intros HA HB H i j Hi Hj. split; [auto|].
  rewrite (sumn_ext n _ (fun k => A j k * B k i)).
  - rewrite H by auto. unfold delta. rewrite Nat.eqb_sym. reflexivity.
  - intros k Hk. rewrite (HB i k), (HA k j) by auto. ring.
Qed.

Theorem posdef_invertible : forall n A, symmetric n A -> posdef n A ->
  exists B, symmetric n B /\ inverse_of n A B.
Proof.
  induction n as [|n IH]; intros A Hs Hp.
  - exists A. split; auto. intros i j Hi; lia.
  - destruct (IH (schur n A) (schur_symmetric _ _ Hs) (schur_posdef _ _ Hs Hp)) as (T & HT & Hinv).
    assert (Ha : 0 < A n n) by (apply (posdef_diag (S n)); auto).
    exists (assemble n A T).
    assert (HB : symmetric (S n) (assemble n A T)) by (apply assemble_symmetric; auto).
    split; auto. apply symmetric_right_inverse; auto.
    apply assemble_right; [lra|]. intros i j Hi Hj. apply Hinv; auto.
Qed.

(** inverses are unique *)
Lemma inverse_unique n A B C : inverse_of n A B -> inverse_of n A C ->
  forall i j, (i < n)%nat -> (j < n)%nat -> B i j = C i j.
Proof.
  intros HB HC i j Hi Hj.
  assert (E : sumn n (fun k => sumn n (fun l => B i l * A l k) * C k j) = C i j).
  { rewrite (sumn_ext n _ (fun k => delta i k * C k j)).
    - apply (sumn_delta_l n i (fun k => C k j)); auto.
    - intros k Hk. destruct (HB i k Hi Hk) as [_ ->]. reflexivity. }
  rewrite <- E.
  rewrite (sumn_ext n _ (fun k => sumn n (fun l => B i l * (A l k * C k j)))).
  2:{ intros k Hk. rewrite <- sumn_scal_r. apply sumn_ext; intros; ring. }
  rewrite sumn_swap.
  rewrite (sumn_ext n _ (fun l => B i l * delta l j)).
  - symmetry; apply (sumn_delta_r n j (fun l => B i l)); auto.
  - intros l Hl. rewrite sumn_scal. destruct (HC l j Hl Hj) as [-> _]. reflexivity.
Qed.

(** the inverse of a positive semi-definite matrix is positive semi-definite *)
Lemma inverse_psd n A P : symmetric n A -> psd n A -> inverse_of n A P -> psd n P.
Proof.
  intros Hs Hp Hinv v.
  set (y := fun i => sumn n (fun j => P i j * v j)).
  assert (HAy : forall i, (i < n)%nat -> sumn n (fun k => A i k * y k) = v i).
  { intros i Hi. unfold y.
    rewrite (sumn_ext n _ (fun k => sumn n (fun j => A i k * P k j * v j))).
    2:{ intros; rewrite <- sumn_scal; apply sumn_ext; intros; ring. }
    rewrite sumn_swap. rewrite (sumn_ext n _ (fun j => delta i j * v j)).
    - apply (sumn_delta_l n i v); auto.
    - intros j Hj. rewrite sumn_scal_r. destruct (Hinv i j Hi Hj) as [-> _]. reflexivity. }
  replace (quad n P v) with (quad n A y); [apply Hp|].
  unfold quad.
  rewrite (sumn_ext n (fun i => sumn n (fun j => y i * A i j * y j)) (fun i => y i * v i)).
  2:{ intros i Hi. rewrite <- (HAy i Hi), <- sumn_scal. apply sumn_ext; intros; ring. }
  rewrite (sumn_ext n (fun i => sumn n (fun j => v i * P i j * v j)) (fun i => y i * v i)); auto.
  intros i Hi. unfold y. rewrite <- sumn_scal_r. apply sumn_ext; intros; ring.
Qed.

Lemma posdef_psd n A : posdef n A -> psd n A.
Proof.
  intros H v.
  destruct (Rlt_le_dec (quad n A v) 0) as [Hq|]; auto. exfalso.
  assert (Hz : (exists i, (i < n)%nat /\ v i <> 0) \/ forall i, (i < n)%nat -> v i = 0).
  { clear H Hq. induction n as [|n IH]; [right; intros; lia|].
    destruct IH as [(i & Hi & Hv)|IH]; [left; exists i; split; auto; lia|].
    destruct (Req_EM_T (v n) 0) as [E|E]; [right|left; exists n; split; auto].
    intros i Hi. destruct (Nat.eq_dec i n) as [->|]; auto. apply IH; lia. }
  destruct Hz as [Hz|Hz]; [pose proof (H v Hz); lra|].
  assert (quad n A v = 0); [|lra].
  unfold quad. apply sumn_zero; intros i Hi. apply sumn_zero; intros j Hj. rewrite (Hz i Hi). ring.
Qed.

Lemma quad_plus n A B v : quad n (fun i j => A i j + B i j) v = quad n A v + quad n B v.
Proof.
  unfold quad. rewrite <- sumn_plus. apply sumn_ext; intros i _.
  rewrite <- sumn_plus. apply sumn_ext; intros; ring.
Qed.
Lemma posdef_plus n A B : posdef n A -> psd n B -> posdef n (fun i j => A i j + B i j).
Proof. intros HA HB v Hv. rewrite quad_plus. pose proof (HA v Hv); pose proof (HB v); lra. Qed.

Lemma quad_diag n d v : quad n (fun i j => delta i j * d i) v = sumn n (fun i => d i * (v i * v i)).
Proof.
  unfold quad. apply sumn_ext; intros i Hi.
  rewrite (sumn_single n i); [|assumption|].
  - unfold delta; rewrite Nat.eqb_refl. ring.
  - intros j Hj Hne. unfold delta. destruct (Nat.eqb_spec i j); [lia|]. ring.
Qed.
Lemma posdef_diagonal n d : (forall i, (i < n)%nat -> 0 < d i) -> posdef n (fun i j => delta i j * d i).
Proof.
  intros Hd v (i & Hi & Hv). rewrite quad_diag.
  apply (sumn_pos n _ i); auto.
  - intros k Hk. pose proof (Hd k Hk). apply Rmult_le_pos; [lra|]. apply Rle_0_sqr.
  - pose proof (Hd i Hi). apply Rmult_lt_0_compat; [lra|]. apply Rsqr_pos_lt; auto.
Qed.

Lemma corr_posdef n A : posdef n A -> posdef n (corr_of A).
Proof.
  intros H v (i & Hi & Hv). rewrite quad_corr by (intros; apply (posdef_diag n); auto).
  apply H. exists i; split; auto.
  pose proof (posdef_diag n A i H Hi) as Ha. apply sqrt_lt_R0 in Ha.
  intros E. apply Hv. apply (f_equal (fun x => x * sqrt (A i i))) in E.
  unfold Rdiv in E. rewrite Rmult_assoc, Rinv_l, Rmult_1_r, Rmult_0_l in E by lra. exact E.
Qed.
Lemma corr_symmetric n A : symmetric n A -> symmetric n (corr_of A).
Proof. intros H i j Hi Hj. unfold corr_of. rewrite (H i j), (Rmult_comm (sqrt (A i i))) by auto. reflexivity. Qed.
