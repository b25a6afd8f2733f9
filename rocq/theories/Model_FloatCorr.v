(** utility.py:16-53 cov2corr in double precision (see Model_Float.v), for covariance matrices with positive variances. *)
From Coq Require Import Reals ZArith Bool Arith List.
From Verif Require Import Model_Num Model_Hist Model_Float.
Import ListNotations.
Local Open Scope R_scope.

(** np.matmul(a, b) for n x n matrices: the products are rounded and added in some order.  (A BLAS that uses fused
    multiply-add rounds sum and product once; for the matrices below, with one product different from zero in each sum,
    this gives the same.) *)
Definition matmul_fl (n : nat) (a b r : nat -> nat -> R) : Prop :=
  forall i j, (i < n)%nat -> (j < n)%nat -> sum_fl (map (fun k => fmul (a i k) (b k j)) (seq 0 n)) (r i j).
(** utility.py:30 np.nan_to_num(np.diag(1 / np.sqrt(np.diag(cov)))): positive variances have a finite inverse root *)
Definition dinv_fl (cov : nat -> nat -> R) (i j : nat) : R := if Nat.eqb i j then fdiv 1 (fsqrt (cov i i)) else 0.
(** utility.py:31 np.matmul(Dinv, np.matmul(cov, Dinv)) *)
Definition cov2corr_fl (n : nat) (cov r : nat -> nat -> R) : Prop :=
  exists m, matmul_fl n cov (dinv_fl cov) m /\ matmul_fl n (dinv_fl cov) m r.
(** utility.py:34-53 corr2cov; "var" are standard deviations (see C12) *)
Definition diag_fl (var : nat -> R) (i j : nat) : R := if Nat.eqb i j then var i else 0.
Definition corr2cov_fl (n : nat) (corr : nat -> nat -> R) (var : nat -> R) (r : nat -> nat -> R) : Prop :=
  exists m, matmul_fl n corr (diag_fl var) m /\ matmul_fl n (diag_fl var) m r.
