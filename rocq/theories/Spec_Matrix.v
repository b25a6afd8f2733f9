(** Vectors and matrices of real numbers as functions of their indices, and their representation as
    numpy arrays. *)
From Coq Require Import Reals List Arith.
From Verif Require Import Model_Num.
Import ListNotations.
Local Open Scope R_scope.

(** f 0 + ... + f (n-1) *)
Fixpoint sumn (n : nat) (f : nat -> R) : R :=
  match n with O => 0 | S k => sumn k f + f k end.

(** the numpy vector / n x n matrix with the given finite entries *)
Definition vec_of (n : nat) (f : nat -> R) : list xr := map (fun i => Fin (f i)) (seq 0 n).
Definition mat_of (n : nat) (A : nat -> nat -> R) : mat :=
  map (fun i => vec_of n (A i)) (seq 0 n).

(** quadratic form v^T A v *)
Definition quad (n : nat) (A : nat -> nat -> R) (v : nat -> R) : R :=
  sumn n (fun i => sumn n (fun j => v i * A i j * v j)).

Definition symmetric (n : nat) (A : nat -> nat -> R) : Prop :=
  forall i j, (i < n)%nat -> (j < n)%nat -> A i j = A j i.
Definition psd (n : nat) (A : nat -> nat -> R) : Prop := forall v, 0 <= quad n A v.
Definition posdef (n : nat) (A : nat -> nat -> R) : Prop :=
  forall v, (exists i, (i < n)%nat /\ v i <> 0) -> 0 < quad n A v.

(** A B = 1 *)
Definition delta (i j : nat) : R := if Nat.eqb i j then 1 else 0.
Definition inverse_of (n : nat) (A B : nat -> nat -> R) : Prop :=
  forall i j, (i < n)%nat -> (j < n)%nat ->
    sumn n (fun k => A i k * B k j) = delta i j /\ sumn n (fun k => B i k * A k j) = delta i j.

(** What is assumed of np.linalg.inv: for a matrix of finite numbers it returns the inverse if there
    is one and raises LinAlgError otherwise (exact arithmetic); the shape is kept in any case. *)
Definition inv_spec (inv : mat -> res mat) : Prop :=
  (forall n A B, inverse_of n A B -> inv (mat_of n A) = Ok (mat_of n B)) /\
  (forall n A, (~ exists B, inverse_of n A B) -> inv (mat_of n A) = Err LinAlgError) /\
  (forall n m m', square n m = true -> inv m = Ok m' -> square n m' = true).
