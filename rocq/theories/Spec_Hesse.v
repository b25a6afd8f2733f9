(** Vocabulary: the Hesse matrix a program finds for a function. *)
From Coq Require Import Reals ZArith Bool Arith List.
From Verif Require Import Model_Num Model_Minimizer Model_Hesse.
Import ListNotations.
Local Open Scope R_scope.

(** the program, asking the function g for its values, ends with a *)
Inductive finds {A} (g : list xr -> res xr) : prog A -> A -> Prop :=
| finds_stop a : finds g (Stop a) a
| finds_ask x k a : finds g (k (g x)) a -> finds g (Ask x k) a.

(** the returned array, read now, is the Hesse matrix of function f, as it is now, at the point x *)
Definition is_hesse {S} (obj : nat -> S -> list xr -> list R -> res xr) hessian (st : hstate S) (i f : nat) (x args : list R) : Prop :=
  exists m, nth_error (h_heap st) i = Some m /\ finds (fun p => obj f (h_fun st f) p args) (hessian (map Fin x)) (Ok m).
