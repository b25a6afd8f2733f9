(** Specification for C110: what Minuit returns when some of its parameters are fixed. *)
From Coq Require Import Reals String ZArith Bool Arith List.
From Verif Require Import Model_Num Model_Minimizer.
Import ListNotations.

(** the program can stop with the result a, for some values (or exceptions) of the objective function *)
Fixpoint may_return {A} (p : prog A) (a : A) : Prop :=
  match p with Stop b => b = a | Ask _ k => exists v, may_return (k v) a end.

(** the indices of the parameters Minuit was not told to keep fixed, in increasing order *)
Definition free (args : minuit_args) : list nat :=
  filter (fun k => negb (nth k (ma_fix args) false)) (seq 0 (length (ma_name args))).

(** What iminuit 1.x (the version with Minuit.from_array_func) documents: the keyword skip_fixed of matrix/np_matrix is
    True by default, i.e. the matrix has one row and one column for each parameter that is not fixed.  cov o a b is the
    covariance of the parameters a and b in the result o; values and errors have an entry for each parameter. *)
Definition skips_fixed (cov : minuit_out -> nat -> nat -> xr) (minuit : minuit_args -> prog (res minuit_out)) : Prop :=
  forall args o c, may_return (minuit args) (Ok o) -> mo_matrix o = Ok c ->
    c = map (fun a => map (cov o a) (free args)) (free args).

(** increasing list of exactly the numbers with P *)
Definition enumerates (l : list nat) (P : nat -> Prop) : Prop :=
  (forall k, In k l <-> P k) /\ forall i j, (i < j < length l)%nat -> (nth i l 0 < nth j l 0)%nat.
