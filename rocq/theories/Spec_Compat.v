(** Vocabulary: equal numbers in any containers, and ranges written as tuples. *)
From Coq Require Import Reals List.
From Verif Require Import Model_Compat.
Import ListNotations.

Inductive same_numbers : py -> py -> Prop :=
  | same_num x : same_numbers (Num x) (Num x)
  | same_seq a b l m : (a = Tup l \/ a = Lst l) -> (b = Tup m \/ b = Lst m) -> Forall2 same_numbers l m -> same_numbers a b.
(** (lo, hi) and [lo, hi] *)
Definition tuple2 (lo hi : R) : py := Tup [Num lo; Num hi].
Definition list2 (lo hi : R) : py := Lst [Num lo; Num hi].
