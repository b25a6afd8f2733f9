(** Vocabulary: events next to the upper edge. *)
From Coq Require Import Reals Arith List.
Local Open Scope R_scope.

(** x is not the upper edge, but closer to it than 1/100000 of every bin width *)
Definition near_upper_edge (es : list R) (x : R) : Prop :=
  x <> last es 0 /\
  forall i, (S i < length es)%nat -> Rabs (x - last es 0) < (nth (S i) es 0 - nth i es 0) / 100000.
