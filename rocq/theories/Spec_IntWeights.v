(** Specification of integers of a limited number of bits, without the model's wrap-around function. *)
From Coq Require Import Reals ZArith List.
From Verif Require Import Model_Num Model_Hist Model_IntWeights Spec_Hist.
Import ListNotations.
Local Open Scope R_scope.

(** the integers which a type can represent *)
Definition holds (ty : itype) (z : Z) : Prop :=
  match ty with
  | Signed b => (- 2 ^ (Zpos b - 1) <= z < 2 ^ (Zpos b - 1))%Z
  | Unsigned b => (0 <= z < 2 ^ Zpos b)%Z
  end.
(** the number of values of a type *)
Definition n_values (ty : itype) : Z := match ty with Signed b => 2 ^ Zpos b | Unsigned b => 2 ^ Zpos b end%Z.

(** Every event which belongs to the cell P has a weight whose square its type can represent. *)
Definition squares_fit {A} (P : A -> Prop) (ty : itype) (ev : list (A * Z)) : Prop :=
  forall x z, In (x, z) ev -> P x -> holds ty (z * z).

(** all attributes but the squared errors agree *)
Definition same_but_errors (a b : hist) : Prop :=
  h_kind a = h_kind b /\ h_edges a = h_edges b /\ h_num_bins a = h_num_bins b /\ h_shape a = h_shape b
  /\ h_range a = h_range b /\ h_counts a = h_counts b /\ h_empty a = h_empty b.
