(** Specification of histogram contents, independent of the model's helper functions. *)
From Coq Require Import Reals List Arith.
Import ListNotations.
Local Open Scope R_scope.

(** [wsum P ev s]: s is the sum of the weights of those (event, weight) pairs of [ev] whose event
    satisfies P. *)
Inductive wsum {A : Type} (P : A -> Prop) : list (A * R) -> R -> Prop :=
  | wsum_nil : wsum P [] 0
  | wsum_in x w ev s : P x -> wsum P ev s -> wsum P ((x, w) :: ev) (w + s)
  | wsum_out x w ev s : ~ P x -> wsum P ev s -> wsum P ((x, w) :: ev) s.

(** The events with squared weights. *)
Definition squared {A : Type} (ev : list (A * R)) : list (A * R) := map (fun p => (fst p, snd p * snd p)) ev.

(** Event x belongs to bin i of the edges e_0, ..., e_n: e_i <= x < e_(i+1), and x = e_n belongs to
    the last bin. *)
Definition in_bin (es : list R) (i : nat) (x : R) : Prop :=
  nth i es 0 <= x /\ (x < nth (S i) es 0 \/ (S (S i) = length es /\ x = nth (S i) es 0)).

(** x is inside the closed range of the edges *)
Definition in_range (es : list R) (x : R) : Prop :=
  nth 0 es 0 <= x <= nth (length es - 1) es 0.

(** Edges define at least one bin and increase strictly. *)
Definition valid_edges (es : list R) : Prop :=
  (2 <= length es)%nat /\ forall i, (S i < length es)%nat -> nth i es 0 < nth (S i) es 0.

(** number of events satisfying P *)
Inductive wcount {A : Type} (P : A -> Prop) : list A -> nat -> Prop :=
  | wcount_nil : wcount P [] 0
  | wcount_in x ev n : P x -> wcount P ev n -> wcount P (x :: ev) (S n)
  | wcount_out x ev n : ~ P x -> wcount P ev n -> wcount P (x :: ev) n.

From Verif Require Import Model_Num Model_Hist.

(** The (event, weight) pairs of a call fill(data, weights); without weights every event has weight 1. *)
Definition weight_list (n : nat) (w : weights) : list R :=
  match w with WNone => repeat 1 n | WArr l => l | WList l => l | WTuple l => l end.
Definition events1 (data : list R) (w : weights) : list (R * R) :=
  combine data (weight_list (length data) w).
Definition events2 (xs ys : list R) (w : weights) : list ((R * R) * R) :=
  combine (combine xs ys) (weight_list (length xs) w).

(** A history of successful fill calls on one histogram. *)
Fixpoint fills1 (h : hist) (l : list (list R * weights)) : res hist :=
  match l with
  | [] => Ok h
  | (d, w) :: l' => match hist1_fill h d w with (h', Ok _) => fills1 h' l' | (_, Err e) => Err e end
  end.
Fixpoint fills2 (h : hist) (l : list ((list R * list R) * weights)) : res hist :=
  match l with
  | [] => Ok h
  | ((xs, ys), w) :: l' => match hist2_fill h xs ys w with (h', Ok _) => fills2 h' l' | (_, Err e) => Err e end
  end.

(** All events of a history. *)
Definition all_events1 (l : list (list R * weights)) : list (R * R) :=
  flat_map (fun f => events1 (fst f) (snd f)) l.
Definition all_events2 (l : list ((list R * list R) * weights)) : list ((R * R) * R) :=
  flat_map (fun f => events2 (fst (fst f)) (snd (fst f)) (snd f)) l.

(** Optional data of a constructor as a history of at most one fill. *)
Definition init_fill {A} (data : option A) (w : weights) : list (A * weights) :=
  match data with None => [] | Some d => [(d, w)] end.

(** Entry i (or (i,j)) of an array is the finite number s. *)
Definition entry (a : nd) (i : nat) (s : R) : Prop := nth_error (nd_flat a) i = Some (Fin s).
Definition entry2 (a : nd) (i j : nat) (s : R) : Prop :=
  match nd_shape a with
  | [nx; ny] => (i < nx)%nat /\ (j < ny)%nat /\ nth_error (nd_flat a) (i * ny + j) = Some (Fin s)
  | _ => False
  end.
(** A one-dimensional array of n entries. *)
Definition vector_of (a : nd) (n : nat) : Prop := nd_shape a = [n] /\ length (nd_flat a) = n.
