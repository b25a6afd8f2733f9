(** Vocabulary: doubles and sums of multiples of a power of two. *)
From Coq Require Import Reals ZArith Bool Arith List.
From Flocq Require Import Core.
From Verif Require Import Model_Num Model_Hist Spec_Hist.
Import ListNotations.
Local Open Scope R_scope.

(** x is a double: k * 2^e with |k| < 2^53 and e >= -1074 *)
Definition double (x : R) : Prop :=
  exists k e : Z, x = IZR k * bpow radix2 e /\ (Z.abs k < 2 ^ 53)%Z /\ (-1074 <= e)%Z.
(** x is a multiple of 2^e *)
Definition multiple (e : Z) (x : R) : Prop := exists k : Z, x = IZR k * bpow radix2 e.
(** the events of a number of fill calls *)
Definition events_of (l : list (list R * list R)) : list (R * R) := flat_map (fun f => combine (fst f) (snd f)) l.
Definition everything {A} : A -> Prop := fun _ => True.
(** every entry is 0 or at least 2^-300, and the sum is at most 2^300: no operation comes close to the limits of doubles *)
Definition sized (l : list R) : Prop := Forall (fun x => x = 0 \/ bpow radix2 (-300) <= x) l /\ Rsuml l <= bpow radix2 300.
