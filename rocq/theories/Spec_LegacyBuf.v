(** Specification for legacy histograms that share arrays (C106). *)
From Coq Require Import Reals ZArith Bool Arith List.
From Verif Require Import Model_Num Model_Hist Model_HistHeap Model_LegacyHist Model_LegacyBuf Spec_LegacyHist.
Import ListNotations.
Local Open Scope R_scope.

(** r is an array of histogram k *)
Definition array_of (k : nat) (r : lbref) : bool :=
  match r with RArr _ => false | RCounts j | REntries j | RErrs j => Nat.eqb j k end.
(** the call gives an array of histogram k to somebody else, writes into it, or replaces it *)
Definition exposes (k : nat) (o : lbop) : bool :=
  match o with
  | BWrite r _ => array_of k r
  | BHist1E r _ _ => array_of k r
  | BFrom e c _ => array_of k e || array_of k c
  | BSetCounts j r => Nat.eqb j k || array_of k r
  | BSetErrors j _ => Nat.eqb j k
  | _ => false
  end.
(** the calls of methods of histogram k, as calls on a histogram 0 *)
Fixpoint own_calls (k : nat) (l : list lbop) : list lbop :=
  match l with
  | [] => []
  | BFill j d w :: l' => if Nat.eqb j k then BFill 0 d w :: own_calls k l' else own_calls k l'
  | BScale j c :: l' => if Nat.eqb j k then BScale 0 c :: own_calls k l' else own_calls k l'
  | _ :: l' => own_calls k l'
  end.
(** a constructor with a number of bins *)
Definition plain_new (o : lbop) : bool := match o with BHistogram _ _ _ _ | BHist1 _ _ _ _ => true | _ => false end.
(** the arrays of histogram k *)
Definition lb_addrs (o : lbobj) : list nat :=
  lb_counts o :: lb_errs o :: match lb_entries o with Some a => [a] | None => [] end.
(** the arrays a call writes into *)
Definition write_targets (s : lbst) (o : lbop) : list nat :=
  match o with
  | BFill k _ _ | BScale k _ => match nth_error (lb_objs s) k with Some p => lb_addrs p | None => [] end
  | BWrite r _ => match lb_deref s r with Some a => [a] | None => [] end
  | _ => []
  end.
