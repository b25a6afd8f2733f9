(** Specification for the legacy histograms (C63, C69, C70). *)
From Coq Require Import Reals ZArith Bool Arith List.
From Verif Require Import Model_Num Model_Hist Model_LegacyHist Spec_Hist.
Import ListNotations.
Local Open Scope R_scope.

(** Calls on one legacy Histogram. *)
Inductive lcall : Type := LFill (data : list R) (w : weights) | LScale (c : R).

(** A history of successful calls. *)
Fixpoint lcalls (h : lhist) (l : list lcall) : res lhist :=
  match l with
  | [] => Ok h
  | LFill d w :: l' => match lhist_fill h d w with (h', Ok _) => lcalls h' l' | (_, Err e) => Err e end
  | LScale c :: l' => lcalls (lhist_scale h c) l'
  end.

(** The product of all scale factors of a history. *)
Fixpoint factor (l : list lcall) : R :=
  match l with [] => 1 | LFill _ _ :: l' => factor l' | LScale c :: l' => c * factor l' end.

(** The events of a history, each with its weight times all scale factors applied after it was filled. *)
Fixpoint scaled_events (l : list lcall) : list (R * R) :=
  match l with
  | [] => []
  | LFill d w :: l' => map (fun p => (fst p, snd p * factor l')) (events1 d w) ++ scaled_events l'
  | LScale _ :: l' => scaled_events l'
  end.

(** The events of a history without weights. *)
Fixpoint filled_data (l : list lcall) : list R :=
  match l with [] => [] | LFill d _ :: l' => d ++ filled_data l' | LScale _ :: l' => filled_data l' end.

(** data given to the constructor *)
Definition linit (data : option (list R)) (w : weights) : list lcall :=
  match data with None => [] | Some d => [LFill d w] end.

(** entry i of an array is the number s *)
Definition lentry (a : list xr) (i : nat) (s : R) : Prop := nth_error a i = Some (Fin s).

(** edge number i of n bins of equal width between lo and hi *)
Definition equal_edge (lo hi : R) (n i : nat) : R := lo + INR i * ((hi - lo) / INR n).

(** ** Hist2d *)
(** The pair (a, e) is the marginal distribution of histogram h along x (or y) with its errors. *)
Definition marginal_x (h : hist) (r : list xr * list xr) : Prop :=
  exists nx ny, nd_shape (h_counts h) = [nx; ny] /\ nd_shape (h_errs_sq h) = [nx; ny] /\
    length (fst r) = nx /\ length (snd r) = nx /\
    forall i, (i < nx)%nat ->
      nth_error (fst r) i = Some (np_sum (map (fun j => vnth (nd_flat (h_counts h)) (i * ny + j)) (seq 0 ny))) /\
      nth_error (snd r) i = Some (xsqrt (np_sum (map (fun j => vnth (nd_flat (h_errs_sq h)) (i * ny + j)) (seq 0 ny)))).
Definition marginal_y (h : hist) (r : list xr * list xr) : Prop :=
  exists nx ny, nd_shape (h_counts h) = [nx; ny] /\ nd_shape (h_errs_sq h) = [nx; ny] /\
    length (fst r) = ny /\ length (snd r) = ny /\
    forall j, (j < ny)%nat ->
      nth_error (fst r) j = Some (np_sum (map (fun i => vnth (nd_flat (h_counts h)) (i * ny + j)) (seq 0 nx))) /\
      nth_error (snd r) j = Some (xsqrt (np_sum (map (fun i => vnth (nd_flat (h_errs_sq h)) (i * ny + j)) (seq 0 nx)))).

(** A call whose weights are not a tuple. *)
Definition usual_weights (o : l2op) : Prop :=
  match o with
  | L2New _ _ _ (WTuple _) => False | L2Fill _ _ _ (WTuple _) => False
  | _ => True
  end.
