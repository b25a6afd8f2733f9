(** Double precision, continued: the values of a template and the errors of a histogram made from binned data.  Rounding
    and np.sum as in Model_Float.v. *)
From Coq Require Import Reals ZArith Bool Arith List.
From Flocq Require Import Core.
From Verif Require Import Model_Num Model_Hist Model_Float.
Import ListNotations.
Local Open Scope R_scope.

(** abstract_template.py:242: per_bin_yields = bin_counts * (1. + nui_params * rel_errors) *)
Fixpoint per_bin_fl (counts rel nui : list R) : list R :=
  match counts, rel, nui with
  | c :: counts, r :: rel, t :: nui => fmul c (fadd 1 (fmul t r)) :: per_bin_fl counts rel nui
  | _, _, _ => []
  end.
(** abstract_template.py:243 and 205-212: yield * (per_bin_yields / sum), for the order of summation with result s *)
Definition scaled_fl (y s : R) (p : list R) : list R := map (fun x => fmul y (fdiv x s)) p.
(** [values_fl y counts rel nui vs]: vs is the property values of a template with yield y for some order of summation *)
Definition values_fl (y : R) (counts rel nui vs : list R) : Prop :=
  exists s, sum_fl (per_bin_fl counts rel nui) s /\ vs = scaled_fl y s (per_bin_fl counts rel nui).
(** abstract_template.py:129-133 _init_params: the yield np.sum(bin_counts) and nuisance parameters 0 *)
Definition new_values_fl (counts rel vs : list R) : Prop :=
  exists y, sum_fl counts y /\ values_fl y counts rel (repeat 0 (length counts)) vs.

(** hist1d.py:95-98: bin_errors = np.sqrt(bin_counts), bin_errors_sq = bin_errors ** 2 *)
Definition binned_errors_sq_fl (counts : list R) : list R := map (fun c => fmul (fsqrt c) (fsqrt c)) counts.
