(** templatefitter/stats.py for arrays of integers.  Model_Utility computes with real numbers.  If [data] and
    [expectation] are arrays of the same numpy integer type, the difference and its square are computed in that type,
    i.e. modulo 2^bits; the division gives floats (rounding is not modelled).  If one of the two is an array of floats
    everything is computed with floats.  cowan_binned_likelihood_gof starts with a division, so all its intermediate
    results are floats; the difference cannot be observed there. *)
From Coq Require Import Reals String ZArith Bool Arith List.
From Verif Require Import Model_Num Model_Hist Model_Utility Model_IntWeights.
Import ListNotations.
Local Open Scope R_scope.

Section IntStats.
  Variable pval : xr -> Z -> xr.

  (** (data - expectation) ** 2 *)
  Definition int_diff_sq (ty : itype) (data expectation : list Z) : res (list Z) :=
    d <- bcast (fun a b => iwrap ty (a - b)) data expectation ;; Ok (map (fun a => iwrap ty (a * a)) d).

  (** stats.py:18-56 pearson_chi2_test *)
  Definition int_pearson_chi2_test (ty : itype) (data expectation : list Z) (dof : Z) : res (xr * xr * xr) :=
    d <- int_diff_sq ty data expectation ;;
    q <- bcast (fun a e => xdiv (z2x a) (z2x e)) d expectation ;;
    let chi_sq := np_sum q in
    Ok (chi_sq, xdiv chi_sq (z2x dof), pval chi_sq dof).

  (** stats.py:12-15 default_chi2_test; the uncertainties are of the same type as well *)
  Definition int_default_chi2_test (ty : itype) (data expectation uncertainty : list Z) (dof : Z) : res (xr * xr * xr) :=
    d <- int_diff_sq ty data expectation ;;
    q <- bcast (fun a u => xdiv (z2x a) (z2x (iwrap ty (u * u)))) d uncertainty ;;
    let chi_sq := np_sum q in
    Ok (chi_sq, xdiv chi_sq (z2x dof), pval chi_sq dof).
End IntStats.
