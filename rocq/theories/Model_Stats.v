(** Model of the p-values of templatefitter/stats.py: quad(chi2.pdf, chi_sq, np.inf, args=(dof,))[0]. *)
From Coq Require Import Reals ZArith Arith.
From Coquelicot Require Import Coquelicot.
From Verif Require Import Model_Num.
Local Open Scope R_scope.

(** Gamma(n / 2) for n = 1, 2, 3, ... *)
Fixpoint gamma_half (n : nat) : R :=
  match n with
  | O => 0
  | 1%nat => sqrt PI
  | S (S m) => match m with O => 1 | _ => INR m / 2 * gamma_half m end
  end.

(** scipy.stats.chi2.pdf(x, df), df >= 1: exp of xlogy(df/2 - 1, x) - x/2 - gammaln(df/2) - log(2) df/2 on the support.
    (At x = 0 scipy returns the limit, possibly infinity; [quad] does not evaluate end points.) *)
Definition chi2_pdf (n : nat) (x : R) : R :=
  if Rlt_dec 0 x
  then exp ((INR n / 2 - 1) * ln x - x / 2 - ln (gamma_half n) - ln 2 * (INR n / 2))
  else 0.

(** scipy.integrate.quad(f, a, inf)[0], taken as the exact improper Riemann integral (the quadrature error is not
    modelled); end points are not evaluated, so it is improper at both ends. *)
Definition quad_inf (f : R -> R) (a : R) : R := RInt_gen f (at_right a) (Rbar_locally p_infty).

(** stats.py:14, 55, 95.  For df <= 0 the density is nan everywhere, and so is the integral.  For an infinite
    or undefined statistic the result of quad is not modelled ([NaN] stands for any value). *)
Definition chi2_pval (chi_sq : xr) (dof : Z) : xr :=
  match chi_sq with
  | Fin c => if Z.leb dof 0 then NaN else Fin (quad_inf (chi2_pdf (Z.to_nat dof)) c)
  | _ => NaN
  end.
