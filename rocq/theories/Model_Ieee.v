(** IEEE-754 doubles: the numbers of numpy (float64), as formalised in Flocq (BinarySingleNaN: 53 bits, largest
    exponent 1024, signed zeros, infinities, NaN), and the value that the other models use for them.
    Used to compare the arithmetic of Model_Num.v with the one of the processor. *)
From Coq Require Import Reals ZArith Bool.
From Flocq Require Import Core IEEE754.BinarySingleNaN.
From Verif Require Import Model_Num Model_Float.
Local Open Scope R_scope.

Definition double64 : Type := binary_float 53 1024.
Definition prec53 : Prec_gt_0 53 := eq_refl.
Definition prec_emax : Prec_lt_emax 53 1024 := eq_refl.
(** the five operations of the processor, round to nearest, ties to even *)
Definition dadd (x y : double64) : double64 := @Bplus 53 1024 prec53 prec_emax mode_NE x y.
Definition dsub (x y : double64) : double64 := @Bminus 53 1024 prec53 prec_emax mode_NE x y.
Definition dmul (x y : double64) : double64 := @Bmult 53 1024 prec53 prec_emax mode_NE x y.
Definition ddiv (x y : double64) : double64 := @Bdiv 53 1024 prec53 prec_emax mode_NE x y.
Definition dsqrt (x : double64) : double64 := @Bsqrt 53 1024 prec53 prec_emax mode_NE x.
Definition dopp (x : double64) : double64 := Bopp x.
Definition dabs (x : double64) : double64 := Babs x.

(** the value of a double in Model_Num.v; both zeros are 0 *)
Definition val (x : double64) : xr :=
  match x with
  | B754_nan => NaN
  | B754_infinity s => if s then NInf else PInf
  | _ => Fin (B2R x)
  end.
(** an exact result, rounded to the nearest double; infinite if that is 2^1024 or more *)
Definition rounded (a : xr) : xr :=
  match a with
  | Fin r => if Rltb (Rabs (fl r)) (bpow radix2 1024) then Fin (fl r) else if Rltb r 0 then NInf else PInf
  | _ => a
  end.
