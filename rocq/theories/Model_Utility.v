(** Model of templatefitter/utility.py and templatefitter/stats.py *)
From Coq Require Import Reals String ZArith Bool Arith List.
From Verif Require Import Model_Num.
Import ListNotations.
Local Open Scope R_scope.

(** utility.py:16-31 cov2corr(cov), cov of shape (n,n).
    np.diag(1 / np.sqrt(np.diag(cov))) then nan_to_num, then two matrix products. *)
Definition cov2corr (cov : mat) : mat :=
  let n := length cov in
  let dinv := map (map xnan_to_num) (np_diag (map (fun v => xdiv (Fin 1) (xsqrt v)) (np_diagonal cov))) in
  np_matmul n dinv (np_matmul n cov dinv).

(** utility.py:34-51 corr2cov(corr, var) *)
Definition corr2cov (corr : mat) (var : list xr) : mat :=
  let n := length corr in
  let d := np_diag var in
  np_matmul n d (np_matmul n corr d).

(** Parameter identifiers: str, int, bool (a subclass of int in python) or anything else. *)
Inductive pid : Type := PStr (s : string) | PInt (z : Z) | PBool (b : bool) | POther.

(** utility.py:54-81 id_to_index(names, param_id) *)
Definition id_to_index (names : list string) (param_id : pid) : res nat :=
  let of_int z :=
    if Z.leb 0 z && Z.ltb z (Z.of_nat (length names)) then Ok (Z.to_nat z) else Err ValueError in
  match param_id with
  | PStr s => match index_of s names with Some i => Ok i | None => Err ValueError end
  | PInt z => of_int z
  | PBool b => of_int (if b then 1 else 0)%Z
  | POther => Err ValueError
  end.

(** 1e-100 in xlogyx *)
Definition c1e_100 : R := / 10 ^ 100.

(** utility.py:85-101 xlogyx(x, y) (elementwise kernel) *)
Definition xlogyx (x y : xr) : xr :=
  if xisnan x then Fin 0
  else if xltb x (Fin c1e_100) then Fin 0
  else if xltb x y then xmul x (xlog1p (xdiv (xsub y x) x))
  else xmul (xopp x) (xlog1p (xdiv (xsub x y) y)).

(** utility.py:113-131 get_systematic_cov_mat(hnom, hup, hdown), arrays of equal length *)
Definition signed_diff (hnom hup hdown : xr) : xr :=
  let sign := if xltb hup hdown then Fin (-1) else Fin 1 in
  let diff_up := xabs (xsub hup hnom) in
  let diff_down := xabs (xsub hdown hnom) in
  let diff_sym := xdiv (xadd diff_up diff_down) (Fin 2) in
  xmul sign diff_sym.

Fixpoint map3 {A B C D} (f : A -> B -> C -> D) (a : list A) (b : list B) (c : list C) : list D :=
  match a, b, c with x :: a', y :: b', z :: c' => f x y z :: map3 f a' b' c' | _, _, _ => [] end.

(** numpy raises for arrays of different lengths (broadcasting of length-1 arrays is not modelled). *)
Definition get_systematic_cov_mat (hnom hup hdown : list xr) : res mat :=
  if Nat.eqb (length hnom) (length hup) && Nat.eqb (length hup) (length hdown)
  then let d := map3 signed_diff hnom hup hdown in Ok (np_outer d d)
  else Err ValueError.

(** utility.py:134-146 array_split_into(iterable, sizes): the list of all yielded arrays *)
Fixpoint array_split_into {A} (it : list A) (sizes : list (option nat)) : list (list A) :=
  match sizes with
  | [] => []
  | None :: _ => [it]
  | Some n :: sizes' => firstn n it :: array_split_into (skipn n it) sizes'
  end.

(** ** stats.py.  The p-value (numerical integral of the chi2 density) is the parameter [pval]. *)
Section Stats.
  Variable pval : xr -> Z -> xr.

  Definition z2x (z : Z) : xr := Fin (IZR z).

  (** stats.py:12-15 default_chi2_test *)
  Definition default_chi2_test (data expectation uncertainty : list xr) (dof : Z) : res (xr * xr * xr) :=
    d <- bcast xsub data expectation ;;
    q <- bcast (fun a u => xdiv (xsq a) (xsq u)) d uncertainty ;;
    let chi_sq := np_sum q in
    Ok (chi_sq, xdiv chi_sq (z2x dof), pval chi_sq dof).

  (** stats.py:18-56 pearson_chi2_test *)
  Definition pearson_chi2_test (data expectation : list xr) (dof : Z) : res (xr * xr * xr) :=
    d <- bcast xsub data expectation ;;
    q <- bcast (fun a e => xdiv (xsq a) e) d expectation ;;
    let chi_sq := np_sum q in
    Ok (chi_sq, xdiv chi_sq (z2x dof), pval chi_sq dof).

  (** stats.py:59-96 cowan_binned_likelihood_gof *)
  Definition cowan_binned_likelihood_gof (data expectation : list xr) (dof : Z) : res (xr * xr * xr) :=
    q <- bcast (fun n e => xsub (xadd (xmul n (xlog (xdiv n e))) e) n) data expectation ;;
    let chi_sq := xmul (Fin 2) (np_sum q) in
    Ok (chi_sq, xdiv chi_sq (z2x dof), pval chi_sq dof).
End Stats.
