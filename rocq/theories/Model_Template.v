(** Model of templatefitter/templates/abstract_template.py, template1d.py, template2d.py *)
From Coq Require Import Reals String ZArith Bool Arith List.
From Verif Require Import Model_Num Model_Hist Model_Utility.
Import ListNotations.
Local Open Scope R_scope.

(** abstract_template.py:20-34, attributes of a template.  [t_hist] is the address of the histogram
    object (kept by reference), [t_bins] is hist.shape (never reassigned by the code). *)
Record tmpl : Type := mk_tmpl {
  t_kind : kind;                 (* Template1d or Template2d *)
  t_name : string;
  t_hist : nat;
  t_counts : list xr;            (* _flat_bin_counts, a copy *)
  t_errs_sq : list xr;           (* _flat_bin_errors_sq, a copy *)
  t_bins : list nat;
  t_nb : nat;                    (* _num_bins *)
  t_range : list (R * R);
  t_params : list xr;            (* yield :: nuisance parameters *)
  t_cov_mats : list mat;
  t_cov : mat;
  t_corr : mat;
  t_inv : mat;
  t_rel : list xr }.

Definition set_params (t : tmpl) (p : list xr) : tmpl :=
  mk_tmpl (t_kind t) (t_name t) (t_hist t) (t_counts t) (t_errs_sq t) (t_bins t) (t_nb t) (t_range t)
    p (t_cov_mats t) (t_cov t) (t_corr t) (t_inv t) (t_rel t).

Definition c1e_14 : R := / 10 ^ 14.
Definition c1e_7 : R := / 10 ^ 7.

(** abstract_template.py:151-156 and 194-199: np.divide(sqrt(diag cov), counts, out=1e-7, where counts != 0) *)
Definition relative_errors (cov : mat) (counts : list xr) : list xr :=
  map2 (fun v c => if xeqb c (Fin 0) then Fin c1e_7 else xdiv (xsqrt v) c) (np_diagonal cov) counts.

(** abstract_template.py:142-145: the statistical covariance *)
Definition stat_cov (errs_sq : list xr) : mat :=
  np_diag (map (fun e => if xeqb e (Fin 0) then Fin c1e_14 else e) errs_sq).

(** abstract_template.py:129-133 _init_params *)
Definition init_params (nb : nat) (hist_counts : list xr) : list xr := np_sum hist_counts :: repeat (Fin 0) nb.

(** template1d.py:18-42 / template2d.py:22-48 constructors ([hid] is the address of the histogram [h]).
    A Hist2d in Template1d fails in np.zeros(num_bins + 1), a Hist1d in Template2d in reduce(...): TypeError.
    If the number of counts or errors differs from num_bins numpy raises ValueError in np.divide
    (length 1 would broadcast: not modelled). *)
Definition template_new (k : kind) (name : string) (hid : nat) (h : hist) : res tmpl :=
  if negb (kind_eqb k (h_kind h)) then Err TypeError
  else
    let nb := nprod (h_num_bins h) in
    let counts := nd_flat (h_counts h) in
    let errs := nd_flat (h_errs_sq h) in
    if negb (Nat.eqb (length counts) nb && Nat.eqb (length errs) nb)
    then Err (if Nat.eqb (length counts) 1 || Nat.eqb (length errs) 1 then OutOfModel else ValueError)
    else
      let cov := stat_cov errs in
      let ones := np_diag (repeat (Fin 1) nb) in
      Ok (mk_tmpl k name hid counts errs (h_shape h) nb (h_range h)
            (init_params nb counts) [cov] cov ones ones (relative_errors cov counts)).

(** abstract_template.py:94-97 yield_param, 109-113 nui_params *)
Definition t_yield (t : tmpl) : xr := hd NaN (t_params t).
Definition t_nui (t : tmpl) : list xr := tl (t_params t).

(** abstract_template.py:240-243 bin_fractions *)
Definition bin_fractions (nui counts rel : list xr) : res (list xr) :=
  nr <- bcast xmul nui rel ;;
  per_bin <- bcast (fun c v => xmul c (xadd (Fin 1) v)) counts nr ;;
  Ok (map (fun y => xdiv y (np_sum per_bin)) per_bin).

(** abstract_template.py:158-182 fractions *)
Definition t_fractions (t : tmpl) (nui : list xr) : res (list xr) := bin_fractions nui (t_counts t) (t_rel t).

(** abstract_template.py:201-209 values (flat, shape [t_bins]) *)
Definition t_values (t : tmpl) : res (list xr) :=
  f <- t_fractions t (t_nui t) ;;
  if Nat.eqb (length f) (nprod (t_bins t)) then Ok (map (xmul (t_yield t)) f) else Err ValueError.

(** abstract_template.py:211-217 errors *)
Definition t_errors (t : tmpl) : res (list xr) := v <- t_values t ;; bcast xmul (t_rel t) v.

(** Values assigned by the user: python float, int, a 1-d array, or something else. *)
Inductive pyval : Type := VFloat (x : xr) | VInt (z : Z) | VArr (l : list xr) | VOther.

(** abstract_template.py:83-91 params setter.  Objects without .shape raise AttributeError. *)
Definition params_setter (t : tmpl) (v : pyval) : tmpl * res unit :=
  match v with
  | VArr l => if Nat.eqb (length l) (length (t_params t)) then (set_params t l, Ok tt) else (t, Err RuntimeError)
  | _ => (t, Err AttributeError)
  end.

(** abstract_template.py:99-107 yield_param setter.  Storing an empty array raises ValueError. *)
Definition yield_setter (t : tmpl) (v : pyval) : tmpl * res unit :=
  let store x := match t_params t with
                 | _ :: nui => (set_params t (x :: nui), Ok tt)
                 | [] => (t, Err IndexError)
                 end in
  match v with
  | VFloat x => store x
  | VInt z => store (Fin (IZR z))
  | VArr [x] => store x
  | VArr [] => (t, Err ValueError)
  | VArr _ => (t, Err RuntimeError)
  | VOther => (t, Err RuntimeError)
  end.

(** abstract_template.py:115-122 nui_params setter *)
Definition nui_setter (t : tmpl) (v : pyval) : tmpl * res unit :=
  match v with
  | VArr l =>
      if Nat.eqb (length l) (t_nb t)
      then (set_params t (firstn 1 (t_params t) ++ l), Ok tt) else (t, Err RuntimeError)
  | _ => (t, Err AttributeError)
  end.

(** abstract_template.py:124-133 reset: reads the counts of the histogram object again *)
Definition t_reset (t : tmpl) (h : hist) : tmpl := set_params t (init_params (t_nb t) (nd_flat (h_counts h))).

Section Inv.
  (** np.linalg.inv *)
  Variable inv : mat -> res mat.

  (** abstract_template.py:184-199 _add_cov_mat.  If inv raises LinAlgError the assignments before it
      have been made. *)
  Definition add_cov_raw (t : tmpl) (c : mat) : tmpl * res unit :=
    let cov := np_madd (t_cov t) c in
    let corr := cov2corr cov in
    let mk inv' rel := mk_tmpl (t_kind t) (t_name t) (t_hist t) (t_counts t) (t_errs_sq t) (t_bins t) (t_nb t)
          (t_range t) (t_params t) (t_cov_mats t ++ [c]) cov corr inv' rel in
    match inv corr with
    | Err e => (mk (t_inv t) (t_rel t), Err e)
    | Ok i => (mk i (relative_errors cov (t_counts t)), Ok tt)
    end.

  (** template1d.py:58-62 add_cov_mat; Template2d has no such method *)
  Definition t_add_cov_mat (t : tmpl) (c : mat) : tmpl * res unit :=
    match t_kind t with
    | K2 => (t, Err AttributeError)
    | K1 => if square (t_nb t) c then add_cov_raw t c else (t, Err ValueError)
    end.

  (** data of a variation: one array for Template1d, a pair for Template2d *)
  Inductive vdata : Type := D1 (xs : list R) | D2 (xs ys : list R).

  (** template1d.py:44-56 Template1d.add_variation: histograms with [bins=num_bins, range=range], i.e.
      always equally spaced edges.
      template2d.py:50-60 Template2d.add_variation: calls _add_cov_mat(hup, hdown), which takes one
      argument: TypeError. *)
  Definition t_add_variation (t : tmpl) (d : vdata) (wup wdown : weights) : tmpl * res unit :=
    match t_kind t, d with
    | K1, D1 xs =>
        match t_range t with
        | [r] =>
            match (hup <- hist1_new (B1Int (Z.of_nat (t_nb t))) (Some r) (Some xs) wup ;;
                   hdown <- hist1_new (B1Int (Z.of_nat (t_nb t))) (Some r) (Some xs) wdown ;;
                   get_systematic_cov_mat (t_counts t) (nd_flat (h_counts hup)) (nd_flat (h_counts hdown))) with
            | Ok c => add_cov_raw t c
            | Err e => (t, Err e)
            end
        | _ => (t, Err OutOfModel)
        end
    | K2, D2 xs ys =>
        match t_bins t, t_range t with
        | [nx; ny], [rx; ry] =>
            match (hup <- hist2_new (B2Ints (Z.of_nat nx) (Z.of_nat ny)) (Some (rx, ry)) (Some (xs, ys)) wup ;;
                   hdown <- hist2_new (B2Ints (Z.of_nat nx) (Z.of_nat ny)) (Some (rx, ry)) (Some (xs, ys)) wdown ;;
                   Ok (hup, hdown)) with
            | Ok _ => (t, Err TypeError)
            | Err e => (t, Err e)
            end
        | _, _ => (t, Err OutOfModel)
        end
    | _, _ => (t, Err OutOfModel)
    end.
End Inv.
