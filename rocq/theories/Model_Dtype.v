(** Arrays of integers.  The other models take every numpy array to be an array of floats.  Here the element type of
    the arrays which the code keeps by reference is part of the model: the counts and errors given to from_binned_data
    (histograms/hist1d.py:75-100) and what templates make of them (templates/abstract_template.py:135-156, 184-199).
    numpy: [a += b] raises UFuncTypeError (a TypeError) if a holds integers and b floats; [a[i] = x] truncates x. *)
From Coq Require Import Reals String ZArith Bool Arith List.
From Verif Require Import Model_Num Model_Hist Model_Utility Model_Template.
Import ListNotations.
Local Open Scope R_scope.

(** x stored in an array of integers: truncated towards zero (storing nan or inf is not modelled) *)
Definition trunc (x : xr) : xr :=
  match x with
  | Fin r => Fin (if Rle_dec 0 r then IZR (Int_part r) else - IZR (Int_part (- r)))
  | _ => NaN
  end.
Definition stored (is_int : bool) (x : xr) : xr := if is_int then trunc x else x.

(** a Hist1d and whether its two arrays hold integers *)
Record thist : Type := mk_th { th_hist : hist; th_int_counts : bool; th_int_errs : bool }.

(** hist1d.py:16-25: np.zeros gives floats *)
Definition th_new (bins : bins1) (range : option (R * R)) (data : option (list R)) (w : weights) : res thist :=
  h <- hist1_new bins range data w ;; Ok (mk_th h false false).
(** hist1d.py:75-100 from_binned_data: the counts are kept, bin_errors ** 2 has the type of bin_errors, np.sqrt gives
    floats *)
Definition th_from_binned (counts : nd) (int_counts : bool) (e : edges) (errors : option (nd * bool)) : res thist :=
  h <- hist1_from_binned counts e (option_map fst errors) ;;
  Ok (mk_th h int_counts (match errors with None => false | Some (_, i) => i end)).

(** [a += stat]; the type is checked before the shapes *)
Definition t_iadd (is_int : bool) (a : nd) (shape : list nat) (stat : list xr) : res nd :=
  if is_int then Err TypeError else nd_iadd a shape stat.

(** hist1d.py:41-73 fill; binned_statistic returns floats *)
Definition th_fill (t : thist) (data : list R) (w : weights) : thist * res unit :=
  let h := th_hist t in
  let es := edges_nth h 0 in
  let stat := binned_statistic es data in
  let shape := [(length es - 1)%nat] in
  let ws := resolve_weights (length data) w in
  let up h' := mk_th h' (th_int_counts t) (th_int_errs t) in
  match (s <- stat ws ;; t_iadd (th_int_counts t) (h_counts h) shape s) with
  | Err e => (t, Err e)
  | Ok c =>
      let h1 := set_counts h c in
      if negb (squareable w) then (up h1, Err TypeError)
      else match (s <- stat (map (fun x => x * x) ws) ;; t_iadd (th_int_errs t) (h_errs_sq h1) shape s) with
           | Err e => (up h1, Err e)
           | Ok c2 => (up (set_filled (set_errs h1 c2)), Ok tt)
           end
  end.

(** a template and whether its array of covariances holds integers *)
Record ttmpl : Type := mk_tt { tt_tmpl : tmpl; tt_int_cov : bool }.

(** abstract_template.py:142-148: np.copy and np.diag keep the type of bin_errors_sq, so for integers 1e-14 is
    stored as 0 *)
Definition stat_cov_t (is_int : bool) (errs_sq : list xr) : mat :=
  np_diag (map (fun e => if xeqb e (Fin 0) then stored is_int (Fin c1e_14) else e) errs_sq).

(** template1d.py:18-42 with abstract_template.py:129-156 *)
Definition tt_new (name : string) (hid : nat) (t : thist) : res ttmpl :=
  m <- template_new K1 name hid (th_hist t) ;;
  let cov := stat_cov_t (th_int_errs t) (t_errs_sq m) in
  Ok (mk_tt (mk_tmpl (t_kind m) (t_name m) (t_hist m) (t_counts m) (t_errs_sq m) (t_bins m) (t_nb m) (t_range m)
               (t_params m) [cov] cov (t_corr m) (t_inv m) (relative_errors cov (t_counts m)))
            (th_int_errs t)).

Section Inv.
  (** np.linalg.inv *)
  Variable inv : mat -> res mat.

  (** abstract_template.py:184-199 _add_cov_mat; [int_c]: the added matrix holds integers.  Line 189 comes before
      the += of line 191. *)
  Definition tt_add_cov_raw (t : ttmpl) (c : mat) (int_c : bool) : ttmpl * res unit :=
    let m := tt_tmpl t in
    if tt_int_cov t && negb int_c then
      (mk_tt (mk_tmpl (t_kind m) (t_name m) (t_hist m) (t_counts m) (t_errs_sq m) (t_bins m) (t_nb m) (t_range m)
                (t_params m) (t_cov_mats m ++ [c]) (t_cov m) (t_corr m) (t_inv m) (t_rel m)) true, Err TypeError)
    else let '(m', r) := add_cov_raw inv m c in (mk_tt m' (tt_int_cov t), r).

  (** template1d.py:58-62 add_cov_mat *)
  Definition tt_add_cov_mat (t : ttmpl) (c : mat) (int_c : bool) : ttmpl * res unit :=
    if square (t_nb (tt_tmpl t)) c then tt_add_cov_raw t c int_c else (t, Err ValueError).

  (** template1d.py:44-56 add_variation; get_systematic_cov_mat returns floats *)
  Definition tt_add_variation (t : ttmpl) (xs : list R) (wup wdown : weights) : ttmpl * res unit :=
    let m := tt_tmpl t in
    match t_range m with
    | [r] =>
        match (hup <- hist1_new (B1Int (Z.of_nat (t_nb m))) (Some r) (Some xs) wup ;;
               hdown <- hist1_new (B1Int (Z.of_nat (t_nb m))) (Some r) (Some xs) wdown ;;
               get_systematic_cov_mat (t_counts m) (nd_flat (h_counts hup)) (nd_flat (h_counts hdown))) with
        | Ok c => tt_add_cov_raw t c false
        | Err e => (t, Err e)
        end
    | _ => (t, Err OutOfModel)
    end.
End Inv.
