(** Weights given as integers.  Model_Hist squares the weights as real numbers.  If the weights are a numpy array or
    pandas series of integers of b bits, or a python list of ints (np.array makes it an array of the default type, 64
    bits, signed), [weights ** 2] (hist1d.py:67, hist2d.py:54) is computed in the same type: numpy keeps the lowest b
    bits of the product, without a warning.  scipy's binned_statistic adds the values as floats, so the counts are not
    affected.  Rounding in the float sums is not modelled, as in Model_Hist. *)
From Coq Require Import Reals String ZArith Bool Arith List.
From Verif Require Import Model_Num Model_Hist.
Import ListNotations.
Local Open Scope R_scope.

(** numpy's integer types: int8 ... int64 and uint8 ... uint64 *)
Inductive itype : Type := Signed (bits : positive) | Unsigned (bits : positive).

Definition itype_modulus (ty : itype) : Z := match ty with Signed b => 2 ^ Zpos b | Unsigned b => 2 ^ Zpos b end%Z.

(** the number represented by the lowest bits of z *)
Definition iwrap (ty : itype) (z : Z) : Z :=
  match ty with
  | Unsigned b => (z mod 2 ^ Zpos b)%Z
  | Signed b => ((z + 2 ^ (Zpos b - 1)) mod 2 ^ Zpos b - 2 ^ (Zpos b - 1))%Z
  end.

(** hist1d.py:57-73 / hist2d.py:47-58 with weights [ws] of type [ty]; otherwise as [fill_with] *)
Definition iw_fill_with (stat : list R -> res (list xr)) (shape : list nat) (h : hist) (ty : itype) (ws : list Z)
  : hist * res unit :=
  match (s <- stat (map IZR ws) ;; nd_iadd (h_counts h) shape s) with
  | Err e => (h, Err e)
  | Ok c =>
      let h1 := set_counts h c in
      match (s <- stat (map (fun z => IZR (iwrap ty (z * z))) ws) ;; nd_iadd (h_errs_sq h1) shape s) with
      | Err e => (h1, Err e)
      | Ok c2 => (set_filled (set_errs h1 c2), Ok tt)
      end
  end.

(** hist1d.py:41-73 Hist1d.fill(data, weights) *)
Definition iw_fill1 (h : hist) (data : list R) (ty : itype) (ws : list Z) : hist * res unit :=
  let es := edges_nth h 0 in
  iw_fill_with (binned_statistic es data) [(length es - 1)%nat] h ty ws.

(** hist2d.py:41-58 Hist2d.fill((x, y), weights) *)
Definition iw_fill2 (h : hist) (xs ys : list R) (ty : itype) (ws : list Z) : hist * res unit :=
  let ex := edges_nth h 0 in
  let ey := edges_nth h 1 in
  iw_fill_with (binned_statistic_2d ex ey xs ys) [(length ex - 1)%nat; (length ey - 1)%nat] h ty ws.

(** hist1d.py:90-99 from_binned_data(bin_counts, bin_edges, bin_errors) with an array of integer errors:
    [bin_errors ** 2] is computed in their type as well.  (The counts do not matter here; Model_Dtype models what
    happens to arrays which stay integer.) *)
Definition iw_from_binned (counts : nd) (e : edges) (ty : itype) (errors : list Z) : res hist :=
  h <- hist1_empty (B1Edges e) None ;;
  Ok (set_filled (set_errs (set_counts h counts)
        (mk_nd [length errors] (map (fun z => Fin (IZR (iwrap ty (z * z)))) errors)))).
