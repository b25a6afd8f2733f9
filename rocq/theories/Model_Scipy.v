(** The comparison with the rightmost edge in scipy.stats.binned_statistic(_dd), used by hist1d.py:57-73 and
    hist2d.py:47-57.  Model_Hist.v compares exactly; here the rounding of scipy's _bin_numbers is modelled:

      decimal = int(-np.log10(dedges_min)) + 6
      on_edge = np.where((sample >= edges[-1]) & (np.around(sample, decimal) == np.around(edges[-1], decimal)))[0]
      sampBin[on_edge] -= 1

    Older releases lack the condition sample >= edges[-1] ([older = true]).  Numbers are real numbers. *)
From Coq Require Import Reals ZArith Bool Arith List.
From Flocq Require Import Core.
From Verif Require Import Model_Num Model_Hist.
Import ListNotations.
Local Open Scope R_scope.

(** dedges[i].min() *)
Definition min_width (es : list R) : R :=
  match map2 Rminus (tl es) (removelast es) with
  | [] => 0
  | w :: ws => fold_left Rmin ws w
  end.
(** int(-np.log10(dedges_min)) + 6; int() truncates towards 0 *)
Definition decimal (es : list R) : Z := (Ztrunc (- (ln (min_width es) / ln 10)) + 6)%Z.
(** np.around(x, d): nearest multiple of 10^-d, ties to even *)
Definition around (d : Z) (x : R) : R := IZR (ZnearestE (x * powerRZ 10 d)) / powerRZ 10 d.
Definition on_edge (older : bool) (es : list R) (x : R) : bool :=
  (older || Rleb (last es 0) x) && Reqb (around (decimal es) x) (around (decimal es) (last es 0)).
(** the bin number of one event *)
Definition scipy_number (older : bool) (x : R) (es : list R) : nat :=
  let d := digitize x es in if on_edge older es x then (d - 1)%nat else d.

(** scipy.stats.binned_statistic(_2d) as in Model_Hist.v, with these bin numbers.  (Bin number 0 - 1 of an older
    release: np.bincount would raise or count from the end; it occurs only if the value rounded to the upper edge is
    below all edges, which [decimal] excludes.) *)
Definition binned_scipy (older : bool) (es xs ws : list R) : res (list xr) :=
  if negb (Nat.eqb (length xs) (length ws)) then Err ValueError
  else if Nat.ltb (length es) 2 || negb (strictly_increasing es) then Err OutOfModel
  else
    let numbers := map (fun x => scipy_number older x es) xs in
    Ok (map (fun b => Fin (bincount b numbers ws)) (seq 1 (length es - 1))).
Definition binned_scipy_2d (older : bool) (ex ey xs ys ws : list R) : res (list xr) :=
  if negb (Nat.eqb (length xs) (length ys) && Nat.eqb (length xs) (length ws)) then Err ValueError
  else if Nat.ltb (length ex) 2 || Nat.ltb (length ey) 2
          || negb (strictly_increasing ex) || negb (strictly_increasing ey)
          || Nat.eqb (length xs) 0 then Err OutOfModel
  else
    let nx := map (fun x => scipy_number older x ex) xs in
    let ny := map (fun y => scipy_number older y ey) ys in
    Ok (flat_map (fun bx => map (fun by_ => Fin (bincount2 bx by_ nx ny ws)) (seq 1 (length ey - 1)))
                 (seq 1 (length ex - 1))).

(** hist1d.py:41-73 fill and hist2d.py:41-58 fill *)
Definition hist1_fill_scipy (older : bool) (h : hist) (data : list R) (w : weights) : hist * res unit :=
  let es := edges_nth h 0 in
  fill_with (binned_scipy older es data) [(length es - 1)%nat] h (length data) w.
Definition hist2_fill_scipy (older : bool) (h : hist) (xs ys : list R) (w : weights) : hist * res unit :=
  let ex := edges_nth h 0 in
  let ey := edges_nth h 1 in
  fill_with (binned_scipy_2d older ex ey xs ys) [(length ex - 1)%nat; (length ey - 1)%nat] h (length xs) w.
