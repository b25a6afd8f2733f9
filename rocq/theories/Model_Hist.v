(** Model of templatefitter/histograms/*.py *)
From Coq Require Import Reals String ZArith Bool Arith List.
From Verif Require Import Model_Num.
Import ListNotations.
Local Open Scope R_scope.

(** The concrete histogram class: Hist1d or Hist2d (also used for Template1d / Template2d). *)
Inductive kind : Type := K1 | K2.
Definition kind_eqb (a b : kind) : bool :=
  match a, b with K1, K1 => true | K2, K2 => true | _, _ => false end.

(** Bin edges as given by the user: a numpy array or a python list ([e_list = true]);
    the difference is observable in [bin_mids]/[bin_widths]. *)
Record edges : Type := mk_edges { e_list : bool; e_vals : list R }.

(** abstract_hist.py:16-24, attributes of AbstractHist.  [h_num_bins] has one entry for Hist1d
    (an int in python) and two for Hist2d (a tuple); likewise [h_edges] and [h_range]. *)
Record hist : Type := mk_hist {
  h_kind : kind;
  h_edges : list edges;
  h_num_bins : list nat;
  h_shape : list nat;
  h_range : list (R * R);
  h_counts : nd;
  h_errs_sq : nd;
  h_empty : bool }.

(** Argument [bins] of Hist1d: int, tuple of ints, or a sequence of edges. *)
Inductive bins1 : Type := B1Int (n : Z) | B1Tuple (l : list Z) | B1Edges (e : edges).
(** Argument [bins] of Hist2d: ints or edge sequences, one per dimension. *)
Inductive bins2 : Type := B2Ints (nx ny : Z) | B2Edges (ex ey : edges).

(** Argument [weights]: None, ndarray/Series, list or tuple. *)
Inductive weights : Type := WNone | WArr (l : list R) | WList (l : list R) | WTuple (l : list R).

(** hist_utils.py:19-22 get_bin_range *)
Definition get_bin_range (e : edges) : res (R * R) :=
  match e_vals e with
  | [] => Err IndexError
  | e0 :: _ => Ok (e0, last (e_vals e) 0)
  end.

(** hist_utils.py:7-10 bin_mids.  On a python list [+] concatenates and [/ 2] raises TypeError. *)
Definition bin_mids (e : edges) : res (list R) :=
  if e_list e then Err TypeError
  else Ok (map2 (fun b a => (b + a) / 2) (tl (e_vals e)) (removelast (e_vals e))).

(** hist_utils.py:13-16 bin_widths.  [-] is not defined on python lists. *)
Definition bin_widths (e : edges) : res (list R) :=
  if e_list e then Err TypeError
  else Ok (map2 (fun b a => b - a) (tl (e_vals e)) (removelast (e_vals e))).

(** np.linspace( *range, n + 1) with the possibly missing [range] and a possibly negative n.
    For n = -1 numpy returns an empty array and np.zeros(-1) raises ValueError afterwards
    (hist1d.py:19-20), so every negative n ends in ValueError. *)
Definition linspace_edges (range : option (R * R)) (n : Z) : res edges :=
  match range with
  | None => Err TypeError
  | Some (lo, hi) =>
      if Z.ltb n 0 then Err ValueError
      else Ok (mk_edges false (np_linspace lo hi (Z.to_nat n + 1)))
  end.

(** hist1d.py:27-39 Hist1d._init_bin_edges: number of bins, edges and range *)
Definition hist1_init_bin_edges (bins : bins1) (range : option (R * R)) : res (nat * edges * (R * R)) :=
  let equidistant n :=
    e <- linspace_edges range n ;;
    match range with Some r => Ok (Z.to_nat n, e, r) | None => Err TypeError end in
  match bins with
  | B1Int n => equidistant n
  | B1Tuple [] => Err IndexError
  | B1Tuple (n :: _) => equidistant n
  | B1Edges e => r <- get_bin_range e ;; Ok (length (e_vals e) - 1, e, r)%nat
  end.

(** hist1d.py:16-22, constructor up to the optional fill *)
Definition hist1_empty (bins : bins1) (range : option (R * R)) : res hist :=
  x <- hist1_init_bin_edges bins range ;;
  let '(n, e, r) := x in
  Ok (mk_hist K1 [e] [n] [n] [r] (np_zeros [n]) (np_zeros [n]) true).

(** *** scipy.stats.binned_statistic with statistic='sum' and explicit bin edges *)

Fixpoint strictly_increasing (l : list R) : bool :=
  match l with
  | a :: (b :: _) as l' => Rltb a b && strictly_increasing l'
  | _ => true
  end.

(** np.digitize for increasing edges: number of edges <= x *)
Definition digitize (x : R) (es : list R) : nat := length (filter (fun e => Rleb e x) es).

(** bin number 1..n (0: below the first, n+1: above the last edge); scipy moves values on the
    rightmost edge into the last bin.  scipy compares with that edge after rounding to 6 digits
    beyond the smallest bin width, the model compares exactly. *)
Definition bin_number (x : R) (es : list R) : nat :=
  let d := digitize x es in if Reqb x (last es 0) then (d - 1)%nat else d.

Fixpoint Rsuml (l : list R) : R := match l with [] => 0 | a :: l' => a + Rsuml l' end.

(** np.bincount(numbers, weights)[b] *)
Definition bincount (b : nat) (numbers : list nat) (ws : list R) : R :=
  Rsuml (map2 (fun k w => if Nat.eqb k b then w else 0) numbers ws).

(** Edges have to increase strictly and define at least one bin, otherwise the behaviour of scipy
    is not modelled; a length mismatch of data and weights raises ValueError. *)
Definition binned_statistic (es xs ws : list R) : res (list xr) :=
  if negb (Nat.eqb (length xs) (length ws)) then Err ValueError
  else if Nat.ltb (length es) 2 || negb (strictly_increasing es) then Err OutOfModel
  else
    let numbers := map (fun x => bin_number x es) xs in
    Ok (map (fun b => Fin (bincount b numbers ws)) (seq 1 (length es - 1))).

(** scipy.stats.binned_statistic_2d; result in row-major order.  Empty data are not modelled
    (scipy takes min() of the sample there). *)
Definition bincount2 (bx by_ : nat) (nx ny : list nat) (ws : list R) : R :=
  Rsuml (map2 (fun k w => if Nat.eqb (fst k) bx && Nat.eqb (snd k) by_ then w else 0) (combine nx ny) ws).

Definition binned_statistic_2d (ex ey xs ys ws : list R) : res (list xr) :=
  if negb (Nat.eqb (length xs) (length ys) && Nat.eqb (length xs) (length ws)) then Err ValueError
  else if Nat.ltb (length ex) 2 || Nat.ltb (length ey) 2
          || negb (strictly_increasing ex) || negb (strictly_increasing ey)
          || Nat.eqb (length xs) 0 then Err OutOfModel
  else
    let nx := map (fun x => bin_number x ex) xs in
    let ny := map (fun y => bin_number y ey) ys in
    Ok (flat_map (fun bx => map (fun by_ => Fin (bincount2 bx by_ nx ny ws)) (seq 1 (length ey - 1)))
                 (seq 1 (length ex - 1))).

(** in-place addition of a statistic (shape [shape]) to an array.  If the stored array has another
    shape (possible only after from_binned_data with inconsistent arguments) numpy broadcasts or
    raises; this is not modelled. *)
Definition nd_iadd (a : nd) (shape : list nat) (stat : list xr) : res nd :=
  if natlist_eqb (nd_shape a) shape && Nat.eqb (length (nd_flat a)) (length stat)
  then Ok (mk_nd (nd_shape a) (map2 xadd (nd_flat a) stat))
  else Err OutOfModel.

Definition set_counts (h : hist) (c : nd) : hist :=
  mk_hist (h_kind h) (h_edges h) (h_num_bins h) (h_shape h) (h_range h) c (h_errs_sq h) (h_empty h).
Definition set_errs (h : hist) (c : nd) : hist :=
  mk_hist (h_kind h) (h_edges h) (h_num_bins h) (h_shape h) (h_range h) (h_counts h) c (h_empty h).
Definition set_filled (h : hist) : hist :=
  mk_hist (h_kind h) (h_edges h) (h_num_bins h) (h_shape h) (h_range h) (h_counts h) (h_errs_sq h) false.

(** The weight array after hist1d.py:52-55 / hist2d.py:42-45 and whether [weights ** 2] is defined. *)
Definition resolve_weights (n : nat) (w : weights) : list R :=
  match w with WNone => repeat 1 n | WArr l => l | WList l => l | WTuple l => l end.
Definition squareable (w : weights) : bool := match w with WTuple _ => false | _ => true end.

(** The common part of both fill methods: [stat ws] is the binned statistic of the data with
    weights [ws].  hist1d.py:57-73, hist2d.py:47-58: first bin_counts, then bin_errors_sq, then
    is_empty are updated; an exception leaves the updates made before it in place. *)
Definition fill_with (stat : list R -> res (list xr)) (shape : list nat) (h : hist) (n : nat) (w : weights)
  : hist * res unit :=
  let ws := resolve_weights n w in
  match (s <- stat ws ;; nd_iadd (h_counts h) shape s) with
  | Err e => (h, Err e)
  | Ok c =>
      let h1 := set_counts h c in
      if negb (squareable w) then (h1, Err TypeError)
      else match (s <- stat (map (fun x => x * x) ws) ;; nd_iadd (h_errs_sq h1) shape s) with
           | Err e => (h1, Err e)
           | Ok c2 => (set_filled (set_errs h1 c2), Ok tt)
           end
  end.

Definition edges_nth (h : hist) (i : nat) : list R := e_vals (nth i (h_edges h) (mk_edges false [])).

(** hist1d.py:41-73 Hist1d.fill(data, weights) *)
Definition hist1_fill (h : hist) (data : list R) (w : weights) : hist * res unit :=
  let es := edges_nth h 0 in
  fill_with (binned_statistic es data) [(length es - 1)%nat] h (length data) w.

(** hist2d.py:41-58 Hist2d.fill((x, y), weights) *)
Definition hist2_fill (h : hist) (xs ys : list R) (w : weights) : hist * res unit :=
  let ex := edges_nth h 0 in
  let ey := edges_nth h 1 in
  fill_with (binned_statistic_2d ex ey xs ys) [(length ex - 1)%nat; (length ey - 1)%nat] h (length xs) w.

(** hist1d.py:16-25 Hist1d.__init__ *)
Definition hist1_new (bins : bins1) (range : option (R * R)) (data : option (list R)) (w : weights) : res hist :=
  h <- hist1_empty bins range ;;
  match data with
  | None => Ok h
  | Some d => match hist1_fill h d w with (h', Ok _) => Ok h' | (_, Err e) => Err e end
  end.

(** hist2d.py:27-39 Hist2d._init_bin_edges and 17-22 of the constructor.  [range] is a pair of
    limits; np.zeros(bins) raises ValueError for negative bin numbers. *)
Definition hist2_empty (bins : bins2) (range : option ((R * R) * (R * R))) : res hist :=
  match bins with
  | B2Ints nx ny =>
      match range with
      | None => Err TypeError
      | Some (rx, ry) =>
          ex <- linspace_edges (Some rx) nx ;;
          ey <- linspace_edges (Some ry) ny ;;
          let s := [Z.to_nat nx; Z.to_nat ny] in
          Ok (mk_hist K2 [ex; ey] s s [rx; ry] (np_zeros s) (np_zeros s) true)
      end
  | B2Edges ex ey =>
      rx <- get_bin_range ex ;;
      ry <- get_bin_range ey ;;
      let s := [(length (e_vals ex) - 1)%nat; (length (e_vals ey) - 1)%nat] in
      Ok (mk_hist K2 [ex; ey] s s [rx; ry] (np_zeros s) (np_zeros s) true)
  end.

(** hist2d.py:17-25 Hist2d.__init__ *)
Definition hist2_new (bins : bins2) (range : option ((R * R) * (R * R)))
    (data : option (list R * list R)) (w : weights) : res hist :=
  h <- hist2_empty bins range ;;
  match data with
  | None => Ok h
  | Some (xs, ys) => match hist2_fill h xs ys w with (h', Ok _) => Ok h' | (_, Err e) => Err e end
  end.

Definition nd_map (f : xr -> xr) (a : nd) : nd := mk_nd (nd_shape a) (map f (nd_flat a)).

(** hist1d.py:75-101 / hist2d.py:60-85: the part of from_binned_data after [instance = cls(bin_edges)] *)
Definition with_binned (h : hist) (counts : nd) (errors : option nd) : hist :=
  let errs := match errors with Some e => e | None => nd_map xsqrt counts end in
  set_filled (set_errs (set_counts h counts) (nd_map xsq errs)).

(** hist1d.py:75-101 Hist1d.from_binned_data *)
Definition hist1_from_binned (counts : nd) (e : edges) (errors : option nd) : res hist :=
  h <- hist1_empty (B1Edges e) None ;; Ok (with_binned h counts errors).

(** hist2d.py:60-85 Hist2d.from_binned_data *)
Definition hist2_from_binned (counts : nd) (ex ey : edges) (errors : option nd) : res hist :=
  h <- hist2_empty (B2Edges ex ey) None ;; Ok (with_binned h counts errors).

(** [htype.from_binned_data(counts, edges, errors)] for the class chosen at run time
    (channel.py:383, 396); a wrong number of edge arrays is not modelled. *)
Definition from_binned (k : kind) (counts : nd) (es : list edges) (errors : option nd) : res hist :=
  match k, es with
  | K1, [e] => hist1_from_binned counts e errors
  | K2, [ex; ey] => hist2_from_binned counts ex ey errors
  | _, _ => Err OutOfModel
  end.

(** abstract_hist.py:31-32 AbstractHist.bin_errors *)
Definition bin_errors (h : hist) : nd := nd_map xsqrt (h_errs_sq h).

(** np.sum(a, axis=1) and np.sum(a, axis=0) of a row-major nx x ny array *)
Definition sum_axis1 (nx ny : nat) (flat : list xr) : list xr :=
  map (fun i => xsum_n ny (fun j => vnth flat (i * ny + j))) (seq 0 nx).
Definition sum_axis0 (nx ny : nat) (flat : list xr) : list xr :=
  map (fun j => xsum_n nx (fun i => vnth flat (i * ny + j))) (seq 0 ny).

Definition nd1 (l : list xr) : nd := mk_nd [length l] l.

(** hist2d.py:111-116 x_projection, 118-123 y_projection *)
Definition hist2_projection (axis_x : bool) (h : hist) : res hist :=
  match nd_shape (h_counts h), nd_shape (h_errs_sq h), h_edges h with
  | [nx; ny], [mx; my], [ex; ey] =>
      if axis_x
      then hist1_from_binned (nd1 (sum_axis1 nx ny (nd_flat (h_counts h)))) ex
             (Some (nd1 (map xsqrt (sum_axis1 mx my (nd_flat (h_errs_sq h))))))
      else hist1_from_binned (nd1 (sum_axis0 nx ny (nd_flat (h_counts h)))) ey
             (Some (nd1 (map xsqrt (sum_axis0 mx my (nd_flat (h_errs_sq h))))))
  | _, _, _ => Err OutOfModel
  end.
Definition x_projection (h : hist) : res hist := hist2_projection true h.
Definition y_projection (h : hist) : res hist := hist2_projection false h.
