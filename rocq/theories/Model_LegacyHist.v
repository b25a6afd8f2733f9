(** Model of templatefitter/histogram_legacy.py: classes Histogram and Hist2d.  (The legacy Hist1d is used
    in Model_Legacy.v.) *)
From Coq Require Import Reals String ZArith Bool Arith List.
From Verif Require Import Model_Num Model_Hist.
Import ListNotations.
Local Open Scope R_scope.

(** histogram_legacy.py:31-38, attributes of Histogram (_nbins and _limits are never changed). *)
Record lhist : Type := mk_lhist {
  lh_nbins : nat;
  lh_limits : R * R;
  lh_edges : list R;
  lh_counts : list xr;
  lh_entries : list xr;
  lh_errs_sq : list xr }.

(** histogram_legacy.py:31-38 constructor without data.  A negative nbins makes np.zeros raise ValueError.
    For nbins = 0 (no bins) np.linspace gives one edge. *)
Definition lhist_empty (nbins : Z) (limits : R * R) : res lhist :=
  if Z.ltb nbins 0 then Err ValueError
  else
    let n := Z.to_nat nbins in
    Ok (mk_lhist n limits (np_linspace (fst limits) (snd limits) (n + 1)) (repeat (Fin 0) n) (repeat (Fin 0) n)
          (repeat (Fin 0) n)).

Definition lh_set_counts (h : lhist) (c : list xr) : lhist :=
  mk_lhist (lh_nbins h) (lh_limits h) (lh_edges h) c (lh_entries h) (lh_errs_sq h).
Definition lh_set_entries (h : lhist) (c : list xr) : lhist :=
  mk_lhist (lh_nbins h) (lh_limits h) (lh_edges h) (lh_counts h) c (lh_errs_sq h).
Definition lh_set_errs (h : lhist) (c : list xr) : lhist :=
  mk_lhist (lh_nbins h) (lh_limits h) (lh_edges h) (lh_counts h) (lh_entries h) c.

(** a += b for one-dimensional arrays of the same length; broadcasting is not modelled *)
Definition iadd1 (a b : list xr) : res (list xr) :=
  if Nat.eqb (length a) (length b) then Ok (map2 xadd a b) else Err OutOfModel.

(** scipy.stats.binned_statistic(..., statistic="count"): every event counts 1, the values are only checked
    for their number *)
Definition binned_count (es xs ws : list R) : res (list xr) := binned_statistic es xs (map (fun _ => 1) ws).

(** histogram_legacy.py:43-75 Histogram.fill.  The three arrays are updated one after the other; weights ** 2 is
    not defined for a tuple (TypeError).  Lines 54-60: lists become arrays, missing weights are ones. *)
Definition lhist_fill (h : lhist) (data : list R) (w : weights) : lhist * res unit :=
  let ws := resolve_weights (length data) w in
  if negb (Nat.eqb (length data) (length ws)) then (h, Err ValueError)
  else
    match (s <- binned_statistic (lh_edges h) data ws ;; iadd1 (lh_counts h) s) with
    | Err e => (h, Err e)
    | Ok c =>
        let h1 := lh_set_counts h c in
        match (s <- binned_count (lh_edges h) data ws ;; iadd1 (lh_entries h1) s) with
        | Err e => (h1, Err e)
        | Ok n =>
            let h2 := lh_set_entries h1 n in
            if negb (squareable w) then (h2, Err TypeError)
            else
              match (s <- binned_statistic (lh_edges h) data (map (fun x => x * x) ws) ;; iadd1 (lh_errs_sq h2) s) with
              | Err e => (h2, Err e)
              | Ok q => (lh_set_errs h2 q, Ok tt)
              end
        end
    end.

(** histogram_legacy.py:31-41 Histogram.__init__ *)
Definition lhist_new (nbins : Z) (limits : R * R) (data : option (list R)) (w : weights) : res lhist :=
  h <- lhist_empty nbins limits ;;
  match data with
  | None => Ok h
  | Some d => match lhist_fill h d w with (h', Ok _) => Ok h' | (_, Err e) => Err e end
  end.

(** histogram_legacy.py:77-88 Histogram.scale *)
Definition lhist_scale (h : lhist) (c : R) : lhist :=
  lh_set_errs (lh_set_counts h (map (fun x => xmul x (Fin c)) (lh_counts h)))
    (map (fun x => xmul x (Fin (c ^ 2))) (lh_errs_sq h)).

(** histogram_legacy.py:124-127 bin_errors *)
Definition lhist_bin_errors (h : lhist) : list xr := map xsqrt (lh_errs_sq h).

(** histogram_legacy.py:133-138 bin_rel_errors *)
Definition lhist_rel_errors (h : lhist) : list xr :=
  map2 (fun q n => let r := xdiv (xsqrt q) n in if xeqb r (Fin 0) then Fin (/ 10 ^ 7) else r)
    (lh_errs_sq h) (lh_counts h).

(** ** Hist2d (histogram_legacy.py:318-391)

    The attributes are those of the class Hist2d of histograms/hist2d.py without is_empty, and lines 342-368 of
    fill are the same statements as there, so [hist], [hist2_empty] and [hist2_fill] of Model_Hist.v are used (the
    flag is ignored).  The projections are cached in functools.lru_cache tables of the class, keyed by the
    object; the cached pair of arrays is assumed not to be modified by the caller. *)
Record l2world : Type := mk_l2 {
  l2_hists : list hist;
  l2_xcache : list (nat * (list xr * list xr));
  l2_ycache : list (nat * (list xr * list xr)) }.

Definition l2_empty : l2world := mk_l2 [] [] [].

(** histogram_legacy.py:385-387 x_projection and 389-391 y_projection without the cache: np.sum over the other
    axis of the counts, and the root of that sum of the squared errors *)
Definition l2_projection (axis_x : bool) (h : hist) : res (list xr * list xr) :=
  match nd_shape (h_counts h), nd_shape (h_errs_sq h) with
  | [nx; ny], [mx; my] =>
      Ok (if axis_x
          then (sum_axis1 nx ny (nd_flat (h_counts h)), map xsqrt (sum_axis1 mx my (nd_flat (h_errs_sq h))))
          else (sum_axis0 nx ny (nd_flat (h_counts h)), map xsqrt (sum_axis0 mx my (nd_flat (h_errs_sq h)))))
  | _, _ => Err OutOfModel
  end.

(** calls of the user; objects are addressed by the order of creation *)
Inductive l2op : Type :=
  | L2New (bins : bins2) (limits : option ((R * R) * (R * R))) (data : option (list R * list R)) (w : weights)
  | L2Fill (i : nat) (xs ys : list R) (w : weights)
  | L2XProj (i : nat)
  | L2YProj (i : nat).

(** histogram_legacy.py:345-368 fill on a histogram: an exception before line 367 leaves the caches untouched *)
Definition l2_fill (s : l2world) (i : nat) (xs ys : list R) (w : weights) : l2world * res unit :=
  match nth_error (l2_hists s) i with
  | None => (s, Err OutOfModel)
  | Some h =>
      match hist2_fill h xs ys w with
      | (h', Ok _) => (mk_l2 (upd i h' (l2_hists s)) [] [], Ok tt)
      | (h', Err e) => (mk_l2 (upd i h' (l2_hists s)) (l2_xcache s) (l2_ycache s), Err e)
      end
  end.

(** histogram_legacy.py:321-343 __init__.  If the constructor raises there is no object. *)
Definition l2_new (s : l2world) bins limits (data : option (list R * list R)) (w : weights) : l2world * res unit :=
  match hist2_empty bins limits with
  | Err e => (s, Err e)
  | Ok h =>
      match data with
      | None => (mk_l2 (l2_hists s ++ [h]) (l2_xcache s) (l2_ycache s), Ok tt)
      | Some (xs, ys) =>
          match l2_fill (mk_l2 (l2_hists s ++ [h]) (l2_xcache s) (l2_ycache s)) (length (l2_hists s)) xs ys w with
          | (s', Ok _) => (s', Ok tt)
          | (_, Err e) => (s, Err e)
          end
      end
  end.

(** One call; the result of a projection is returned. *)
Definition l2_step (s : l2world) (o : l2op) : l2world * res (list xr * list xr) :=
  match o with
  | L2New bins limits data w => let '(s', r) := l2_new s bins limits data w in (s', x <- r ;; Ok ([], []))
  | L2Fill i xs ys w => let '(s', r) := l2_fill s i xs ys w in (s', x <- r ;; Ok ([], []))
  | L2XProj i =>
      match nth_error (l2_hists s) i with
      | None => (s, Err OutOfModel)
      | Some h => let '(c, r) := lru_call Nat.eqb (l2_xcache s) i (l2_projection true h) in
                  (mk_l2 (l2_hists s) c (l2_ycache s), r)
      end
  | L2YProj i =>
      match nth_error (l2_hists s) i with
      | None => (s, Err OutOfModel)
      | Some h => let '(c, r) := lru_call Nat.eqb (l2_ycache s) i (l2_projection false h) in
                  (mk_l2 (l2_hists s) (l2_xcache s) c, r)
      end
  end.

Fixpoint l2_run (s : l2world) (l : list l2op) : l2world :=
  match l with [] => s | o :: l' => l2_run (fst (l2_step s o)) l' end.
