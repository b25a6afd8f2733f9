(** The classes Histogram and Hist1d of templatefitter/histogram_legacy.py with their arrays as numpy buffers.
    Model_LegacyHist.v describes the values of a Histogram; here its arrays are addresses into a heap of
    one-dimensional float arrays, so that sharing (by the bin_counts setter, from_binned_data, bin edges given as an
    array, and the properties, which return the arrays themselves) is visible. *)
From Coq Require Import Reals String ZArith Bool Arith List.
From Verif Require Import Model_Num Model_Hist Model_HistHeap Model_LegacyHist.
Import ListNotations.
Local Open Scope R_scope.

(** histogram_legacy.py:31-38 (Histogram) and 242-257 (Hist1d, without _bin_entries); addresses of the arrays.
    Bin edges: an own array of np.linspace, or the caller's array (line 250). *)
Record lbobj : Type := mk_lbobj { lb_edges : edge_src; lb_counts : nat; lb_entries : option nat; lb_errs : nat }.
(** [lb_arrs]: the arrays the caller has created *)
Record lbst : Type := mk_lbst { lb_bufs : list (list xr); lb_objs : list lbobj; lb_arrs : list nat }.
Definition lb_init : lbst := mk_lbst [] [] [].

(** the arrays a caller can name: its own, and those returned by the properties bin_counts, bin_entries,
    bin_errors_sq (lines 110-112, 119-121, 140-142, 200-215: no copies) *)
Inductive lbref : Type := RArr (n : nat) | RCounts (k : nat) | REntries (k : nat) | RErrs (k : nat).
Definition lb_deref (s : lbst) (r : lbref) : option nat :=
  match r with
  | RArr n => nth_error (lb_arrs s) n
  | RCounts k => option_map lb_counts (nth_error (lb_objs s) k)
  | REntries k => match nth_error (lb_objs s) k with Some o => lb_entries o | None => None end
  | RErrs k => option_map lb_errs (nth_error (lb_objs s) k)
  end.
Definition lb_read (s : lbst) (a : nat) : list xr := nth a (lb_bufs s) [].
Definition lb_write (s : lbst) (a : nat) (v : list xr) : lbst := mk_lbst (upd a v (lb_bufs s)) (lb_objs s) (lb_arrs s).
(** a new array *)
Definition lb_alloc (s : lbst) (v : list xr) : lbst := mk_lbst (lb_bufs s ++ [v]) (lb_objs s) (lb_arrs s).

(** numpy: a += b and a[:] = b with one-dimensional arrays; an operand of length 1 is broadcast, other lengths
    raise ValueError *)
Definition np_iadd (a b : list xr) : res (list xr) :=
  if Nat.eqb (length a) (length b) then Ok (map2 xadd a b)
  else match b with [y] => Ok (map (fun x => xadd x y) a) | _ => Err ValueError end.
Definition np_assign (a b : list xr) : res (list xr) :=
  if Nat.eqb (length a) (length b) then Ok b
  else match b with [y] => Ok (map (fun _ => y) a) | _ => Err ValueError end.

Definition lb_seq (p : lbst * res unit) (k : lbst -> lbst * res unit) : lbst * res unit :=
  match p with (s, Ok _) => k s | (s, Err e) => (s, Err e) end.
(** buffer a += statistic *)
Definition lb_iadd (a : nat) (stat : res (list xr)) (s : lbst) : lbst * res unit :=
  match (v <- stat ;; np_iadd (lb_read s a) v) with
  | Ok v => (lb_write s a v, Ok tt)
  | Err e => (s, Err e)
  end.
Definition lb_edge_vals (s : lbst) (e : edge_src) : option (list R) :=
  match e with EOwn l => Some l | ERef a => reals (lb_read s a) end.

(** histogram_legacy.py:43-75 Histogram.fill and 282-315 Hist1d.fill (no check of the lengths, no entries).  The
    arrays are updated in place, one after the other. *)
Definition lb_fill (o : lbobj) (data : list R) (w : weights) (s : lbst) : lbst * res unit :=
  match lb_edge_vals s (lb_edges o) with
  | None => (s, Err OutOfModel)
  | Some es =>
      let ws := resolve_weights (length data) w in
      if match lb_entries o with Some _ => negb (Nat.eqb (length data) (length ws)) | None => false end
      then (s, Err ValueError)
      else
        lb_seq (lb_iadd (lb_counts o) (binned_statistic es data ws) s) (fun s =>
        lb_seq (match lb_entries o with Some a => lb_iadd a (binned_count es data ws) s | None => (s, Ok tt) end) (fun s =>
        if negb (squareable w) then (s, Err TypeError)
        else lb_iadd (lb_errs o) (binned_statistic es data (map (fun x => x * x) ws)) s))
  end.

(** an object with new arrays of zeros; [n] bins *)
Definition lb_new (s : lbst) (e : edge_src) (n : nat) (entries : bool) : lbst * lbobj :=
  let z := repeat (Fin 0) n in
  let a := length (lb_bufs s) in
  if entries
  then (mk_lbst (lb_bufs s ++ [z; z; z]) (lb_objs s) (lb_arrs s), mk_lbobj e a (Some (a + 1)%nat) (a + 2)%nat)
  else (mk_lbst (lb_bufs s ++ [z; z]) (lb_objs s) (lb_arrs s), mk_lbobj e a None (a + 1)%nat).
Definition lb_push (s : lbst) (o : lbobj) : lbst := mk_lbst (lb_bufs s) (lb_objs s ++ [o]) (lb_arrs s).
(** constructor: a failing fill leaves no object *)
Definition lb_construct (s : lbst) (e : edge_src) (n : nat) (entries : bool) (data : option (list R)) (w : weights) : lbst * res unit :=
  let '(s1, o) := lb_new s e n entries in
  match data with
  | None => (lb_push s1 o, Ok tt)
  | Some d => match lb_fill o d w s1 with (s2, Ok _) => (lb_push s2 o, Ok tt) | (_, Err x) => (s, Err x) end
  end.

(** calls of the user; histograms are addressed by the order of creation *)
Inductive lbop : Type :=
  | BArray (v : list xr)                                                             (* a = np.array(v) *)
  | BWrite (r : lbref) (v : list xr)                                                 (* a[:] = v *)
  | BHistogram (nbins : Z) (limits : R * R) (data : option (list R)) (w : weights)   (* Histogram(nbins, limits, data, weights) *)
  | BHist1 (n : Z) (limits : R * R) (data : option (list R)) (w : weights)           (* Hist1d(n, limits, data, weights) *)
  | BHist1E (edges : lbref) (data : option (list R)) (w : weights)                   (* Hist1d(edges, data=..., weights=...) *)
  | BFrom (edges counts : lbref) (errors : option lbref)                             (* Hist1d.from_binned_data *)
  | BFill (k : nat) (data : list R) (w : weights)
  | BScale (k : nat) (c : R)
  | BSetCounts (k : nat) (r : lbref)                                                 (* h.bin_counts = a *)
  | BSetErrors (k : nat) (r : lbref).                                                (* h.bin_errors = a *)

Definition lb_set_obj (s : lbst) (k : nat) (o : lbobj) : lbst := mk_lbst (lb_bufs s) (upd k o (lb_objs s)) (lb_arrs s).

Definition lb_step (s : lbst) (op : lbop) : lbst * res unit :=
  match op with
  | BArray v => (mk_lbst (lb_bufs s ++ [v]) (lb_objs s) (lb_arrs s ++ [length (lb_bufs s)]), Ok tt)
  | BWrite r v =>
      match lb_deref s r with
      | None => (s, Err OutOfModel)
      | Some a => match np_assign (lb_read s a) v with Ok v => (lb_write s a v, Ok tt) | Err e => (s, Err e) end
      end
  (* histogram_legacy.py:31-41; np.zeros of a negative number raises ValueError *)
  | BHistogram n lim data w =>
      if Z.ltb n 0 then (s, Err ValueError)
      else lb_construct s (EOwn (np_linspace (fst lim) (snd lim) (Z.to_nat n + 1))) (Z.to_nat n) true data w
  (* histogram_legacy.py:242-257 with a number of bins *)
  | BHist1 n lim data w =>
      if Z.ltb n 0 then (s, Err ValueError)
      else lb_construct s (EOwn (np_linspace (fst lim) (snd lim) (Z.to_nat n + 1))) (Z.to_nat n) false data w
  (* histogram_legacy.py:248-257 with edges; np.amin of an empty array raises ValueError *)
  | BHist1E r data w =>
      match lb_deref s r with
      | None => (s, Err OutOfModel)
      | Some a => match lb_read s a with
                  | [] => (s, Err ValueError)
                  | v => lb_construct s (ERef a) (length v - 1) false data w
                  end
      end
  (* histogram_legacy.py:259-280: the counts are the caller's array, the squared errors a new one *)
  | BFrom e c er =>
      match lb_deref s e, lb_deref s c, (match er with None => Some None | Some r => option_map Some (lb_deref s r) end) with
      | Some ae, Some ac, Some aer =>
          match lb_read s ae with
          | [] => (s, Err ValueError)
          | _ =>
              let errs := match aer with Some a => lb_read s a | None => map xsqrt (lb_read s ac) end in
              (lb_push (lb_alloc s (map xsq errs)) (mk_lbobj (ERef ae) ac None (length (lb_bufs s))), Ok tt)
          end
      | _, _, _ => (s, Err OutOfModel)
      end
  | BFill k d w => match nth_error (lb_objs s) k with Some o => lb_fill o d w s | None => (s, Err OutOfModel) end
  (* histogram_legacy.py:77-88; Hist1d has no such method *)
  | BScale k c =>
      match nth_error (lb_objs s) k with
      | None => (s, Err OutOfModel)
      | Some o =>
          match lb_entries o with
          | None => (s, Err AttributeError)
          | Some _ =>
              let s1 := lb_write s (lb_counts o) (map (fun x => xmul x (Fin c)) (lb_read s (lb_counts o))) in
              (lb_write s1 (lb_errs o) (map (fun x => xmul x (Fin (c ^ 2))) (lb_read s1 (lb_errs o))), Ok tt)
          end
      end
  (* histogram_legacy.py:114-116: the array is kept, not copied; Hist1d: no setter *)
  | BSetCounts k r =>
      match nth_error (lb_objs s) k, lb_deref s r with
      | Some o, Some a =>
          match lb_entries o with
          | None => (s, Err AttributeError)
          | Some _ => (lb_set_obj s k (mk_lbobj (lb_edges o) a (lb_entries o) (lb_errs o)), Ok tt)
          end
      | _, _ => (s, Err OutOfModel)
      end
  (* histogram_legacy.py:129-131: a new array of squares *)
  | BSetErrors k r =>
      match nth_error (lb_objs s) k, lb_deref s r with
      | Some o, Some a =>
          match lb_entries o with
          | None => (s, Err AttributeError)
          | Some _ => (lb_set_obj (lb_alloc s (map xsq (lb_read s a))) k (mk_lbobj (lb_edges o) (lb_counts o) (lb_entries o) (length (lb_bufs s))), Ok tt)
          end
      | _, _ => (s, Err OutOfModel)
      end
  end.
Definition lb_run (s : lbst) (l : list lbop) : lbst := fold_left (fun s o => fst (lb_step s o)) l s.

(** what the properties of histogram k return: edges, counts, entries, squared errors *)
Record lbview : Type := mk_lbview { v_edges : option (list R); v_counts : list xr; v_entries : option (list xr); v_errs : list xr }.
Definition lb_view (s : lbst) (k : nat) : option lbview :=
  option_map (fun o => mk_lbview (lb_edge_vals s (lb_edges o)) (lb_read s (lb_counts o)) (option_map (lb_read s) (lb_entries o)) (lb_read s (lb_errs o)))
    (nth_error (lb_objs s) k).
(** histogram_legacy.py:124-127 and 205-209 bin_errors *)
Definition v_bin_errors (v : lbview) : list xr := map xsqrt (v_errs v).
