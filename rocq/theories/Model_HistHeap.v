(** Histograms whose arrays are numpy buffers with identity (templatefitter/histograms/hist1d.py,
    hist2d.py).  [Model_Hist] describes the values; here counts, squared errors and edges are addresses
    into a heap of buffers, so that sharing of an array between the caller and histograms is visible. *)
From Coq Require Import Reals String ZArith Bool Arith List.
From Verif Require Import Model_Num Model_Hist.
Import ListNotations.
Local Open Scope R_scope.

(** Bin edges: computed by np.linspace (own) or the caller's array kept by reference
    (hist1d.py:38, hist2d.py:38 [self._bin_edges = bins]). *)
Inductive edge_src : Type := EOwn (l : list R) | ERef (a : nat).

Record hobj : Type := mk_hobj {
  ho_kind : kind;
  ho_edges : list edge_src;
  ho_nb : list nat;
  ho_shape : list nat;
  ho_range : list (R * R);
  ho_counts : nat;  (* address of _bin_counts *)
  ho_errs : nat;    (* address of _bin_errors_sq *)
  ho_empty : bool }.

(** A buffer is an array with its shape. [s_mine] are the arrays the caller holds. *)
Record hs : Type := mk_hs { s_bufs : list nd; s_objs : list hobj; s_mine : list nat }.
Definition hs_init : hs := mk_hs [] [] [].

Definition buf (s : hs) (a : nat) : option nd := nth_error (s_bufs s) a.

(** the finite entries of an array as reals *)
Fixpoint reals (l : list xr) : option (list R) :=
  match l with
  | [] => Some []
  | Fin r :: l' => option_map (cons r) (reals l')
  | _ :: _ => None
  end.
Definition real_buf (s : hs) (a : nat) : option (list R) :=
  match buf s a with Some b => reals (nd_flat b) | None => None end.

Definition edge_vals (s : hs) (e : edge_src) : option (list R) :=
  match e with EOwn l => Some l | ERef a => real_buf s a end.
Fixpoint all_some {A} (l : list (option A)) : option (list A) :=
  match l with
  | [] => Some []
  | Some a :: l' => option_map (cons a) (all_some l')
  | None :: _ => None
  end.

(** The current value of a histogram object: what its properties return. *)
Definition view (s : hs) (o : hobj) : option hist :=
  match all_some (map (edge_vals s) (ho_edges o)), buf s (ho_counts o), buf s (ho_errs o) with
  | Some es, Some c, Some q =>
      Some (mk_hist (ho_kind o) (map (mk_edges false) es) (ho_nb o) (ho_shape o) (ho_range o) c q (ho_empty o))
  | _, _, _ => None
  end.

Definition set_bufs (s : hs) (b : list nd) : hs := mk_hs b (s_objs s) (s_mine s).
(** allocation of a buffer not held by the caller *)
Definition halloc (s : hs) (b : nd) : hs * nat := (set_bufs s (s_bufs s ++ [b]), length (s_bufs s)).
(** a new histogram object with a fresh error buffer, given its value [h] *)
Definition add_obj (s : hs) (h : hist) (es : list edge_src) (counts : nat) : hs :=
  let '(s1, aq) := halloc s (h_errs_sq h) in
  mk_hs (s_bufs s1) (s_objs s1 ++ [mk_hobj (h_kind h) es (h_num_bins h) (h_shape h) (h_range h) counts aq (h_empty h)]) (s_mine s1).
(** a histogram with both buffers fresh *)
Definition add_fresh (s : hs) (h : hist) (es : list edge_src) : hs :=
  let '(s1, ac) := halloc s (h_counts h) in add_obj s1 h es ac.

(** Binning arguments of a constructor: number of bins and range, or an array of edges. *)
Inductive hbins : Type := HInt (n : Z) (lo hi : R) | HEdges (a : nat).

Definition held (s : hs) (a : nat) : bool := existsb (Nat.eqb a) (s_mine s).
(** the array argument must be an array the caller holds *)
Definition arg (s : hs) (a : nat) : option (list R) := if held s a then real_buf s a else None.
Definition arg_nd (s : hs) (a : nat) : option nd := if held s a then buf s a else None.
Definition arg_errors (s : hs) (e : option nat) : option (option nd) :=
  match e with None => Some None | Some a => option_map Some (arg_nd s a) end.

Definition weights_of (s : hs) (w : option nat) : option weights :=
  match w with None => Some WNone | Some a => option_map WArr (arg s a) end.

(** hist1d.py:16-25 *)
Definition bins1_of (s : hs) (b : hbins) : option (bins1 * option (R * R) * list edge_src) :=
  match b with
  | HInt n lo hi => Some (B1Int n, Some (lo, hi), [EOwn (np_linspace lo hi (Z.to_nat n + 1))])
  | HEdges a => option_map (fun l => (B1Edges (mk_edges false l), None, [ERef a])) (arg s a)
  end.

(** operations of the caller *)
Inductive h_op : Type :=
  | HArray (b : nd)                                        (* create an array *)
  | HWrite (a : nat) (b : nd)                              (* the caller changes one of its arrays in place *)
  | HNew1 (bins : hbins) (data : option nat) (w : option nat)   (* Hist1d(bins, range, data, weights) *)
  | HNew2 (bx by_ : nat) (data : option (nat * nat)) (w : option nat)  (* Hist2d((edges, edges), ...) *)
  | HFrom1 (counts e : nat) (errors : option nat)          (* Hist1d.from_binned_data *)
  | HFrom2 (counts ex ey : nat) (errors : option nat)      (* Hist2d.from_binned_data *)
  | HFill1 (k : nat) (data : nat) (w : option nat)         (* histogram k .fill(data, weights) *)
  | HFill2 (k : nat) (xs ys : nat) (w : option nat)
  | HProj (k : nat) (axis_x : bool)                        (* x_projection / y_projection *)
  | HCounts (k : nat).                                     (* the caller takes the array k.bin_counts *)

(** in-place [+=] on the two buffers of object o, whose new value is h' (hist1d.py:57-73) *)
Definition write_back (s : hs) (k : nat) (o : hobj) (h' : hist) : hs :=
  mk_hs (upd (ho_errs o) (h_errs_sq h') (upd (ho_counts o) (h_counts h') (s_bufs s)))
        (upd k (mk_hobj (ho_kind o) (ho_edges o) (ho_nb o) (ho_shape o) (ho_range o) (ho_counts o) (ho_errs o) (h_empty h')) (s_objs s))
        (s_mine s).

(** One operation.  Arguments outside of the model (arrays not held by the caller, non-finite data)
    leave the state unchanged with OutOfModel. *)
Definition h_step (s : hs) (op : h_op) : hs * res unit :=
  match op with
  | HArray b => (mk_hs (s_bufs s ++ [b]) (s_objs s) (s_mine s ++ [length (s_bufs s)]), Ok tt)
  | HWrite a b => if held s a then (set_bufs s (upd a b (s_bufs s)), Ok tt) else (s, Err OutOfModel)
  | HNew1 bins data w =>
      match bins1_of s bins, weights_of s w with
      | Some (b, r, es), Some wts =>
          match (match data with None => Some None | Some a => option_map Some (arg s a) end) with
          | Some d => match hist1_new b r d wts with
                      | Ok h => (add_fresh s h es, Ok tt) | Err e => (s, Err e) end
          | None => (s, Err OutOfModel)
          end
      | _, _ => (s, Err OutOfModel)
      end
  | HNew2 bx by_ data w =>
      match arg s bx, arg s by_, weights_of s w with
      | Some ex, Some ey, Some wts =>
          match (match data with
                 | None => Some None
                 | Some (a, b) => match arg s a, arg s b with Some x, Some y => Some (Some (x, y)) | _, _ => None end
                 end) with
          | Some d => match hist2_new (B2Edges (mk_edges false ex) (mk_edges false ey)) None d wts with
                      | Ok h => (add_fresh s h [ERef bx; ERef by_], Ok tt) | Err e => (s, Err e) end
          | None => (s, Err OutOfModel)
          end
      | _, _, _ => (s, Err OutOfModel)
      end
  | HFrom1 counts e errors =>
      match arg_nd s counts, arg s e, arg_errors s errors with
      | Some c, Some es, Some er =>
          match hist1_from_binned c (mk_edges false es) er with
          | Ok h => (add_obj s h [ERef e] counts, Ok tt) | Err x => (s, Err x) end
      | _, _, _ => (s, Err OutOfModel)
      end
  | HFrom2 counts ex ey errors =>
      match arg_nd s counts, arg s ex, arg s ey, arg_errors s errors with
      | Some c, Some vx, Some vy, Some er =>
          match hist2_from_binned c (mk_edges false vx) (mk_edges false vy) er with
          | Ok h => (add_obj s h [ERef ex; ERef ey] counts, Ok tt) | Err x => (s, Err x) end
      | _, _, _, _ => (s, Err OutOfModel)
      end
  | HFill1 k data w =>
      match nth_error (s_objs s) k with
      | None => (s, Err OutOfModel)
      | Some o =>
          match view s o, arg s data, weights_of s w with
          | Some h, Some d, Some wts => let '(h', r) := hist1_fill h d wts in (write_back s k o h', r)
          | _, _, _ => (s, Err OutOfModel)
          end
      end
  | HFill2 k xs ys w =>
      match nth_error (s_objs s) k with
      | None => (s, Err OutOfModel)
      | Some o =>
          match view s o, arg s xs, arg s ys, weights_of s w with
          | Some h, Some x, Some y, Some wts => let '(h', r) := hist2_fill h x y wts in (write_back s k o h', r)
          | _, _, _, _ => (s, Err OutOfModel)
          end
      end
  | HProj k axis_x =>
      match nth_error (s_objs s) k with
      | None => (s, Err OutOfModel)
      | Some o =>
          match view s o, ho_edges o with
          | Some h, [ex; ey] =>
              match hist2_projection axis_x h with
              | Ok p => (add_fresh s p [if axis_x then ex else ey], Ok tt) | Err x => (s, Err x) end
          | _, _ => (s, Err OutOfModel)
          end
      end
  | HCounts k =>
      match nth_error (s_objs s) k with
      | None => (s, Err OutOfModel)
      | Some o => (mk_hs (s_bufs s) (s_objs s) (s_mine s ++ [ho_counts o]), Ok tt)
      end
  end.

Definition h_run (s : hs) (l : list h_op) : hs := fold_left (fun s o => fst (h_step s o)) l s.
