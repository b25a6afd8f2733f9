(** Vocabulary for C10 and C66: which call of a history creates or fills a histogram. *)
From Coq Require Import Reals ZArith List.
From Verif Require Import Model_Num Model_Hist Model_HistHeap.
Import ListNotations.

(** the caller does not ask histogram k for its bin_counts array *)
Definition no_take (k : nat) (op : h_op) : Prop := match op with HCounts j => j <> k | _ => True end.
(** a call of fill() of histogram k *)
Definition is_fill (k : nat) (op : h_op) : Prop :=
  match op with HFill1 j _ _ => j = k | HFill2 j _ _ _ => j = k | _ => False end.
(** creation by a constructor or a projection *)
Definition is_ctor (op : h_op) : Prop :=
  match op with HNew1 _ _ _ => True | HNew2 _ _ _ _ => True | HProj _ _ => True | _ => False end.
(** creation by from_binned_data with count array c *)
Definition is_from (c : nat) (op : h_op) : Prop :=
  match op with HFrom1 a _ _ => a = c | HFrom2 a _ _ _ => a = c | _ => False end.
(** creation by a constructor or from_binned_data *)
Definition creates (op : h_op) : Prop :=
  match op with HNew1 _ _ _ => True | HNew2 _ _ _ _ => True | HFrom1 _ _ _ => True | HFrom2 _ _ _ _ => True | _ => False end.
(** the edge arrays and, for from_binned_data, the count array among the arguments *)
Definition kept (op : h_op) : list nat :=
  match op with
  | HNew1 (HEdges a) _ _ => [a]
  | HNew2 bx by_ _ _ => [bx; by_]
  | HFrom1 c e _ => [c; e]
  | HFrom2 c ex ey _ => [c; ex; ey]
  | _ => []
  end.

(** The value a creating call has to produce, computed from the values the argument arrays have at the
    time of the call ([None]: an argument is not an array of finite numbers held by the caller). *)
Definition data_of (s : hs) (d : option nat) : option (option (list R)) :=
  match d with None => Some None | Some a => option_map Some (arg s a) end.
Definition data2_of (s : hs) (d : option (nat * nat)) : option (option (list R * list R)) :=
  match d with
  | None => Some None
  | Some (a, b) => match arg s a, arg s b with Some x, Some y => Some (Some (x, y)) | _, _ => None end
  end.
Inductive creates_value (s : hs) : h_op -> res hist -> Prop :=
  | CV_int n lo hi d w dv wv : data_of s d = Some dv -> weights_of s w = Some wv ->
      creates_value s (HNew1 (HInt n lo hi) d w) (hist1_new (B1Int n) (Some (lo, hi)) dv wv)
  | CV_edges e d w ev dv wv : arg s e = Some ev -> data_of s d = Some dv -> weights_of s w = Some wv ->
      creates_value s (HNew1 (HEdges e) d w) (hist1_new (B1Edges (mk_edges false ev)) None dv wv)
  | CV_two ex ey d w vx vy dv wv : arg s ex = Some vx -> arg s ey = Some vy -> data2_of s d = Some dv -> weights_of s w = Some wv ->
      creates_value s (HNew2 ex ey d w) (hist2_new (B2Edges (mk_edges false vx) (mk_edges false vy)) None dv wv)
  | CV_from1 c e q cv ev qv : arg_nd s c = Some cv -> arg s e = Some ev -> arg_errors s q = Some qv ->
      creates_value s (HFrom1 c e q) (hist1_from_binned cv (mk_edges false ev) qv)
  | CV_from2 c ex ey q cv vx vy qv : arg_nd s c = Some cv -> arg s ex = Some vx -> arg s ey = Some vy -> arg_errors s q = Some qv ->
      creates_value s (HFrom2 c ex ey q) (hist2_from_binned cv (mk_edges false vx) (mk_edges false vy) qv)
  | CV_proj k x o h : nth_error (s_objs s) k = Some o -> view s o = Some h -> length (ho_edges o) = 2%nat ->
      creates_value s (HProj k x) (hist2_projection x h).
(** The value (and outcome) a fill of the histogram k with value h has to produce. *)
Inductive fills_value (s : hs) (h : hist) (k : nat) : h_op -> hist * res unit -> Prop :=
  | FV_one d w dv wv : arg s d = Some dv -> weights_of s w = Some wv ->
      fills_value s h k (HFill1 k d w) (hist1_fill h dv wv)
  | FV_two x y w xv yv wv : arg s x = Some xv -> arg s y = Some yv -> weights_of s w = Some wv ->
      fills_value s h k (HFill2 k x y w) (hist2_fill h xv yv wv).
