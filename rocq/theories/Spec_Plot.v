(** What a plot shows. *)
From Coq Require Import Reals String ZArith Bool Arith List.
From Verif Require Import Model_Num Model_Hist Model_Template Model_World Model_Plot Spec_Hist Spec_Matrix.
Import ListNotations.
Local Open Scope R_scope.

(** A histogram drawn by matplotlib: the content of bin b is the sum of the weights of the points in the bin. *)
Definition layer_height (es : list R) (b : nat) (layer : list R * list xr) (s : R) : Prop :=
  exists ws, snd layer = map Fin ws /\ length ws = length (fst layer) /\ wsum (in_bin es b) (combine (fst layer) ws) s.
(** Stacked histograms: data set number k is drawn between the sum of the contents of the data sets before it and
    this sum plus its own content. *)
Definition stack_shows (es : list R) (layers : list (list R * list xr)) (k b : nat) (bottom top : R) : Prop :=
  exists ht l, nth_error layers k = Some l /\ layer_height es b l (ht k) /\
    (forall j l', (j < k)%nat -> nth_error layers j = Some l' -> layer_height es b l' (ht j)) /\
    bottom = sumn k ht /\ top = sumn (S k) ht.
(** bar number b of a bar plot covers the rectangle from (left, bottom) to (right, top) *)
Definition bar_shows (d : drawing) (b : nat) (left right bottom top : R) : Prop :=
  match d with
  | DBars xs hs ws bs =>
      exists x h w, nth_error xs b = Some x /\ nth_error hs b = Some (Fin h) /\ nth_error ws b = Some w /\
        nth_error bs b = Some (Fin bottom) /\ left = x - w / 2 /\ right = x + w / 2 /\ top = bottom + h
  | _ => False
  end.
(** data point number b is drawn at (x, y) with an error bar of length er on both sides *)
Definition point_shows (d : drawing) (b : nat) (x y er : R) : Prop :=
  match d with
  | DPoints xs ys es => nth_error xs b = Some x /\ nth_error ys b = Some (Fin y) /\ nth_error es b = Some (Fin er)
  | _ => False
  end.
(** cell (i, j) of a two-dimensional histogram drawn by matplotlib *)
Definition cell_shows (d : drawing) (i j : nat) (s : R) : Prop :=
  match d with
  | DHist2 xs ys ws ex ey =>
      exists rs, ws = map Fin rs /\ length rs = length xs /\ length ys = length xs /\
        wsum (fun p => in_bin ex i (fst p) /\ in_bin ey j (snd p)) (combine (combine xs ys) rs) s
  | _ => False
  end.

(** all templates of channel c and their histograms satisfy Q (the first argument is the number of the template) *)
Definition on_templates (w : world) (c : chan) (Q : nat -> tmpl -> hist -> Prop) : Prop :=
  forall k p tid, nth_error (c_tmpls c) k = Some (p, tid) ->
    exists t h, nth_error (w_tmpls w) tid = Some t /\ nth_error (w_hists w) (t_hist t) = Some h /\ Q k t h.
(** what the channel's data look like: nothing, or the histogram with contents d and squared errors q *)
Definition data_points (c : chan) (n : nat) (es : list R) (d q : nat -> R) (l : list drawing) : Prop :=
  (c_data c = None /\ l = []) \/
  (c_data c <> None /\ exists pts, l = [pts] /\ forall b, (b < n)%nat -> point_shows pts b ((nth b es 0 + nth (S b) es 0) / 2) (d b) (sqrt (q b))).
Definition has_data_hist (w : world) (c : chan) (n : nat) (es : list R) (d q : nat -> R) : Prop :=
  c_data c = None \/
  exists hid h, c_data c = Some hid /\ nth_error (w_hists w) hid = Some h /\ h_edges h = [mk_edges false es] /\
    nd_flat (h_counts h) = vec_of n d /\ nd_flat (h_errs_sq h) = vec_of n q /\ forall b, (b < n)%nat -> 0 <= q b.
