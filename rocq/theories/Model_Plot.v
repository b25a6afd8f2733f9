(** Model of the plotting methods of templatefitter/templates/template1d.py, template2d.py and channel.py: what they
    hand to matplotlib, in the order of the calls.  Colours, labels, titles, colour bars and the returned axes are not
    modelled; colours are assumed to be valid for matplotlib. *)
From Coq Require Import Reals String ZArith Bool Arith List.
From Verif Require Import Model_Num Model_Hist Model_Utility Model_Template Model_World Model_Minimizer.
Import ListNotations.
Local Open Scope R_scope.

(** Calls of matplotlib:
    [DHist layers es]: ax.hist(x, weights, bins=es, stacked=True), one pair (x, weights) per data set;
    [DHist2 xs ys ws ex ey]: ax.hist2d(xs, ys, weights=ws, bins=[ex, ey]);
    [DBars x height width bottom]: ax.bar; [DPoints x y yerr]: ax.errorbar. *)
Inductive drawing : Type :=
  | DHist (layers : list (list R * list xr)) (es : list R)
  | DHist2 (xs ys : list R) (ws : list xr) (ex ey : list R)
  | DBars (x : list R) (height : list xr) (width : list R) (bottom : list xr)
  | DPoints (x : list R) (y yerr : list xr).

Inductive pexn : Type := Py (e : exn) | NotImplementedError | UnboundLocalError.
Inductive pres (A : Type) : Type := POk (a : A) | PErr (e : pexn).
Arguments POk {A} a.
Arguments PErr {A} e.

(** State (the caches of the channels), drawings made so far, result or exception *)
Definition P (A : Type) : Type := world -> (world * list drawing) * pres A.
Definition pret {A} (a : A) : P A := fun w => ((w, []), POk a).
Definition praise {A} (e : pexn) : P A := fun w => ((w, []), PErr e).
Definition pbind {A B} (m : P A) (k : A -> P B) : P B :=
  fun w => match m w with
           | ((w1, d1), POk a) => let '((w2, d2), r) := k a w1 in ((w2, d1 ++ d2), r)
           | ((w1, d1), PErr e) => ((w1, d1), PErr e)
           end.
Notation "x <== e ;;; k" := (pbind e (fun x => k)) (at level 61, e at next level, right associativity).
Definition pm {A} (m : M A) : P A :=
  fun w => match m w with (w', Ok a) => ((w', []), POk a) | (w', Err e) => ((w', []), PErr (Py e)) end.
Definition pl {A} (r : res A) : P A := pm (lift r).
Definition draw (d : drawing) : P unit := fun w => ((w, [d]), POk tt).

(** ax.hist: ValueError if the weights of a data set have another length than its x.  Edges that do not increase
    strictly are not modelled. *)
Definition ax_hist (layers : list (list R * list xr)) (es : list R) : P unit :=
  if negb (forallb (fun l => Nat.eqb (length (fst l)) (length (snd l))) layers) then praise (Py ValueError)
  else if Nat.ltb (length es) 2 || negb (strictly_increasing es) then praise (Py OutOfModel)
  else draw (DHist layers es).
Definition ax_hist2d (xs ys : list R) (ws : list xr) (ex ey : list R) : P unit :=
  if negb (Nat.eqb (length xs) (length ys) && Nat.eqb (length xs) (length ws)) then praise (Py ValueError)
  else if Nat.ltb (length ex) 2 || Nat.ltb (length ey) 2 || negb (strictly_increasing ex)
          || negb (strictly_increasing ey) then praise (Py OutOfModel)
  else draw (DHist2 xs ys ws ex ey).
(** ax.bar and ax.errorbar with arrays of equal length (broadcasting is not modelled) *)
Definition ax_bar (x : list R) (height : list xr) (width : list R) (bottom : list xr) : P unit :=
  if Nat.eqb (length height) (length x) && Nat.eqb (length width) (length x) && Nat.eqb (length bottom) (length x)
  then draw (DBars x height width bottom) else praise (Py OutOfModel).
Definition ax_errorbar (x : list R) (y yerr : list xr) : P unit :=
  if Nat.eqb (length y) (length x) && Nat.eqb (length yerr) (length x)
  then draw (DPoints x y yerr) else praise (Py OutOfModel).

(** the bar of height 2 * errors that starts at values - errors *)
Definition band (mids : list R) (widths : list R) (values errors : list xr) : P unit :=
  bottom <== pl (bcast xsub values errors) ;;;
  ax_bar mids (map (xmul (Fin 2)) errors) widths bottom.

(** the edge array of a Hist1d *)
Definition edges1 (h : hist) : P edges := match h_edges h with [e] => pret e | _ => praise (Py OutOfModel) end.

(** template1d.py:64-88 Template1d.plot_on *)
Definition t1_plot_on (tid : nat) : P unit :=
  t <== pm (get_tmpl tid) ;;;
  h <== pm (get_hist (t_hist t)) ;;;
  e <== edges1 h ;;;
  mids <== pl (bin_mids e) ;;;
  vs <== pl (t_values t) ;;;
  _ <== ax_hist [(mids, vs)] (e_vals e) ;;;
  er <== pl (t_errors t) ;;;
  wd <== pl (bin_widths e) ;;;
  band mids wd vs er.

(** template2d.py:62-89 Template2d.plot_on: the cell centres are itertools.product(x mids, y mids) *)
Definition t2_plot_on (tid : nat) : P unit :=
  t <== pm (get_tmpl tid) ;;;
  h <== pm (get_hist (t_hist t)) ;;;
  match h_edges h with
  | [ex; ey] =>
      xe <== pl (bin_mids ex) ;;;
      ye <== pl (bin_mids ey) ;;;
      vs <== pl (t_values t) ;;;
      ax_hist2d (map fst (list_prod xe ye)) (map snd (list_prod xe ye)) vs (e_vals ex) (e_vals ey)
  | _ => praise (Py OutOfModel)
  end.

(** template2d.py:91-134 plot_x_projection_on, plot_y_projection_on and _plot_projection *)
Definition t2_plot_projection_on (axis_x : bool) (tid : nat) : P unit :=
  t <== pm (get_tmpl tid) ;;;
  h <== pm (get_hist (t_hist t)) ;;;
  match t_bins t with
  | [nx; ny] =>
      let reduce := if axis_x then sum_axis1 nx ny else sum_axis0 nx ny in
      v <== pl (t_values t) ;;;
      er <== pl (t_errors t) ;;;
      let values := reduce v in
      let errors := map xsqrt (reduce (map xsq er)) in
      p <== pl (hist2_projection axis_x h) ;;;
      e <== edges1 p ;;;
      mids <== pl (bin_mids e) ;;;
      _ <== ax_hist [(mids, values)] (e_vals e) ;;;
      wd <== pl (bin_widths e) ;;;
      band mids wd values errors
  | _ => praise (Py OutOfModel)
  end.

(** list comprehensions over the templates of a channel *)
Definition each_template {A} (c : chan) (f : tmpl -> hist -> res A) : P (list A) :=
  pm (mapM (fun p => t <- get_tmpl (snd p) ;;; h <- get_hist (t_hist t) ;;; lift (f t h)) (c_tmpls c)).
Definition only_edges {A} (f : edges -> res A) (h : hist) : res A :=
  match h_edges h with [e] => f e | _ => Err OutOfModel end.

(** channel.py:211-241 and 281-311: the common first part of the two methods.  [None > 1] raises TypeError if the
    channel has no template.  Returns the mids and widths of the first template and the values of all. *)
Definition plot_stack (c : chan) : P (list R * list R * list (list xr)) :=
  match c_dim c with
  | None => praise (Py TypeError)
  | Some d =>
      if Nat.ltb 1 d then praise NotImplementedError
      else
        mids <== each_template c (fun t h => only_edges bin_mids h) ;;;
        es <== each_template c (fun t h => only_edges Ok h) ;;;
        match es, mids with
        | e :: _, m0 :: _ =>
            wd <== pl (bin_widths e) ;;;
            vs <== each_template c (fun t h => t_values t) ;;;
            _ <== ax_hist (combine mids vs) (e_vals e) ;;;
            pret (m0, wd, vs)
        | _, _ => praise (Py OutOfModel)
        end
  end.

(** channel.py:261-278 and 335-352: the data points *)
Definition plot_data (c : chan) : P unit :=
  match c_data c with
  | None => pret tt
  | Some hid =>
      h <== pm (get_hist hid) ;;;
      e <== edges1 h ;;;
      mids <== pl (bin_mids e) ;;;
      ax_errorbar mids (nd_flat (h_counts h)) (map xsqrt (nd_flat (h_errs_sq h)))
  end.

(** channel.py:209-278 plot_stacked_on.  np.array of lists of different lengths is not modelled (see [vec_sum]). *)
Definition plot_stacked_on (cid : nat) : P unit :=
  c <== pm (get_chan cid) ;;;
  s <== plot_stack c ;;;
  let '(mids, wd, vs) := s in
  ers <== each_template c (fun t h => t_errors t) ;;;
  _ <== band mids wd (vec_sum vs) (map xsqrt (vec_sum (map (map xsq) ers))) ;;;
  plot_data c.

Inductive post_fit_option : Type := UPropagate | UScale | UOther.

(** all rows have the same length: the matrix is a numpy array of numbers *)
Definition rectangular (m : mat) : bool :=
  match m with [] => true | r :: m' => forallb (fun q => Nat.eqb (length q) (length r)) m' end.

Section Jac.
  (** numdifftools.Jacobian(f)(x): an arbitrary matrix of the right shape *)
  Variable jac : list xr -> mat.

  (** channel.py:313-319.  The function differentiated is evaluated (at x and at points of the same length, where it
      raises in the same way); with an unknown option post_fit_errors is not assigned.  [jac @ covariance @ jac.T]
      (channel.py:190) raises ValueError if the covariance is not of shape (len(values), len(values)). *)
  Definition post_fit_errors (cid : nat) (c : chan) (rp : pars) (opt : post_fit_option) : P (list xr) :=
    match opt with
    | UPropagate =>
        f <== pm (bin_counts_from_param_values cid (p_values rp)) ;;;
        let np := length (p_values rp) in
        if square np (p_cov rp)
        then pret (get_post_fit_bin_uncertainty (length f) np (jac (p_values rp)) (p_cov rp))
        else praise (Py (if rectangular (p_cov rp) then ValueError else OutOfModel))
    | UScale =>
        pre <== each_template c (fun t h => t_errors t) ;;;
        pl (scaled_post_fit_errors (p_errors rp) pre)
    | UOther => praise UnboundLocalError
    end.

  (** channel.py:280-352 plot_post_fit_stacked_on *)
  Definition plot_post_fit_stacked_on (cid : nat) (rp : pars) (opt : post_fit_option) : P unit :=
    c <== pm (get_chan cid) ;;;
    s <== plot_stack c ;;;
    let '(mids, wd, vs) := s in
    er <== post_fit_errors cid c rp opt ;;;
    _ <== band mids wd (vec_sum vs) er ;;;
    plot_data c.
End Jac.
