(** Model of plot_on, generate_asimov_dataset and generate_toy_dataset of templatefitter/templates_legacy.py.
    [drawing] and [pres] are those of Model_Plot.v.  Colours and labels are not modelled. *)
From Coq Require Import Reals String ZArith Bool Arith List.
From Verif Require Import Model_Num Model_Hist Model_Utility Model_Template Model_World Model_Plot Model_Legacy.
Import ListNotations.
Local Open Scope R_scope.

(** the calls of matplotlib made so far and the result *)
Definition LD (A : Type) : Type := (list drawing * pres A)%type.
Definition ldo {A B} (m : LD A) (k : A -> LD B) : LD B :=
  match m with (d, POk a) => let '(d2, r) := k a in (d ++ d2, r) | (d, PErr e) => (d, PErr e) end.
Notation "x <+ e ;; k" := (ldo e (fun x => k)) (at level 61, e at next level, right associativity).
Definition lget {A} (r : res A) : LD A := match r with Ok a => ([], POk a) | Err e => ([], PErr (Py e)) end.
(** ax.hist as in Model_Plot.v *)
Definition l_hist (layers : list (list R * list xr)) (es : list R) : LD unit :=
  if negb (forallb (fun l => Nat.eqb (length (fst l)) (length (snd l))) layers) then ([], PErr (Py ValueError))
  else if Nat.ltb (length es) 2 || negb (strictly_increasing es) then ([], PErr (Py OutOfModel))
  else ([DHist layers es], POk tt).
(** ax.bar with one width for all bars *)
Definition l_bar (x : list R) (height : list xr) (width : R) (bottom : list xr) : LD unit :=
  if Nat.eqb (length height) (length x) && Nat.eqb (length bottom) (length x)
  then ([DBars x height (repeat width (length x)) bottom], POk tt) else ([], PErr (Py OutOfModel)).

(** (edges[1:] + edges[:-1]) / 2 and edges[1] - edges[0] (histogram_legacy.py:190-197, templates_legacy.py:398-399) *)
Definition l_mids (es : list R) : list R := map2 (fun b a => (b + a) / 2) (tl es) (removelast es).
Definition l_width (es : list R) : R := nth 1 es 0 - nth 0 es 0.
(** the edges of the private histogram of a template (histogram_legacy.py:245) *)
Definition lt_edges (t : ltmpl) : list R := np_linspace (fst (lt_limits t)) (snd (lt_limits t)) (lt_nb t + 1).

(** templates_legacy.py:256-274 Template.plot_on.  Line 269 [self.values - self.errors()] subtracts an array from a
    bound method: TypeError.  The arguments before it are evaluated first. *)
Definition lt_plot_on (w : gworld) (t : ltmpl) : LD unit :=
  v <+ lget (lt_values w t) ;;
  _ <+ l_hist [(l_mids (lt_edges t), v)] (lt_edges t) ;;
  _ <+ lget (lt_errors w t) ;;
  ([], PErr (Py TypeError)).

(** templates_legacy.py:515-557 StackedTemplate.plot_on; without templates not modelled *)
Definition ls_plot_on (w : gworld) (st : lstack) : LD unit :=
  let mids := l_mids (ls_edges st) in
  ts <+ lget (ls_templates w st) ;;
  vs <+ lget (mapr (lt_values w) ts) ;;
  _ <+ l_hist (map (fun v => (mids, v)) vs) (ls_edges st) ;;
  es <+ lget (mapr (lt_errors w) ts) ;;
  sq <+ lget (col_sums (map (map xsq) es)) ;;
  let err := map xsqrt sq in
  total <+ lget (col_sums vs) ;;
  bottom <+ lget (bcast xsub total err) ;;
  l_bar mids (map (xmul (Fin 2)) err) (l_width (ls_edges st)) bottom.

(** templates_legacy.py:276-297 Template.generate_asimov_dataset *)
Definition lt_asimov (w : gworld) (t : ltmpl) (integer_values : bool) : res hist :=
  v <- lt_values w t ;;
  hist1_from_binned (nd1 (if integer_values then map xrint v else v)) (mk_edges false (lt_edges t)) None.
(** templates_legacy.py:299-310 and 582-593 generate_toy_dataset; [draw] are the numbers of the random generator *)
Definition lt_toy (w : gworld) (t : ltmpl) (draw : list nat) : res hist :=
  v <- lt_values w t ;; d <- rvs draw v ;; hist1_from_binned (nd1 d) (mk_edges false (lt_edges t)) None.
Definition ls_toy (w : gworld) (st : lstack) (draw : list nat) : res hist :=
  v <- ls_values w st ;; d <- rvs draw v ;; hist1_from_binned (nd1 d) (mk_edges false (ls_edges st)) None.
