(** Specification of templates over real numbers. *)
From Coq Require Import Reals String ZArith Bool Arith List.
From Verif Require Import Model_Num Model_Hist Model_Template Spec_Matrix.
Import ListNotations.
Local Open Scope R_scope.

(** The histogram h has n bins with the finite counts c and squared errors e >= 0. *)
Definition contents_of (h : hist) (n : nat) (c e : nat -> R) : Prop :=
  n = nprod (h_num_bins h) /\ n = nprod (h_shape h) /\
  nd_flat (h_counts h) = vec_of n c /\ nd_flat (h_errs_sq h) = vec_of n e /\
  forall i, (i < n)%nat -> 0 <= e i.

(** statistical covariance: squared errors on the diagonal, 1e-14 for bins without error *)
Definition stat_cov_of (e : nat -> R) (i j : nat) : R :=
  if Nat.eqb i j then (if Req_EM_T (e i) 0 then / 10 ^ 14 else e i) else 0.

(** sum of a list of matrices *)
Definition msum (l : list (nat -> nat -> R)) (i j : nat) : R := fold_right (fun A s => A i j + s) 0 l.

(** correlation matrix of a covariance matrix *)
Definition correlation (A : nat -> nat -> R) (i j : nat) : R := A i j / (sqrt (A i i) * sqrt (A j j)).

(** relative error of bin i: 1e-7 for empty bins *)
Definition rel_error (A : nat -> nat -> R) (c : nat -> R) (i : nat) : R :=
  if Req_EM_T (c i) 0 then / 10 ^ 7 else sqrt (A i i) / c i.

(** The error state of template t: n bins with counts c and squared errors e, to which the covariance
    matrices [covs] have been added in this order. *)
Definition error_state (t : tmpl) (n : nat) (c e : nat -> R) (covs : list (nat -> nat -> R)) : Prop :=
  let cov := msum (stat_cov_of e :: covs) in
  t_nb t = n /\ t_counts t = vec_of n c /\ t_errs_sq t = vec_of n e /\
  t_cov_mats t = map (mat_of n) (stat_cov_of e :: covs) /\
  t_cov t = mat_of n cov /\ symmetric n cov /\ posdef n cov /\
  t_corr t = mat_of n (correlation cov) /\
  (exists P, t_inv t = mat_of n P /\ inverse_of n (correlation cov) P) /\
  t_rel t = vec_of n (rel_error cov c).

(** varied bin content nu_i (1 + theta_i eps_i) *)
Definition varied (c eps th : nat -> R) (i : nat) : R := c i * (1 + th i * eps i).

From Verif Require Import Spec_Hist.
(** C is the covariance matrix of a variation of a template with counts c in the bins es: the events xs
    with the weights [wup] and [wdown] give the contents up and down of the bins, and C is the outer
    product of the symmetrised differences with the sign of up - down. *)
Definition variation_cov (es : list R) (c : nat -> R) (xs : list R) (wup wdown : weights)
    (C : nat -> nat -> R) : Prop :=
  exists up down d,
    (forall i, (S i < length es)%nat ->
       wsum (in_bin es i) (events1 xs wup) (up i) /\ wsum (in_bin es i) (events1 xs wdown) (down i) /\
       Rabs (d i) = (Rabs (up i - c i) + Rabs (down i - c i)) / 2 /\
       (down i <= up i -> 0 <= d i) /\ (up i < down i -> d i <= 0)) /\
    forall i j, (S i < length es)%nat -> (S j < length es)%nat -> C i j = d i * d j.

(** n equal bins from lo to hi *)
Definition uniform_edges (lo hi : R) (n : nat) : list R :=
  map (fun i => lo + INR i * ((hi - lo) / INR n)) (seq 0 (S n)).

(** Operations on a template: add_cov_mat, add_variation, assignments to params, yield_param and
    nui_params, and reset while the histogram object of the template is h. *)
Inductive t_op : Type :=
  | TCov (C : nat -> nat -> R) | TVar (d : vdata) (up down : weights)
  | TParams (v : pyval) | TYield (v : pyval) | TNui (v : pyval) | TReset (h : hist).

Definition t_do (inv : mat -> res mat) (t : tmpl) (o : t_op) : tmpl * res unit :=
  match o with
  | TCov C => t_add_cov_mat inv t (mat_of (t_nb t) C)
  | TVar d up down => t_add_variation inv t d up down
  | TParams v => params_setter t v
  | TYield v => yield_setter t v
  | TNui v => nui_setter t v
  | TReset h => (t_reset t h, Ok tt)
  end.

(** A sequence of operations with their results; exceptions are caught and the sequence goes on. *)
Fixpoint t_run (inv : mat -> res mat) (t : tmpl) (l : list t_op) : tmpl * list (t_op * res unit) :=
  match l with
  | [] => (t, [])
  | o :: l' => let '(t1, r) := t_do inv t o in
               let '(t2, rs) := t_run inv t1 l' in (t2, (o, r) :: rs)
  end.

(** [added lo hi n c log covs]: the calls in the log have added the matrices covs.  add_cov_mat never
    raises here; add_variation adds the covariance of the variation unless it raises. *)
Inductive added (lo hi : R) (n : nat) (c : nat -> R) : list (t_op * res unit) -> list (nat -> nat -> R) -> Prop :=
  | added_nil : added lo hi n c [] []
  | added_cov C l Cs : added lo hi n c l Cs -> added lo hi n c ((TCov C, Ok tt) :: l) (C :: Cs)
  | added_var xs up down C l Cs : variation_cov (uniform_edges lo hi n) c xs up down C ->
      added lo hi n c l Cs -> added lo hi n c ((TVar (D1 xs) up down, Ok tt) :: l) (C :: Cs)
  | added_var_raised d up down e l Cs : added lo hi n c l Cs -> added lo hi n c ((TVar d up down, Err e) :: l) Cs
  | added_params v r l Cs : added lo hi n c l Cs -> added lo hi n c ((TParams v, r) :: l) Cs
  | added_yield v r l Cs : added lo hi n c l Cs -> added lo hi n c ((TYield v, r) :: l) Cs
  | added_nui v r l Cs : added lo hi n c l Cs -> added lo hi n c ((TNui v, r) :: l) Cs
  | added_reset h l Cs : added lo hi n c l Cs -> added lo hi n c ((TReset h, Ok tt) :: l) Cs.

(** the matrices given to add_cov_mat are covariance matrices *)
Definition valid_covs (n : nat) (l : list t_op) : Prop :=
  Forall (fun o => match o with TCov C => symmetric n C /\ psd n C | _ => True end) l.
