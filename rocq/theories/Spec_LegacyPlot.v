(** Specification for C81-C83: what a legacy template expects. *)
From Coq Require Import Reals String ZArith Bool Arith List.
From Verif Require Import Model_Num Model_Hist Model_Template Model_Legacy Spec_Hist Spec_Matrix Spec_Template Spec_Nll Spec_Legacy.
Import ListNotations.
Local Open Scope R_scope.

(** Template t with n bins, counts c, covariance matrix msum (stat_cov_of e :: covs), yield y and nuisance parameters th
    expects y times the fraction of the varied counts, with the error relative error times expectation. *)
Definition expects (w : gworld) (t n : nat) (v er : nat -> R) : Prop :=
  exists tm c e covs y th ye nue,
    nth_error (g_tmpls w) t = Some tm /\ lerrors tm n c e covs /\
    params_of w t = Some (mk_lparams (Fin y) ye (vec_of n th) nue) /\
    let eps := rel_error (msum (stat_cov_of e :: covs)) c in
    sumn n (varied c eps th) <> 0 /\
    forall b, (b < n)%nat -> v b = y * (varied c eps th b / sumn n (varied c eps th)) /\ er b = eps b * v b.

(** edge number i of n equal bins between lo and hi *)
Definition equal_edge (lo hi : R) (n i : nat) : R := lo + INR i * ((hi - lo) / INR n).
Definition equal_edges (lo hi : R) (n : nat) (es : list R) : Prop :=
  length es = S n /\ forall i, (i <= n)%nat -> nth i es 0 = equal_edge lo hi n i.
(** a histogram with n equal bins between lo and hi, the contents d and the errors er *)
Definition binned (lo hi : R) (n : nat) (h : hist) (d er : nat -> R) : Prop :=
  exists e, h_edges h = [e] /\ equal_edges lo hi n (e_vals e) /\ h_counts h = mk_nd [n] (vec_of n d) /\ bin_errors h = mk_nd [n] (vec_of n er).
