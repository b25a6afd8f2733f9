(** Specification for the legacy templates and their likelihood (C62, C64, C65, C71-C75). *)
From Coq Require Import Reals String ZArith Bool Arith List.
From Verif Require Import Model_Num Model_Hist Model_Utility Model_Template Model_World Model_Legacy
  Spec_Hist Spec_Matrix Spec_Template Spec_Nll.
Import ListNotations.
Local Open Scope R_scope.

(** ** What a user sees of a template: value and error of the yield, values and errors of the nuisance parameters. *)
Record lparams : Type := mk_lparams { p_yield : xr; p_yield_err : xr; p_nui : list xr; p_nui_err : list xr }.
Definition params_of (w : gworld) (t : nat) : option lparams :=
  match nth_error (g_tmpls w) t with
  | None => None
  | Some tm => Some (mk_lparams (y_val (lt_yield tm)) (y_err (lt_yield tm))
                       (aread w (n_val (lt_nui tm))) (aread w (n_err (lt_nui tm))))
  end.

(** In-place writes of a polite user do not go into the arrays which the constructors of templates made for the
    nuisance parameters and their errors (nui_param_values returns the array itself, not a copy). *)
Definition polite_call (w : gworld) (o : gop) : Prop :=
  match o with
  | GWrite a _ _ => forall tm, In tm (g_tmpls w) ->
      a_buf a <> a_buf (n_orig (lt_nui tm)) /\ a_buf a <> a_buf (n_orig_err (lt_nui tm))
  | _ => True
  end.
Fixpoint polite (inv : mat -> res mat) (w : gworld) (l : list gop) : Prop :=
  match l with [] => True | o :: l' => polite_call w o /\ polite inv (fst (gstep inv w o)) l' end.

(** ** Containers *)
(** template object number k of container s *)
Definition member (w : gworld) (s k : nat) (t : nat) : Prop :=
  exists st, nth_error (g_stacks w) s = Some st /\ nth_error (map snd (ls_dict st)) k = Some t.
(** number of templates in container s *)
Definition num_members (w : gworld) (s n : nat) : Prop :=
  exists st, nth_error (g_stacks w) s = Some st /\ length (ls_dict st) = n.
(** no template object has been added under two ids *)
Definition no_template_twice (w : gworld) (s : nat) : Prop :=
  forall st, nth_error (g_stacks w) s = Some st -> NoDup (map snd (ls_dict st)).
(** part of a list *)
Definition part {A} (from len : nat) (l : list A) : list A := firstn len (skipn from l).

(** ** Errors of a template: n bins with counts c, squared errors e and the added covariance matrices covs *)
Definition lerrors (t : ltmpl) (n : nat) (c e : nat -> R) (covs : list (nat -> nat -> R)) : Prop :=
  let cov := msum (stat_cov_of e :: covs) in
  lt_nb t = n /\ lt_counts t = vec_of n c /\ lt_errs_sq t = vec_of n e /\
  lt_cov t = mat_of n cov /\ symmetric n cov /\ posdef n cov /\
  lt_corr t = mat_of n (correlation cov) /\
  (exists P, lt_inv t = mat_of n P /\ inverse_of n (correlation cov) P) /\
  lt_rel t = vec_of n (rel_error cov c).

(** Histories in which only covariance matrices are added (symmetric, positive semidefinite, of any shape). *)
Definition valid_gcall (o : gop) : Prop :=
  match o with GAddCov _ m => exists n C, m = mat_of n C /\ symmetric n C /\ psd n C | _ => True end.

(** ** The likelihood
    The formula is the one of Spec_Nll.v ([channel_nll]) with all efficiencies 1.  [lreads w s d x v]: the parameter
    vector x (yields, then the nuisance parameters of one template after the other), the templates of container s and
    the dataset number d give the view v. *)
Definition lreads (w : gworld) (s d : nat) (x : nat -> R) (v : cview) : Prop :=
  exists st h, nth_error (g_stacks w) s = Some st /\ v_nt v = length (ls_dict st) /\
    nth_error (g_hists w) d = Some h /\ nd_flat (h_counts h) = vec_of (v_nb v) (v_data v) /\
    forall k t tm, member w s k t -> nth_error (g_tmpls w) t = Some tm ->
      v_yield v k = x k /\ v_eff v k = 1 /\
      (exists e covs, lerrors tm (v_nb v) (v_cnt v k) e covs /\
         forall a b, v_cov v k a b = msum (stat_cov_of e :: covs) a b) /\
      forall b, (b < v_nb v)%nat -> v_th v k b = x (v_nt v + (k * v_nb v + b))%nat.

(** The matrices of the penalty terms in v are the inverse correlation matrices of the templates of container s in
    state w. *)
Definition lprecisions (w : gworld) (s : nat) (v : cview) : Prop :=
  num_members w s (v_nt v) /\
  forall k t tm, member w s k t -> nth_error (g_tmpls w) t = Some tm ->
    exists c e covs, lerrors tm (v_nb v) c e covs /\
      inverse_of (v_nb v) (correlation (msum (stat_cov_of e :: covs))) (v_prec v k).

(** there are bins and templates and no template vanishes *)
Definition ldomain (v : cview) : Prop :=
  (0 < v_nb v)%nat /\ (0 < v_nt v)%nat /\ forall k, (k < v_nt v)%nat -> v_total v k <> 0.

(** the same view with other matrices in the penalty term *)
Definition with_precisions (v : cview) (P : nat -> nat -> nat -> R) : cview :=
  mk_cview (v_nb v) (v_nt v) (v_yield v) (v_eff v) (v_cnt v) (v_cov v) (v_th v) P (v_data v).
