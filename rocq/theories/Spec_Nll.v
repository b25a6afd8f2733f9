(** Specification of the likelihood over real numbers. *)
From Coq Require Import Reals String ZArith Bool Arith List.
From Verif Require Import Model_Num Model_Hist Model_Utility Model_Template Model_World Model_Ops Spec_Matrix Spec_Template Spec_World.
Import ListNotations.
Local Open Scope R_scope.

(** What the likelihood of one channel depends on: number of bins and templates and, for template number
    k and bin b, the yield and efficiency of its process, the counts, covariance matrix, nuisance
    parameters and inverse correlation matrix; the data per bin. *)
Record cview : Type := mk_cview {
  v_nb : nat; v_nt : nat;
  v_yield : nat -> R; v_eff : nat -> R;
  v_cnt : nat -> nat -> R; v_cov : nat -> nat -> nat -> R;
  v_th : nat -> nat -> R; v_prec : nat -> nat -> nat -> R;
  v_data : nat -> R }.

(** nu_b (1 + theta_b eps_b) of template number k, and their sum over the bins *)
Definition v_varied (v : cview) (k b : nat) : R :=
  v_cnt v k b * (1 + v_th v k b * rel_error (v_cov v k) (v_cnt v k) b).
Definition v_total (v : cview) (k : nat) : R := sumn (v_nb v) (v_varied v k).
(** expected number of events in bin b *)
Definition expected (v : cview) (b : nat) : R :=
  sumn (v_nt v) (fun k => v_yield v k * v_eff v k * (v_varied v k b / v_total v k)).
Definition poisson_term (n nu : R) : R := nu - n - (if Req_EM_T n 0 then 0 else n * ln (nu / n)).
Definition channel_nll (v : cview) : R :=
  sumn (v_nb v) (fun b => poisson_term (v_data v b) (expected v b)) +
  / 2 * sumn (v_nt v) (fun k => quad (v_nb v) (v_prec v k) (v_th v k)).

(** The parameter vector x in state w and the data give the view v of channel number i. *)
Definition reads (w : world) (x : nat -> R) (i : nat) (v : cview) : Prop :=
  exists n c, channel_at w i n c /\ v_nb v = bins_of c /\ v_nt v = length (c_tmpls c) /\
    (forall k p tid t, template_at w c k p tid t ->
       (exists q, nth_error (w_procs w) q = Some p /\ v_yield v k = x (yield_pos q)) /\
       nth_error (c_effs c) k = Some (p, v_eff v k) /\
       (exists e covs, error_state t (v_nb v) (v_cnt v k) e covs /\
          forall a b, v_cov v k a b = msum (stat_cov_of e :: covs) a b) /\
       inverse_of (v_nb v) (correlation (v_cov v k)) (v_prec v k) /\
       (forall b, (b < v_nb v)%nat -> v_th v k b = x (nui_pos w i c k b))) /\
    (exists hid h, c_data c = Some hid /\ nth_error (w_hists w) hid = Some h /\
       nd_flat (h_counts h) = vec_of (v_nb v) (v_data v)).

(** Where the likelihood is a number: there are bins and templates, no template vanishes, and bins with
    data have a positive expectation (the code treats counts below 1e-100 as zero). *)
Definition in_domain (v : cview) : Prop :=
  (0 < v_nb v)%nat /\ (0 < v_nt v)%nat /\
  (forall k, (k < v_nt v)%nat -> v_total v k <> 0) /\
  (forall b, (b < v_nb v)%nat -> v_data v b = 0 \/ (/ 10 ^ 100 <= v_data v b /\ 0 < expected v b)).

(** penalty term of a constraint on process p *)
Definition constraint_of (w : world) (x : nat -> R) (p : string) (r : R) : Prop :=
  exists q v e, nth_error (w_procs w) q = Some p /\ dget String.eqb (w_cvals w) p = Some v /\
    dget String.eqb (w_cerrs w) p = Some e /\ e <> 0 /\ r = (x (yield_pos q) - v) ^ 2 / (2 * e ^ 2).

Definition Rsum (l : list R) : R := fold_right Rplus 0 l.

(** The calls of a history with usable arguments: templates are made of histograms with finite contents
    and add_cov_mat gets covariance matrices.  (Everything else may fail in any way.) *)
Definition valid_call (w : world) (o : op) : Prop :=
  match o with
  | OTemplate _ _ hid => forall h, nth_error (w_hists w) hid = Some h -> exists n c e, contents_of h n c e
  | OAddCov _ m => exists n C, m = mat_of n C /\ symmetric n C /\ psd n C
  | _ => True
  end.
Fixpoint valid_history (inv : mat -> res mat) (w : world) (l : list op) : Prop :=
  match l with [] => True | o :: l' => valid_call w o /\ valid_history inv (fst (step inv o w)) l' end.
(** every channel has data with finite counts *)
Definition all_have_data (w : world) : Prop :=
  forall i n c, channel_at w i n c -> exists hid h d, c_data c = Some hid /\ nth_error (w_hists w) hid = Some h /\
    nd_flat (h_counts h) = vec_of (bins_of c) d.
