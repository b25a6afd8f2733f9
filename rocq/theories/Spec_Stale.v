(** Vocabulary: evaluations in a fresh process, and what evaluations may change. *)
From Coq Require Import Reals String ZArith Bool Arith List.
From Verif Require Import Model_Num Model_Hist Model_Template Model_World Model_Ops Spec_World.
Import ListNotations.
Local Open Scope R_scope.

(** the same objects in a process in which nothing has been evaluated yet *)
Definition fresh (w : world) : world :=
  mk_world (w_hists w) (w_tmpls w) (w_chans w) (w_channels w) (w_procs w) (w_cnames w) (w_cvals w) (w_cerrs w) [] [] [].
(** histograms (hence data), templates, channels, processes and constraints are the same *)
Definition same_objects (w w' : world) : Prop :=
  w_hists w' = w_hists w /\ w_tmpls w' = w_tmpls w /\ w_chans w' = w_chans w /\ w_channels w' = w_channels w /\
  w_procs w' = w_procs w /\ w_cnames w' = w_cnames w /\ w_cvals w' = w_cvals w /\ w_cerrs w' = w_cerrs w.
(** the call fills histogram object hid *)
Definition fills_hist (hid : nat) (o : op) : Prop :=
  match o with OFill1 i _ _ => i = hid | OFill2 i _ _ _ => i = hid | _ => False end.

From Verif Require Import Spec_Matrix Spec_Template Spec_Nll.
(** v describes channel number i at the parameter vector x (as [reads] in Spec_Nll, without the data). *)
Definition describes (w : world) (x : nat -> R) (i : nat) (v : cview) : Prop :=
  exists n c, channel_at w i n c /\ v_nb v = bins_of c /\ v_nt v = length (c_tmpls c) /\
    (forall k p tid t, template_at w c k p tid t ->
       (exists q, nth_error (w_procs w) q = Some p /\ v_yield v k = x (yield_pos q)) /\
       nth_error (c_effs c) k = Some (p, v_eff v k) /\
       (exists e covs, error_state t (v_nb v) (v_cnt v k) e covs /\
          forall a b, v_cov v k a b = msum (stat_cov_of e :: covs) a b) /\
       inverse_of (v_nb v) (correlation (v_cov v k)) (v_prec v k) /\
       (forall b, (b < v_nb v)%nat -> v_th v k b = x (nui_pos w i c k b))).

(** v describes channel number i of state w at x (as [reads] in Spec_Nll), except that its precision
    matrices are those of the same template objects in the earlier state w1. *)
Definition reads_since (w1 w : world) (x : nat -> R) (i : nat) (v : cview) : Prop :=
  exists n c, channel_at w i n c /\ v_nb v = bins_of c /\ v_nt v = length (c_tmpls c) /\
    (forall k p tid t, template_at w c k p tid t ->
       (exists q, nth_error (w_procs w) q = Some p /\ v_yield v k = x (yield_pos q)) /\
       nth_error (c_effs c) k = Some (p, v_eff v k) /\
       (exists e covs, error_state t (v_nb v) (v_cnt v k) e covs /\
          forall a b, v_cov v k a b = msum (stat_cov_of e :: covs) a b) /\
       (exists t1 cnt1 e1 covs1, nth_error (w_tmpls w1) tid = Some t1 /\ error_state t1 (v_nb v) cnt1 e1 covs1 /\
          inverse_of (v_nb v) (correlation (msum (stat_cov_of e1 :: covs1))) (v_prec v k)) /\
       (forall b, (b < v_nb v)%nat -> v_th v k b = x (nui_pos w i c k b))) /\
    (exists hid h, c_data c = Some hid /\ nth_error (w_hists w) hid = Some h /\
       nd_flat (h_counts h) = vec_of (v_nb v) (v_data v)).
