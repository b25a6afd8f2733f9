(** Property theorems C36, C37: the value of the negative log likelihood. *)
From Coq Require Import Reals String Ascii ZArith Bool Arith List Lra Lia.
From Verif Require Import Model_Num Model_Hist Model_Utility Model_Template Model_World Model_Ops
  Spec_Matrix Spec_Template Spec_World Spec_Nll Proof_Hist Proof_Matrix Proof_Linear Proof_Utility Proof_Template Proof_HistHeap Proof_Monad Proof_World
  Proof_Eval Proof_Route Proof_Names Proof_Update Proof_Yield Proof_Nll Proof_Valid Prop_World Prop_Params.
Import ListNotations.
Local Open Scope R_scope.

(** C36: let the vector x of num_params numbers and the state determine the views vs of the channels
    and the constraint terms ts.  Then the likelihood is the number given in Spec_Nll. *)
Theorem C36_nll_value : forall inv l x vs ts, inv_spec inv -> built_then_used l -> let w := reached inv l in
  w_channels w <> [] -> length vs = length (w_channels w) ->
  (forall i v, nth_error vs i = Some v -> reads w x i v /\ in_domain v) ->
  Forall2 (constraint_of w x) (w_cnames w) ts ->
  exists w', nll (vec_of (num_params w) x) w = (w', Ok (Fin (Rsum (map channel_nll vs) + Rsum ts))).
Proof.
  intros inv l x vs ts I B w NE L V C. assert (W : WF w) by now apply reached_wf. assert (K : coh w) by now apply built_coh.
  destruct (pure_nll w (vec_of (num_params w) x) w (po_refl _ core_po w) K) as (w' & E & _). exists w'. rewrite E. f_equal. now apply nll_real.
Qed.
Print Assumptions C36_nll_value.

(** The views exist after every history with usable arguments in which all channels got data, and they
    determine the likelihood: channel_nll does not depend on which view is taken. *)
Theorem C36_views_exist : forall inv l x, inv_spec inv -> valid_history inv world_init l -> let w := reached inv l in
  all_have_data w ->
  exists vs, length vs = length (w_channels w) /\ forall i v, nth_error vs i = Some v -> reads w x i v.
Proof. intros inv l x I V w D. apply views_exist; auto; [now apply reached_wf|now apply vi_reached]. Qed.
Print Assumptions C36_views_exist.

(** C37, first part: no negative values where the expectations are not negative. *)
Theorem C37_nll_nonneg : forall inv l x vs ts, inv_spec inv -> built_then_used l -> let w := reached inv l in
  w_channels w <> [] -> length vs = length (w_channels w) ->
  (forall i v, nth_error vs i = Some v -> reads w x i v /\ in_domain v /\ forall b, (b < v_nb v)%nat -> 0 <= expected v b) ->
  Forall2 (constraint_of w x) (w_cnames w) ts ->
  exists w' r, nll (vec_of (num_params w) x) w = (w', Ok (Fin r)) /\ 0 <= r.
Proof.
  intros inv l x vs ts I B w NE L V C. assert (W : WF w) by now apply reached_wf.
  destruct (C36_nll_value inv l x vs ts I B NE L) as (w' & E); auto; [intros i v H; destruct (V i v H) as (? & ? & _); auto|]. fold w in E.
  exists w'. eexists. split; [exact E|].
  assert (P1 : 0 <= Rsum (map channel_nll vs)).
  { assert (Q : forall v, In v vs -> 0 <= channel_nll v).
    { intros v H. apply In_nth_error in H as (i & H). destruct (V i v H) as (V1 & V2 & V3). eapply channel_nonneg; eauto. }
    clear -Q. induction vs as [|v vs IH]; simpl; [lra|]. pose proof (Q v (or_introl eq_refl)). assert (0 <= Rsum (map channel_nll vs)) by (apply IH; intros; apply Q; now right). lra. }
  assert (P2 : 0 <= Rsum ts).
  { clear -C. induction C as [|p r ps rs (q & v & e & _ & _ & _ & E0 & ->) _ IH]; unfold Rsum in *; cbn [fold_right]; [lra|].
    assert (0 <= (x (yield_pos q) - v) ^ 2) by apply pow2_ge_0. assert (0 < e ^ 2) by (pose proof (Rsqr_pos_lt e E0); unfold Rsqr in *; nra). assert (0 <= (x (yield_pos q) - v) ^ 2 / (2 * e ^ 2)).
    { apply Rle_mult_inv_pos; auto. lra. } lra. }
  lra.
Qed.
Print Assumptions C37_nll_nonneg.

(** C37, second part, for one channel: with zero nuisance parameters and data equal to the expectation
    the contribution is zero. *)
Lemma zero_at_expectation v : (forall k b, (k < v_nt v)%nat -> (b < v_nb v)%nat -> v_th v k b = 0) ->
  (forall b, (b < v_nb v)%nat -> v_data v b = expected v b) -> channel_nll v = 0.
Proof.
  intros T D. unfold channel_nll. rewrite sumn_zero, sumn_zero; [lra| |].
  - intros k Hk. unfold quad. apply sumn_zero. intros a Ha. apply sumn_zero. intros b Hb. rewrite T by auto. ring.
  - intros b Hb. unfold poisson_term. rewrite D by auto. destruct (Req_EM_T (expected v b) 0) as [E|E]; [lra|].
    unfold Rdiv. rewrite Rinv_r by auto. rewrite ln_1. ring.
Qed.
