(** Property theorem C80: process_yield_errors. *)
From Coq Require Import Reals String ZArith Bool Arith List Lra Lia.
From Verif Require Import Model_Num Model_Hist Model_Template Model_World Model_Ops Model_YieldErr Spec_Hist Spec_Matrix Spec_Template Spec_World
  Proof_Matrix Proof_World Proof_Names Proof_Yield Proof_Eval Proof_Data Proof_Nll Proof_Route Proof_Update Proof_Plot2 Spec_Plot Prop_World Prop_Plot.
Import ListNotations.
Local Open Scope R_scope.

Lemma np_sum_sq n f : np_sum (map xsq (vec_of n f)) = Fin (sumn n (fun b => f b * f b)).
Proof.
  replace (map xsq (vec_of n f)) with (vec_of n (fun b => f b * f b)); [apply np_sum_vec|].
  unfold vec_of. rewrite map_map. apply map_ext. reflexivity.
Qed.
Lemma firstn_S_nth {A} (l : list A) : forall m x, nth_error l m = Some x -> firstn (S m) l = firstn m l ++ [x].
Proof. induction l as [|a l IH]; intros [|m] x H; try discriminate; [injection H as <-; reflexivity|]. cbn [firstn app]. f_equal. apply IH. exact H. Qed.
Lemma yield_error_sq_value w p e : WF w ->
  (forall i n c, channel_at w i n c ->
     (~ In p (map fst (c_tmpls c)) /\ e i = 0) \/
     exists k tid t s, template_at w c k p tid t /\ t_errors t = Ok (vec_of (bins_of c) s) /\ e i = sumn (bins_of c) (fun b => s b * s b)) ->
  yield_error_sq w p = Ok (Fin (sumn (length (w_channels w)) e)).
Proof.
  intros W H. rewrite <- (chans_length w W). unfold yield_error_sq.
  set (f := fun (acc : res xr) (c : chan) => _).
  assert (X : forall m, (m <= length (mct_chans w))%nat -> fold_left f (firstn m (mct_chans w)) (Ok (Fin 0)) = Ok (Fin (sumn m e))).
  { induction m as [|m IH]; intros L; [reflexivity|]. destruct (nth_error (mct_chans w) m) as [c|] eqn:C; [|apply nth_error_None in C; lia].
    rewrite (firstn_S_nth _ _ _ C), fold_left_app, IH by lia. cbn [fold_left]. unfold f. cbn [rbind sumn].
    destruct (chans_channel_at w m c W C) as (n & CA). pose proof (chan_ok_in w c W (nth_error_In _ _ C)) as O.
    destruct (H m n c CA) as [[N ->]|(k & tid & t & s & (T1 & T2) & E & ->)].
    - destruct (dget String.eqb (c_tmpls c) p) as [tid|] eqn:D; [|f_equal; f_equal; lra]. exfalso. apply N. apply dget_In in D. apply (in_map fst) in D. exact D.
    - rewrite (dget_nth (c_tmpls c) k p tid) by (auto; rewrite (co_keys _ _ _ _ O); apply (co_nodup _ _ _ _ O)). rewrite T2, E. cbn [rbind]. rewrite np_sum_sq. reflexivity. }
  rewrite <- (firstn_all (mct_chans w)) at 1. apply X. lia.
Qed.

(** For every process: the root of the sum over all channels that have a template of it (number i contributes e i) and
    over all bins of the squared errors which the property [errors] of the template shows. *)
Theorem C80_process_yield_errors : forall inv l, inv_spec inv -> let w := reached inv l in
  forall E : nat -> nat -> R,
  (forall q p i n c, nth_error (w_procs w) q = Some p -> channel_at w i n c ->
     (~ In p (map fst (c_tmpls c)) /\ E q i = 0) \/
     exists k tid t s, template_at w c k p tid t /\ t_errors t = Ok (vec_of (bins_of c) s) /\ E q i = sumn (bins_of c) (fun b => s b ^ 2)) ->
  process_yield_errors w = Ok (vec_of (length (w_procs w)) (fun q => sqrt (sumn (length (w_channels w)) (E q)))).
Proof.
  intros inv l IS w E H. pose proof (reached_wf inv l IS) as W. fold w in W. unfold process_yield_errors.
  assert (X : mapr (yield_error_sq w) (w_procs w) = Ok (vec_of (length (w_procs w)) (fun q => sumn (length (w_channels w)) (E q)))).
  { unfold vec_of. apply (mapr_nth (yield_error_sq w) (w_procs w) (fun q => Fin (sumn (length (w_channels w)) (E q)))). intros q p Q. apply yield_error_sq_value; [exact W|]. intros i n c C. destruct (H q p i n c Q C) as [A|(k & tid & t & s & A & B & D)]; [left; exact A|].
    right. exists k, tid, t, s. split; [exact A|]. split; [exact B|]. rewrite D. apply sumn_ext. intros b _. ring. }
  rewrite X. cbn [rbind]. f_equal. apply map_xsqrt_vec. intros q L. destruct (nth_error (w_procs w) q) as [p|] eqn:Q; [|apply nth_error_None in Q; lia].
  apply sumn_nonneg. intros i LI. destruct (nth_error (mct_chans w) i) as [c|] eqn:C; [|apply nth_error_None in C; rewrite chans_length in C by exact W; lia].
  destruct (chans_channel_at w i c W C) as (n & CA). destruct (H q p i n c Q CA) as [[_ ->]|(k & tid & t & s & _ & _ & ->)]; [lra|].
  apply sumn_nonneg. intros b _. apply pow2_ge_0.
Qed.
Print Assumptions C80_process_yield_errors.

(** a concrete case: one channel, two processes, two bins with errors 1 *)
Example C80_example : forall inv, inv_spec inv -> process_yield_errors (reached inv (ex_plot_ops 1)) = Ok (vec_of 2 (fun _ => sqrt 2)).
Proof.
  intros inv IS. destruct (ex_plot_state inv 1 ltac:(lra) ltac:(lra)) as (c & A & C & P & _ & NT & B & _ & T & _).
  pose proof (C80_process_yield_errors inv (ex_plot_ops 1) IS (fun q i => match i with O => 2 | _ => 0 end)) as Q. cbv zeta in Q. rewrite P in Q.
  assert (LC : length (w_channels (reached inv (ex_plot_ops 1))) = 1%nat).
  { clear. unfold reached, world_init, ex_plot_ops, ex_binned. do 10 run_step. reflexivity. }
  rewrite LC in Q. rewrite Q.
  - f_equal. cbn [length]. apply vec_of_ext. intros i _. cbn [sumn]. f_equal. ring.
  - clear Q. intros q p i n c' QP CA. destruct CA as (cid & CA & CC). assert (i = 0%nat) by (assert (i < 1)%nat; [rewrite <- LC; apply nth_error_Some; congruence|lia]). subst i.
    rewrite A in CA. injection CA as <- <-. rewrite C in CC. injection CC as <-. right.
    assert (TK : forall k p', nth_error ["s"; "b"]%string k = Some p' -> exists tid, nth_error (c_tmpls c) k = Some (p', tid)).
    { clear - C. revert C. unfold reached, world_init, ex_plot_ops, ex_binned. do 10 run_step. intros C. injection C as <-.
      intros [|[|k]] p' K; [injection K as <-; eexists; reflexivity|injection K as <-; eexists; reflexivity|destruct k; discriminate K]. }
    destruct (TK q p QP) as (tid & K). destruct (T q p tid K) as (t & h & T1 & _ & _ & _ & T2). exists q, tid, t, (fun _ => 1). rewrite B.
    split; [split; assumption|]. split; [exact T2|]. cbn [sumn]. ring.
Qed.
