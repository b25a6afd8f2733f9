(** Proofs about the process pool: results do not depend on the schedule, and every schedule can be completed. *)
From Coq Require Import Reals String ZArith Bool Arith List Lra Lia.
From Verif Require Import Model_Num Model_Hist Model_Utility Model_Template Model_World Model_Ops Model_Minimizer Model_Fitter Proof_HistHeap Proof_Eval.
Import ListNotations.

Section Pool.
  Variable E : ext.
  Variable tasks : list task.
  (** the result of a task computed alone *)
  Definition task_value (t : task) : res xr := snd (play nll (profile_helper E t) (unpickled (tk_w t))).
  (** number of steps of a program *)
  Fixpoint steps {A} (p : prog A) (w : world) : nat :=
    match p with Stop _ => 1 | Ask x k => S (steps (k (snd (nll x w))) (fst (nll x w))) end.
  Definition task_steps (t : task) : nat := S (steps (profile_helper E t) (unpickled (tk_w t))).
  Definition worker_steps (v : worker) : nat := match v with Idle => 0 | Busy _ w p => steps p w end.
  Definition work (q : pool) : nat := (list_sum (map worker_steps (pl_workers q)) + list_sum (map task_steps (skipn (pl_next q) tasks)))%nat.

  Record pool_ok (q : pool) : Prop := {
    ok_len : length (pl_done q) = length tasks;
    ok_next : (pl_next q <= length tasks)%nat;
    ok_done : forall i r, nth_error (pl_done q) i = Some (Some r) -> exists t, nth_error tasks i = Some t /\ r = task_value t;
    ok_busy : forall j i w p, nth_error (pl_workers q) j = Some (Busy i w p) -> exists t, nth_error tasks i = Some t /\ snd (play nll p w) = task_value t;
    ok_cover : forall i, (i < pl_next q)%nat -> (exists r, nth_error (pl_done q) i = Some (Some r)) \/ exists j w p, nth_error (pl_workers q) j = Some (Busy i w p)
  }.
  Lemma pool_new_ok n : pool_ok (pool_new tasks n).
  Proof.
    split; simpl.
    - apply repeat_length.
    - lia.
    - intros i r H. apply nth_error_In in H. apply repeat_spec in H. discriminate.
    - intros j i w p H. apply nth_error_In in H. apply repeat_spec in H. discriminate.
    - intros i H. lia.
  Qed.
  Lemma list_sum_upd (f : worker -> nat) j a b l : nth_error l j = Some a -> (list_sum (map f (upd j b l)) + f a = list_sum (map f l) + f b)%nat.
  Proof.
    revert l. induction j as [|j IH]; intros [|c l] H; simpl in *; try discriminate.
    - injection H as ->. lia.
    - specialize (IH l H). lia.
  Qed.
  Lemma pool_step_ok e q : pool_ok q -> pool_ok (pool_step E tasks e q) /\ (pool_step E tasks e q = q \/ (work q = S (work (pool_step E tasks e q)))).
  Proof.
    intros O. destruct e as [j|j]; simpl.
    - destruct (nth_error (pl_workers q) j) as [[|i w p]|] eqn:J; [|auto|auto]. destruct (nth_error tasks (pl_next q)) as [t|] eqn:T; [|auto].
      assert (NL : (pl_next q < length tasks)%nat) by (apply nth_error_Some; congruence). assert (JL : (j < length (pl_workers q))%nat) by (apply nth_error_Some; congruence).
      split.
      + split; simpl.
        * apply O. * lia. * apply O.
        * intros j' i w p H. apply upd_some in H as [(<- & H)|(_ & H)]; [|eapply ok_busy; eauto]. injection H as -> -> ->. exists t. split; [exact T|reflexivity].
        * intros i H. destruct (Nat.eq_dec i (pl_next q)) as [->|N].
          -- right. exists j. do 2 eexists. apply upd_same. exact JL.
          -- destruct (ok_cover q O i) as [D|(j' & w & p & B)]; [lia|auto|]. right. exists j', w, p. rewrite upd_other; [exact B|]. intros ->. congruence.
      + right. unfold work. cbn [pl_workers pl_next pl_done]. pose proof (list_sum_upd worker_steps j Idle (Busy (pl_next q) (unpickled (tk_w t)) (profile_helper E t)) (pl_workers q) J) as L. cbn [worker_steps] in L.
        assert (S1 : skipn (pl_next q) tasks = t :: skipn (S (pl_next q)) tasks).
        { clear - T. revert T. generalize (pl_next q). clear. induction tasks as [|a l IH]; intros [|n] T; simpl in *; try discriminate; [congruence|]. rewrite (IH n T). destruct l; [destruct n; discriminate|reflexivity]. }
        rewrite S1. change (list_sum (map task_steps (t :: skipn (S (pl_next q)) tasks))) with (task_steps t + list_sum (map task_steps (skipn (S (pl_next q)) tasks)))%nat. unfold task_steps at 1. lia.
    - destruct (nth_error (pl_workers q) j) as [[|i w [r|x k]]|] eqn:J; auto.
      + assert (JL : (j < length (pl_workers q))%nat) by (apply nth_error_Some; congruence). split.
        * destruct (ok_busy q O j i w _ J) as (t & T & V). simpl in V.
          assert (IL : (i < length (pl_done q))%nat) by (rewrite (ok_len q O); apply nth_error_Some; congruence).
          split; simpl.
          -- rewrite upd_length. apply O. -- apply O.
          -- intros i' r' H. apply upd_some in H as [(<- & H)|(_ & H)]; [|eapply ok_done; eauto]. injection H as ->. exists t. auto.
          -- intros j' i' w' p' H. apply upd_some in H as [(_ & H)|(_ & H)]; [discriminate|]. eapply ok_busy; eauto.
          -- intros i' H. destruct (Nat.eq_dec i' i) as [->|N]; [left; exists r; apply upd_same; exact IL|].
             destruct (ok_cover q O i' H) as [(r' & D)|(j' & w' & p' & B)].
             ++ left. exists r'. rewrite upd_other; auto.
             ++ right. exists j', w', p'. rewrite upd_other; [exact B|]. intros ->. congruence.
        * right. unfold work. cbn [pl_workers pl_next pl_done]. pose proof (list_sum_upd worker_steps j _ Idle (pl_workers q) J) as L. cbn [worker_steps steps] in L. lia.
      + assert (JL : (j < length (pl_workers q))%nat) by (apply nth_error_Some; congruence). split.
        * split; simpl.
          -- apply O. -- apply O. -- apply O.
          -- intros j' i' w' p' H. apply upd_some in H as [(<- & H)|(_ & H)]; [|eapply ok_busy; eauto]. injection H as -> -> ->.
             destruct (ok_busy q O j i w _ J) as (t & T & V). exists t. split; [exact T|]. exact V.
          -- intros i' H. destruct (ok_cover q O i' H) as [D|(j' & w' & p' & B)]; [auto|]. right. destruct (Nat.eq_dec j j') as [<-|N].
             ++ assert (i' = i) by congruence. subst i'. exists j. do 2 eexists. apply upd_same. exact JL.
             ++ exists j', w', p'. rewrite upd_other; auto.
        * right. unfold work. cbn [pl_workers pl_next pl_done]. pose proof (list_sum_upd worker_steps j _ (Busy i (fst (nll x w)) (k (snd (nll x w)))) (pl_workers q) J) as L. cbn [worker_steps steps] in L. lia.
  Qed.
  Lemma pool_run_ok sch : forall q, pool_ok q -> pool_ok (pool_run E tasks sch q).
  Proof. induction sch as [|e sch IH]; intros q O; simpl; [exact O|]. apply IH. apply pool_step_ok. exact O. Qed.
  Lemma pool_run_workers sch : forall q, length (pl_workers (pool_run E tasks sch q)) = length (pl_workers q).
  Proof.
    induction sch as [|e sch IH]; intros q; simpl; [reflexivity|]. change (length (pl_workers (pool_run E tasks sch (pool_step E tasks e q))) = length (pl_workers q)). rewrite IH.
    destruct e as [j|j]; simpl; [destruct (nth_error (pl_workers q) j) as [[|]|]; auto; destruct (nth_error tasks _)|destruct (nth_error (pl_workers q) j) as [[|i w [|]]|]; auto]; simpl; rewrite ?upd_length; auto.
  Qed.

  (** results *)
  Lemma imap_value d : forall ts, length d = length ts -> (forall i r, nth_error d i = Some (Some r) -> exists t, nth_error ts i = Some t /\ r = task_value t) ->
    forall v, imap_results d = Some v -> v = mapr task_value ts.
  Proof.
    induction d as [|o d IH]; intros [|t ts] L H v Hv; simpl in *; try discriminate; [congruence|].
    assert (H' : forall i r, nth_error d i = Some (Some r) -> exists t, nth_error ts i = Some t /\ r = task_value t) by (intros i r X; apply (H (S i) r X)).
    destruct o as [[x|e]|]; [| |discriminate].
    - destruct (H 0%nat _ eq_refl) as (t' & T & X). simpl in T. injection T as <-. rewrite <- X. simpl. destruct (imap_results d) as [[vs|e]|] eqn:D; [| |discriminate].
      + injection Hv as <-. rewrite <- (IH ts (eq_add_S _ _ L) H' (Ok vs) eq_refl). reflexivity.
      + injection Hv as <-. rewrite <- (IH ts (eq_add_S _ _ L) H' (Err e) eq_refl). reflexivity.
    - destruct (H 0%nat _ eq_refl) as (t' & T & X). simpl in T. injection T as <-. rewrite <- X. simpl. congruence.
  Qed.
  Lemma imap_complete d : (forall i, (i < length d)%nat -> exists r, nth_error d i = Some (Some r)) -> imap_results d <> None.
  Proof.
    induction d as [|o d IH]; intros H; simpl; [discriminate|]. destruct (H 0%nat) as (r & R); [simpl; lia|]. simpl in R. injection R as ->.
    assert (D : imap_results d <> None) by (apply IH; intros i I; apply (H (S i)); simpl; lia).
    destruct r; [|discriminate]. destruct (imap_results d) as [[|]|]; [discriminate|discriminate|congruence].
  Qed.
  Lemma imap_waiting d : imap_results d = None -> exists i, nth_error d i = Some None.
  Proof.
    induction d as [|o d IH]; simpl; [discriminate|]. destruct o as [[x|e]|]; [|discriminate|intros _; exists 0%nat; reflexivity].
    intros H. destruct (imap_results d) as [[|]|]; try discriminate. destruct (IH eq_refl) as (i & I). exists (S i). exact I.
  Qed.
  Theorem pool_value n sch v : imap_results (pl_done (pool_run E tasks sch (pool_new tasks n))) = Some v -> v = mapr task_value tasks.
  Proof. intros H. pose proof (pool_run_ok sch _ (pool_new_ok n)) as O. eapply imap_value; [apply (ok_len _ O)|apply (ok_done _ O)|exact H]. Qed.

  (** some worker can do something as long as a result is missing *)
  Lemma pool_progress q : pool_ok q -> (0 < length (pl_workers q))%nat -> imap_results (pl_done q) = None -> exists e, pool_step E tasks e q <> q.
  Proof.
    intros O W N.
    assert (D : exists i, (i < length tasks)%nat /\ nth_error (pl_done q) i = Some None).
    { apply imap_waiting in N as (i & I). exists i. split; [rewrite <- (ok_len q O); apply nth_error_Some; congruence|exact I]. }
    destruct D as (i & IL & D).
    (* a busy worker can step *)
    assert (ST : forall j i w p, nth_error (pl_workers q) j = Some (Busy i w p) -> pool_step E tasks (Step j) q <> q).
    { intros j i0 w p J Q. destruct (pool_step_ok (Step j) q O) as (_ & [X|X]); [|rewrite Q in X; lia]. clear X.
      assert (WK : work (pool_step E tasks (Step j) q) = work q) by now rewrite Q.
      revert WK. simpl. rewrite J. destruct p as [r|x k]; unfold work; cbn [pl_workers pl_next].
      - pose proof (list_sum_upd worker_steps j _ Idle (pl_workers q) J) as L. cbn [worker_steps steps] in L. lia.
      - pose proof (list_sum_upd worker_steps j _ (Busy i0 (fst (nll x w)) (k (snd (nll x w)))) (pl_workers q) J) as L. cbn [worker_steps steps] in L. lia. }
    destruct (Nat.lt_ge_cases i (pl_next q)) as [LT|GE].
    - destruct (ok_cover q O i LT) as [(r & R)|(j & w & p & B)]; [congruence|]. eauto.
    - destruct (pl_workers q) as [|v l] eqn:WQ; [simpl in W; lia|]. destruct v as [|i0 w p].
      + exists (Take 0). simpl. rewrite WQ. cbn [nth_error]. destruct (nth_error tasks (pl_next q)) as [t|] eqn:T; [|apply nth_error_None in T; lia].
        intros Q. apply (f_equal pl_next) in Q. simpl in Q. lia.
      + exists (Step 0). apply (ST 0%nat i0 w p). reflexivity.
  Qed.
  Lemma pool_completes_from : forall n q, (work q <= n)%nat -> pool_ok q -> (0 < length (pl_workers q))%nat -> exists sch, imap_results (pl_done (pool_run E tasks sch q)) <> None.
  Proof.
    induction n as [|n IH]; intros q WN O W.
    - destruct (imap_results (pl_done q)) eqn:D; [exists []; simpl; congruence|]. destruct (pool_progress q O W D) as (e & P). destruct (pool_step_ok e q O) as (_ & [X|X]); [congruence|lia].
    - destruct (imap_results (pl_done q)) eqn:D; [exists []; simpl; congruence|]. destruct (pool_progress q O W D) as (e & P). destruct (pool_step_ok e q O) as (O' & [X|X]); [congruence|].
      destruct (IH (pool_step E tasks e q)) as (sch & S); [lia|exact O'| |exists (e :: sch); exact S].
      pose proof (pool_run_workers [e] q) as L. simpl in L. lia.
  Qed.
  Theorem pool_completes n sch : (0 < n)%nat -> exists sch', imap_results (pl_done (pool_run E tasks (sch ++ sch') (pool_new tasks n))) <> None.
  Proof.
    intros N. destruct (pool_completes_from _ (pool_run E tasks sch (pool_new tasks n)) (le_n _)) as (sch' & S).
    - apply pool_run_ok, pool_new_ok.
    - rewrite pool_run_workers. simpl. rewrite repeat_length. exact N.
    - exists sch'. unfold pool_run in *. rewrite fold_left_app. exact S.
  Qed.
  (** the number of events that have an effect is bounded: no schedule keeps the pool busy forever *)
  Fixpoint effective (sch : list event) (q : pool) : Prop :=
    match sch with [] => True | e :: sch' => pool_step E tasks e q <> q /\ effective sch' (pool_step E tasks e q) end.
  Theorem pool_bounded sch : forall q, pool_ok q -> effective sch q -> (length sch <= work q)%nat.
  Proof.
    induction sch as [|e sch IH]; intros q O H; simpl in *; [lia|]. destruct H as (H1 & H2). destruct (pool_step_ok e q O) as (O' & [X|X]); [congruence|]. specialize (IH _ O' H2). lia.
  Qed.
End Pool.

(** ** fair schedules *)
Section Fair.
  Variable E : ext.
  Variable tasks : list task.
  Lemma imap_keep r : forall d i, (nth_error d i = Some None \/ nth_error d i = Some (Some r) \/ nth_error d i = None) -> imap_results d <> None -> imap_results (upd i (Some r) d) <> None.
  Proof.
    induction d as [|o d IH]; intros [|i] H D; simpl in *; auto.
    - destruct H as [H|[H|H]]; try discriminate; injection H as ->; [congruence|exact D].
    - destruct o as [[x|e]|]; [|discriminate|congruence]. specialize (IH i H). destruct (imap_results d) as [[|]|]; try congruence.
      + destruct (imap_results (upd i (Some r) d)) as [[|]|]; try discriminate. exfalso; apply IH; [discriminate|reflexivity].
      + destruct (imap_results (upd i (Some r) d)) as [[|]|]; try discriminate. exfalso; apply IH; [discriminate|reflexivity].
  Qed.
  Lemma step_keep e q : pool_ok E tasks q -> imap_results (pl_done q) <> None -> imap_results (pl_done (pool_step E tasks e q)) <> None.
  Proof.
    intros O D. destruct e as [j|j]; simpl.
    - destruct (nth_error (pl_workers q) j) as [[|]|]; auto. destruct (nth_error tasks _); auto.
    - destruct (nth_error (pl_workers q) j) as [[|i w [r|x k]]|] eqn:J; auto. simpl. apply imap_keep; [|exact D].
      destruct (ok_busy _ _ _ O _ _ _ _ J) as (t & T & V). simpl in V. destruct (nth_error (pl_done q) i) as [[r'|]|] eqn:D0; auto.
      destruct (ok_done _ _ _ O _ _ D0) as (t' & T' & V'). rewrite T in T'. injection T' as <-. right; left; congruence.
  Qed.
  Lemma run_keep sch : forall q, pool_ok E tasks q -> imap_results (pl_done q) <> None -> imap_results (pl_done (pool_run E tasks sch q)) <> None.
  Proof. induction sch as [|e sch IH]; intros q O D; simpl; [exact D|]. apply IH; [apply pool_step_ok; exact O|apply step_keep; assumption]. Qed.
  Lemma run_work sch : forall q, pool_ok E tasks q -> (work E tasks (pool_run E tasks sch q) <= work E tasks q)%nat.
  Proof.
    induction sch as [|e sch IH]; intros q O; simpl; [lia|]. destruct (pool_step_ok E tasks e q O) as (O' & X). specialize (IH _ O'). unfold pool_run in *. destruct X as [X|X]; [rewrite X in *|]; lia.
  Qed.
  (** an event that can have an effect is in the round: the round has an effect *)
  Lemma round_work e sch : forall q, pool_ok E tasks q -> pool_step E tasks e q <> q -> In e sch -> (work E tasks (pool_run E tasks sch q) < work E tasks q)%nat.
  Proof.
    induction sch as [|e' sch IH]; intros q O P H; [destruct H|]. simpl. destruct (pool_step_ok E tasks e' q O) as (O' & [X|X]).
    - rewrite X. destruct H as [->|H]; [congruence|]. apply IH; auto.
    - pose proof (run_work sch _ O') as R. unfold pool_run in *. lia.
  Qed.
  Lemma useful_event e q : pool_step E tasks e q <> q -> exists j, (j < length (pl_workers q))%nat /\ (e = Take j \/ e = Step j).
  Proof.
    destruct e as [j|j]; simpl; intros H; exists j; (split; [|auto]); apply nth_error_Some; intros X; rewrite X in H; congruence.
  Qed.
  Lemma fair_rounds rounds : forall q, pool_ok E tasks q -> (0 < length (pl_workers q))%nat -> (work E tasks q <= length rounds)%nat ->
    Forall (fun rd => forall j, (j < length (pl_workers q))%nat -> In (Take j) rd /\ In (Step j) rd) rounds ->
    imap_results (pl_done (pool_run E tasks (concat rounds) q)) <> None.
  Proof.
    induction rounds as [|rd rounds IH]; intros q O W N FR.
    - simpl in *. destruct (imap_results (pl_done q)) eqn:D; [discriminate|]. destruct (pool_progress E tasks q O W D) as (e & P). destruct (pool_step_ok E tasks e q O) as (_ & [X|X]); [congruence|lia].
    - simpl concat. unfold pool_run. rewrite fold_left_app. fold (pool_run E tasks rd q). fold (pool_run E tasks (concat rounds) (pool_run E tasks rd q)).
      inversion FR; subst. pose proof (pool_run_ok E tasks rd q O) as O1. pose proof (pool_run_workers E tasks rd q) as L1.
      destruct (imap_results (pl_done q)) eqn:D.
      + apply run_keep; [exact O1|]. apply run_keep; [exact O|congruence].
      + destruct (pool_progress E tasks q O W D) as (e & P). destruct (useful_event e q P) as (j & J & EJ).
        assert (IE : In e rd) by (destruct (H1 j J), EJ; subst; assumption).
        pose proof (round_work e rd q O P IE) as WL. apply IH; [exact O1|lia|simpl in N; lia|rewrite L1; exact H2].
  Qed.
  Lemma pool_fair c rounds : (0 < c)%nat -> (list_sum (map (task_steps E) tasks) <= length rounds)%nat ->
    Forall (fun rd => forall j, (j < c)%nat -> In (Take j) rd /\ In (Step j) rd) rounds ->
    imap_results (pl_done (pool_run E tasks (concat rounds) (pool_new tasks c))) <> None.
  Proof.
    intros C N FR. apply fair_rounds; [apply pool_new_ok| | |]; unfold pool_new; cbn [pl_workers pl_next]; rewrite ?repeat_length; auto.
    unfold work. cbn [pl_workers pl_next]. rewrite skipn_O. replace (list_sum (map worker_steps (repeat Idle c))) with 0%nat; [exact N|].
    clear. induction c; [reflexivity|]. simpl. exact IHc.
  Qed.
End Fair.
