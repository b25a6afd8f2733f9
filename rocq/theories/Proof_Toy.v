(** Proofs about toy studies. *)
From Coq Require Import Reals String ZArith Bool Arith List Lra Lia.
From Verif Require Import Model_Num Model_Hist Model_Utility Model_Template Model_World Model_Ops Model_Minimizer Model_Fitter Model_Toy
  Spec_Matrix Spec_Min Spec_World Spec_Fit Spec_Stale Spec_Toy Proof_HistHeap Proof_Eval Proof_Route Proof_Monad Proof_World Proof_Names Proof_Yield Proof_Update Proof_Min Proof_Fit Proof_Fit2 Proof_Fit3 Proof_Fit4.
Import ListNotations.
Local Open Scope R_scope.

Lemma upd_upd {A} i (a b : A) l : upd i b (upd i a l) = upd i b l.
Proof. revert i. induction l as [|x l IH]; intros [|i]; simpl; auto. now rewrite IH. Qed.
Lemma upd_self {A} i (a : A) l : nth_error l i = Some a -> upd i a l = l.
Proof. revert i. induction l as [|x l IH]; intros [|i] H; simpl in *; try discriminate; [congruence|]. now rewrite IH. Qed.

Definition add_rows (st : study) (rows : list (list xr * list xr)) : study :=
  mk_study (st_id st) (st_params st ++ map fst rows) (st_errors st ++ map snd rows) (st_fitted st).
Lemma add_rows_nil st : add_rows st [] = st.
Proof. unfold add_rows. simpl. rewrite !app_nil_r. now destruct st. Qed.
Lemma add_rows_app st a b : add_rows (add_rows st a) b = add_rows st (a ++ b).
Proof. unfold add_rows. simpl. now rewrite !map_app, !app_assoc. Qed.

Lemma attempt_eq i v gh s st : nth_error (ts_studies s) i = Some st ->
  attempt i v gh s = match toy_fit v (st_id st) gh (ts_f s) with
                     | (f, Ok row) => (mk_tstate f (upd i (add_rows st [row]) (ts_studies s)), Ok tt)
                     | (f, Err e) => (mk_tstate f (ts_studies s), Err e)
                     end.
Proof.
  intros S. destruct s as [f sts]. cbn [ts_studies ts_f] in *. unfold attempt, toy_fit, on_w. unfold tbind at 1, on_f at 1, fbind at 1. cbn [ts_f ts_studies].
  destruct (on_world (generate_toy_dataset (en_draws v)) f) as (f1 & [ds|e]); [|reflexivity].
  unfold tbind at 1, on_f at 1, fbind at 1. cbn [ts_f ts_studies]. destruct (on_world (mct_add_data ds) f1) as (f2 & [u|e]); [|reflexivity].
  unfold tbind at 1, get_study at 1. cbn [ts_studies]. rewrite S. unfold tbind at 1, on_f at 1, fbind at 1. cbn [ts_f ts_studies fitter_new].
  unfold tbind at 1, on_f at 1, fbind at 1. cbn [ts_f ts_studies].
  match goal with |- context [do_fit ?a ?b ?c ?d ?e ?g ?s0] => destruct (do_fit a b c d e g s0) as (f4 & [r|er]) end; [|reflexivity].
  unfold tbind at 1, on_f at 1, fbind at 1. cbn [ts_f ts_studies]. destruct (get_pars (r_params r) f4) as (f5 & [p|er]); [|reflexivity].
  unfold fret. unfold tbind at 1, on_study at 1. cbn [ts_f ts_studies]. rewrite S. unfold on_study. cbn [ts_f ts_studies].
  rewrite upd_same by (apply nth_error_Some; congruence). rewrite upd_upd. unfold add_rows. cbn [st_id st_params st_errors st_fitted map fst snd]. reflexivity.
Qed.

Section Loops.
  Variables (envs : nat -> env) (i : nat) (gh : bool).
  Lemma experiment_spec mt : forall k s st s' v, nth_error (ts_studies s) i = Some st -> experiment envs i gh mt k s = (s', v) ->
    match v with
    | Ok k' => exists j f1 row, (j < mt)%nat /\ fails envs (st_id st) gh k j (ts_f s) f1 /\ toy_fit (envs (k + j)%nat) (st_id st) gh f1 = (ts_f s', Ok row) /\
                 k' = S (k + j) /\ ts_studies s' = upd i (add_rows st [row]) (ts_studies s)
    | Err e => gives_up envs (st_id st) gh mt k (ts_f s) (ts_f s') e /\ ts_studies s' = ts_studies s
    end.
  Proof.
    induction mt as [|mt IH]; intros k s st s' v S H; cbn [experiment] in H.
    - injection H as <- <-. split; [|reflexivity]. apply gives_up_tries. constructor.
    - rewrite (attempt_eq i _ gh s st S) in H. destruct (toy_fit (envs k) (st_id st) gh (ts_f s)) as (f & [row|e]) eqn:TF.
      + injection H as <- <-. exists 0%nat, (ts_f s), row. rewrite Nat.add_0_r. split; [lia|]. split; [constructor|]. split; [exact TF|]. split; reflexivity.
      + assert (NR : (runtime_error e /\ experiment envs i gh mt (Datatypes.S k) (mk_tstate f (ts_studies s)) = (s', v)) \/ (~ runtime_error e /\ (s', v) = (mk_tstate f (ts_studies s), Err e))).
        { unfold runtime_error. destruct e; try (left; split; [auto; fail|exact H]); right; (split; [intros [Z|Z]; discriminate|symmetry; exact H]). }
        clear H. destruct NR as [(RE & H)|(NE & EQ)].
        * specialize (IH (Datatypes.S k) (mk_tstate f (ts_studies s)) st s' v S H). destruct v as [k'|e0].
          -- destruct IH as (j & f1 & row & L & FA & TF' & -> & SS). exists (Datatypes.S j), f1, row. cbn [ts_f ts_studies] in *. rewrite <- Nat.add_succ_comm in *. split; [lia|]. split; [econstructor; eassumption|]. auto.
          -- destruct IH as (G & SS). split; [|exact SS]. cbn [ts_f] in G. inversion G as [FA|j f1 e' FA L NE TF']; subst.
             ++ apply gives_up_tries. econstructor; eassumption.
             ++ apply (gives_up_other _ _ _ _ _ _ _ (Datatypes.S j) f1); [econstructor; eassumption|lia|exact NE|]. rewrite <- Nat.add_succ_comm. exact TF'.
        * injection EQ as -> ->. split; [|reflexivity]. apply (gives_up_other _ _ _ _ _ _ _ 0 (ts_f s)); [constructor|lia|exact NE|]. rewrite Nat.add_0_r. exact TF.
  Qed.
  Lemma experiments_spec mt n : forall k s st s' v, nth_error (ts_studies s) i = Some st -> experiments envs i gh mt n k s = (s', v) ->
    match v with
    | Ok k' => exists rows, length rows = n /\ succeed envs (st_id st) gh mt k (ts_f s) k' (ts_f s') rows /\ ts_studies s' = upd i (add_rows st rows) (ts_studies s)
    | Err e => exists rows k' f1, (length rows < n)%nat /\ succeed envs (st_id st) gh mt k (ts_f s) k' f1 rows /\ gives_up envs (st_id st) gh mt k' f1 (ts_f s') e /\
                 ts_studies s' = upd i (add_rows st rows) (ts_studies s)
    end.
  Proof.
    induction n as [|n IH]; intros k s st s' v S H; cbn [experiments] in H.
    - injection H as <- <-. exists []. split; [reflexivity|]. split; [constructor|]. rewrite add_rows_nil, upd_self; auto.
    - unfold tbind in H. destruct (experiment envs i gh mt k s) as (s1 & [k1|e]) eqn:E.
      + destruct (experiment_spec mt k s st s1 _ S E) as (j & f1 & row & L & FA & TF & -> & SS).
        assert (S1 : nth_error (ts_studies s1) i = Some (add_rows st [row])) by (rewrite SS; apply upd_same; apply nth_error_Some; congruence).
        specialize (IH _ s1 _ s' v S1 H). cbn [add_rows st_id] in IH. destruct v as [k'|e].
        * destruct IH as (rows & LR & SU & SS'). exists (row :: rows). split; [simpl; congruence|]. split; [econstructor; eassumption|].
          rewrite SS', SS, upd_upd. f_equal. apply (add_rows_app st [row] rows).
        * destruct IH as (rows & k' & f2 & LR & SU & G & SS'). exists (row :: rows), k', f2. split; [simpl; lia|]. split; [econstructor; eassumption|]. split; [exact G|].
          rewrite SS', SS, upd_upd. f_equal. apply (add_rows_app st [row] rows).
      + destruct (experiment_spec mt k s st s1 _ S E) as (G & SS). injection H as <- <-. exists [], k, (ts_f s). split; [simpl; lia|]. split; [constructor|]. split; [exact G|].
        rewrite add_rows_nil, upd_self; auto.
  Qed.
End Loops.
