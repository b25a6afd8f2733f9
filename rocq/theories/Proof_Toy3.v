(** Proofs about toy studies: the methods of ToyStudy. *)
From Coq Require Import Reals String ZArith Bool Arith List Lra Lia.
From Verif Require Import Model_Num Model_Hist Model_Utility Model_Template Model_World Model_Ops Model_Minimizer Model_Fitter Model_Toy
  Spec_Matrix Spec_Min Spec_World Spec_Data Spec_Fit Spec_Stale Spec_Toy Proof_HistHeap Proof_Eval Proof_Route Proof_Monad Proof_World Proof_Names Proof_Yield Proof_Update Proof_Valid Proof_Stale Proof_Min Proof_Fit Proof_Fit2 Proof_Fit3 Proof_Fit4 Proof_Sig Proof_Toy Proof_Toy2
  Prop_World Prop_Stale Prop_Data Prop_FitEffect.
Import ListNotations.
Local Open Scope R_scope.

Definition empty_study (st : study) : study := mk_study (st_id st) [] [] false.
Definition filled (st : study) (rows : list (list xr * list xr)) (b : bool) : study := mk_study (st_id st) (map fst rows) (map snd rows) b.
Lemma upd_len {A} i (a b : A) l : nth_error l i = Some b -> nth_error (upd i a l) i = Some a.
Proof. intros H. apply upd_same. apply nth_error_Some. congruence. Qed.

Lemma do_experiments_spec envs i n mt s st s' v : nth_error (ts_studies s) i = Some st -> do_experiments envs i n mt s = (s', v) ->
  match v with
  | Ok _ => exists rows k, length rows = n /\ succeed envs (st_id st) true mt 0 (ts_f s) k (ts_f s') rows /\ ts_studies s' = upd i (filled st rows true) (ts_studies s)
  | Err e => exists rows k f1, (length rows < n)%nat /\ succeed envs (st_id st) true mt 0 (ts_f s) k f1 rows /\ gives_up envs (st_id st) true mt k f1 (ts_f s') e /\
               ts_studies s' = upd i (filled st rows false) (ts_studies s)
  end.
Proof.
  intros S H. unfold do_experiments in H. unfold tbind at 1, reset_state at 1, on_study at 1 in H. rewrite S in H.
  set (s1 := mk_tstate (ts_f s) (upd i (mk_study (st_id st) [] [] false) (ts_studies s))) in *.
  assert (S1 : nth_error (ts_studies s1) i = Some (empty_study st)) by (apply (upd_len _ _ st); exact S).
  unfold tbind at 1 in H. destruct (experiments envs i true mt n 0 s1) as (s2 & [k|e]) eqn:E; pose proof (experiments_spec envs i true mt n 0 s1 _ s2 _ S1 E) as X; cbn [st_id empty_study] in X.
  - destruct X as (rows & L & SU & SS). unfold set_fitted, on_study in H.
    assert (S2 : nth_error (ts_studies s2) i = Some (add_rows (empty_study st) rows)) by (rewrite SS; eapply upd_len; exact S1).
    rewrite S2 in H. injection H as <- <-. exists rows, k. split; [exact L|]. split; [exact SU|]. cbn [ts_studies]. rewrite SS. unfold s1. cbn [ts_studies]. rewrite !upd_upd. reflexivity.
  - injection H as <- <-. destruct X as (rows & k & f1 & L & SU & G & SS). exists rows, k, f1. split; [exact L|]. split; [exact SU|]. split; [exact G|]. rewrite SS. unfold s1. cbn [ts_studies]. rewrite upd_upd. reflexivity.
Qed.

(** ** accessors *)
Lemma accessors_raise i s st p : nth_error (ts_studies s) i = Some st -> st_fitted st = false ->
  result_parameters i s = (s, Err RuntimeError) /\ result_uncertainties i s = (s, Err RuntimeError) /\
  get_toy_results i p s = (s, Err RuntimeError) /\ get_toy_result_pulls i p s = (s, Err RuntimeError).
Proof.
  intros S F. assert (C : check_state i s = (s, Err RuntimeError)) by (unfold check_state, tbind, get_study; rewrite S, F; reflexivity).
  unfold result_parameters, result_uncertainties, get_toy_results, get_toy_result_pulls, tbind. rewrite C. auto.
Qed.
Lemma accessors_ok i s st : nth_error (ts_studies s) i = Some st -> st_fitted st = true ->
  check_state i s = (s, Ok tt) /\ result_parameters i s = (s, Ok (st_params st)) /\ result_uncertainties i s = (s, Ok (st_errors st)).
Proof.
  intros S F. assert (C : check_state i s = (s, Ok tt)) by (unfold check_state, tbind, get_study; rewrite S, F; reflexivity).
  unfold result_parameters, result_uncertainties, tbind. rewrite C. unfold get_study. rewrite S. auto.
Qed.
Lemma column_ok (g : list xr * list xr -> list xr) rows k N : rows <> [] -> Forall (fun row => length (g row) = N) rows -> (k < N)%nat -> column (map g rows) k = Ok (map (fun row => nth k (g row) NaN) rows).
Proof.
  intros NE F K. destruct rows as [|r rows]; [congruence|]. unfold column. cbn [map]. inversion F as [|? ? F1 F2]; subst.
  assert (X : forallb (fun r' : list xr => length r' =? length (g r))%nat (g r :: map g rows) = true).
  { cbn [forallb]. rewrite Nat.eqb_refl. apply forallb_forall. intros x Hx. apply in_map_iff in Hx as (row & <- & Hx). apply Nat.eqb_eq. rewrite Forall_forall in F2. apply F2; exact Hx. }
  rewrite X. apply mapr_ok. change (Forall2 (fun a b => match nth_error a k with Some v => Ok v | None => Err IndexError end = Ok b) (map g (r :: rows)) (map (fun row => nth k (g row) NaN) (r :: rows))).
  clear X. set (N := length (g r)) in *. clearbody N. clear NE F2. induction F as [|a l Fa _ IH]; [constructor|]. cbn [map]. constructor; [|exact IH]. 
  rewrite (nth_error_nth' (g a) NaN) by lia. reflexivity.
Qed.
Lemma get_toy_results_ok i s st rows p q N : nth_error (ts_studies s) i = Some st -> st_fitted st = true -> st_params st = map fst rows -> st_errors st = map snd rows ->
  rows <> [] -> Forall (fun row => length (fst row) = N /\ length (snd row) = N) rows -> index_of p (w_procs (fs_w (ts_f s))) = Some q -> (q < N)%nat ->
  get_toy_results i p s = (s, Ok (fitted q rows, fit_errors q rows)).
Proof.
  intros S F P1 P2 NE FA IX QN. destruct (accessors_ok i s st S F) as (C & A1 & A2). unfold get_toy_results. unfold tbind at 1. rewrite C. unfold tbind at 1. rewrite IX. unfold tbind at 1, tlift at 1.
  unfold tbind at 1. rewrite A1, P1. unfold tbind at 1, tlift at 1. 
  assert (FA1 : Forall (fun row : list xr * list xr => length (fst row) = N) rows) by (eapply Forall_impl; [|exact FA]; intros a (H & _); exact H).
  assert (FA2 : Forall (fun row : list xr * list xr => length (snd row) = N) rows) by (eapply Forall_impl; [|exact FA]; intros a (_ & H); exact H).
  rewrite (column_ok fst rows q N) by assumption. unfold tbind at 1. rewrite A2, P2. unfold tbind at 1, tlift at 1. rewrite (column_ok snd rows q N) by assumption. reflexivity.
Qed.

(** ** linearity tests *)
Lemma op_reset : pres only_params reset_parameters.
Proof.
  unfold reset_parameters. pres_tac op_po. unfold ch_reset. pres_tac op_po. unfold tmpl_reset. pres_tac op_po. apply op_on_tmpl. intros t. eexists. reflexivity.
Qed.
Definition keeps (w w' : world) : Prop := param_names w' = param_names w /\ w_procs w' = w_procs w.
Lemma keeps_op w w' : only_params w w' -> keeps w w'. Proof. intros O. split; [apply op_names; exact O|]. now destruct O as (_ & _ & _ & ? & _). Qed.
Lemma keeps_dr w w' : data_replaced w w' -> keeps w w'. Proof. intros O. split; [apply dr_names; exact O|]. now destruct O as (_ & _ & ? & _). Qed.
Lemma keeps_po : preorder keeps. Proof. split; [split; reflexivity|]. intros a b c (A & B) (C & D). split; congruence. Qed.
Lemma on_w_eq {A} (m : M A) s : on_w m s = let (f, r) := on_world m (ts_f s) in (mk_tstate f (ts_studies s), r). Proof. reflexivity. Qed.

Definition named (w : world) : Prop := (length (w_procs w) <= length (param_names w))%nat.
Lemma named_any w : named w. Proof. unfold named, param_names. rewrite app_length, map_length. lia. Qed.
Lemma index_lt p l q : index_of p l = Some q -> (q < length l)%nat.
Proof. intros H. apply nth_error_Some. rewrite (index_of_nth p l q H). discriminate. Qed.

Lemma point_spec envs i p ne k v s st s' r : (0 < ne)%nat -> nth_error (ts_studies s) i = Some st -> linearity_point envs i p ne k v s = (s', r) ->
  match r with
  | Ok (m, sd, k') => exists q f1 f2 rows, index_of p (w_procs (fs_w (ts_f s))) = Some q /\ on_world reset_parameters (ts_f s) = (f1, Ok tt) /\ on_world (set_yield p v) f1 = (f2, Ok tt) /\
       length rows = ne /\ succeed envs (st_id st) false 10 k f2 k' (ts_f s') rows /\ ts_studies s' = upd i (filled st rows true) (ts_studies s) /\ m = xmean (fitted q rows) /\ sd = xstd (fitted q rows)
  | Err e => exists rows, ts_studies s' = upd i (filled st rows false) (ts_studies s) 
  end.
Proof.
  intros NE S H. unfold linearity_point in H. unfold tbind at 1, reset_state at 1, on_study at 1 in H. rewrite S in H. cbn iota in H.
  unfold tbind at 1 in H. rewrite on_w_eq in H. cbn [ts_f ts_studies] in H. pose proof (op_reset (fs_w (ts_f s))) as O1. 
  destruct (on_world reset_parameters (ts_f s)) as (f1 & [[]|e]) eqn:RP; [|injection H as <- <-; exists []; reflexivity].
  assert (O1' : only_params (fs_w (ts_f s)) (fs_w f1)). { unfold on_world in RP. destruct (reset_parameters (fs_w (ts_f s))) as (w1 & r1). injection RP as <- _. exact O1. }
  unfold tbind at 1 in H. rewrite on_w_eq in H. cbn [ts_f ts_studies] in H. pose proof (op_set_yield p v (fs_w f1)) as O2.
  destruct (on_world (set_yield p v) f1) as (f2 & [[]|e]) eqn:SY; [|injection H as <- <-; exists []; reflexivity].
  assert (IP : In p (w_procs (fs_w f1)) /\ only_params (fs_w f1) (fs_w f2)).
  { unfold on_world in SY. destruct (set_yield p v (fs_w f1)) as (w2 & r2) eqn:Y. injection SY as <- E2. cbn [fs_w]. split; [|exact O2]. destruct (in_dec string_dec p (w_procs (fs_w f1))) as [I|I]; [exact I|]. rewrite set_yield_unknown in Y by exact I. injection Y as _ <-. discriminate. }
  destruct IP as (IP & O2').
  set (s1 := mk_tstate f2 (upd i (mk_study (st_id st) [] [] false) (ts_studies s))) in *.
  assert (S1 : nth_error (ts_studies s1) i = Some (empty_study st)) by (apply (upd_len _ _ st); exact S).
  unfold tbind at 1 in H. destruct (experiments envs i false 10 ne k s1) as (s2 & [k2|e]) eqn:E; pose proof (experiments_spec envs i false 10 ne k s1 _ s2 _ S1 E) as X; cbn [st_id empty_study] in X.
  2:{ injection H as <- <-. destruct X as (rows & _ & _ & _ & _ & _ & SS). exists rows. rewrite SS. unfold s1. cbn [ts_studies]. rewrite upd_upd. reflexivity. }
  destruct X as (rows & L & SU & SS). cbn [ts_f s1] in SU.
  assert (S2 : nth_error (ts_studies s2) i = Some (add_rows (empty_study st) rows)) by (rewrite SS; eapply upd_len; exact S1).
  unfold tbind at 1, set_fitted at 1, on_study at 1 in H. rewrite S2 in H. cbn [add_rows empty_study st_id st_params st_errors app] in H.
  set (s3 := mk_tstate (ts_f s2) (upd i (mk_study (st_id st) (map fst rows) (map snd rows) true) (ts_studies s2))) in *.
  assert (S3 : nth_error (ts_studies s3) i = Some (filled st rows true)) by (eapply upd_len; exact S2).
  pose proof (succeed_pres _ _ _ _ _ dro_refl dro_trans (fun v => toy_fit_only v _ _) _ _ _ _ _ SU) as (D3 & _).
  pose proof (po_trans _ keeps_po _ _ _ (po_trans _ keeps_po _ _ _ (keeps_op _ _ O1') (keeps_op _ _ O2')) (keeps_dr _ _ D3)) as (K1 & K2).
  assert (IX : exists q, index_of p (w_procs (fs_w (ts_f s))) = Some q).
  { destruct O1' as (_ & _ & _ & PQ & _). rewrite PQ in IP. now apply index_of_in. }
  destruct IX as (q & IX). unfold tbind at 1 in H.
  rewrite (get_toy_results_ok i s3 _ rows p q (length (param_names (fs_w f2))) S3) in H; try reflexivity.
  - injection H as <- <-. exists q, f1, f2, rows. split; [exact IX|]. split; [reflexivity|]. split; [exact SY|]. split; [exact L|]. split; [exact SU|]. split; [|split; reflexivity].
    unfold s3. cbn [ts_studies]. rewrite SS. unfold s1. cbn [ts_studies]. rewrite !upd_upd. reflexivity.
  - destruct rows; [simpl in L; lia|discriminate].
  - apply (succeed_lengths _ _ _ _ _ _ _ _ _ SU).
  - unfold s3. cbn [ts_f]. rewrite K2. exact IX.
  - apply index_lt in IX. pose proof (keeps_op _ _ O1') as (N1 & _). pose proof (keeps_op _ _ O2') as (N2 & _). rewrite N2, N1. pose proof (named_any (fs_w (ts_f s))) as NA. unfold named in NA. lia.
Qed.

Lemma points_spec envs i p ne pts : (0 < ne)%nat -> forall k s st s' r, nth_error (ts_studies s) i = Some st -> linearity_points envs i p ne k pts s = (s', r) ->
  match r with
  | Ok (ms, sds) => exists rows k', linearity envs (st_id st) p ne k (ts_f s) pts k' (ts_f s') rows /\
       ts_studies s' = (if pts then ts_studies s else upd i (filled st (last rows []) true) (ts_studies s)) /\
       forall q, index_of p (w_procs (fs_w (ts_f s))) = Some q -> ms = map (fun r => xmean (fitted q r)) rows /\ sds = map (fun r => xstd (fitted q r)) rows
  | Err e => exists rows, ts_studies s' = upd i (filled st rows false) (ts_studies s)
  end.
Proof.
  intros NE. induction pts as [|v pts IH]; intros k s st s' r S H; cbn [linearity_points] in H.
  - injection H as <- <-. exists [], k. split; [constructor|]. split; [reflexivity|]. intros q _. split; reflexivity.
  - unfold tbind at 1 in H. destruct (linearity_point envs i p ne k v s) as (s1 & [[[m sd] k1]|e]) eqn:P; pose proof (point_spec envs i p ne k v s st s1 _ NE S P) as X; cbn iota beta in X.
    2:{ injection H as <- <-. exact X. }
    destruct X as (q & f1 & f2 & rows & IX & RP & SY & L & SU & SS & -> & ->).
    assert (S1 : nth_error (ts_studies s1) i = Some (filled st rows true)) by (rewrite SS; eapply upd_len; exact S).
    unfold tbind at 1 in H. cbn [fst snd] in H. destruct (linearity_points envs i p ne k1 pts s1) as (s2 & [[ms sds]|e]) eqn:PS; specialize (IH k1 s1 _ s2 _ S1 PS); cbn iota beta in IH; cbn [st_id filled] in IH.
    2:{ injection H as <- <-. destruct IH as (rows' & IH). exists rows'. rewrite IH, SS, upd_upd. reflexivity. }
    destruct IH as (rest & k' & LI & SS' & MS). injection H as <- <-. exists (rows :: rest), k'. split; [econstructor; eassumption|]. split.
    + rewrite SS', SS. inversion LI; subst; [reflexivity|]. rewrite upd_upd. reflexivity.
    + intros q' Q'. assert (q' = q) by congruence. subst q'.
      assert (Q1 : index_of p (w_procs (fs_w (ts_f s1))) = Some q).
      { pose proof (succeed_pres _ _ _ _ _ dro_refl dro_trans (fun v => toy_fit_only v _ _) _ _ _ _ _ SU) as (D3 & _).
        assert (O1 : only_params (fs_w (ts_f s)) (fs_w f1)). { pose proof (op_reset (fs_w (ts_f s))) as O. unfold on_world in RP. destruct (reset_parameters (fs_w (ts_f s))) as (w1 & r1). injection RP as <- _. exact O. }
        assert (O2 : only_params (fs_w f1) (fs_w f2)). { pose proof (op_set_yield p v (fs_w f1)) as O. unfold on_world in SY. destruct (set_yield p v (fs_w f1)) as (w1 & r1). injection SY as <- _. exact O. }
        pose proof (po_trans _ keeps_po _ _ _ (po_trans _ keeps_po _ _ _ (keeps_op _ _ O1) (keeps_op _ _ O2)) (keeps_dr _ _ D3)) as (_ & K2). rewrite K2. exact IX. }
      destruct (MS q Q1) as (-> & ->). split; reflexivity.
Qed.

(** ** relations kept by all methods *)
Section Rel.
  Variable R : tstate -> tstate -> Prop.
  Hypotheses (RR : forall s, R s s) (RT : forall a b c, R a b -> R b c -> R a c).
  Definition trel {A} (m : T A) : Prop := forall s, R s (fst (m s)).
  Lemma trel_bind {A B} (m : T A) (k : A -> T B) : trel m -> (forall a, trel (k a)) -> trel (tbind m k).
  Proof. intros H K s. unfold tbind. specialize (H s). destruct (m s) as (s1 & [a|e]); cbn [fst] in *; [|exact H]. eapply RT; [exact H|apply K]. Qed.
  Lemma trel_ret {A} (a : A) : trel (tret a). Proof. intros s. apply RR. Qed.
  Lemma trel_lift {A} (a : res A) : trel (tlift a). Proof. intros s. apply RR. Qed.
  Lemma trel_get i : trel (get_study i). Proof. intros s. apply RR. Qed.
  Lemma trel_check i : trel (check_state i).
  Proof. apply trel_bind; [apply trel_get|]. intros st. destruct (st_fitted st); [apply trel_ret|apply trel_lift]. Qed.
  Lemma trel_params i : trel (result_parameters i).
  Proof. apply trel_bind; [apply trel_check|]. intros _. apply trel_bind; [apply trel_get|]. intros st. apply trel_ret. Qed.
  Lemma trel_uncert i : trel (result_uncertainties i).
  Proof. apply trel_bind; [apply trel_check|]. intros _. apply trel_bind; [apply trel_get|]. intros st. apply trel_ret. Qed.
  Lemma trel_results i p : trel (get_toy_results i p).
  Proof.
    unfold get_toy_results. apply trel_bind; [apply trel_check|]. intros _. apply trel_bind; [intros s; apply RR|]. intros pr. apply trel_bind; [apply trel_lift|]. intros k.
    apply trel_bind; [apply trel_params|]. intros ps. apply trel_bind; [apply trel_lift|]. intros c1. apply trel_bind; [apply trel_uncert|]. intros es. apply trel_bind; [apply trel_lift|]. intros c2. apply trel_ret.
  Qed.
  Variable i : nat.
  Hypothesis RS : forall g, trel (on_study i g).
  Hypothesis RW1 : forall d, trel (on_w (generate_toy_dataset d)).
  Hypothesis RW2 : forall ds, trel (on_w (mct_add_data ds)).
  Hypothesis RW3 : trel (on_w reset_parameters).
  Hypothesis RW4 : forall p v, trel (on_w (set_yield p v)).
  Hypothesis RN : forall id, trel (on_f (fitter_new id)).
  Hypothesis RF : forall E fi gh, trel (on_f (do_fit E fi false gh true None)).
  Hypothesis RG : forall a, trel (on_f (get_pars a)).
  Lemma trel_attempt v gh : trel (attempt i v gh).
  Proof. unfold attempt. apply trel_bind; [apply RW1|intros]. apply trel_bind; [apply RW2|intros]. apply trel_bind; [apply trel_get|intros]. apply trel_bind; [apply RN|intros]. apply trel_bind; [apply RF|intros]. apply trel_bind; [apply RG|intros]. apply trel_bind; [apply RS|intros; apply RS]. Qed.
  Lemma trel_experiment envs gh mt : forall k, trel (experiment envs i gh mt k).
  Proof.
    induction mt as [|mt IH]; intros k s; cbn [experiment]; [apply RR|]. pose proof (trel_attempt (envs k) gh s) as A. destruct (attempt i (envs k) gh s) as (s1 & [u|e]); cbn [fst] in A; [exact A|].
    destruct e; try exact A; (eapply RT; [exact A|apply IH]).
  Qed.
  Lemma trel_experiments envs gh mt n : forall k, trel (experiments envs i gh mt n k).
  Proof. induction n as [|n IH]; intros k; cbn [experiments]; [apply trel_ret|]. apply trel_bind; [apply trel_experiment|exact IH]. Qed.
  Lemma trel_do_experiments envs n mt : trel (do_experiments envs i n mt).
  Proof. apply trel_bind; [apply RS|intros]. apply trel_bind; [apply trel_experiments|intros]. apply RS. Qed.
  Lemma trel_point envs p ne k v : trel (linearity_point envs i p ne k v).
  Proof. unfold linearity_point. apply trel_bind; [apply RS|intros]. apply trel_bind; [apply RW3|intros]. apply trel_bind; [apply RW4|intros]. apply trel_bind; [apply trel_experiments|intros]. apply trel_bind; [apply RS|intros]. apply trel_bind; [apply trel_results|intros]. apply trel_ret. Qed.
  Lemma trel_points envs p ne pts : forall k, trel (linearity_points envs i p ne k pts).
  Proof. induction pts as [|v pts IH]; intros k; cbn [linearity_points]; [apply trel_ret|]. apply trel_bind; [apply trel_point|intros]. apply trel_bind; [apply IH|intros]. apply trel_ret. Qed.
  Lemma trel_linearity envs p lo hi np ne : trel (do_linearity_test envs i p lo hi np ne).
  Proof. apply trel_bind; [apply trel_points|intros]. apply trel_ret. Qed.
End Rel.
Definition same_study (j : nat) (s s' : tstate) : Prop := nth_error (ts_studies s') j = nth_error (ts_studies s) j.
Lemma on_f_studies {A} (m : F A) s : ts_studies (fst (on_f m s)) = ts_studies s.
Proof. unfold on_f. destruct (m (ts_f s)); reflexivity. Qed.
Lemma other_study i j g s : i <> j -> same_study j s (fst (on_study i g s)).
Proof. intros N. unfold same_study, on_study. destruct (nth_error (ts_studies s) i); [|reflexivity]. cbn [fst ts_studies]. now rewrite upd_other by congruence. Qed.
Lemma tbind_tt {A} (m : T A) s : fst ((_ <:- m ;; tret tt) s) = fst (m s).
Proof. unfold tbind, tret. destruct (m s) as (s' & [a|e]); reflexivity. Qed.
Lemma linspace_nil lo hi n : np_linspace lo hi n = [] <-> n = 0%nat.
Proof. destruct n as [|[|n]]; split; intros H; try reflexivity; try discriminate. Qed.
Lemma tstep_study inv o s i st : studies i o = false -> nth_error (ts_studies s) i = Some st -> nth_error (ts_studies (fst (tstep inv o s))) i = Some st.
Proof.
  intros N S. destruct o as [o|id|i' envs n mt|i' envs p lo hi np ne]; cbn [tstep studies] in *.
  - rewrite on_f_studies. exact S.
  - unfold tbind, study_new, tret. cbn [fst ts_studies]. rewrite nth_error_app1; [exact S|]. apply nth_error_Some. congruence.
  - apply Nat.eqb_neq in N. rewrite <- S. apply trel_do_experiments; unfold same_study; try congruence; try (intros; intros ?; unfold on_w; cbn beta; now rewrite on_f_studies).
    intros g s0. apply other_study. congruence.
  - rewrite tbind_tt. destruct (Nat.eqb_spec i i') as [<-|NE].
    + cbn [andb] in N. apply negb_false_iff, Nat.eqb_eq in N. subst np. cbn [do_linearity_test]. unfold do_linearity_test. cbn [np_linspace linearity_points]. exact S.
    + rewrite <- S. apply trel_linearity; unfold same_study; try congruence; try (intros; intros ?; unfold on_w; cbn beta; now rewrite on_f_studies).
      intros g s0. apply other_study. congruence.
Qed.
Lemma trun_study inv l i st : Forall (fun o => studies i o = false) l -> forall s, nth_error (ts_studies s) i = Some st -> nth_error (ts_studies (trun inv l s)) i = Some st.
Proof. induction 1 as [|o l H _ IH]; intros s S; [exact S|]. unfold trun. cbn [fold_left]. apply IH. apply tstep_study; assumption. Qed.
Lemma trun_app inv l1 l2 s : trun inv (l1 ++ l2) s = trun inv l2 (trun inv l1 s). Proof. apply fold_left_app. Qed.
(** every world of a history of studies is reached by calls of the other classes *)
Definition truns (inv : mat -> res mat) (s s' : tstate) : Prop := runs inv (ts_f s) (ts_f s').
Lemma on_f_f {A} (m : F A) s : ts_f (fst (on_f m s)) = fst (m (ts_f s)).
Proof. unfold on_f. destruct (m (ts_f s)); reflexivity. Qed.
Lemma on_study_f i g s : ts_f (fst (on_study i g s)) = ts_f s.
Proof. unfold on_study. destruct (nth_error (ts_studies s) i); reflexivity. Qed.
Lemma truns_w inv {A} (m : M A) o : (forall w, fst (step inv o w) = fst (m w)) -> trel (truns inv) (on_w m).
Proof. intros H s. unfold truns, on_w. rewrite on_f_f. apply (runs_world inv m o). exact H. Qed.
Lemma truns_step inv o s : truns inv s (fst (tstep inv o s)).
Proof.
  assert (R1 : forall s, truns inv s s) by (intros; apply runs_refl).
  assert (R2 : forall a b c, truns inv a b -> truns inv b c -> truns inv a c) by (intros a b c; apply runs_trans).
  assert (R3 : forall i g, trel (truns inv) (on_study i g)) by (intros i g s0; unfold truns; rewrite on_study_f; apply runs_refl).
  assert (W1 : forall d, trel (truns inv) (on_w (generate_toy_dataset d))).
  { intros d. apply (truns_w inv _ (OToy d)). intros w. simpl. unfold bind. destruct (generate_toy_dataset d w) as (w' & [|]); reflexivity. }
  assert (W2 : forall d, trel (truns inv) (on_w (mct_add_data d))) by (intros d; apply (truns_w inv _ (OAddData d)); reflexivity).
  assert (W3 : trel (truns inv) (on_w reset_parameters)) by (apply (truns_w inv _ OReset); reflexivity).
  assert (W4 : forall p v, trel (truns inv) (on_w (set_yield p v))) by (intros p v; apply (truns_w inv _ (OSetYield p v)); reflexivity).
  assert (N1 : forall id, trel (truns inv) (on_f (fitter_new id))) by (intros id s0; unfold truns; rewrite on_f_f; exists []; reflexivity).
  assert (F1 : forall E fi gh, trel (truns inv) (on_f (do_fit E fi false gh true None))).
  { intros E fi gh s0. unfold truns. rewrite on_f_f. destruct (do_fit_frame inv any (ts_f s0) ltac:(intros; exact I) E fi false gh true None ltac:(discriminate) (ts_f s0) (frame_refl' _ any (ts_f s0))) as (_ & _ & _ & l & _ & Z). exists l. exact Z. }
  assert (G1 : forall a, trel (truns inv) (on_f (get_pars a))) by (intros a s0; unfold truns; rewrite on_f_f; exists []; reflexivity).
  destruct o as [o|id|i' envs n mt|i' envs p lo hi np ne]; cbn [tstep] in *.
  - unfold truns. rewrite on_f_f. apply fstep_world.
  - exists []. reflexivity.
  - apply (trel_do_experiments (truns inv) R1 R2); auto.
  - rewrite tbind_tt. apply (trel_linearity (truns inv) R1 R2); auto.
Qed.
Lemma treached_world inv l : exists l', fs_w (ts_f (treached inv l)) = reached inv l'.
Proof.
  induction l as [|o l IH] using rev_ind; [exists []; reflexivity|]. unfold treached in *. rewrite trun_app. unfold trun at 1. cbn [fold_left].
  destruct IH as (l' & E). destruct (truns_step inv o (trun inv l tstate_init)) as (l'' & E'). exists (l' ++ l''). rewrite E', E. unfold reached. now rewrite run_app.
Qed.
