(** Property theorems C56, C57, C67, C68: toy studies. *)
From Coq Require Import Reals String ZArith Bool Arith List Lra Lia.
From Verif Require Import Model_Num Model_Hist Model_Utility Model_Template Model_World Model_Ops Model_Minimizer Model_Fitter Model_Toy
  Spec_Matrix Spec_Min Spec_World Spec_Data Spec_Fit Spec_Stale Spec_Toy Proof_HistHeap Proof_Eval Proof_Route Proof_Monad Proof_World Proof_Names Proof_Yield Proof_Update Proof_Valid Proof_Stale Proof_Min Proof_Fit Proof_Fit2 Proof_Fit3 Proof_Fit4 Proof_Sig Proof_Toy Proof_Toy2 Proof_Toy3
  Prop_World Prop_Params Prop_Stale Prop_Data Prop_Fitter Prop_FitEffect.
Import ListNotations.
Local Open Scope R_scope.

(** ** C56 *)
(** One call of do_experiments, for all optimizers and all random numbers.  It returns iff every experiment
    has a successful toy fit among at most max_tries; then there is exactly one row per experiment, and at
    most n * max_tries toy fits were made.  Otherwise it raises, and no result is accessible. *)
Theorem C56_experiments : forall envs i n max_tries s st s' v, nth_error (ts_studies s) i = Some st -> do_experiments envs i n max_tries s = (s', v) ->
  match v with
  | Ok _ => exists rows k, length rows = n /\ succeed envs (st_id st) true max_tries 0 (ts_f s) k (ts_f s') rows /\ (n <= k <= n * max_tries)%nat /\
      result_parameters i s' = (s', Ok (map fst rows)) /\ result_uncertainties i s' = (s', Ok (map snd rows)) /\
      Forall (fun row => length (fst row) = length (param_names (fs_w (ts_f s))) /\ length (snd row) = length (param_names (fs_w (ts_f s)))) rows
  | Err e => (exists rows k f1, (length rows < n)%nat /\ succeed envs (st_id st) true max_tries 0 (ts_f s) k f1 rows /\ gives_up envs (st_id st) true max_tries k f1 (ts_f s') e) /\
      result_parameters i s' = (s', Err RuntimeError) /\ result_uncertainties i s' = (s', Err RuntimeError) /\
      forall p, get_toy_results i p s' = (s', Err RuntimeError) /\ get_toy_result_pulls i p s' = (s', Err RuntimeError)
  end.
Proof.
  intros envs i n mt s st s' v S H. pose proof (do_experiments_spec envs i n mt s st s' v S H) as X. destruct v as [u|e].
  - destruct X as (rows & k & L & SU & SS). assert (S' : nth_error (ts_studies s') i = Some (filled st rows true)) by (rewrite SS; eapply upd_len; exact S).
    destruct (accessors_ok i s' _ S' eq_refl) as (_ & A1 & A2). pose proof (succeed_count _ _ _ _ _ _ _ _ _ SU) as C. rewrite L in C. pose proof (succeed_lengths _ _ _ _ _ _ _ _ _ SU) as LE.
    exists rows, k. split; [exact L|]. split; [exact SU|]. split; [lia|]. split; [exact A1|]. split; [exact A2|exact LE].
  - destruct X as (rows & k & f1 & L & SU & G & SS). assert (S' : nth_error (ts_studies s') i = Some (filled st rows false)) by (rewrite SS; eapply upd_len; exact S).
    split; [exists rows, k, f1; auto|]. pose proof (fun p => accessors_raise i s' _ p S' eq_refl) as A.
    split; [apply (A EmptyString)|]. split; [apply (A EmptyString)|]. intros p. destruct (A p) as (_ & _ & A3 & A4). auto.
Qed.
Print Assumptions C56_experiments.

(** Histories: results are accessible iff the last study performed with the object returned normally; they
    are those of that study, whatever was called since.  (Linearity tests with n_exp = 0 are excluded: they
    raise IndexError but leave the object in the state after a study.) *)
Theorem C56_history : forall inv l1 o l2 i, let s := treached inv l1 in let s' := treached inv (l1 ++ o :: l2) in
  (i < length (ts_studies s))%nat -> studies i o = true -> at_least_one o -> Forall (fun o => studies i o = false) l2 ->
  match snd (tstep inv o s) with
  | Ok _ => exists rows, length rows = rows_of o /\
      result_parameters i (fst (tstep inv o s)) = (fst (tstep inv o s), Ok (map fst rows)) /\
      result_parameters i s' = (s', Ok (map fst rows)) /\ result_uncertainties i s' = (s', Ok (map snd rows))
  | Err _ => result_parameters i s' = (s', Err RuntimeError) /\ result_uncertainties i s' = (s', Err RuntimeError) /\
      forall p, get_toy_results i p s' = (s', Err RuntimeError) /\ get_toy_result_pulls i p s' = (s', Err RuntimeError)
  end.
Proof.
  intros inv l1 o l2 i s s' I ST AL F. destruct (nth_error (ts_studies s) i) as [st|] eqn:S; [|apply nth_error_None in S; lia].
  assert (ES : s' = trun inv l2 (fst (tstep inv o s))). { unfold s', treached. rewrite trun_app. reflexivity. }
  assert (X : match snd (tstep inv o s) with
              | Ok _ => exists rows, length rows = rows_of o /\ nth_error (ts_studies (fst (tstep inv o s))) i = Some (filled st rows true)
              | Err _ => exists rows, nth_error (ts_studies (fst (tstep inv o s))) i = Some (filled st rows false) end).
  { clearbody s. clear ES s' F. destruct o as [o|id|i' envs n mt|i' envs p lo hi np ne]; cbn [studies] in ST; try discriminate.
    - apply Nat.eqb_eq in ST. subst i'. cbn [tstep rows_of]. destruct (do_experiments envs i n mt s) as (s1 & v) eqn:E. pose proof (do_experiments_spec envs i n mt s st s1 v S E) as X. cbn [fst snd]. destruct v as [u|e].
      + destruct X as (rows & k & L & _ & SS). exists rows. split; [exact L|]. rewrite SS. eapply upd_len. exact S.
      + destruct X as (rows & k & f1 & _ & _ & _ & SS). exists rows. rewrite SS. eapply upd_len. exact S.
    - apply andb_true_iff in ST as (ST & NP). apply Nat.eqb_eq in ST. subst i'. apply negb_true_iff, Nat.eqb_neq in NP. cbn [at_least_one] in AL. cbn [tstep rows_of]. unfold tbind at 1 2 3. unfold do_linearity_test. unfold tbind.
      destruct (linearity_points envs i p ne 0 (np_linspace lo hi np) s) as (s1 & [[ms sds]|e]) eqn:E; pose proof (points_spec envs i p ne _ AL 0%nat s st s1 _ S E) as X; cbn iota beta in X; cbn [fst snd tret].
      + destruct X as (rows & k & LI & SS & _). destruct (np_linspace lo hi np) as [|v vs] eqn:LS; [apply linspace_nil in LS; congruence|]. exists (last rows []). split.
        * clear -LI AL. assert (G : forall pts k f k' f' rows, linearity envs (st_id st) p ne k f pts k' f' rows -> pts <> [] -> length (last rows []) = ne).
          { clear. induction 1 as [|k f v f1 f2 k1 f3 rows pts k' f' rest A B L SU LI IH]; intros N; [congruence|]. destruct LI as [|k0 f0 v0 g1 g2 k2 g3 rows0 pts0 k'0 f'0 rest0 A0 B0 L0 SU0 LI0]; [exact L|].
            change (last (rows :: rows0 :: rest0) []) with (last (rows0 :: rest0) []). apply IH. discriminate. }
          eapply G; [exact LI|discriminate].
        * rewrite SS. eapply upd_len. exact S.
      + destruct X as (rows & SS). exists rows. rewrite SS. eapply upd_len. exact S. }
  destruct (snd (tstep inv o s)) as [u|e].
  - destruct X as (rows & L & SS). exists rows. split; [exact L|]. assert (S' : nth_error (ts_studies s') i = Some (filled st rows true)) by (rewrite ES; apply trun_study; assumption).
    destruct (accessors_ok i s' _ S' eq_refl) as (_ & A1 & A2). destruct (accessors_ok i _ _ SS eq_refl) as (_ & B1 & B2). split; [exact B1|]. split; [exact A1|exact A2].
  - destruct X as (rows & SS). assert (S' : nth_error (ts_studies s') i = Some (filled st rows false)) by (rewrite ES; apply trun_study; assumption).
    pose proof (fun p => accessors_raise i s' _ p S' eq_refl) as A.
    split; [apply (A EmptyString)|]. split; [apply (A EmptyString)|]. intros p. destruct (A p) as (_ & _ & A3 & A4). auto.
Qed.
Print Assumptions C56_history.
(** Before any study the accessors raise RuntimeError. *)
Theorem C56_before : forall inv l1 id l2, let i := length (ts_studies (treached inv l1)) in let s := treached inv (l1 ++ TNew id :: l2) in
  Forall (fun o => studies i o = false) l2 ->
  result_parameters i s = (s, Err RuntimeError) /\ result_uncertainties i s = (s, Err RuntimeError) /\
  forall p, get_toy_results i p s = (s, Err RuntimeError) /\ get_toy_result_pulls i p s = (s, Err RuntimeError).
Proof.
  intros inv l1 id l2 i s F. assert (S : nth_error (ts_studies s) i = Some (mk_study id [] [] false)).
  { unfold s, treached. rewrite trun_app. unfold trun at 1. cbn [fold_left]. fold (trun inv l1 tstate_init). apply trun_study; [exact F|].
    change (trun inv l1 tstate_init) with (treached inv l1). cbn [tstep]. unfold tbind, study_new, tret. cbn [fst ts_studies]. rewrite nth_error_app2, Nat.sub_diag by apply Nat.le_refl. reflexivity. }
  pose proof (fun p => accessors_raise i s _ p S eq_refl) as A. split; [apply (A EmptyString)|]. split; [apply (A EmptyString)|]. intros p. destruct (A p) as (_ & _ & A3 & A4). auto.
Qed.
Print Assumptions C56_before.
(** get_toy_results(p) after a study: the column of the process, one entry per experiment. *)
Theorem C56_columns : forall inv l i envs n max_tries p q, inv_spec inv -> let s := treached inv l in
  (i < length (ts_studies s))%nat -> (0 < n)%nat -> nth_error (w_procs (fs_w (ts_f s))) q = Some p ->
  let s' := fst (tstep inv (TExperiments i envs n max_tries) s) in
  snd (tstep inv (TExperiments i envs n max_tries) s) = Ok tt ->
  exists rows, length rows = n /\ result_parameters i s' = (s', Ok (map fst rows)) /\ result_uncertainties i s' = (s', Ok (map snd rows)) /\
    get_toy_results i p s' = (s', Ok (fitted q rows, fit_errors q rows)).
Proof.
  intros inv l i envs n mt p q IS s I N Q s' OK. destruct (nth_error (ts_studies s) i) as [st|] eqn:S; [|apply nth_error_None in S; lia].
  cbn [tstep] in *. unfold s' in *. clear s'. destruct (do_experiments envs i n mt s) as (s' & v) eqn:E. cbn [fst snd] in *. subst v.
  destruct (do_experiments_spec envs i n mt s st s' _ S E) as (rows & k & L & SU & SS).
  assert (S' : nth_error (ts_studies s') i = Some (filled st rows true)) by (rewrite SS; eapply upd_len; exact S).
  destruct (accessors_ok i s' _ S' eq_refl) as (_ & A1 & A2). exists rows. split; [exact L|]. split; [exact A1|]. split; [exact A2|].
  pose proof (succeed_pres _ _ _ _ _ dro_refl dro_trans (fun v => toy_fit_only v _ _) _ _ _ _ _ SU) as (D & _). pose proof (keeps_dr _ _ D) as (K1 & K2).
  destruct (treached_world inv l) as (l' & EW). fold s in EW. assert (W : WF (fs_w (ts_f s))) by (rewrite EW; now apply reached_wf).
  eapply get_toy_results_ok; [exact S'|reflexivity|reflexivity|reflexivity| |apply (succeed_lengths _ _ _ _ _ _ _ _ _ SU)| |].
  - destruct rows; [simpl in L; lia|discriminate].
  - rewrite K2. apply index_of_nodup; [apply (wf_procs _ W)|exact Q].
  - pose proof (named_any (fs_w (ts_f s))) as NA. unfold named in NA. assert (q < length (w_procs (fs_w (ts_f s))))%nat by (apply nth_error_Some; congruence). lia.
Qed.
Print Assumptions C56_columns.
(** The remaining outcomes of get_toy_results after a study which returned: ValueError for an unknown process and
    IndexError if no experiment was asked for; neither changes anything. *)
Theorem C56_no_columns : forall inv l i envs n max_tries p, let s := treached inv l in
  (i < length (ts_studies s))%nat ->
  let s' := fst (tstep inv (TExperiments i envs n max_tries) s) in
  snd (tstep inv (TExperiments i envs n max_tries) s) = Ok tt ->
  (~ In p (w_procs (fs_w (ts_f s'))) -> get_toy_results i p s' = (s', Err ValueError) /\ get_toy_result_pulls i p s' = (s', Err ValueError)) /\
  (In p (w_procs (fs_w (ts_f s'))) -> n = 0%nat -> get_toy_results i p s' = (s', Err IndexError) /\ get_toy_result_pulls i p s' = (s', Err IndexError)).
Proof.
  intros inv l i envs n mt p s I s' OK. destruct (nth_error (ts_studies s) i) as [st|] eqn:S; [|apply nth_error_None in S; lia].
  cbn [tstep] in *. unfold s' in *. clear s'. destruct (do_experiments envs i n mt s) as (s' & v) eqn:E. cbn [fst snd] in *. subst v.
  destruct (do_experiments_spec envs i n mt s st s' _ S E) as (rows & k & L & SU & SS).
  assert (S' : nth_error (ts_studies s') i = Some (filled st rows true)) by (rewrite SS; eapply upd_len; exact S).
  destruct (accessors_ok i s' _ S' eq_refl) as (A0 & A1 & A2).
  assert (R : forall e, get_toy_results i p s' = (s', Err e) -> get_toy_result_pulls i p s' = (s', Err e)).
  { intros e X. unfold get_toy_result_pulls, tbind. rewrite A0, X. reflexivity. }
  split.
  - intros N. assert (X : get_toy_results i p s' = (s', Err ValueError)); [|split; [exact X|exact (R _ X)]].
    unfold get_toy_results, tbind. rewrite A0. destruct (index_of p (w_procs (fs_w (ts_f s')))) as [q|] eqn:Q; [|reflexivity].
    exfalso. apply N. apply index_of_nth in Q. eapply nth_error_In. exact Q.
  - intros IN ->. assert (X : get_toy_results i p s' = (s', Err IndexError)); [|split; [exact X|exact (R _ X)]].
    unfold get_toy_results, tbind. rewrite A0. destruct (index_of p (w_procs (fs_w (ts_f s')))) as [q|] eqn:Q.
    + cbn [tlift]. unfold tret, tlift. rewrite A1. destruct rows; [reflexivity|discriminate].
    + exfalso. destruct (index_of_in _ _ IN) as (q & Q'). congruence.
Qed.
Print Assumptions C56_no_columns.

(** ** C67 *)
(** do_experiments changes no template, constraint, channel or fitter, and no result of an earlier fit,
    whether it returns or raises; the data of channels are replaced. *)
Theorem C67_only_data : forall envs i n max_tries s, data_replaced_only (ts_f s) (ts_f (fst (do_experiments envs i n max_tries s))) /\
  forall j, j <> i -> nth_error (ts_studies (fst (do_experiments envs i n max_tries s))) j = nth_error (ts_studies s) j.
Proof.
  intros envs i n mt s. split.
  - destruct (nth_error (ts_studies s) i) as [st|] eqn:S.
    2:{ unfold do_experiments, tbind, reset_state, on_study. rewrite S. apply dro_refl. }
    destruct (do_experiments envs i n mt s) as (s' & v) eqn:E. pose proof (do_experiments_spec envs i n mt s st s' v S E) as X. cbn [fst]. destruct v as [u|e].
    + destruct X as (rows & k & _ & SU & _). apply (succeed_pres _ _ _ _ _ dro_refl dro_trans (fun v => toy_fit_only v _ _) _ _ _ _ _ SU).
    + destruct X as (rows & k & f1 & _ & SU & G & _). eapply dro_trans; [apply (succeed_pres _ _ _ _ _ dro_refl dro_trans (fun v => toy_fit_only v _ _) _ _ _ _ _ SU)|].
      apply (gives_up_pres _ _ _ _ _ dro_refl dro_trans (fun v => toy_fit_only v _ _) _ _ _ _ G).
  - intros j N. apply trel_do_experiments with (R := same_study j); unfold same_study; try congruence; try (intros; intros ?; unfold on_w; cbn beta; now rewrite on_f_studies).
    intros g s0. apply other_study. congruence.
Qed.
Print Assumptions C67_only_data.

(** ** C57 *)
(** The pull of an experiment is (fitted value - Y) / uncertainty, where Y is the result of get_yield(p) at
    the time of the call, for all histories l2 between the study and the call. *)
Theorem C57_value : forall inv l i envs n max_tries l2 p q, inv_spec inv -> let s := treached inv l in let o := TExperiments i envs n max_tries in
  (i < length (ts_studies s))%nat -> (0 < n)%nat -> nth_error (w_procs (fs_w (ts_f s))) q = Some p ->
  let s1 := fst (tstep inv o s) in let s' := treached inv (l ++ o :: l2) in
  snd (tstep inv o s) = Ok tt -> Forall (fun o => studies i o = false) l2 -> nth_error (w_procs (fs_w (ts_f s'))) q = Some p ->
  exists rows Y, length rows = n /\ result_parameters i s1 = (s1, Ok (map fst rows)) /\ result_uncertainties i s1 = (s1, Ok (map snd rows)) /\
    snd (get_yield p (fs_w (ts_f s'))) = Ok Y /\
    get_toy_result_pulls i p s' = (s', Ok (map (fun row => xdiv (xsub (nth q (fst row) NaN) Y) (nth q (snd row) NaN)) rows)).
Proof.
  intros inv l i envs n mt l2 p q IS s o I N Q s1 s' OK F Q'. destruct (nth_error (ts_studies s) i) as [st|] eqn:S; [|apply nth_error_None in S; lia].
  assert (ES : s' = trun inv l2 s1). { unfold s', treached. rewrite trun_app. reflexivity. }
  assert (X : exists rows, length rows = n /\ nth_error (ts_studies s1) i = Some (filled st rows true) /\ Forall (fun row => length (fst row) = length (param_names (fs_w (ts_f s))) /\ length (snd row) = length (param_names (fs_w (ts_f s)))) rows).
  { unfold s1, o in *. cbn [tstep] in *. destruct (do_experiments envs i n mt s) as (s2 & v) eqn:E. cbn [fst snd] in *. subst v. destruct (do_experiments_spec envs i n mt s st s2 _ S E) as (rows & k & L & SU & SS).
    exists rows. split; [exact L|]. split; [rewrite SS; eapply upd_len; exact S|]. apply (succeed_lengths _ _ _ _ _ _ _ _ _ SU). }
  destruct X as (rows & L & S1 & LE). destruct (accessors_ok i s1 _ S1 eq_refl) as (_ & A1 & A2).
  assert (S' : nth_error (ts_studies s') i = Some (filled st rows true)) by (rewrite ES; apply trun_study; assumption).
  destruct (treached_world inv (l ++ o :: l2)) as (l' & EW). fold s' in EW. assert (W : WF (fs_w (ts_f s'))) by (rewrite EW; now apply reached_wf).
  pose proof (get_yield_value (fs_w (ts_f s')) p (nth_error_In _ _ Q') (wf_procs _ W)) as GY.
  exists rows, (process_yield (fs_w (ts_f s')) p). split; [exact L|]. split; [exact A1|]. split; [exact A2|]. split; [rewrite GY; reflexivity|].
  destruct (accessors_ok i s' _ S' eq_refl) as (C & _). unfold get_toy_result_pulls. unfold tbind at 1. rewrite C. unfold tbind at 1.
  rewrite (get_toy_results_ok i s' _ rows p q (length (param_names (fs_w (ts_f s)))) S'); try reflexivity.
  - cbn [fst snd]. unfold tbind at 1, on_w, on_f, on_world. rewrite GY. cbn iota. unfold tret. destruct s' as [[w ps fs] sts]. cbn [ts_f ts_studies fs_w fs_pars fs_fitters]. f_equal. f_equal.
    unfold fitted, fit_errors. clear. induction rows as [|r rows IH]; [reflexivity|]. cbn [map combine fst snd]. now rewrite IH.
  - destruct rows; [simpl in L; lia|discriminate].
  - exact LE.
  - apply index_of_nodup; [apply (wf_procs _ W)|exact Q'].
  - pose proof (named_any (fs_w (ts_f s))) as NA. unfold named in NA. assert (q < length (w_procs (fs_w (ts_f s))))%nat by (apply nth_error_Some; congruence). lia.
Qed.
Print Assumptions C57_value.

(** The toy data are generated with yield y of process p: every template of p has yield y times its efficiency. *)
Definition generated_with (w : world) (p : string) (y : R) : Prop :=
  forall j nm c k tid t eff, channel_at w j nm c -> template_at w c k p tid t -> nth_error (c_effs c) k = Some (p, eff) -> t_yield t = Fin (y * eff).
(** Directly after the study Y is y times the sum of the efficiencies of the process.  If the sum is 1 the
    pulls are as documented. *)
Theorem C57_pulls_partial : forall inv l i envs n max_tries p q y, inv_spec inv -> let s := treached inv l in let o := TExperiments i envs n max_tries in
  (i < length (ts_studies s))%nat -> (0 < n)%nat -> let w := fs_w (ts_f s) in nth_error (w_procs w) q = Some p -> generated_with w p y ->
  let s' := fst (tstep inv o s) in snd (tstep inv o s) = Ok tt ->
  exists rows, length rows = n /\ result_parameters i s' = (s', Ok (map fst rows)) /\ result_uncertainties i s' = (s', Ok (map snd rows)) /\
    get_toy_result_pulls i p s' = (s', Ok (map (fun row => xdiv (xsub (nth q (fst row) NaN) (Fin (y * total_eff w p))) (nth q (snd row) NaN)) rows)) /\
    (total_eff w p = 1 -> get_toy_result_pulls i p s' = (s', Ok (map (fun row => xdiv (xsub (nth q (fst row) NaN) (Fin y)) (nth q (snd row) NaN)) rows))).
Proof.
  intros inv l i envs n mt p q y IS s o I N w Q G s' OK.
  assert (ES : s' = treached inv (l ++ [o])). { unfold s', treached. rewrite trun_app. reflexivity. }
  pose proof (C67_only_data envs i n mt s) as ((D & _) & _). change (data_replaced (fs_w (ts_f s)) (fs_w (ts_f s'))) in D. fold w in D.
  assert (Q' : nth_error (w_procs (fs_w (ts_f s'))) q = Some p) by (destruct (keeps_dr _ _ D) as (_ & ->); exact Q).
  rewrite ES in Q'. destruct (C57_value inv l i envs n mt [] p q IS I N Q OK (Forall_nil _) Q') as (rows & Y & L & A1 & A2 & GY & P). fold o in P, GY, A1, A2. rewrite <- ES in *. fold s' in A1, A2.
  exists rows. split; [exact L|]. split; [exact A1|]. split; [exact A2|].
  assert (EY : Y = Fin (y * total_eff w p)).
  { destruct (treached_world inv (l ++ [o])) as (l' & EW). rewrite <- ES in EW. assert (W : WF (fs_w (ts_f s'))) by (rewrite EW; now apply reached_wf).
    rewrite get_yield_value in GY; [|eapply nth_error_In; exact Q'|apply (wf_procs _ W)]. injection GY as <-. rewrite <- (dr_total_eff _ _ p D), <- (sum_effs_total _ p W). apply process_yield_scaled; [exact W|].
    intros j nm c' k tid t eff CA (T1 & T2) EF. destruct (dr_channel _ _ _ _ _ D CA) as (c & d & CA0 & ->). cbn [with_data c_effs c_tmpls] in *. destruct D as (DT & _). rewrite DT in T2. eapply G; [exact CA0|split; eassumption|exact EF]. }
  subst Y. split; [exact P|]. intros T. rewrite T, Rmult_1_r in P. exact P.
Qed.
Print Assumptions C57_pulls_partial.
(** Otherwise they are not: if every fit finds exactly the yield y that was generated, with uncertainty e, all pulls are
    y (1 - E) / e with the sum E of the efficiencies, instead of 0. *)
Theorem C57_pulls_refuted : forall inv l i envs n max_tries p q y e rows, inv_spec inv -> let s := treached inv l in let o := TExperiments i envs n max_tries in
  (i < length (ts_studies s))%nat -> (0 < n)%nat -> let w := fs_w (ts_f s) in nth_error (w_procs w) q = Some p -> generated_with w p y ->
  let s' := fst (tstep inv o s) in snd (tstep inv o s) = Ok tt ->
  result_parameters i s' = (s', Ok (map fst rows)) -> result_uncertainties i s' = (s', Ok (map snd rows)) ->
  Forall (fun row => nth_error (fst row) q = Some (Fin y) /\ nth_error (snd row) q = Some (Fin e)) rows -> e <> 0 ->
  get_toy_result_pulls i p s' = (s', Ok (repeat (Fin (y * (1 - total_eff w p) / e)) n)).
Proof.
  intros inv l i envs n mt p q y e rows IS s o I N w Q G s' OK R1 R2 F E0.
  destruct (C57_pulls_partial inv l i envs n mt p q y IS I N Q G OK) as (rows' & L & R1' & R2' & P & _). fold s o s' in R1', R2', P. fold w in P.
  rewrite R1 in R1'. injection R1' as E1. rewrite R2 in R2'. injection R2' as E2.
  assert (ER : rows = rows'). { clear -E1 E2. revert rows' E1 E2. induction rows as [|[a b] rows IH]; intros [|[a' b'] rows'] E1 E2; try discriminate; [reflexivity|]. cbn in *. injection E1 as -> E1. injection E2 as -> E2. f_equal. auto. }
  subst rows'. rewrite P. f_equal. f_equal. rewrite <- L. clear -F E0. induction F as [|row rows (A & B) _ IH]; [reflexivity|]. cbn [map length repeat]. f_equal; [|exact IH].
  apply nth_error_nth with (d := NaN) in A, B. rewrite A, B. cbn [xsub xopp xadd xdiv]. unfold Reqb. destruct (Req_EM_T e 0); [contradiction|]. f_equal. field. exact E0.
Qed.
Print Assumptions C57_pulls_refuted.

(** ** C68 *)
Lemma distinct_op w w' : only_params w w' -> distinct_templates w -> distinct_templates w'.
Proof.
  intros O DT a a' n n' c c' kk kk' q q' tid t0 t' (cid & X1 & X2) (cid' & Y1 & Y2) (T1 & T2) (U1 & U2). pose proof O as (A1 & A2 & A3 & _). rewrite A3 in X1, Y1. rewrite A2 in X2, Y2.
  pose proof (op_lookup w w' tid O) as L. destruct (nth_error (w_tmpls w) tid) as [t1|] eqn:T; [|congruence].
  eapply DT; [exists cid; split; eassumption|exists cid'; split; eassumption|split; eassumption|split; eassumption].
Qed.
Lemma distinct_dr w w' : data_replaced w w' -> distinct_templates w -> distinct_templates w'.
Proof.
  intros D DT a a' n n' c c' kk kk' q q' tid t0 t' X Y (T1 & T2) (U1 & U2). pose proof D as (A1 & _). rewrite A1 in T2, U2.
  destruct (dr_channel _ _ _ _ _ D X) as (c1 & d1 & X1 & ->). destruct (dr_channel _ _ _ _ _ D Y) as (c2 & d2 & Y1 & ->). cbn [with_data c_tmpls] in *.
  eapply DT; [exact X1|exact Y1|split; eassumption|split; eassumption].
Qed.
Lemma nominal_point inv w p v w1 w2 : inv_spec inv -> WF w -> distinct_templates w -> reset_parameters w = (w1, Ok tt) -> set_yield p v w1 = (w2, Ok tt) -> nominal_except w p v w2 /\ WF w2 /\ distinct_templates w2.
Proof.
  intros IS W DT R S. pose proof (op_reset w) as O1. rewrite R in O1. cbn [fst] in O1. pose proof (op_set_yield p v w1) as O2. rewrite S in O2. cbn [fst] in O2.
  assert (W1 : WF w1). { pose proof (wf_step inv OReset IS w W) as Z. cbn [step] in Z. rewrite R in Z. exact Z. }
  assert (W2 : WF w2). { pose proof (wf_step inv (OSetYield p v) IS w1 W1) as Z. cbn [step] in Z. rewrite S in Z. exact Z. }
  pose proof (distinct_op _ _ O1 DT) as DT1. pose proof (distinct_op _ _ O2 DT1) as DT2. pose proof (po_trans _ op_po _ _ _ O1 O2) as O. split; [|auto]. split; [exact O|].
  intros j n c k p' tid t CA (K & T).
  assert (IP : In p (w_procs w1)). { destruct (in_dec string_dec p (w_procs w1)) as [I|I]; [exact I|]. rewrite set_yield_unknown in S by exact I. discriminate. }
  pose proof (set_yield_spec w1 p v W1 IP) as SY. rewrite S in SY. injection SY as SY.
  pose proof O2 as (A1 & A2 & A3 & _). assert (CA1 : channel_at w1 j n c) by (destruct CA as (cid & H1 & H2); exists cid; rewrite A3 in H1; rewrite A2 in H2; auto).
  destruct (template_at_ok w1 j n c k p' tid W1 CA1 K) as (t1 & (_ & T1) & _). destruct (effs_nth _ _ _ c k p' tid (chan_ok_at w1 j n c W1 CA1) K) as (eff & EF).
  destruct (reset_parameters_done w W) as (w1' & R' & RS & D). rewrite R in R'. injection R' as <-.
  assert (U : uses_template w tid). { pose proof O1 as (_ & B2 & B3 & _). pose proof (op_lookup w w1 tid O1) as L. destruct (nth_error (w_tmpls w) tid) as [t0|] eqn:T0; [|congruence].
    exists j, n, c, k, p', t0. split; [|split; assumption]. destruct CA1 as (cid & H1 & H2). exists cid. rewrite B3 in H1. rewrite B2 in H2. auto. }
  destruct (D tid U) as (t1' & T1' & h & H & P). assert (t1' = t1) by congruence. subst t1'.
  pose proof (op_lookup w1 w2 tid O2) as L. rewrite T1 in L. destruct L as (ps & L). assert (t = set_params t1 ps) by congruence. subst t.
  exists h, eff. split; [rewrite A1; exact H|]. split; [exact EF|]. cbn [set_params t_params t_nb]. destruct (String.eqb_spec p' p) as [->|NE].
  - assert (X : nth_error (w_tmpls w2) tid = Some (set_params t1 (Fin (v * eff) :: t_nui t1))).
    { rewrite SY. cbn [set_tmpls w_tmpls]. apply assigns_in; auto; [now apply sy_nodup|].
      apply in_flat_map. exists c. split; [eapply nth_error_In, channel_at_chans; eauto|]. rewrite (sy_assign_in w1 c k p tid t1 eff v j n W1 CA1 (conj K T1) EF). left. reflexivity. }
    rewrite L in X. injection X as ->. f_equal. unfold t_nui. rewrite P. reflexivity.
  - assert (X : nth_error (w_tmpls w2) tid = nth_error (w_tmpls w1) tid).
    { rewrite SY. cbn [set_tmpls w_tmpls]. apply assigns_other. intros Y. apply in_map_iff in Y as (a & E & Y). apply in_flat_map in Y as (c' & C' & Y).
      assert (Z : In tid (map fst (sy_assign (w_tmpls w1) p v c'))) by (rewrite <- E; now apply in_map). apply sy_assign_fst in Z.
      apply In_nth_error in C' as (i' & C'). apply (chans_channel_at w1 i' c' W1) in C' as (n' & C'). apply In_nth_error in Z as (k' & K').
      destruct (template_at_ok w1 i' n' c' k' p tid W1 C' K') as (t' & TA' & _). destruct (DT1 j i' n n' c c' k k' p' p tid t1 t' CA1 C' (conj K T1) TA') as (<- & <-).
      assert (c' = c) by (destruct CA1 as (cid & G1 & G2), C' as (cid' & G1' & G2'); congruence). subst c'. rewrite K in K'. congruence. }
    rewrite L, T1 in X. injection X as X. assert (ps = t_params t1) by (rewrite <- X; reflexivity). subst ps. rewrite P. reflexivity.
Qed.
Lemma wf_runs inv f f' : inv_spec inv -> runs inv f f' -> WF (fs_w f) -> WF (fs_w f').
Proof. intros IS (l & ->) W. revert W. generalize (fs_w f). induction l as [|o l IH]; intros w W; [exact W|]. rewrite run_cons. apply IH. apply (wf_step inv o IS w W). Qed.
Lemma linearity_tested inv envs id p ne k f pts k' f' rows : inv_spec inv -> linearity envs id p ne k f pts k' f' rows -> WF (fs_w f) -> distinct_templates (fs_w f) -> tested envs id p ne k f pts k' f' rows.
Proof.
  intros IS. induction 1 as [|k f v f1 f2 k1 f3 rows pts k' f' rest A B L SU LI IH]; intros W DT; [constructor|].
  destruct f as [w ps fs]. unfold on_world in A. cbn [fs_w fs_pars fs_fitters] in *. destruct (reset_parameters w) as (w1 & r1) eqn:R. injection A as <- ->.
  unfold on_world in B. cbn [fs_w fs_pars fs_fitters] in *. destruct (set_yield p v w1) as (w2 & r2) eqn:S. injection B as <- ->.
  destruct (nominal_point inv w p v w1 w2 IS W DT R S) as (NP & W2 & DT2).
  pose proof (succeed_pres _ _ _ _ _ dro_refl dro_trans (fun v => toy_fit_only v _ _) _ _ _ _ _ SU) as (D & _).
  pose proof (succeed_pres _ _ _ _ _ (runs_refl inv) (runs_trans inv) (fun v => toy_fit_runs inv v _ _) _ _ _ _ _ SU) as RU.
  econstructor; [exact NP|exact L|exact SU|]. apply IH; [eapply wf_runs; [exact IS|exact RU|exact W2]|eapply distinct_dr; [exact D|exact DT2]].
Qed.
Lemma fold_left_Fin l : forall a, fold_left xadd (map Fin l) (Fin a) = Fin (a + fold_right Rplus 0 l).
Proof. induction l as [|x l IH]; intros a; cbn [map fold_left fold_right]; [f_equal; ring|]. cbn [xadd]. rewrite IH. f_equal. ring. Qed.
Lemma xmean_Fin l : l <> [] -> xmean (map Fin l) = Fin (mean l).
Proof.
  intros N. unfold xmean, mean. rewrite fold_left_Fin, map_length. cbn [xdiv]. unfold Reqb. destruct (Req_EM_T (INR (length l)) 0) as [E|E].
  - destruct l; [congruence|]. apply INR_eq with (m := 0%nat) in E. discriminate.
  - f_equal. unfold Rdiv. ring.
Qed.
Lemma mean_nonneg l : Forall (fun x => 0 <= x) l -> l <> [] -> 0 <= mean l.
Proof.
  intros F N. unfold mean. apply Rmult_le_pos; [induction F; simpl; [lra|]; destruct l; [simpl; lra|]; assert (0 <= fold_right Rplus 0 (r :: l)) by (apply IHF; discriminate); lra|].
  apply Rlt_le, Rinv_0_lt_compat. apply lt_0_INR. destruct l; [congruence|simpl; lia].
Qed.
Lemma xstd_Fin l : l <> [] -> xstd (map Fin l) = Fin (std_dev l).
Proof.
  intros N. unfold xstd, std_dev. rewrite xmean_Fin by exact N. rewrite map_map. cbn [xsub xopp xadd]. unfold xsq. cbn [xmul]. rewrite <- (map_map (fun x => (x + - mean l) * (x + - mean l)) Fin), xmean_Fin.
  - cbn [xsqrt]. set (m := mean _). assert (M : m = mean (map (fun x => (x - mean l) ^ 2) l)). { unfold m. f_equal. apply map_ext. intros x. ring. }
    rewrite M. unfold Rltb. destruct (Rlt_dec (mean (map (fun x => (x - mean l) ^ 2) l)) 0) as [LT|_]; [|reflexivity]. exfalso.
    assert (0 <= mean (map (fun x => (x - mean l) ^ 2) l)); [|lra]. apply mean_nonneg; [|destruct l; [congruence|discriminate]]. apply Forall_forall. intros x X. apply in_map_iff in X as (y & <- & _). apply pow2_ge_0.
  - destruct l; [congruence|discriminate].
Qed.
Lemma linearity_lengths envs id p ne k f pts k' f' rows : linearity envs id p ne k f pts k' f' rows -> length rows = length pts /\ Forall (fun r => length r = ne) rows.
Proof. induction 1 as [|k f v f1 f2 k1 f3 rows pts k' f' rest A B L SU LI (IH1 & IH2)]; split; simpl; auto. Qed.

(** do_linearity_test returns n_points equidistant points; at every point n_exp experiments are made with toy
    data of nominal parameters except for the yield of the process; mean and standard deviation are those of
    the fitted values. *)
Theorem C68_linearity : forall inv l i envs p q lo hi n_points n_exp s' points means sds, inv_spec inv -> let s := treached inv l in
  distinct_templates (fs_w (ts_f s)) -> nth_error (w_procs (fs_w (ts_f s))) q = Some p -> (0 < n_exp)%nat ->
  forall st, nth_error (ts_studies s) i = Some st -> do_linearity_test envs i p lo hi n_points n_exp s = (s', Ok (points, means, sds)) ->
  length points = n_points /\ length means = n_points /\ length sds = n_points /\
  (forall j, (2 <= n_points)%nat -> (j < n_points)%nat -> nth_error points j = Some (lo + INR j * ((hi - lo) / (INR n_points - 1)))) /\
  exists rows k, tested envs (st_id st) p n_exp 0 (ts_f s) points k (ts_f s') rows /\ length rows = n_points /\
    forall j r, nth_error rows j = Some r -> length r = n_exp /\
      forall vs, fitted q r = map Fin vs -> nth_error means j = Some (Fin (mean vs)) /\ nth_error sds j = Some (Fin (std_dev vs)).
Proof.
  intros inv l i envs p q lo hi np ne s' points means sds IS s DT Q NE st S H. unfold do_linearity_test in H. cbv zeta in H. unfold tbind in H.
  destruct (linearity_points envs i p ne 0 (np_linspace lo hi np) s) as (s1 & [[ms ss]|e]) eqn:E; [|discriminate]. unfold tret in H. injection H as <- <- <- <-. cbn [fst snd].
  pose proof (points_spec envs i p ne _ NE 0%nat s st s1 _ S E) as (rows & k & LI & _ & MS).
  destruct (treached_world inv l) as (l' & EW). fold s in EW. assert (W : WF (fs_w (ts_f s))) by (rewrite EW; now apply reached_wf).
  destruct (MS q) as (-> & ->); [apply index_of_nodup; [apply (wf_procs _ W)|exact Q]|].
  assert (LP : length (np_linspace lo hi np) = np). { unfold np_linspace. destruct np as [|[|np]]; [reflexivity|reflexivity|]. now rewrite map_length, seq_length. }
  destruct (linearity_lengths _ _ _ _ _ _ _ _ _ _ LI) as (LR & FR). rewrite LP in LR.
  split; [exact LP|]. split; [rewrite map_length; exact LR|]. split; [rewrite map_length; exact LR|]. split.
  { intros j N2 J. destruct np as [|[|np]]; [lia|lia|]. unfold np_linspace. rewrite nth_error_map.
    rewrite (nth_error_nth' _ 0%nat) by (rewrite seq_length; exact J). rewrite seq_nth by exact J. cbn [option_map Nat.add]. do 2 f_equal. f_equal. f_equal. rewrite (S_INR (Datatypes.S np)). ring. }
  exists rows, k. split; [eapply linearity_tested; eassumption|]. split; [exact LR|]. intros j r J. rewrite Forall_forall in FR. pose proof (FR r (nth_error_In _ _ J)) as LN. split; [exact LN|].
  intros vs V. rewrite !nth_error_map, J. cbn [option_map]. rewrite V.
  assert (vs <> []). { intros ->. unfold fitted in V. destruct r; [simpl in LN; lia|discriminate]. }
  rewrite xmean_Fin, xstd_Fin by assumption. auto.
Qed.
Print Assumptions C68_linearity.
