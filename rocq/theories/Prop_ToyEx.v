(** Concrete toy studies: the hypotheses of C56, C57, C67, C68 can be met. *)
From Coq Require Import Reals String ZArith Bool Arith List Lra Lia.
From Verif Require Import Model_Num Model_Hist Model_Utility Model_Template Model_World Model_Ops Model_Minimizer Model_Fitter Model_Toy
  Spec_Matrix Spec_Min Spec_World Spec_Data Spec_Fit Spec_Stale Spec_Toy Proof_HistHeap Proof_Eval Proof_Route Proof_Monad Proof_World Proof_Names Proof_Yield Proof_Update Proof_Valid Proof_Stale Proof_Min Proof_Fit Proof_Fit2 Proof_Fit3 Proof_Fit4 Proof_Sig Proof_Toy Proof_Toy2 Proof_Toy3
  Prop_World Prop_Params Prop_Stale Prop_Data Prop_Fitter Prop_FitEffect Prop_Toy.
Import ListNotations.
Local Open Scope R_scope.

(** an optimizer that finds yield y and nuisance parameters 0, with errors 1 *)
Definition ex_found (y : R) : ext := mk_ext
  (fun args => Ask (ma_start args) (fun _ => Stop (Ok (mk_mout (Fin 0) [Fin y; Fin 0; Fin 0] [Fin 1; Fin 1; Fin 1] (Ok []) (Ok []) true))))
  (fun _ _ _ => Stop (Err RuntimeError)) (fun _ => Stop (Err RuntimeError)) (fun m => Ok m).
Definition ex_row (y : R) : list xr * list xr := ([Fin y; Fin 0; Fin 0], [Fin 1; Fin 1; Fin 1]).
Definition ex_env (y : R) : env := mk_env (ex_found y) (fun _ => [1; 3]%nat).
Lemma ex_found_runs {S} (fcn : list xr -> S -> S * res xr) y x g p m fl w : m_fixed m = Flags fl -> length (p_names p) = 3%nat ->
  exists w' st r, play fcn (minimize (ex_found y) x g (mk_mstate p m)) w = (w', (st, Ok r)) /\ p_values (ms_p st) = fst (ex_row y) /\ p_errors (ms_p st) = snd (ex_row y) /\ r_params r = m_params m.
Proof.
  intros F L. unfold minimize, mbind at 1, mget. cbn [pbind ms_m]. rewrite F. unfold minimize_iminuit, mbind, mget, mplay, mset_fcn_min, mset_success, mpars, mlift. cbn [pbind ms_m ms_p ex_found ex_minuit ma_start play mo_fval mo_values mo_errors mo_matrix mo_corr mo_valid].
  unfold set_values, num_pars. cbn [p_names length]. rewrite L, Nat.eqb_refl. cbn [pbind ms_m ms_p p_names]. unfold set_errors, num_pars. cbn [p_names length]. rewrite L, Nat.eqb_refl. cbn [pbind ms_m ms_p set_cov set_corr p_names p_values p_errors play m_params m_fixed m_bounds].
  do 3 eexists. split; [reflexivity|]. cbn [ms_p p_values p_errors r_params m_params]. auto.
Qed.

(** states in which a toy fit can be made *)
Record toyable (inv : mat -> res mat) (w : world) : Prop := {
  ty_reached : exists l, w = reached inv l;
  ty_names : param_names w = ["s_yield"; "A_s_bin_0"; "A_s_bin_1"]%string;
  ty_procs : w_procs w = ["s"%string];
  ty_channel : exists j n c, channel_at w j n c;
  ty_chan : forall j n c, channel_at w j n c -> j = 0%nat /\ c_tmpls c = [("s"%string, 0%nat)] /\ c_effs c = [("s"%string, / 2)] /\ c_bins c = [2%nat];
  ty_tmpl : exists t y e1 e2, nth_error (w_tmpls w) 0 = Some t /\ t_counts t = [Fin 1; Fin 3] /\ t_rel t = [Fin e1; Fin e2] /\ t_params t = [Fin y; Fin 0; Fin 0] /\ t_bins t = [2%nat] /\ t_nb t = 2%nat /\ 0 <= y }.
Lemma ty_templates inv w : toyable inv w -> all_have_templates w.
Proof. intros TY j n c H. destruct (ty_chan _ _ TY _ _ _ H) as (_ & E & _). rewrite E. discriminate. Qed.
Lemma ty_bins inv w : toyable inv w -> all_have_bins w.
Proof. intros TY j n c H. destruct (ty_chan _ _ TY _ _ _ H) as (_ & _ & _ & E). rewrite E. intros k [<-|[]]. lia. Qed.
Lemma ty_two inv w j n c : toyable inv w -> channel_at w j n c -> bins_of c = 2%nat.
Proof. intros TY H. destruct (ty_chan _ _ TY _ _ _ H) as (_ & _ & _ & E). unfold bins_of. rewrite E. reflexivity. Qed.
Lemma ty_pos inv w j n c s : toyable inv w -> channel_at w j n c -> sum_of_templates w c s -> Forall (fun m => exists r, m = Fin r /\ 0 <= r) s.
Proof.
  intros TY H (vs & V1 & V2 & V3). rewrite (ty_two _ _ _ _ _ TY H) in *. destruct (ty_chan _ _ TY _ _ _ H) as (_ & E & _). rewrite E in V1. destruct (ty_tmpl _ _ TY) as (t0 & y & e1 & e2 & T0 & T1 & T2 & T3 & T4 & _ & Y).
  inversion V1 as [|a v l1 vs' (t & T & TV) V1']. subst. inversion V1'. subst. cbn [snd] in T. assert (t = t0) by congruence. subst t.
  assert (TT : exists r1 r2, v = [Fin r1; Fin r2] /\ 0 <= r1 /\ 0 <= r2).
  { revert TV. unfold t_values, t_fractions, bin_fractions, t_nui, t_yield. rewrite T1, T2, T3, T4. cbn. unfold Reqb. destruct (Req_EM_T _ 0) as [Z|_]; [exfalso; revert Z; lra|]. cbn. intros TV. injection TV as <-.
    assert (D : 0 < / (1 * (1 + 0 * e1) + (3 * (1 + 0 * e2) + 0))) by (apply Rinv_0_lt_compat; lra).
    eexists. eexists. split; [reflexivity|]. unfold Rdiv. split; repeat (apply Rmult_le_pos || lra). }
  destruct TT as (r1 & r2 & -> & P1 & P2). pose proof (V3 0%nat ltac:(lia)) as X0. pose proof (V3 1%nat ltac:(lia)) as X1.
  destruct s as [|a [|b [|? ?]]]; try discriminate. cbn in X0, X1. injection X0 as ->. injection X1 as ->. repeat constructor; eexists; (split; [reflexivity|lra]).
Qed.
Lemma ty_distinct inv w : toyable inv w -> distinct_templates w.
Proof.
  intros TY i i' n n' c c' k k' p p' tid t t' H H' (K & _) (K' & _). destruct (ty_chan _ _ TY _ _ _ H) as (-> & E & _). destruct (ty_chan _ _ TY _ _ _ H') as (-> & E' & _).
  rewrite E in K. rewrite E' in K'. destruct k as [|[|k]]; try discriminate; destruct k' as [|[|k']]; try discriminate; auto.
Qed.
Lemma dr_channel' w w' i n c : data_replaced w w' -> channel_at w i n c -> exists d, channel_at w' i n (with_data c d).
Proof.
  intros D (cid & H1 & H2). pose proof D as (_ & A2 & _). pose proof (dr_nth w w' cid D) as X. rewrite H2 in X. eexists. exists cid. rewrite A2. split; [exact H1|exact X].
Qed.
Lemma toyable_dr inv f f' : data_replaced (fs_w f) (fs_w f') -> runs inv f f' -> toyable inv (fs_w f) -> toyable inv (fs_w f').
Proof.
  intros D (l' & R) [(l & E) A2 A3 (j & n & c & CA) A4 A5]. pose proof (keeps_dr _ _ D) as (K1 & K2). constructor.
  - exists (l ++ l'). rewrite R, E. unfold reached. now rewrite run_app.
  - congruence. - congruence.
  - destruct (dr_channel' _ _ _ _ _ D CA) as (d & CA'). eauto.
  - intros i0 n0 c0 C0. destruct (dr_channel _ _ _ _ _ D C0) as (c1 & d & C1 & ->). apply (A4 _ _ _ C1).
  - destruct D as (DT & _). rewrite DT. exact A5.
Qed.
Lemma ex_toy_fit_gen inv v gh f : inv_spec inv -> toyable inv (fs_w f) -> en_draws v = (fun _ => [1; 3]%nat) -> exists w x m fl, m_fixed m = Flags fl /\ m_params m = length (fs_pars f) /\
  toy_fit v "iminuit" gh f =
    (let (s, r) := finish false (mk_fstate w (fs_pars f) (fs_fitters f ++ [mk_fitter "iminuit" [] [] false])) (play nll (minimize (en_ext v) x gh (mk_mstate (pars_new ["s_yield"; "A_s_bin_0"; "A_s_bin_1"]%string) m)) w) in
     match r with Ok r => (p <~ get_pars (r_params r) ;; fret (p_values p, p_errors p)) s | Err e => (s, Err e) end).
Proof.
  intros IS TY DR. pose proof TY as [(l & E) A2 A3 CA _ _]. pose proof (ty_templates _ _ TY) as A4. pose proof (ty_bins _ _ TY) as A5. pose proof (fun j n c => ty_two _ _ j n c TY) as A6. pose proof (fun j n c s => ty_pos _ _ j n c s TY) as A7.
  assert (T : exists w' ds w'', generate_toy_dataset (en_draws v) (fs_w f) = (w', Ok ds) /\ mct_add_data ds w' = (w'', Ok tt)).
  { rewrite E in *. destruct (C42_toy inv l (en_draws v) IS A4 A5 A7) as (w' & ds & G1 & _ & _ & _ & w'' & G2 & _); [|eauto].
    intros j n cid c H1 H2. rewrite DR. cbn. symmetry. apply (A6 j n c). exists cid. auto. }
  destruct T as (w' & ds & w'' & G1 & G2).
  assert (TF : exists f2, f2 = mk_fstate w'' (fs_pars f) (fs_fitters f) /\ toyable inv (fs_w f2)).
  { eexists. split; [reflexivity|]. eapply toyable_dr; [| |exact TY].
    - pose proof (dr_toy (en_draws v) (fs_w f)) as D1. rewrite G1 in D1. pose proof (dr_add_data ds w') as D2. rewrite G2 in D2. eapply dr_po; [exact D1|exact D2].
    - exists [OToy (en_draws v); OAddData ds]. unfold run. cbn [fold_left step fs_w]. unfold bind. rewrite G1. cbn [fst ret]. rewrite G2. reflexivity. }
  destruct TF as (f2 & -> & TY2). cbn [fs_w] in TY2. pose proof (ty_templates _ _ TY2) as B4. destruct TY2 as [(l2 & E2) B2 B3 CB _ _].
  unfold toy_fit. unfold fbind at 1, on_world at 1. rewrite G1. cbn iota. unfold fbind at 1, on_world at 1. cbn [fs_w fs_pars fs_fitters]. rewrite G2. cbn iota. unfold fbind at 1, fitter_new at 1. cbn iota. cbn [fs_w fs_pars fs_fitters].
  unfold fbind at 1. rewrite (do_fit_form _ _ _ _ _ _ w'' (fs_pars f) _ (mk_fitter "iminuit" [] [] false) IMinuit); [|rewrite nth_error_app2, Nat.sub_diag by lia; reflexivity|reflexivity]. cbv zeta.
  assert (NI : nui_ids w'' = [PInt 1; PInt 2]).
  { unfold nui_ids. rewrite B3. destruct (C30_aligned inv l2 IS) as (H1 & H2 & _). rewrite <- E2 in H1, H2. 
    assert (M : mct_num_nui w'' = 2%nat); [|rewrite M; reflexivity]. rewrite B2, B3 in *. cbn [length] in *. lia. }
  assert (X : exists x, nll_x0 w'' = Ok x).
  { destruct (C30_start_values_exist inv l2 IS) as (_ & H). rewrite <- E2 in H. apply H. destruct CB as (j & n & c & CB). exists j, n, c. split; [exact CB|apply (B4 _ _ _ CB)]. }
  destruct X as (x & X). unfold configure. cbv zeta. rewrite B2, NI, X. 
  change (fix_all ["s_yield"; "A_s_bin_0"; "A_s_bin_1"]%string (min_new IMinuit ["s_yield"; "A_s_bin_0"; "A_s_bin_1"]%string (length (fs_pars f))) [PInt 1; PInt 2]) with (Ok (mk_min (length (fs_pars f)) (Flags [false; true; true]) [(None, None);(None, None);(None, None)] None None)).
  cbn [rbind ft_fixed ft_bounds fix_all bound_all fold_left].
  exists w'', x. eexists. exists [false; true; true]. split; [|split; [|reflexivity]]; reflexivity.
Qed.
Lemma ex_toy_fit inv y gh f : inv_spec inv -> toyable inv (fs_w f) -> exists f', toy_fit (ex_env y) "iminuit" gh f = (f', Ok (ex_row y)).
Proof.
  intros IS TY. destruct (ex_toy_fit_gen inv (ex_env y) gh f IS TY eq_refl) as (w & x & m & fl & FL & MP & ->).
  destruct (ex_found_runs nll y x gh (pars_new ["s_yield"; "A_s_bin_0"; "A_s_bin_1"]%string) m fl w FL eq_refl) as (w3 & st & r & PL & V1 & V2 & RP).
  change (en_ext (ex_env y)) with (ex_found y). rewrite PL. unfold finish. cbn [fst snd fs_pars fs_fitters]. unfold fbind at 1, get_pars. cbn [fs_pars]. rewrite RP, MP. rewrite nth_error_app2, Nat.sub_diag by lia. cbn [nth_error].
  unfold fret. rewrite V1, V2. eexists. reflexivity.
Qed.
(** an optimizer that always raises RuntimeError *)
Definition ex_broken : env := mk_env (mk_ext (fun _ => Stop (Err RuntimeError)) (fun _ _ _ => Stop (Err RuntimeError)) (fun _ => Stop (Err RuntimeError)) (fun m => Ok m)) (fun _ => [1; 3]%nat).
Lemma ex_broken_fit inv gh f : inv_spec inv -> toyable inv (fs_w f) -> exists f', toy_fit ex_broken "iminuit" gh f = (f', Err RuntimeError).
Proof.
  intros IS TY. destruct (ex_toy_fit_gen inv ex_broken gh f IS TY eq_refl) as (w & x & m & fl & FL & MP & ->).
  unfold minimize, mbind at 1, mget. cbn [pbind ms_m]. rewrite FL. unfold minimize_iminuit, mbind, mget, mplay. cbn [pbind ms_m ms_p ex_broken en_ext ex_minuit play].
  unfold finish. cbn [fst snd]. eexists. reflexivity.
Qed.
Lemma ex_succeed inv y gh mt n : inv_spec inv -> (0 < mt)%nat -> forall k f, toyable inv (fs_w f) -> exists f', succeed (fun _ => ex_env y) "iminuit" gh mt k f (k + n) f' (repeat (ex_row y) n).
Proof.
  intros IS M. induction n as [|n IH]; intros k f TY; [exists f; rewrite Nat.add_0_r; constructor|].
  destruct (ex_toy_fit inv y gh f IS TY) as (f1 & H). pose proof (toy_fit_only (ex_env y) "iminuit" gh f) as (D & _). pose proof (toy_fit_runs inv (ex_env y) "iminuit" gh f) as R. rewrite H in D, R. cbn [fst] in D, R.
  destruct (IH (S k) f1) as (f' & SU); [eapply toyable_dr; eassumption|]. exists f'. cbn [repeat]. eapply (succeed_cons _ _ _ _ k 0 f f f1); [constructor|exact M|exact H|]. rewrite Nat.add_0_r. replace (k + S n)%nat with (S k + n)%nat by lia. exact SU.
Qed.
Lemma ex_experiments inv y gh mt n i : inv_spec inv -> (0 < mt)%nat -> forall k s st, toyable inv (fs_w (ts_f s)) -> nth_error (ts_studies s) i = Some st -> st_id st = "iminuit"%string ->
  exists s', experiments (fun _ => ex_env y) i gh mt n k s = (s', Ok (k + n)%nat) /\ ts_studies s' = upd i (add_rows st (repeat (ex_row y) n)) (ts_studies s) /\ toyable inv (fs_w (ts_f s')).
Proof.
  intros IS M. destruct mt as [|mt]; [lia|]. induction n as [|n IH]; intros k s st TY S ID; cbn [experiments].
  - exists s. rewrite Nat.add_0_r. cbn [repeat]. rewrite add_rows_nil, upd_self by exact S. auto.
  - unfold tbind. cbn [experiment]. rewrite (attempt_eq i _ gh s st S), ID. destruct (ex_toy_fit inv y gh (ts_f s) IS TY) as (f1 & H). rewrite H.
    pose proof (toy_fit_only (ex_env y) "iminuit" gh (ts_f s)) as (D & _). pose proof (toy_fit_runs inv (ex_env y) "iminuit" gh (ts_f s)) as R. rewrite H in D, R. cbn [fst] in D, R.
    destruct (IH (Datatypes.S k) (mk_tstate f1 (upd i (add_rows st [ex_row y]) (ts_studies s))) (add_rows st [ex_row y])) as (s' & E & SS & TY').
    + cbn [ts_f]. eapply toyable_dr; eassumption.
    + cbn [ts_studies]. eapply upd_len. exact S.
    + exact ID.
    + exists s'. rewrite E. split; [do 2 f_equal; lia|]. split; [|exact TY']. rewrite SS. cbn [ts_studies]. rewrite upd_upd, add_rows_app. reflexivity.
Qed.

(** one template with efficiency 1/2 and yield set to 8 *)
Definition ex_toy_ops : list op :=
  [ex_binned 1 3 1 4; OTemplate K1 "t" 0; ODefChannel "A" [2%nat] [(0, 4)]; ODefProcess "s"; OAddTemplate "A" "s" 0 (/ 2); OSetYield "s" 8]%string.
Lemma rel2 a b : a <> 0 -> b <> 0 -> exists e1 e2, relative_errors (stat_cov [Fin (1 * 1); Fin (1 * 1)]) [Fin a; Fin b] = [Fin e1; Fin e2].
Proof.
  intros A B. unfold relative_errors, stat_cov, xeqb. cbn [map]. unfold Reqb. destruct (Req_EM_T (1 * 1) 0); [lra|]. cbn. unfold Reqb.
  destruct (Req_EM_T a 0) as [Z|_]; [contradiction|]. destruct (Req_EM_T b 0) as [Z|_]; [contradiction|]. unfold Rltb. destruct (Rlt_dec (1 * 1) 0); [lra|]. cbn. unfold Reqb.
  destruct (Req_EM_T a 0) as [Z|_]; [contradiction|]. destruct (Req_EM_T b 0) as [Z|_]; [contradiction|]. eauto.
Qed.
Lemma ex_toy_state inv : let w := reached inv ex_toy_ops in toyable inv w /\ generated_with w "s" 8 /\ total_eff w "s" = / 2.
Proof.
  assert (X : exists l w, l = ex_toy_ops /\ reached inv l = w /\ w = reached inv ex_toy_ops); [eauto 8|].
  destruct X as (l & w & -> & E & E'). cbv zeta. rewrite <- E'. 
  unfold reached, ex_toy_ops, ex_binned, world_init in E. revert E. do 6 run_step. intros E. clear E'. unfold run in E. cbn [fold_left] in E. 
  assert (CA : forall j n c, channel_at w j n c -> j = 0%nat /\ n = "A"%string /\ c = mk_chan "A" [("s"%string, 0%nat)] [("s"%string, / 2)] ["s"%string] [2%nat] [(0, 4)] None (Some 1%nat) (Some K1)).
  { intros j n c (cid & H1 & H2). subst w. destruct j as [|[|j]]; try discriminate. injection H1 as <- <-. injection H2 as <-. auto. }
  split; [|split].
  - constructor.
    + exists ex_toy_ops. symmetry. unfold reached, ex_toy_ops, ex_binned, world_init. do 6 run_step. exact E.
    + subst w. reflexivity.
    + subst w. reflexivity.
    + exists 0%nat, "A"%string. eexists. exists 0%nat. subst w. split; reflexivity.
    + intros j n c H. destruct (CA _ _ _ H) as (-> & _ & ->). auto.
    + destruct (rel2 1 3) as (e1 & e2 & RE); [lra|lra|]. subst w. eexists. exists (8 * / 2), e1, e2. cbn [w_tmpls nth_error]. split; [reflexivity|]. cbn [t_counts t_rel t_params t_bins t_nb]. do 5 (split; [first [reflexivity|exact RE]|]). lra.
  - intros j n c k tid t eff H (K & T) EF. destruct (CA _ _ _ H) as (_ & _ & ->). destruct k as [|[|k]]; try discriminate. injection K as <-. injection EF as <-. subst w. injection T as <-. reflexivity.
  - subst w. cbn. lra.
Qed.

Lemma trun_ops inv l s : trun inv (map (fun o => TF (FOp o)) l) s = mk_tstate (mk_fstate (run inv l (fs_w (ts_f s))) (fs_pars (ts_f s)) (fs_fitters (ts_f s))) (ts_studies s).
Proof.
  revert s. induction l as [|o l IH]; intros s; [now destruct s as [[? ? ?] ?]|]. change (trun inv (map (fun o => TF (FOp o)) (o :: l)) s) with (trun inv (map (fun o => TF (FOp o)) l) (fst (tstep inv (TF (FOp o)) s))). rewrite IH, run_cons. clear IH.
  cbn [tstep]. unfold on_f. cbn [fstep]. unfold on_world. destruct (step inv o (fs_w (ts_f s))) as (w & r). reflexivity.
Qed.
Definition ex_study (l : list op) : list top := map (fun o => TF (FOp o)) l ++ [TNew "iminuit"].
Lemma ex_study_state inv l : treached inv (ex_study l) = mk_tstate (mk_fstate (reached inv l) [] []) [mk_study "iminuit" [] [] false].
Proof. unfold treached, ex_study. rewrite trun_app, trun_ops. reflexivity. Qed.
Lemma ex_do_experiments inv y n mt i s st : inv_spec inv -> (0 < mt)%nat -> toyable inv (fs_w (ts_f s)) -> nth_error (ts_studies s) i = Some st -> st_id st = "iminuit"%string ->
  exists s', do_experiments (fun _ => ex_env y) i n mt s = (s', Ok tt) /\ ts_studies s' = upd i (filled st (repeat (ex_row y) n) true) (ts_studies s).
Proof.
  intros IS M TY S ID. unfold do_experiments, reset_state. unfold tbind at 1, on_study at 1. rewrite S. 
  set (st0 := mk_study (st_id st) [] [] false). set (s0 := mk_tstate (ts_f s) (upd i st0 (ts_studies s))). assert (S0 : nth_error (ts_studies s0) i = Some st0) by (unfold s0; cbn [ts_studies]; eapply upd_len; exact S).
  destruct (ex_experiments inv y true mt n i IS M 0%nat s0 st0 TY S0 ID) as (s1 & E & SS & _). unfold tbind. rewrite E. unfold set_fitted, on_study. rewrite SS.
  rewrite (upd_len i _ st0) by exact S0. eexists. split; [reflexivity|]. cbn [ts_studies s0]. rewrite !upd_upd. reflexivity.
Qed.
(** C56, C57, C67: a study with n experiments.  All fits find the true yield 8, the pulls are 4 instead of 0. *)
Lemma ex_study_gen : forall inv L n mt, inv_spec inv -> (0 < n)%nat -> (0 < mt)%nat -> toyable inv (reached inv L) -> generated_with (reached inv L) "s" 8 -> total_eff (reached inv L) "s" = / 2 ->
  let s := treached inv (ex_study L) in let s' := fst (tstep inv (TExperiments 0 (fun _ => ex_env 8) n mt) s) in
  snd (tstep inv (TExperiments 0 (fun _ => ex_env 8) n mt) s) = Ok tt /\
  result_parameters 0 s' = (s', Ok (repeat [Fin 8; Fin 0; Fin 0] n)) /\ get_toy_results 0 "s" s' = (s', Ok (repeat (Fin 8) n, repeat (Fin 1) n)) /\
  get_toy_result_pulls 0 "s" s' = (s', Ok (repeat (Fin (8 * (1 - / 2) / 1)) n)).
Proof.
  intros inv L n mt IS N M TY G TE s s'. pose proof (ex_study_state inv L) as ES. fold s in ES.
  assert (S : nth_error (ts_studies s) 0 = Some (mk_study "iminuit" [] [] false)) by (rewrite ES; reflexivity).
  assert (W : fs_w (ts_f s) = reached inv L) by (rewrite ES; reflexivity).
  destruct (ex_do_experiments inv 8 n mt 0 s (mk_study "iminuit" [] [] false) IS M) as (s1 & E & SS); [rewrite W; exact TY|exact S|reflexivity|].
  assert (OK : snd (tstep inv (TExperiments 0 (fun _ => ex_env 8) n mt) s) = Ok tt) by (cbn [tstep]; rewrite E; reflexivity).
  assert (E1 : s' = s1) by (unfold s'; cbn [tstep]; rewrite E; reflexivity). split; [exact OK|].
  assert (S' : nth_error (ts_studies s') 0 = Some (filled (mk_study "iminuit" [] [] false) (repeat (ex_row 8) n) true)) by (rewrite E1, SS; eapply upd_len; exact S).
  destruct (accessors_ok 0 s' _ S' eq_refl) as (_ & A1 & A2). cbn [filled st_params st_errors] in A1, A2.
  assert (RP : forall {B} (g : list xr * list xr -> B) m, map g (repeat (ex_row 8) m) = repeat (g (ex_row 8)) m) by (intros B g; induction m as [|m IH]; [reflexivity|cbn; now rewrite IH]).
  assert (Q : nth_error (w_procs (fs_w (ts_f s))) 0 = Some "s"%string) by (rewrite W, (ty_procs _ _ TY); reflexivity).
  assert (I : (0 < length (ts_studies s))%nat) by (rewrite ES; simpl; lia).
  split; [rewrite A1, RP; reflexivity|]. split.
  - destruct (C56_columns inv (ex_study L) 0 (fun _ => ex_env 8) n mt "s" 0 IS) as (rows & LR & R1 & R2 & GT); [assumption..|]. fold s in R1, R2, GT. fold s' in R1, R2, GT.
    rewrite A1 in R1. injection R1 as R1. rewrite A2 in R2. injection R2 as R2. rewrite GT. unfold fitted, fit_errors.
    rewrite <- (map_map fst (fun r => nth 0 r NaN)), <- (map_map snd (fun r => nth 0 r NaN)), <- R1, <- R2, !map_map, !RP. reflexivity.
  - assert (T8 : total_eff (fs_w (ts_f s)) "s" = / 2) by (rewrite W; exact TE). rewrite <- T8.
    refine (C57_pulls_refuted inv (ex_study L) 0 (fun _ => ex_env 8) n mt "s" 0 8 1 (repeat (ex_row 8) n) IS I N Q _ OK A1 A2 _ _).
    + fold s. rewrite W. exact G.
    + apply Forall_forall. intros r R. apply repeat_spec in R. subst r. split; reflexivity.
    + lra.
Qed.
Example ex_C56_C57_C67 : forall inv n max_tries, inv_spec inv -> (0 < n)%nat -> (0 < max_tries)%nat ->
  let s := treached inv (ex_study ex_toy_ops) in let s' := fst (tstep inv (TExperiments 0 (fun _ => ex_env 8) n max_tries) s) in
  snd (tstep inv (TExperiments 0 (fun _ => ex_env 8) n max_tries) s) = Ok tt /\
  result_parameters 0 s' = (s', Ok (repeat [Fin 8; Fin 0; Fin 0] n)) /\ get_toy_results 0 "s" s' = (s', Ok (repeat (Fin 8) n, repeat (Fin 1) n)) /\
  get_toy_result_pulls 0 "s" s' = (s', Ok (repeat (Fin (8 * (1 - / 2) / 1)) n)).
Proof. intros inv n mt IS N M. destruct (ex_toy_state inv) as (TY & G & TE). exact (ex_study_gen inv ex_toy_ops n mt IS N M TY G TE). Qed.

(** C56: a study in which all fits raise RuntimeError *)
Lemma ex_broken_experiment inv gh mt : inv_spec inv -> forall k i s st, toyable inv (fs_w (ts_f s)) -> nth_error (ts_studies s) i = Some st -> st_id st = "iminuit"%string ->
  exists s', experiment (fun _ => ex_broken) i gh mt k s = (s', Err RuntimeError).
Proof.
  intros IS. induction mt as [|mt IH]; intros k i s st TY S ID; cbn [experiment]; [eexists; reflexivity|].
  rewrite (attempt_eq i _ gh s st S), ID. destruct (ex_broken_fit inv gh (ts_f s) IS TY) as (f1 & H). rewrite H.
  pose proof (toy_fit_only ex_broken "iminuit" gh (ts_f s)) as (D & _). pose proof (toy_fit_runs inv ex_broken "iminuit" gh (ts_f s)) as R. rewrite H in D, R. cbn [fst] in D, R.
  eapply IH; [|exact S|exact ID]. cbn [ts_f]. eapply toyable_dr; eassumption.
Qed.
Lemma ex_broken_gen : forall inv L n mt, inv_spec inv -> toyable inv (reached inv L) ->
  snd (tstep inv (TExperiments 0 (fun _ => ex_broken) (S n) mt) (treached inv (ex_study L))) = Err RuntimeError.
Proof.
  intros inv L n mt IS TY. rewrite ex_study_state. cbn [tstep]. unfold do_experiments, reset_state. unfold tbind at 1, on_study at 1. cbn [ts_studies nth_error upd ts_f st_id]. unfold tbind at 1. cbn [experiments]. unfold tbind.
  destruct (ex_broken_experiment inv true mt IS 0%nat 0%nat (mk_tstate (mk_fstate (reached inv L) [] []) [mk_study "iminuit" [] [] false]) (mk_study "iminuit" [] [] false) TY eq_refl eq_refl) as (s' & E). rewrite E. reflexivity.
Qed.
Example ex_C56_fails : forall inv n max_tries, inv_spec inv -> snd (tstep inv (TExperiments 0 (fun _ => ex_broken) (S n) max_tries) (treached inv (ex_study ex_toy_ops))) = Err RuntimeError.
Proof. intros inv n mt IS. destruct (ex_toy_state inv) as (TY & _). exact (ex_broken_gen inv ex_toy_ops n mt IS TY). Qed.

(** C68: a linearity test; the optimizer always finds 8 *)
Lemma ex_point inv w v : inv_spec inv -> toyable inv w -> 0 <= v -> exists w1 w2, reset_parameters w = (w1, Ok tt) /\ set_yield "s" v w1 = (w2, Ok tt) /\ toyable inv w2.
Proof.
  intros IS TY V. destruct (ty_reached _ _ TY) as (l & E). assert (W : WF w) by (rewrite E; now apply reached_wf).
  destruct (reset_parameters_done w W) as (w1 & R & _). pose proof (op_reset w) as O1. rewrite R in O1. cbn [fst] in O1.
  assert (W1 : WF w1). { pose proof (wf_step inv OReset IS w W) as Z. cbn [step] in Z. rewrite R in Z. exact Z. }
  assert (P1 : w_procs w1 = ["s"%string]). { destruct O1 as (_ & _ & _ & P & _). rewrite P. apply (ty_procs _ _ TY). }
  pose proof (set_yield_spec w1 "s" v W1 ltac:(rewrite P1; left; reflexivity)) as S. 
  remember (set_tmpls w1 _) as w2 eqn:E2 in S. clear E2. exists w1, w2. split; [exact R|]. split; [exact S|].
  destruct (nominal_point inv w "s" v w1 w2 IS W (ty_distinct _ _ TY) R S) as ((O & NO) & _).
  destruct TY as [_ A2 A3 (j & n & c & CA) A4 (t & y & e1 & e2 & T0 & T1 & T2 & T3 & T4 & T5 & Y)].
  pose proof O as (H1 & H2 & H3 & H4 & _).
  assert (CC : forall j n c, channel_at w2 j n c <-> channel_at w j n c) by (intros ? ? ?; unfold channel_at; rewrite H2, H3; reflexivity).
  constructor.
  - exists (l ++ [OReset; OSetYield "s" v]). unfold reached. rewrite run_app. fold (reached inv l). rewrite <- E. unfold run. cbn [fold_left step]. rewrite R. cbn [fst]. rewrite S. reflexivity.
  - rewrite (op_names _ _ O). exact A2.
  - rewrite H4. exact A3.
  - exists j, n, c. now apply CC.
  - intros j' n' c' C'. apply CC in C'. exact (A4 _ _ _ C').
  - pose proof (op_lookup w w2 0 O) as LO. rewrite T0 in LO. destruct LO as (ps & LO). pose proof (A4 _ _ _ CA) as (_ & Z1 & Z2 & _).
    destruct (NO j n c 0%nat "s"%string 0%nat (set_params t ps)) as (h & eff & _ & EF & PS); [now apply CC|split; [rewrite Z1; reflexivity|exact LO]|].
    rewrite Z2 in EF. injection EF as <-. cbn [set_params t_params t_nb] in PS. rewrite T5 in PS. cbn in PS.
    exists (set_params t ps), (v * / 2), e1, e2. split; [exact LO|]. cbn [set_params t_counts t_rel t_params t_bins t_nb]. do 5 (split; [assumption|]). lra.
Qed.
Lemma np_linspace_pos lo hi n : 0 <= lo -> lo <= hi -> Forall (fun v => 0 <= v) (np_linspace lo hi n).
Proof.
  intros L H. unfold np_linspace. destruct n as [|[|n]]; [constructor|apply Forall_cons; [exact L|constructor]|]. apply Forall_forall. intros v I. apply in_map_iff in I as (k & <- & _).
  assert (0 <= INR k * ((hi - lo) / INR (S n))); [|lra]. apply Rmult_le_pos; [apply pos_INR|]. apply Rmult_le_pos; [lra|]. apply Rlt_le, Rinv_0_lt_compat, lt_0_INR. lia.
Qed.
Lemma ex_points inv n : inv_spec inv -> forall pts, Forall (fun v => 0 <= v) pts -> forall k s st, toyable inv (fs_w (ts_f s)) -> nth_error (ts_studies s) 0 = Some st -> st_id st = "iminuit"%string ->
  exists s' r, linearity_points (fun _ => ex_env 8) 0 "s" (S n) k pts s = (s', Ok r).
Proof.
  intros IS. induction 1 as [|v pts V _ IH]; intros k s st TY SN ID; cbn [linearity_points]; [eexists; eexists; reflexivity|].
  assert (PT : exists s1 m sd k', linearity_point (fun _ => ex_env 8) 0 "s" (S n) k v s = (s1, Ok (m, sd, k')) /\ toyable inv (fs_w (ts_f s1)) /\ exists st1, nth_error (ts_studies s1) 0 = Some st1 /\ st_id st1 = "iminuit"%string).
  { unfold linearity_point, reset_state. unfold tbind at 1, on_study at 1. rewrite SN. set (st0 := mk_study (st_id st) [] [] false).
    destruct (ex_point inv _ v IS TY V) as (w1 & w2 & R & SY & TY2). unfold tbind at 1. rewrite on_w_eq. unfold on_world. cbn [ts_f ts_studies]. rewrite R. cbn iota.
    unfold tbind at 1. rewrite on_w_eq. unfold on_world. cbn [ts_f ts_studies fs_w fs_pars fs_fitters]. rewrite SY. cbn iota.
    set (s2 := mk_tstate _ _). assert (S2 : nth_error (ts_studies s2) 0 = Some st0) by (unfold s2; cbn [ts_studies]; eapply upd_len; exact SN).
    destruct (ex_experiments inv 8 false 10 (S n) 0 IS ltac:(lia) k s2 st0 TY2 S2 ID) as (s3 & E3 & SS & TY3). unfold tbind at 1. rewrite E3.
    unfold tbind at 1, set_fitted, on_study at 1. rewrite SS. rewrite (upd_len 0 _ st0) by exact S2. rewrite upd_upd.
    set (s4 := mk_tstate _ _). assert (S4 : nth_error (ts_studies s4) 0 = Some (filled st0 (repeat (ex_row 8) (S n)) true)) by (unfold s4; cbn [ts_studies]; apply (upd_len 0 _ st0); exact S2).
    unfold tbind at 1. rewrite (get_toy_results_ok 0 s4 _ (repeat (ex_row 8) (S n)) "s" 0 3 S4 eq_refl eq_refl eq_refl).
    - unfold tret. do 4 eexists. split; [reflexivity|]. split; [exact TY3|]. eexists. split; [exact S4|exact ID].
    - discriminate.
    - apply Forall_forall. intros r I. apply repeat_spec in I. subst r. split; reflexivity.
    - unfold s4. cbn [ts_f]. rewrite (ty_procs _ _ TY3). reflexivity.
    - lia. }
  destruct PT as (s1 & m & sd & k' & E & TY1 & st1 & S1 & ID1). unfold tbind at 1. rewrite E. cbn [snd fst]. destruct (IH k' s1 st1 TY1 S1 ID1) as (s' & r & E'). unfold tbind. rewrite E'. eexists. eexists. reflexivity.
Qed.
Lemma ex_linearity_gen : forall inv L lo hi np n, inv_spec inv -> toyable inv (reached inv L) -> 0 <= lo -> lo <= hi -> let s := treached inv (ex_study L) in
  distinct_templates (fs_w (ts_f s)) /\ nth_error (w_procs (fs_w (ts_f s))) 0 = Some "s"%string /\
  exists s' r, do_linearity_test (fun _ => ex_env 8) 0 "s" lo hi np (S n) s = (s', Ok r).
Proof.
  intros inv L lo hi np n IS TY LO HI s. unfold s. rewrite ex_study_state. cbn [ts_f fs_w]. split; [exact (ty_distinct _ _ TY)|]. split; [rewrite (ty_procs _ _ TY); reflexivity|].
  destruct (ex_points inv n IS (np_linspace lo hi np) (np_linspace_pos lo hi np LO HI) 0%nat (mk_tstate (mk_fstate (reached inv L) [] []) [mk_study "iminuit" [] [] false]) (mk_study "iminuit" [] [] false) TY eq_refl eq_refl) as (s' & r & E).
  unfold do_linearity_test. cbv zeta. unfold tbind. rewrite E. eexists. eexists. reflexivity.
Qed.
Example ex_C68 : forall inv lo hi n_points n, inv_spec inv -> 0 <= lo -> lo <= hi -> let s := treached inv (ex_study ex_toy_ops) in
  distinct_templates (fs_w (ts_f s)) /\ nth_error (w_procs (fs_w (ts_f s))) 0 = Some "s"%string /\
  exists s' r, do_linearity_test (fun _ => ex_env 8) 0 "s" lo hi n_points (S n) s = (s', Ok r).
Proof. intros inv lo hi np n IS LO HI. destruct (ex_toy_state inv) as (TY & _). exact (ex_linearity_gen inv ex_toy_ops lo hi np n IS TY LO HI). Qed.
