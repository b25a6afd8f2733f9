(** Property C100: values, errors and fractions of the legacy templates and their container. *)
From Coq Require Import Reals String ZArith Bool Arith List Lra Lia.
From Verif Require Import Model_Num Model_Hist Model_Utility Model_Template Model_World Model_Legacy
  Spec_Hist Spec_Matrix Spec_Template Spec_Nll Spec_Legacy Proof_Hist Proof_Hist2 Proof_Hist3 Proof_HistHeap Proof_LegacyHist Proof_Matrix Proof_Linear Proof_Utility
  Proof_Template Proof_Template2 Proof_Template3 Proof_World Proof_Route Proof_Names Proof_Update Proof_Nll Proof_Legacy Proof_Legacy2 Proof_Legacy3 Proof_Legacy4 Proof_Legacy5
  Prop_LegacyNll.
Import ListNotations.
Local Open Scope R_scope.

Lemma ltemplate_values w tm n c e covs y th : lerrors tm n c e covs -> y_val (lt_yield tm) = Fin y -> aread w (n_val (lt_nui tm)) = vec_of n th ->
  let eps := rel_error (msum (stat_cov_of e :: covs)) c in let S := sumn n (fun j => c j * (1 + th j * eps j)) in S <> 0 ->
  let v := fun i => y * (c i * (1 + th i * eps i) / S) in
  lt_fractions tm (vec_of n th) = Ok (vec_of n (fun i => c i * (1 + th i * eps i) / S)) /\
  lt_values w tm = Ok (vec_of n v) /\ lt_errors w tm = Ok (vec_of n (fun i => eps i * v i)).
Proof.
  intros L Y A eps S NZ v. pose proof (lfractions tm n c e covs th L NZ) as F. fold eps in F. split; [exact F|].
  assert (V : lt_values w tm = Ok (vec_of n v)).
  { unfold lt_values. rewrite A, F. cbn [rbind]. rewrite Y. f_equal. apply map_vec. intros i Hi. reflexivity. }
  split; [exact V|]. unfold lt_errors. rewrite V. cbn [rbind]. destruct L as (_ & _ & _ & _ & _ & _ & _ & _ & ->). apply bcast_vec. reflexivity.
Qed.

(** ** A template, after any history: c, e are its counts and squared errors, covs the covariance matrices added. *)
Theorem C100_template : forall inv l t tm, inv_spec inv -> Forall valid_gcall l -> let w := grun inv g_empty l in
  nth_error (g_tmpls w) t = Some tm ->
  exists n c e covs, lerrors tm n c e covs /\
  forall y th p, params_of w t = Some p -> p_yield p = Fin y -> p_nui p = vec_of n th ->
    let eps := rel_error (msum (stat_cov_of e :: covs)) c in let S := sumn n (fun j => c j * (1 + th j * eps j)) in S <> 0 ->
    exists f v er, lt_fractions tm (vec_of n th) = Ok (vec_of n f) /\ lt_values w tm = Ok (vec_of n v) /\ lt_errors w tm = Ok (vec_of n er) /\
      (forall i, f i = c i * (1 + th i * eps i) / S /\ v i = y * f i /\ er i = eps i * v i) /\
      sumn n f = 1 /\ sumn n v = y /\ (forall i, c i = 0 -> v i = 0 /\ er i = 0).
Proof.
  intros inv l t tm I V w T. destruct (GE_run inv l I g_empty V GE_empty t tm T) as (c & e & covs & L). exists (lt_nb tm), c, e, covs. split; [exact L|].
  intros y th p P PY PN eps S NZ. rewrite (params_of_some _ _ _ T) in P. injection P as <-. cbn [pview p_yield p_nui] in PY, PN.
  destruct (ltemplate_values w tm _ c e covs y th L PY PN NZ) as (F & VV & EE). fold eps S in F, VV, EE.
  eexists _, _, _. split; [exact F|]. split; [exact VV|]. split; [exact EE|]. split; [intros i; repeat split|].
  assert (FS : sumn (lt_nb tm) (fun i => c i * (1 + th i * eps i) / S) = 1). { rewrite sumn_div. unfold S. field. exact NZ. }
  split; [exact FS|]. split; [rewrite sumn_scal, FS; ring|]. intros i Z. rewrite Z. split; unfold Rdiv; ring.
Qed.
Print Assumptions C100_template.

(** ** A new template reproduces its data: the values are the sums of the weights per bin, the errors the roots of the
    sums of their squares; the error of a bin whose weights add up to 0 is 0 (not 1e-7). *)
Theorem C100_new_template : forall inv w name var n lo hi data ws,
  (1 <= n)%nat -> lo < hi -> length data = length ws ->
  let edges := np_linspace lo hi (n + 1) in let ev := combine data ws in
  let w' := fst (gstep inv w (GTemplate name var (Z.of_nat n) (lo, hi) data ws)) in
  exists tm c e, nth_error (g_tmpls w') (length (g_tmpls w)) = Some tm /\ lerrors tm n c e [] /\
    (forall i, (i < n)%nat -> wsum (in_bin edges i) ev (c i) /\ wsum (in_bin edges i) (squared ev) (e i)) /\
    (sumn n c <> 0 -> lt_values w' tm = Ok (vec_of n c) /\
      lt_errors w' tm = Ok (vec_of n (fun i => if Req_EM_T (c i) 0 then 0 else sqrt (e i)))).
Proof.
  intros inv w name var n lo hi data ws Hn Hl LD edges ev w'.
  destruct (lt_create_succeeds w name var n lo hi data ws Hn Hl LD) as (w1 & s & q & R & _ & _).
  assert (W : w' = w1) by (unfold w'; cbn [gstep]; rewrite R; reflexivity). clearbody w'. subst w1.
  destruct (hist1_new (B1Int (Z.of_nat n)) (Some (lo, hi)) (Some data) (WArr ws)) as [h|er] eqn:E.
  2:{ unfold lt_create in R. rewrite E in R. discriminate. }
  destruct (lt_create_new w name var (Z.of_nat n) (lo, hi) data ws (length (g_tmpls w))) as (tm & n' & c & e & ET & _ & _ & -> & _ & _ & _ & _ & NB & LE & LC & LQ & P); [rewrite R; reflexivity|].
  rewrite R in ET, P. cbn [fst] in ET, P. rewrite Nat2Z.id in *. exists tm, c, e.
  assert (T : nth_error (g_tmpls w') (length (g_tmpls w)) = Some tm) by (rewrite ET, nth_error_app2, Nat.sub_diag by lia; reflexivity).
  split; [exact T|]. split; [exact LE|].
  assert (EDG : exists e0, h_edges h = [e0] /\ e_vals e0 = edges).
  { destruct (hist1_new_contents _ _ _ _ _ E) as (h0 & E0 & F). destruct (Proof_Hist.hist1_empty_ok _ _ _ E0) as (_ & _ & _ & _ & _ & B2).
    destruct (fills1_contents _ _ _ _ B2 F) as (_ & (_ & G2 & _) & _). rewrite G2. revert E0. unfold hist1_empty, hist1_init_bin_edges, linspace_edges.
    destruct (Z.ltb_spec (Z.of_nat n) 0); [lia|]. simpl. intros E0. injection E0 as <-. simpl. eexists. split; [reflexivity|]. simpl. now rewrite Nat2Z.id. }
  destruct EDG as (e0 & HE & EV). assert (VE : valid_edges (e_vals e0)) by (rewrite EV; apply linspace_valid; auto).
  assert (CT : lt_counts tm = nd_flat (h_counts h) /\ lt_errs_sq tm = nd_flat (h_errs_sq h)).
  { unfold lt_create in R. rewrite E in R. destruct (Nat.eqb _ _) in R; [discriminate|]. injection R as <-. cbn [g_tmpls] in ET. apply app_inv_head in ET. injection ET as <-. split; reflexivity. }
  destruct CT as (CT1 & CT2).
  destruct (fill1_each_event_in_its_bin _ _ _ _ _ [] h e0 E eq_refl HE VE) as (_ & _ & _ & BINS). cbn [app] in BINS.
  assert (SUMS : forall i, (i < n)%nat -> wsum (in_bin edges i) ev (c i) /\ wsum (in_bin edges i) (squared ev) (e i)).
  { intros i Hi. destruct (BINS i) as (s1 & q1 & A1 & A2 & A3 & A4). { rewrite EV. unfold edges. rewrite linspace_length. lia. }
    simpl in A2, A4. rewrite app_nil_r in A2, A4. unfold entry in A1, A3. rewrite <- CT1, LC in A1. rewrite <- CT2, LQ in A3.
    unfold vec_of in A1, A3. rewrite map_seq_nth in A1, A3 by exact Hi. assert (B1 : s1 = c i) by congruence. assert (B3 : q1 = e i) by congruence. subst s1 q1. rewrite EV in A2, A4. split; assumption. }
  split; [exact SUMS|]. intros NZ. rewrite (params_of_some _ _ _ T) in P. assert (PE : pview w' tm = initial tm) by congruence. pose proof (f_equal p_yield PE) as P1. pose proof (f_equal p_nui PE) as P3. cbn [pview initial p_yield p_nui] in P1, P3.
  rewrite NB in P3. assert (P3' : aread w' (n_val (lt_nui tm)) = vec_of n (fun _ => 0)).
  { rewrite P3. unfold vec_of. clear. induction n as [|n IH] in |- *; [reflexivity|]. rewrite seq_S, map_app, <- IH. clear. induction n as [|n IH]; [reflexivity|]. cbn [repeat app] in *. f_equal. exact IH. }
  rewrite LC, np_sum_vec in P1. set (eps := rel_error (msum (stat_cov_of e :: [])) c).
  assert (SS : sumn n (fun j => c j * (1 + 0 * eps j)) = sumn n c) by (apply sumn_ext; intros; ring).
  destruct (ltemplate_values w' tm n c e [] (sumn n c) (fun _ => 0) LE P1 P3') as (_ & VV & EE). { fold eps. rewrite SS. exact NZ. }
  fold eps in VV, EE. rewrite SS in VV, EE. split.
  - rewrite VV. f_equal. apply vec_of_ext. intros i _. field. exact NZ.
  - rewrite EE. f_equal. apply vec_of_ext. intros i Hi. destruct (SUMS i Hi) as (S1 & S2). pose proof (wsum_sq_pos _ _ _ _ S1 S2) as (Q0 & Q1). unfold eps, rel_error, msum. cbn [fold_right].
    destruct (Req_EM_T (c i) 0) as [Z|Z]; [rewrite Z; field; exact NZ|]. specialize (Q1 Z). unfold stat_cov_of. rewrite Nat.eqb_refl. destruct (Req_EM_T (e i) 0); [lra|]. rewrite Rplus_0_r. field. auto.
Qed.
Print Assumptions C100_new_template.

(** ** The container: T templates with values v k and errors er k *)
Lemma col_sums_real T nb F : (0 < T)%nat -> col_sums (rmat_of T nb F) = Ok (vec_of nb (fun b => sumn T (fun k => F k b))).
Proof.
  intros T0. unfold col_sums. destruct (rmat_of T nb F) as [|r rs] eqn:ER.
  { apply (f_equal (@length _)) in ER. unfold rmat_of in ER. rewrite map_length, seq_length in ER. simpl in ER. lia. }
  assert (UN : forall l, In l (r :: rs) -> length l = nb) by (intros l I; rewrite <- ER in I; unfold rmat_of in I; apply in_map_iff in I as (k & <- & _); apply vec_of_length).
  rewrite (UN r) by now left. rewrite rows_ok_uniform by exact UN. rewrite <- ER. f_equal. unfold vec_of. apply map_ext_in. intros j Hj. apply in_seq in Hj.
  assert (LL : length (rmat_of T nb F) = T) by (unfold rmat_of; now rewrite map_length, seq_length).
  rewrite LL, <- xsum_n_sumn. unfold xsum_n. f_equal. apply map_ext_in. intros i Hi. apply in_seq in Hi. apply mnth_rmat; lia.
Qed.
Theorem C100_container : forall inv l s T st nb (v er : nat -> nat -> R), let w := grun inv g_empty l in
  num_members w s T -> (0 < T)%nat -> nth_error (g_stacks w) s = Some st ->
  (forall k t tm, member w s k t -> nth_error (g_tmpls w) t = Some tm -> lt_values w tm = Ok (vec_of nb (v k)) /\ lt_errors w tm = Ok (vec_of nb (er k))) ->
  ls_values w st = Ok (vec_of nb (fun b => sumn T (fun k => v k b))) /\
  ls_errors w st = Ok (vec_of nb (fun b => sqrt (sumn T (fun k => er k b ^ 2)))).
Proof.
  intros inv l s T st nb v er w (st' & S' & NT) T0 ST H. assert (st' = st) by congruence. subst st'.
  assert (G : GS w) by (apply GS_run, GS_empty). destruct (templates_ok w s st G ST) as (ts & E & LTS & TK).
  assert (EACH : forall k tm, nth_error ts k = Some tm -> lt_values w tm = Ok (vec_of nb (v k)) /\ lt_errors w tm = Ok (vec_of nb (er k))).
  { intros k tm K. assert (KL : (k < T)%nat) by (rewrite <- NT, <- LTS; apply nth_error_Some; congruence).
    destruct (nth_error (ls_ids st) k) as [t|] eqn:TI; [|apply nth_error_None in TI; unfold ls_ids in TI; rewrite map_length in TI; lia].
    destruct (TK k t TI) as (tm' & T1 & T2). assert (tm' = tm) by congruence. subst tm'. apply (H k t tm); [exists st; auto|exact T2]. }
  unfold ls_values, ls_errors. rewrite E. cbn [rbind].
  rewrite (mapr_nth _ _ (fun k => vec_of nb (v k))) by (intros k tm K; apply EACH; exact K).
  rewrite (mapr_nth _ _ (fun k => vec_of nb (er k))) by (intros k tm K; apply EACH; exact K). cbn [rbind]. rewrite LTS, NT.
  split; [apply (col_sums_real T nb v T0)|]. rewrite map_map.
  replace (map (fun k => map xsq (vec_of nb (er k))) (seq 0 T)) with (rmat_of T nb (fun k b => er k b ^ 2)).
  - rewrite col_sums_real by exact T0. cbn [rbind]. f_equal. apply map_vec. intros b Hb. unfold xsqrt. destruct (Rltb_spec (sumn T (fun k => er k b ^ 2)) 0) as [N|]; [|reflexivity].
    exfalso. assert (P : 0 <= sumn T (fun k => er k b ^ 2)). { clear. induction T as [|T IH]; cbn [sumn]; [lra|]. pose proof (pow2_ge_0 (er T b)). lra. } lra.
  - unfold rmat_of. apply map_ext. intros k. symmetry. apply map_vec. intros b Hb. unfold xsq, xmul. f_equal. ring.
Qed.
Print Assumptions C100_container.

(** ** One block of nuisance parameters per template gives the fractions of the templates, one row each. *)
Theorem C100_fractions : forall inv l s T st nb (th f : nat -> nat -> R), let w := grun inv g_empty l in
  num_members w s T -> (0 < T)%nat -> (0 < nb)%nat -> nth_error (g_stacks w) s = Some st ->
  (forall k t tm, member w s k t -> nth_error (g_tmpls w) t = Some tm -> lt_fractions tm (vec_of nb (th k)) = Ok (vec_of nb (f k))) ->
  ls_fractions w st (vec_of (T * nb) (fun j => th (j / nb)%nat (j mod nb)%nat)) = Ok (rmat_of T nb f).
Proof.
  intros inv l s T st nb th f w (st' & S' & NT) T0 B0 ST H. assert (st' = st) by congruence. subst st'.
  assert (G : GS w) by (apply GS_run, GS_empty). destruct (templates_ok w s st G ST) as (ts & E & LTS & TK).
  unfold ls_fractions. rewrite NT. rewrite (split_n_blocks T nb) by (rewrite ?vec_of_length; lia). cbn [rbind]. rewrite blocks_vec, E. cbn [rbind].
  rewrite (mapr_nth _ _ (fun k => vec_of nb (f k))).
  - rewrite combine_length, map_length, seq_length, LTS, NT, Nat.min_id. reflexivity.
  - intros k [tm nu] K.
    set (bl := map (fun j => vec_of nb (fun b => th ((j * nb + b) / nb)%nat ((j * nb + b) mod nb)%nat)) (seq 0 T)) in *.
    assert (KL : (k < T)%nat). { assert (X : (k < length (combine ts bl))%nat) by (apply nth_error_Some; congruence). unfold bl in X. rewrite combine_length, map_length, seq_length, LTS, NT in X. lia. }
    destruct (nth_error (ls_ids st) k) as [t|] eqn:TI; [|apply nth_error_None in TI; unfold ls_ids in TI; rewrite map_length in TI; lia].
    destruct (TK k t TI) as (tm' & T1 & T2).
    rewrite (nth_combine _ _ k tm' (vec_of nb (fun b => th ((k * nb + b) / nb)%nat ((k * nb + b) mod nb)%nat))) in K; [|exact T1|unfold bl; now rewrite map_seq_nth].
    injection K as <- <-. cbn [fst snd]. rewrite (vec_of_ext _ _ (th k)). { apply (H k t tm'); [exists st; auto|exact T2]. }
    intros b Hb. rewrite Nat.div_add_l, Nat.div_small, Nat.add_0_r by lia. rewrite Nat.add_comm, Nat.mod_add, Nat.mod_small by lia. reflexivity.
Qed.
Print Assumptions C100_fractions.

(** ** Instance: the template with contents 1 and 1, added to its container a second time. *)
Example ex_C100 : forall inv, inv_spec inv -> let w := grun inv g_empty (ex_nll1 ++ [GAddTemplate 0 "b" 0]) in
  exists st, nth_error (g_stacks w) 0 = Some st /\ num_members w 0 2 /\
    ls_values w st = Ok [Fin 2; Fin 2] /\ ls_errors w st = Ok [Fin (sqrt 2); Fin (sqrt 2)] /\
    ls_fractions w st [Fin 0; Fin 0; Fin 0; Fin 1] = Ok [[Fin (1/2); Fin (1/2)]; [Fin (1/3); Fin (2/3)]].
Proof.
  intros inv I w. destruct (ex_state_full inv) as (tm & h & c & e & bufs & EW & NB & LE & C0 & C1 & E0 & E1 & HC & PAR & LIM).
  set (st := mk_ls "s" "x" 2 (0, 2) (np_linspace 0 2 3) [("a"%string, 0%nat); ("b"%string, 0%nat)]). set (l := ex_nll1 ++ [GAddTemplate 0 "b" 0]) in *.
  rewrite EW in PAR.
  assert (VAR : lt_var tm = "x"%string).
  { assert (X : GS (mk_g bufs [h] [tm] [mk_ls "s" "x" 2 (0, 2) (np_linspace 0 2 3) [("a"%string, 0%nat)]] [])) by (rewrite <- EW; apply GS_run, GS_empty).
    destruct (X 0%nat _ eq_refl) as (_ & _ & F). destruct (F 0%nat) as (tm' & T' & Q); [now left|]. cbn [nth_error g_tmpls] in T'. injection T' as <-. destruct Q as (_ & Q & _). cbn in Q. congruence. }
  assert (W : w = mk_g bufs [h] [tm] [st] []).
  { unfold w, l. rewrite grun_app, EW. cbn [grun gstep]. unfold ls_add_template. cbn [nth_error g_stacks g_tmpls ls_var ls_nb ls_limits]. rewrite VAR, NB, LIM. cbn [String.eqb Ascii.eqb Bool.eqb Nat.eqb andb].
    unfold limits_eqb. cbn [fst snd]. destruct (Reqb_spec 0 0); [|lra]. destruct (Reqb_spec 2 2); [|lra]. reflexivity. }
  assert (ST : nth_error (g_stacks w) 0 = Some st) by (rewrite W; reflexivity). assert (NM : num_members w 0 2) by (exists st; split; [exact ST|reflexivity]).
  assert (PE : pview (mk_g bufs [h] [tm] [mk_ls "s" "x" 2 (0, 2) (np_linspace 0 2 3) [("a"%string, 0%nat)]] []) tm = initial tm) by (injection PAR as PAR1 PAR2 PAR3 PAR4; unfold pview, initial; f_equal; assumption). pose proof (f_equal p_yield PE) as P1. pose proof (f_equal p_nui PE) as P3. cbn [pview initial p_yield p_nui] in P1, P3.
  set (eps := rel_error (msum (stat_cov_of e :: [])) c).
  assert (EP : forall i, (i < 2)%nat -> c i = 1 /\ eps i = 1).
  { intros i Hi. assert (CI : c i = 1) by (destruct i as [|[|i]]; [exact C0|exact C1|lia]). assert (EI : e i = 1) by (destruct i as [|[|i]]; [exact E0|exact E1|lia]). split; [exact CI|].
    unfold eps, rel_error, msum. cbn [fold_right]. unfold stat_cov_of. rewrite CI, EI, Nat.eqb_refl. repeat (destruct (Req_EM_T _ _); try lra). rewrite Rplus_0_r, sqrt_1. lra. }
  destruct (EP 0%nat ltac:(lia)) as (_ & EP0). destruct (EP 1%nat ltac:(lia)) as (_ & EP1).
  assert (Y : y_val (lt_yield tm) = Fin 2).
  { rewrite P1. pose proof LE as (_ & -> & _). rewrite np_sum_vec. cbn [sumn]. rewrite C0, C1. f_equal. lra. }
  assert (FR : forall th, sumn 2 (fun j => c j * (1 + th j * eps j)) = 2 + th 0%nat + th 1%nat) by (intros th; cbn [sumn]; rewrite C0, C1, EP0, EP1; ring).
  assert (MEM : forall k t tm', member w 0 k t -> nth_error (g_tmpls w) t = Some tm' -> tm' = tm /\ (k < 2)%nat).
  { intros k t tm' (st' & S' & K) T'. rewrite W in S', T'. injection S' as <-. destruct k as [|[|[|k]]]; cbn in K; try discriminate; injection K as <-; cbn in T'; injection T' as <-; split; auto; lia. }
  exists st. split; [exact ST|]. split; [exact NM|].
  assert (A : aread w (n_val (lt_nui tm)) = vec_of 2 (fun _ => 0)). { rewrite W. etransitivity; [|etransitivity; [exact P3|rewrite NB; reflexivity]]. reflexivity. }
  destruct (C100_container inv l 0 2 st 2 (fun _ _ => 1) (fun _ _ => 1) NM ltac:(lia) ST) as (V & ER).
  { intros k t tm' M T'. destruct (MEM k t tm' M T') as (-> & _).
    destruct (ltemplate_values w tm 2 c e [] 2 (fun _ => 0) LE Y A) as (_ & V & ER). { fold eps. rewrite FR. lra. }
    fold eps in V, ER. rewrite FR in V, ER. split; [etransitivity; [exact V|]|etransitivity; [exact ER|]]; f_equal; apply vec_of_ext; intros i Hi; destruct (EP i Hi) as (-> & ->); field. }
  split; [|split].
  - etransitivity; [exact V|]. unfold vec_of. cbn [seq map sumn]. repeat f_equal; lra.
  - etransitivity; [exact ER|]. unfold vec_of. cbn [seq map sumn]. do 2 f_equal; [|f_equal]; f_equal; f_equal; lra.
  - set (th := fun k b => if Nat.eqb k 1 && Nat.eqb b 1 then 1 else 0).
    etransitivity; [|etransitivity; [exact (C100_fractions inv l 0 2 st 2 th (fun k b => c b * (1 + th k b * eps b) / (2 + th k 0%nat + th k 1%nat)) NM ltac:(lia) ltac:(lia) ST ltac:(
      intros k t tm' M T'; destruct (MEM k t tm' M T') as (-> & _); pose proof (lfractions tm 2 c e [] (th k) LE) as F; cbv zeta in F; unfold varied in F; fold eps in F; rewrite FR in F; apply F; unfold th; destruct (Nat.eqb k 1); cbn; lra))|]].
    + reflexivity.
    + unfold rmat_of, vec_of, th. cbn [seq map Nat.eqb andb]. rewrite C0, C1, EP0, EP1. repeat (f_equal; try lra).
Qed.
