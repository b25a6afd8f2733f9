(** Property theorems C62, C72, C74: the likelihood of legacy templates. *)
From Coq Require Import Reals String ZArith Bool Arith List Lra Lia.
From Verif Require Import Model_Num Model_Hist Model_Utility Model_Template Model_World Model_Legacy
  Spec_Hist Spec_Matrix Spec_Template Spec_Nll Spec_Legacy Proof_Hist Proof_HistHeap Proof_LegacyHist Proof_Matrix Proof_Linear Proof_Template
  Proof_World Proof_Route Proof_Update Proof_Nll Proof_Valid Proof_Legacy Proof_Legacy2 Proof_Legacy3 Proof_Legacy4 Proof_Legacy5 Prop_Nll Prop_Legacy.
Import ListNotations.
Local Open Scope R_scope.

(** C62.  A likelihood is created by create_nll of container s with dataset d; any calls l2 follow.  If the templates,
    the dataset and the parameter vector x give the view v, the value at x is the documented one.
    Partial: all bins must have data.  The matrices of the penalty are those at the creation (see C74). *)
Theorem C62_value_partial : forall inv l1 l2 s d x v,
  let w1 := grun inv g_empty l1 in let w := grun inv w1 (GNll s d :: l2) in
  snd (gstep inv w1 (GNll s d)) = Ok tt ->
  lreads w s d x v -> lprecisions w1 s v -> ldomain v ->
  (forall b, (b < v_nb v)%nat -> 0 < v_data v b /\ 0 < expected v b) ->
  exists f, nth_error (g_nlls w) (length (g_nlls w1)) = Some f /\
    nll_call w f (vec_of (v_nt v + v_nt v * v_nb v) x) = Ok (Fin (channel_nll v)).
Proof.
  intros inv l1 l2 s d x v w1 w OK RD PR DM POS. destruct (nll_created inv w1 s d OK) as (st & ts & ST & E & N).
  exists (mk_lnll d s (block_diag (map lt_inv ts))). split; [exact (nll_kept inv l2 _ _ _ N)|].
  assert (G1 : GS w1) by (apply GS_run, GS_empty). assert (G : GS w) by (apply GS_run; exact G1).
  exact (nll_value w s d x v G RD DM (mk_lnll d s (block_diag (map lt_inv ts))) eq_refl eq_refl (lprec_block s v w1 st ts G1 ST E PR) POS).
Qed.
Print Assumptions C62_value_partial.

(** Views exist in every history in which the matrices given to add_covariance_matrix are covariance matrices, as long
    as the container has the same number of templates as at the creation and the dataset has finite contents. *)
Theorem C62_views_exist : forall inv l1 l2 s d x T st h D,
  inv_spec inv -> Forall valid_gcall (l1 ++ GNll s d :: l2) ->
  let w1 := grun inv g_empty l1 in let w := grun inv w1 (GNll s d :: l2) in
  num_members w1 s T -> num_members w s T -> nth_error (g_stacks w) s = Some st ->
  nth_error (g_hists w) d = Some h -> nd_flat (h_counts h) = vec_of (ls_nb st) D ->
  exists v, lreads w s d x v /\ lprecisions w1 s v /\ v_nt v = T /\ v_nb v = ls_nb st.
Proof. intros inv l1 l2 s d x T st h D I V. apply lviews; auto. Qed.
Print Assumptions C62_views_exist.

(** C62 is false with an empty bin: whatever the templates and the parameters are, the value is -inf. *)
Theorem C62_empty_bin_refuted : forall inv l1 l2 s d x v,
  let w1 := grun inv g_empty l1 in let w := grun inv w1 (GNll s d :: l2) in
  snd (gstep inv w1 (GNll s d)) = Ok tt ->
  lreads w s d x v -> lprecisions w1 s v -> ldomain v ->
  (forall b, (b < v_nb v)%nat -> 0 <= v_data v b) -> (exists b, (b < v_nb v)%nat /\ v_data v b = 0) ->
  exists f, nth_error (g_nlls w) (length (g_nlls w1)) = Some f /\
    nll_call w f (vec_of (v_nt v + v_nt v * v_nb v) x) = Ok NInf.
Proof.
  intros inv l1 l2 s d x v w1 w OK RD PR DM POS EM. destruct (nll_created inv w1 s d OK) as (st & ts & ST & E & N).
  exists (mk_lnll d s (block_diag (map lt_inv ts))). split; [exact (nll_kept inv l2 _ _ _ N)|].
  assert (G1 : GS w1) by (apply GS_run, GS_empty). assert (G : GS w) by (apply GS_run; exact G1).
  exact (nll_empty w s d x v G RD DM (mk_lnll d s (block_diag (map lt_inv ts))) eq_refl eq_refl (lprec_block s v w1 st ts G1 ST E PR) POS EM).
Qed.
Print Assumptions C62_empty_bin_refuted.

(** C72.  x0 and param_names of a likelihood describe the parameter vector: position k is the yield of template k,
    position T + k*n + b its nuisance parameter b.
    Partial: the nuisance parameters must have been given as many values as there are bins. *)
Theorem C72_x0_and_names_partial : forall inv l i f s st T, let w := grun inv g_empty l in
  nth_error (g_nlls w) i = Some f -> ln_stack f = s -> nth_error (g_stacks w) s = Some st -> num_members w s T -> (0 < T)%nat ->
  (forall k t p, member w s k t -> params_of w t = Some p -> length (p_nui p) = ls_nb st) ->
  exists x0 names, nll_x0 w f = Ok x0 /\ nll_names w f = Ok names /\
    length x0 = (T + T * ls_nb st)%nat /\ length names = (T + T * ls_nb st)%nat /\
    forall k t, member w s k t -> exists p tm, params_of w t = Some p /\ nth_error (g_tmpls w) t = Some tm /\
      nth_error x0 k = Some (p_yield p) /\ nth_error names k = Some (lt_name tm ++ "_yield")%string /\
      forall b, (b < ls_nb st)%nat ->
        nth_error x0 (T + (k * ls_nb st + b)) = nth_error (p_nui p) b /\
        nth_error names (T + (k * ls_nb st + b)) = Some ((lt_name tm ++ "_nui") ++ "_" ++ decimal b)%string.
Proof.
  intros inv l i f s st T w NF FS ST (st' & ST' & LT) T0 NU. assert (st' = st) by congruence. subst st'.
  assert (G : GS w) by (apply GS_run, GS_empty).
  destruct (x0_names w f s st T (ls_nb st) G ST FS LT T0 NU) as (x0 & names & E1 & E2 & L1 & L2 & H). exists x0, names. do 4 (split; [auto|]).
  intros k t M. destruct (H k t M) as (p & tm & Q1 & Q2 & Q3 & Q4 & Q5 & Q6). exists p, tm. do 4 (split; [auto|]). intros b Hb. split; auto.
Qed.
Print Assumptions C72_x0_and_names_partial.

(** Without that restriction it is false: update_parameters accepts blocks of m values for any m (C75), and then x0
    and param_names have different lengths. *)
Theorem C72_lengths_refuted : forall inv l i f s st T x e m, let w := grun inv g_empty l in
  let w' := fst (gstep inv w (GUpdate s x e)) in
  nth_error (g_nlls w) i = Some f -> ln_stack f = s -> nth_error (g_stacks w) s = Some st ->
  num_members w s T -> (0 < T)%nat -> no_template_twice w s -> aref_ok w x = true -> aref_ok w e = true ->
  a_len x = (T + T * m)%nat -> a_len e = (T + T * m)%nat ->
  exists x0 names, nll_x0 w' f = Ok x0 /\ nll_names w' f = Ok names /\
    length x0 = (T + T * m)%nat /\ length names = (T + T * ls_nb st)%nat.
Proof.
  intros inv l i f s st T x e m w w' NF FS ST NM T0 ND OX OE LX LE.
  destruct (C75_wrong_length_accepted_refuted inv l s T x e m NM T0 ND OX OE LX LE) as (_ & U). fold w w' in U.
  assert (SS : g_stacks w' = g_stacks w) by (unfold w'; apply stacks_step; intros; discriminate).
  assert (G : GS w') by (apply GS_step, GS_run, GS_empty). destruct NM as (st' & ST' & LT). assert (st' = st) by congruence. subst st'.
  assert (MM : forall k t, member w' s k t -> member w s k t) by (intros k t (st' & S' & K); exists st'; split; [congruence|auto]).
  destruct (x0_names w' f s st T m G) as (x0 & names & E1 & E2 & L1 & L2 & _); auto; [congruence| |exists x0, names; auto].
  intros k t p M P. destruct (U k t (MM k t M)) as (p' & P' & L'). congruence.
Qed.
Print Assumptions C72_lengths_refuted.

(** C72, the starting point: the dataset d is the Asimov dataset of container s, the likelihood is created from it.
    Its value at x0 is the penalty term of the current nuisance parameters, so zero if they are zero.
    Partial: all bins of the Asimov dataset must be positive. *)
Theorem C72_asimov_start_partial : forall inv l s x v,
  let w0 := grun inv g_empty l in
  let d := length (g_hists w0) in
  let w1 := fst (gstep inv w0 (GAsimov s false)) in let w := fst (gstep inv w1 (GNll s d)) in
  snd (gstep inv w0 (GAsimov s false)) = Ok tt -> snd (gstep inv w1 (GNll s d)) = Ok tt ->
  lreads w s d x v -> lprecisions w1 s v -> ldomain v -> (forall b, (b < v_nb v)%nat -> 0 < expected v b) ->
  (forall k t p, member w s k t -> params_of w t = Some p ->
     p_yield p = Fin (x k) /\ p_nui p = vec_of (v_nb v) (fun b => x (v_nt v + (k * v_nb v + b))%nat)) ->
  exists f, nth_error (g_nlls w) (length (g_nlls w1)) = Some f /\
    nll_x0 w f = Ok (vec_of (v_nt v + v_nt v * v_nb v) x) /\
    nll_call w f (vec_of (v_nt v + v_nt v * v_nb v) x) =
      Ok (Fin (/ 2 * sumn (v_nt v) (fun k => quad (v_nb v) (v_prec v k) (v_th v k)))) /\
    ((forall j, (v_nt v <= j)%nat -> x j = 0) -> nll_call w f (vec_of (v_nt v + v_nt v * v_nb v) x) = Ok (Fin 0)).
Proof.
  intros inv l s x v w0 d w1 w OKA OKN RD PR DM POS PV.
  pose proof RD as (st & h & ST & NT & HH & HC & TT).
  assert (G0 : GS w0) by (apply GS_run, GS_empty). assert (G1 : GS w1) by now apply GS_step. assert (G : GS w) by now apply GS_step.
  assert (LV : ls_values w st = Ok (vec_of (v_nb v) (expected v))) by (apply (lvalues w s st x v); auto).
  assert (ES : g_stacks w = g_stacks w0). { unfold w, w1. rewrite !stacks_step by (intros; discriminate). reflexivity. }
  assert (ETB : g_tmpls w = g_tmpls w0 /\ g_bufs w = g_bufs w0 /\ exists h0, g_hists w1 = g_hists w0 ++ [h0] /\ g_hists w = g_hists w1 /\ ls_asimov w0 st false = Ok h0).
  { unfold w, w1 in *. clear - OKA OKN ST ES. simpl gstep in *. unfold on_stack in *. rewrite ES in ST. rewrite ST in *. unfold new_hist in *.
    destruct (ls_asimov w0 st false) as [h0|]; [|discriminate]. cbn [fst] in *. unfold nll_create in *. cbn [g_stacks g_hists set_ghists] in *. rewrite ST in *.
    destruct (nth_error (g_hists w0 ++ [h0]) d); [|discriminate]. destruct (ls_templates _ st) as [[|t0 ts]|]; try discriminate. cbn.
    split; [reflexivity|]. split; [reflexivity|]. exists h0. auto. }
  destruct ETB as (ET & EB & h0 & H1 & H2 & AS).
  assert (HD : h0 = h). { rewrite H2, H1 in HH. unfold d in HH. rewrite nth_error_app2, Nat.sub_diag in HH by lia. simpl in HH. congruence. } subst h0.
  assert (DE : forall b, (b < v_nb v)%nat -> v_data v b = expected v b).
  { rewrite (ls_values_same w0 w) in LV by auto. unfold ls_asimov in AS. rewrite LV in AS. cbn [rbind] in AS. unfold hist1_from_binned in AS.
    destruct (hist1_empty _ _) as [he|]; [|discriminate]. injection AS as <-. simpl in HC. intros b Hb. symmetry. eapply vec_of_inj; eauto. }
  destruct (nll_created inv w1 s d OKN) as (st1 & ts & ST1 & E & N). fold w in N.
  set (f := mk_lnll d s (block_diag (map lt_inv ts))) in *. exists f. split; [exact N|].
  assert (VAL : nll_call w f (vec_of (v_nt v + v_nt v * v_nb v) x) = Ok (Fin (channel_nll v))).
  { refine (nll_value w s d x v G RD DM f eq_refl eq_refl (lprec_block s v w1 st1 ts G1 ST1 E PR) _). intros b Hb. rewrite DE by auto. split; apply POS; auto. }
  assert (PEN : channel_nll v = / 2 * sumn (v_nt v) (fun k => quad (v_nb v) (v_prec v k) (v_th v k))).
  { unfold channel_nll. rewrite sumn_zero; [lra|]. intros b Hb. unfold poisson_term. rewrite DE by auto. destruct (Req_EM_T (expected v b) 0) as [Z|Z]; [lra|].
    unfold Rdiv. rewrite Rinv_r by auto. rewrite ln_1. ring. }
  assert (DM' := DM). destruct DM' as (B0 & T0 & _). split; [|split].
  - destruct (x0_names w f s st (v_nt v) (v_nb v) G ST) as (x0 & names & X & _ & LX & _ & K); auto.
    { intros k t p M P. destruct (PV k t p M P) as (_ & ->). apply vec_of_length. }
    rewrite X. f_equal. apply nth_ext with (d := NaN) (d' := NaN); [now rewrite vec_of_length|]. intros j Hj. rewrite LX in Hj.
    assert (IDX : forall k, (k < v_nt v)%nat -> exists t, member w s k t).
    { intros k Hk. destruct (nth_error (ls_ids st) k) as [t|] eqn:TI; [|apply nth_error_None in TI; unfold ls_ids in TI; rewrite map_length in TI; lia]. exists t, st. auto. }
    assert (VN : nth_error (vec_of (v_nt v + v_nt v * v_nb v) x) j = Some (Fin (x j))) by (unfold vec_of; rewrite map_seq_nth by auto; reflexivity).
    rewrite (nth_error_nth _ _ _ VN). apply nth_error_nth. destruct (Nat.lt_ge_cases j (v_nt v)) as [J|J].
    + destruct (IDX j J) as (t & M). destruct (K j t M) as (p & tm & P & _ & Q & _). rewrite Q. f_equal. apply (PV j t p M P).
    + set (q := (j - v_nt v)%nat). assert (JQ : j = (v_nt v + q)%nat) by (unfold q; lia). pose proof (Nat.div_mod q (v_nb v)) as DMD.
      pose proof (Nat.mod_upper_bound q (v_nb v)) as MU. assert (KQ : (q / v_nb v < v_nt v)%nat) by (apply Nat.div_lt_upper_bound; nia).
      destruct (IDX _ KQ) as (t & M). destruct (K _ t M) as (p & tm & P & _ & _ & _ & Q & _). specialize (Q (q mod v_nb v)). destruct (PV _ t p M P) as (_ & PN).
      assert (JE : j = (v_nt v + (q / v_nb v * v_nb v + q mod v_nb v))%nat) by (rewrite JQ; lia).
      rewrite JE at 1. rewrite Q by lia. rewrite PN. unfold vec_of. rewrite map_seq_nth by lia. rewrite <- JE. reflexivity.
  - rewrite VAL, PEN. reflexivity.
  - intros Z. rewrite VAL. f_equal. f_equal. apply zero_at_expectation; auto. intros k b Hk Hb. destruct (nth_error (ls_ids st) k) as [t|] eqn:TI; [|apply nth_error_None in TI; unfold ls_ids in TI; rewrite map_length in TI; lia].
    destruct (G s st ST) as (_ & _ & FT). destruct (FT t (nth_error_In _ _ TI)) as (tm & TM & _).
    destruct (TT k t tm) as (_ & _ & _ & TH); [exists st; auto|exact TM|]. rewrite TH by auto. apply Z. lia.
Qed.
Print Assumptions C72_asimov_start_partial.

(** C74.  Claim: a likelihood uses the current covariance matrices of the templates.  It does not: the fractions use
    them, the penalty term those at the creation.  [f] is created in state w1, then calls l2 follow (for instance
    add_covariance_matrix), then [g] is created from the same container and dataset.  At every x their values differ by
    the difference of the penalty terms. *)
Theorem C74_penalty_frozen_refuted : forall inv l1 l2 s d x v P,
  let w1 := grun inv g_empty l1 in let w2 := grun inv w1 (GNll s d :: l2) in let w := fst (gstep inv w2 (GNll s d)) in
  snd (gstep inv w1 (GNll s d)) = Ok tt -> snd (gstep inv w2 (GNll s d)) = Ok tt ->
  lreads w s d x v -> lprecisions w1 s v -> lprecisions w2 s (with_precisions v P) -> ldomain v ->
  (forall b, (b < v_nb v)%nat -> 0 < v_data v b /\ 0 < expected v b) ->
  exists f g a b, nth_error (g_nlls w) (length (g_nlls w1)) = Some f /\ nth_error (g_nlls w) (length (g_nlls w2)) = Some g /\
    nll_call w f (vec_of (v_nt v + v_nt v * v_nb v) x) = Ok (Fin a) /\
    nll_call w g (vec_of (v_nt v + v_nt v * v_nb v) x) = Ok (Fin b) /\
    a - b = / 2 * sumn (v_nt v) (fun k => quad (v_nb v) (v_prec v k) (v_th v k)) - / 2 * sumn (v_nt v) (fun k => quad (v_nb v) (P k) (v_th v k)).
Proof.
  intros inv l1 l2 s d x v P w1 w2 w OK1 OK2 RD PR1 PR2 DM POS.
  destruct (nll_created inv w1 s d OK1) as (st & ts & ST & E & N). destruct (nll_created inv w2 s d OK2) as (st2 & ts2 & ST2 & E2 & N2). fold w in N2.
  assert (G1 : GS w1) by (apply GS_run, GS_empty). assert (G2 : GS w2) by (apply GS_run; exact G1). assert (G : GS w) by (apply GS_step; exact G2).
  assert (N1 : nth_error (g_nlls w) (length (g_nlls w1)) = Some (mk_lnll d s (block_diag (map lt_inv ts)))).
  { assert (X : w = grun inv (fst (gstep inv w1 (GNll s d))) (l2 ++ [GNll s d])) by (rewrite grun_app; reflexivity). rewrite X. exact (nll_kept inv (l2 ++ [GNll s d]) _ _ _ N). }
  do 4 eexists. split; [exact N1|]. split; [exact N2|].
  split; [exact (nll_value w s d x v G RD DM (mk_lnll d s (block_diag (map lt_inv ts))) eq_refl eq_refl (lprec_block s v w1 st ts G1 ST E PR1) POS)|].
  split; [exact (nll_value w s d x (with_precisions v P) G RD DM (mk_lnll d s (block_diag (map lt_inv ts2))) eq_refl eq_refl (lprec_block s (with_precisions v P) w2 st2 ts2 G2 ST2 E2 PR2) POS)|].
  set (PT := sumn (v_nb v) (fun b => poisson_term (v_data v b) (expected v b))).
  change (channel_nll v) with (PT + / 2 * sumn (v_nt v) (fun k => quad (v_nb v) (v_prec v k) (v_th v k))).
  change (channel_nll (with_precisions v P)) with (PT + / 2 * sumn (v_nt v) (fun k => quad (v_nb v) (P k) (v_th v k))). lra.
Qed.
Print Assumptions C74_penalty_frozen_refuted.

(** Instance: one template with counts (1, 1); after the first likelihood the covariance (1 1; 1 1) is added.  At yield 2
    and nuisance parameters (1, 1) with data (1, 1) the old likelihood is larger by 1 - 2/3. *)
Lemma ls02 : np_linspace 0 2 3 = [0; 1; 2].
Proof. unfold np_linspace. simpl. repeat (f_equal; try lra). Qed.
Ltac decR := repeat (match goal with
 | |- context[Rltb ?a ?b] => destruct (Rltb_spec a b); [try (exfalso; lra)|try (exfalso; lra)]
 | |- context[Rleb ?a ?b] => destruct (Rleb_spec a b); [try (exfalso; lra)|try (exfalso; lra)]
 | |- context[Reqb ?a ?b] => destruct (Reqb_spec a b); [try (exfalso; lra)|try (exfalso; lra)] end; cbv iota).
Lemma ex_hist2 : exists h, hist1_new (B1Int 2) (Some (0, 2)) (Some [1/2; 3/2]) (WArr [1; 1]) = Ok h /\
  nd_flat (h_counts h) = [Fin 1; Fin 1] /\ nd_flat (h_errs_sq h) = [Fin 1; Fin 1].
Proof.
  pose proof ls02.
  lazy -[Reqb Rplus Rmult Ropp Rinv IZR sqrt Rdiv Rltb Rleb ln xadd xmul xdiv xsub xopp xlog xlog1p xsqrt xltb xeqb np_linspace].
  rewrite H. clear H.
  lazy -[Reqb Rplus Rmult Ropp Rinv IZR sqrt Rdiv Rltb Rleb ln xadd xmul xdiv xsub xopp xlog xlog1p xsqrt xltb xeqb].
  decR. eexists. split; [reflexivity|]. cbn [xadd]. split; repeat (f_equal; try lra).
Qed.
Definition ex_nll1 : list gop := [GStack "s" "x" 2 (0, 2); GCreateTemplate 0 "a" [1/2; 3/2] [1; 1]; GHist (B1Int 2) (Some (0, 2)) (Some [1/2; 3/2]) (WArr [1; 1])].
Definition ex_cov : nat -> nat -> R := fun _ _ => 1.

Definition ex_x (j : nat) : R := match j with O => 2 | _ => 1 end.
Lemma ex_state_full inv : exists tm h c e bufs, grun inv g_empty ex_nll1 = mk_g bufs [h] [tm] [mk_ls "s" "x" 2 (0, 2) (np_linspace 0 2 3) [("a"%string, 0%nat)]] [] /\
  lt_nb tm = 2%nat /\ lerrors tm 2 c e [] /\ c 0%nat = 1 /\ c 1%nat = 1 /\ e 0%nat = 1 /\ e 1%nat = 1 /\ nd_flat (h_counts h) = vec_of 2 (fun _ => 1) /\
  params_of (grun inv g_empty ex_nll1) 0 = Some (initial tm) /\ lt_limits tm = (0, 2).
Proof.
  destruct ex_hist2 as (h & EH & HC & HE).
  set (w00 := mk_g [] [] [] [mk_ls "s" "x" 2 (0, 2) (np_linspace 0 2 3) []] []).
  destruct (lt_create_new w00 "a" "x" 2 (0, 2) [1/2; 3/2] [1; 1] 0%nat) as (tm & n & c & e & ET & _ & _ & EN & _ & _ & _ & LIM & NB & LE & LCn & LEr & PAR).
  { unfold lt_create. rewrite EH. reflexivity. }
  change (Z.to_nat 2) with 2%nat in EN. subst n.
  assert (LC : exists bufs, fst (lt_create w00 "a" "x" 2 (0, 2) [1/2; 3/2] [1; 1]) = mk_g bufs [] [tm] [mk_ls "s" "x" 2 (0, 2) (np_linspace 0 2 3) []] [] /\
     snd (lt_create w00 "a" "x" 2 (0, 2) [1/2; 3/2] [1; 1]) = Ok 0%nat /\ lt_counts tm = nd_flat (h_counts h) /\ lt_errs_sq tm = nd_flat (h_errs_sq h)).
  { unfold lt_create in *. rewrite EH in *. change (Nat.eqb (Z.to_nat 2) 0) with false in *. cbv iota zeta in *. cbn [fst g_tmpls w00 app] in ET. injection ET as <-. eexists. split; [reflexivity|]. auto. }
  destruct LC as (bufs & L1 & L2 & L3 & L4). exists tm, h, c, e, bufs.
  assert (EW : grun inv g_empty ex_nll1 = mk_g bufs [h] [tm] [mk_ls "s" "x" 2 (0, 2) (np_linspace 0 2 3) [("a"%string, 0%nat)]] []).
  { unfold ex_nll1. cbn [grun]. replace (fst (gstep inv g_empty (GStack "s" "x" 2 (0, 2)))) with w00 by reflexivity.
    replace (fst (gstep inv w00 (GCreateTemplate 0 "a" [1 / 2; 3 / 2] [1; 1]))) with (mk_g bufs [] [tm] [mk_ls "s" "x" 2 (0, 2) (np_linspace 0 2 3) [("a"%string, 0%nat)]] []).
    + cbn [gstep]. unfold new_hist. rewrite EH. reflexivity.
    + cbn [gstep]. unfold ls_create_template. change (nth_error (g_stacks w00) 0) with (Some (mk_ls "s" "x" 2 (0, 2) (np_linspace 0 2 3) [])). cbv iota.
      change (lt_create w00 "a" (ls_var (mk_ls "s" "x" 2 (0, 2) (np_linspace 0 2 3) [])) (Z.of_nat (ls_nb (mk_ls "s" "x" 2 (0, 2) (np_linspace 0 2 3) []))) (ls_limits (mk_ls "s" "x" 2 (0, 2) (np_linspace 0 2 3) [])) [1 / 2; 3 / 2] [1; 1])
        with (lt_create w00 "a" "x" 2 (0, 2) [1/2; 3/2] [1; 1]).
      destruct (lt_create w00 "a" "x" 2 (0, 2) [1/2; 3/2] [1; 1]) as [wt rt]. cbn [fst snd] in L1, L2. subst wt rt. reflexivity. }
  split; [exact EW|]. rewrite EW. rewrite L1 in PAR.
  split; [exact NB|]. split; [exact LE|]. rewrite LCn in L3. rewrite LEr in L4. rewrite HC in *. rewrite HE in L4. unfold vec_of in L3, L4. cbn in L3, L4. injection L3 as -> ->. injection L4 as -> ->. do 4 (split; [reflexivity|]).
  split; [reflexivity|]. split; [exact PAR|exact LIM].
Qed.
Lemma ex_state inv : exists tm h c e bufs, grun inv g_empty ex_nll1 = mk_g bufs [h] [tm] [mk_ls "s" "x" 2 (0, 2) (np_linspace 0 2 3) [("a"%string, 0%nat)]] [] /\
  lt_nb tm = 2%nat /\ lerrors tm 2 c e [] /\ c 0%nat = 1 /\ c 1%nat = 1 /\ e 0%nat = 1 /\ e 1%nat = 1 /\ nd_flat (h_counts h) = vec_of 2 (fun _ => 1).
Proof.
  destruct (ex_state_full inv) as (tm & h & c & e & bufs & A1 & A2 & A3 & A4 & A5 & A6 & A7 & A8 & _). exists tm, h, c, e, bufs. auto 10.
Qed.
Theorem C74_example_refuted : forall inv, inv_spec inv ->
  let w1 := grun inv g_empty ex_nll1 in let w2 := grun inv w1 [GNll 0 0; GAddCov 0 (mat_of 2 ex_cov)] in let w := fst (gstep inv w2 (GNll 0 0)) in
  exists f g a b, nth_error (g_nlls w) 0 = Some f /\ nth_error (g_nlls w) 1 = Some g /\
    nll_call w f [Fin 2; Fin 1; Fin 1] = Ok (Fin a) /\ nll_call w g [Fin 2; Fin 1; Fin 1] = Ok (Fin b) /\ a - b = 1 / 3.
Proof.
  intros inv I w1 w2 w. destruct (ex_state inv) as (tm & h & c & e & bufs & EW & NB & LE & C0 & C1 & E0 & E1 & HC).
  assert (SYC : symmetric 2 ex_cov) by (intros i j _ _; reflexivity).
  assert (PSC : psd 2 ex_cov). { intros u. unfold quad, ex_cov. cbn [sumn]. match goal with |- 0 <= ?t => replace t with ((u 0%nat + u 1%nat) ^ 2) by (simpl; ring) end. apply pow2_ge_0. }
  destruct (ladd_cov inv tm 2 c e [] ex_cov I LE SYC PSC) as (tm' & EA & LE' & _). cbn [app] in LE'.
  set (st := mk_ls "s" "x" 2 (0, 2) (np_linspace 0 2 3) [("a"%string, 0%nat)]) in *.
  set (f0 := mk_lnll 0 0 (block_diag (map lt_inv [tm]))). set (f1 := mk_lnll 0 0 (block_diag (map lt_inv [tm']))).
  assert (W1 : w1 = mk_g bufs [h] [tm] [st] []) by exact EW.
  assert (W2 : w2 = mk_g bufs [h] [tm'] [st] [f0]). { unfold w2. rewrite W1. cbn [grun]. replace (fst (gstep inv (mk_g bufs [h] [tm] [st] []) (GNll 0 0))) with (mk_g bufs [h] [tm] [st] [f0]) by reflexivity. cbn [gstep]. unfold on_tmpl. cbn [nth_error g_tmpls]. rewrite EA. reflexivity. }
  assert (W : w = mk_g bufs [h] [tm'] [st] [f0; f1]) by (unfold w; rewrite W2; reflexivity).
  pose proof LE as (_ & _ & _ & _ & _ & _ & _ & (P & _ & IP) & _). pose proof LE' as (_ & _ & _ & _ & _ & _ & _ & (P' & _ & IP') & _).
  set (cov0 := msum [stat_cov_of e]) in *. set (cov := msum [stat_cov_of e; ex_cov]) in *.
  set (v := mk_cview 2 1 ex_x (fun _ => 1) (fun _ => c) (fun _ => cov) (fun k b => ex_x (1 + (k * 2 + b))) (fun _ => P) (fun _ => 1)).
  assert (D0 : cov0 0%nat 0%nat = 1 /\ cov0 1%nat 1%nat = 1 /\ cov0 0%nat 1%nat = 0 /\ cov0 1%nat 0%nat = 0).
  { unfold cov0, msum, stat_cov_of. simpl. rewrite E0, E1. destruct (Req_EM_T 1 0); [lra|]. repeat split; lra. }
  assert (D1 : cov 0%nat 0%nat = 2 /\ cov 1%nat 1%nat = 2 /\ cov 0%nat 1%nat = 1 /\ cov 1%nat 0%nat = 1).
  { unfold cov, msum, stat_cov_of, ex_cov. simpl. rewrite E0, E1. destruct (Req_EM_T 1 0); [lra|]. repeat split; lra. }
  assert (MB : forall w' k t, member w' 0 k t -> g_stacks w' = [st] -> k = 0%nat /\ t = 0%nat).
  { intros w' k t (st' & S' & K) ES. rewrite ES in S'. injection S' as <-. destruct k as [|[|k]]; try discriminate. cbn in K. injection K as <-. auto. }
  assert (RD : lreads w 0 0 ex_x v).
  { rewrite W. exists st, h. split; [reflexivity|]. split; [reflexivity|]. split; [reflexivity|]. split; [exact HC|]. intros k t tm0 M TM.
    destruct (MB _ k t M eq_refl) as (-> & ->). injection TM as <-. repeat (split; [reflexivity|]). split; [|intros; reflexivity]. exists e, [ex_cov]. split; [exact LE'|reflexivity]. }
  assert (PR1 : lprecisions w1 0 v).
  { rewrite W1. split; [exists st; split; reflexivity|]. intros k t tm0 M TM. destruct (MB _ k t M eq_refl) as (-> & ->). injection TM as <-. exists c, e, []. split; [exact LE|exact IP]. }
  assert (PR2 : lprecisions w2 0 (with_precisions v (fun _ => P'))).
  { rewrite W2. split; [exists st; split; reflexivity|]. intros k t tm0 M TM. destruct (MB _ k t M eq_refl) as (-> & ->). injection TM as <-. exists c, e, [ex_cov]. split; [exact LE'|exact IP']. }
  clearbody cov cov0. destruct D0 as (D00 & D01 & D02 & D03), D1 as (D10 & D11 & D12 & D13).
  assert (RE : rel_error cov c 0%nat = sqrt 2 /\ rel_error cov c 1%nat = sqrt 2).
  { unfold rel_error. rewrite C0, C1, D10, D11. destruct (Req_EM_T 1 0); [lra|]. split; lra. }
  destruct RE as (R0 & R1). assert (S2 : 0 < sqrt 2) by (apply sqrt_lt_R0; lra). assert (SS : sqrt 2 * sqrt 2 = 2) by (apply sqrt_sqrt; lra).
  assert (VV : v_varied v 0 0 = 1 + sqrt 2 /\ v_varied v 0 1 = 1 + sqrt 2).
  { unfold v_varied. cbn. rewrite R0, R1, C0, C1. split; ring. }
  destruct VV as (V0 & V1). assert (VT : v_total v 0 = 2 + 2 * sqrt 2) by (unfold v_total; cbn [v_nb v sumn]; fold v; rewrite V0, V1; ring).
  assert (DM : ldomain v). { split; [cbn; lia|]. split; [cbn; lia|]. intros k Hk. cbn in Hk. replace k with 0%nat by lia. rewrite VT. lra. }
  assert (POS : forall b, (b < v_nb v)%nat -> 0 < v_data v b /\ 0 < expected v b).
  { intros b Hb. cbn in Hb. split; [cbn; lra|]. unfold expected. cbn [v_nt v sumn]. fold v. rewrite VT. assert (VB : v_varied v 0 b = 1 + sqrt 2) by (destruct b as [|[|b]]; [auto|auto|lia]). rewrite VB.
    cbn [v_yield v_eff v ex_x]. assert (0 < (1 + sqrt 2) / (2 + 2 * sqrt 2)) by (apply Rdiv_lt_0_compat; lra). lra. }
  assert (OK1 : snd (gstep inv w1 (GNll 0 0)) = Ok tt) by (rewrite W1; reflexivity). assert (OK2 : snd (gstep inv w2 (GNll 0 0)) = Ok tt) by (rewrite W2; reflexivity).
  destruct (C74_penalty_frozen_refuted inv ex_nll1 [GAddCov 0 (mat_of 2 ex_cov)] 0 0 ex_x v (fun _ => P') OK1 OK2 RD PR1 PR2 DM POS) as (f & g & a & b & F & G & A & B & DI).
  fold w1 w2 w in F, G, A, B. exists f, g, a, b. rewrite W1 in F. rewrite W2 in G. split; [exact F|]. split; [exact G|]. split; [exact A|]. split; [exact B|]. rewrite DI.
  cbn [v_nt v_nb v_prec v_th v sumn]. unfold quad. cbn [sumn ex_x Nat.add Nat.mul].
  assert (CR : correlation cov0 0%nat 0%nat = 1 /\ correlation cov0 1%nat 1%nat = 1 /\ correlation cov0 0%nat 1%nat = 0 /\ correlation cov0 1%nat 0%nat = 0).
  { unfold correlation. rewrite D00, D01, D02, D03, sqrt_1. repeat split; lra. }
  assert (CR' : correlation cov 0%nat 0%nat = 1 /\ correlation cov 1%nat 1%nat = 1 /\ correlation cov 0%nat 1%nat = / 2 /\ correlation cov 1%nat 0%nat = / 2).
  { unfold correlation. rewrite D10, D11, D12, D13, SS. repeat split; lra. }
  destruct CR as (A0 & A1 & A2 & A3), CR' as (B0 & B1 & B2 & B3).
  destruct (IP 0%nat 0%nat) as (Q1 & _); [lia|lia|]. destruct (IP 0%nat 1%nat) as (Q2 & _); [lia|lia|]. destruct (IP 1%nat 0%nat) as (Q3 & _); [lia|lia|]. destruct (IP 1%nat 1%nat) as (Q4 & _); [lia|lia|].
  destruct (IP' 0%nat 0%nat) as (Q5 & _); [lia|lia|]. destruct (IP' 0%nat 1%nat) as (Q6 & _); [lia|lia|]. destruct (IP' 1%nat 0%nat) as (Q7 & _); [lia|lia|]. destruct (IP' 1%nat 1%nat) as (Q8 & _); [lia|lia|].
  unfold delta in *. cbn [sumn Nat.eqb] in *. rewrite A0, A1, A2, A3 in *. rewrite B0, B1, B2, B3 in *. lra.
Qed.
Print Assumptions C74_example_refuted.
