(** The likelihood of the legacy templates *)
From Coq Require Import Reals String ZArith Bool Arith List Lra Lia.
From Verif Require Import Model_Num Model_Hist Model_Utility Model_Template Model_World Model_Legacy
  Spec_Hist Spec_Matrix Spec_Template Spec_Nll Spec_Legacy Proof_Hist Proof_HistHeap Proof_LegacyHist Proof_Matrix Proof_Linear Proof_Utility
  Proof_Template Proof_Template3 Proof_World Proof_Route Proof_Names Proof_Update Proof_Nll Proof_Legacy Proof_Legacy2 Proof_Legacy3.
Import ListNotations.
Local Open Scope R_scope.

(** ** Errors of templates *)
Definition as_tmpl (t : ltmpl) (covs : list mat) : tmpl :=
  mk_tmpl K1 (lt_name t) 0 (lt_counts t) (lt_errs_sq t) [lt_nb t] (lt_nb t) [lt_limits t] [] covs
    (lt_cov t) (lt_corr t) (lt_inv t) (lt_rel t).
Lemma lerrors_state t n c e covs : lerrors t n c e covs <-> error_state (as_tmpl t (map (mat_of n) (stat_cov_of e :: covs))) n c e covs.
Proof. unfold lerrors, error_state. cbv zeta. simpl. tauto. Qed.

Lemma lfractions t n c e covs th : lerrors t n c e covs ->
  let eps := rel_error (msum (stat_cov_of e :: covs)) c in
  sumn n (varied c eps th) <> 0 ->
  lt_fractions t (vec_of n th) = Ok (vec_of n (fun i => varied c eps th i / sumn n (varied c eps th))).
Proof. intros L eps H. apply lerrors_state in L. exact (fractions_value _ _ _ _ _ th L H). Qed.

Lemma ladd_cov inv t n c e covs C : inv_spec inv -> lerrors t n c e covs -> symmetric n C -> psd n C ->
  exists t', lt_add_cov inv t (mat_of n C) = (t', Ok tt) /\ lerrors t' n c e (covs ++ [C]) /\ same_orig t t'.
Proof.
  intros I L SY PS. pose proof L as L0. apply lerrors_state in L.
  destruct (add_cov_raw_state inv I _ _ _ _ _ C L SY PS) as (t' & E & ES & _).
  assert (NB : lt_nb t = n) by apply L0.
  unfold lt_add_cov. rewrite NB. assert (SQ : square n (mat_of n C) = true) by apply square_mat. rewrite SQ. cbn [negb].
  unfold add_cov_raw in E. simpl in E. destruct (inv (cov2corr (np_madd (lt_cov t) (mat_of n C)))) as [i|]; [|discriminate]. injection E as <-.
  eexists. split; [reflexivity|]. split; [|unfold same_orig; simpl; repeat split; auto].
  apply lerrors_state. unfold error_state in *. cbv zeta in *. simpl in *. rewrite NB in *.
  destruct ES as (Q1 & Q2 & Q3 & Q4 & Q5 & Q6 & Q7 & Q8 & Q9 & Q10). repeat (split; [assumption|]). split; [reflexivity|].
  repeat (split; [assumption|]). assumption.
Qed.

(** ** Values of the terms *)
Lemma lxlogyx_value n nu : 0 < n -> 0 < nu -> lxlogyx (Fin n) (Fin nu) = Fin (n * ln (nu / n)).
Proof.
  intros Hx Hy. unfold lxlogyx. simpl xltb. destruct (Rltb_spec n nu) as [Hlt|Hge].
  - unfold xsub; simpl. destruct (Reqb_spec n 0); [lra|]. unfold xlog1p.
    assert (E : 1 + (nu + - n) / n = nu / n) by (field; lra).
    assert (0 < nu / n) by (apply Rdiv_lt_0_compat; lra).
    destruct (Rltb_spec ((nu + - n) / n) (-1)); [lra|]. destruct (Reqb_spec ((nu + - n) / n) (-1)); [lra|].
    simpl. rewrite E. reflexivity.
  - unfold xsub; simpl. destruct (Reqb_spec nu 0); [lra|]. unfold xlog1p.
    assert (E : 1 + (n + - nu) / nu = / (nu / n)) by (field; lra).
    assert (0 < nu / n) by (apply Rdiv_lt_0_compat; lra). assert (0 < / (nu / n)) by (apply Rinv_0_lt_compat; auto).
    destruct (Rltb_spec ((n + - nu) / nu) (-1)); [lra|]. destruct (Reqb_spec ((n + - nu) / nu) (-1)); [lra|].
    simpl. rewrite E, ln_Rinv by auto. f_equal. ring.
Qed.
(** an empty bin *)
Lemma lxlogyx_empty nu : lxlogyx (Fin 0) (Fin nu) = PInf.
Proof.
  unfold lxlogyx. simpl xltb. destruct (Rltb_spec 0 nu).
  - unfold xsub; simpl. destruct (Reqb_spec 0 0); [|congruence]. destruct (Reqb_spec (nu + - 0) 0); [lra|].
    destruct (Rltb_spec (nu + - 0) 0); [lra|]. cbn. unfold xinf_mul. destruct (Reqb_spec 0 0); [reflexivity|congruence].
  - unfold xsub; simpl. destruct (Reqb_spec nu 0).
    + subst. destruct (Reqb_spec (0 + - 0) 0); [|lra]. cbn. reflexivity.
    + assert (E : (0 + - nu) / nu = -1) by (field; auto). rewrite E. unfold xlog1p. destruct (Rltb_spec (-1) (-1)); [lra|]. destruct (Reqb_spec (-1) (-1)); [|congruence].
      cbn. unfold xinf_mul. destruct (Reqb_spec (- 0) 0); [reflexivity|lra].
Qed.
(** a bin with data never gives -inf *)
Lemma lxlogyx_data n nu : 0 < n -> (exists r, lxlogyx (Fin n) (Fin nu) = Fin r) \/ lxlogyx (Fin n) (Fin nu) = PInf.
Proof.
  intros Hn. unfold lxlogyx. destruct (if xltb (Fin n) (Fin nu) then _ else _) as [r| | |]; simpl; eauto.
Qed.

Lemma np_sum_ninf l : In NInf l -> (forall a, In a l -> a = NInf \/ exists r, a = Fin r) -> np_sum l = NInf.
Proof.
  assert (Q : forall l, (forall a, In a l -> a = NInf \/ exists r, a = Fin r) -> np_sum l = NInf \/ exists r, np_sum l = Fin r).
  { clear l. induction l as [|a l IH]; intros H; simpl; [right; eauto|]. destruct (IH (fun b Hb => H b (or_intror Hb))) as [->|(r & ->)]; destruct (H a (or_introl eq_refl)) as [->|(q & ->)]; simpl; eauto. }
  induction l as [|a l IH]; intros I H; [destruct I|]. simpl. destruct I as [->|I].
  - destruct (Q l (fun b Hb => H b (or_intror Hb))) as [->|(r & ->)]; reflexivity.
  - rewrite IH; auto; [|intros b Hb; apply H; now right]. destruct (H a (or_introl eq_refl)) as [->|(q & ->)]; reflexivity.
Qed.

(** ** Vectors *)
Lemma bcast_seq {A B C} n (F : nat -> A) (G : nat -> B) (op : A -> B -> C) :
  bcast op (map F (seq 0 n)) (map G (seq 0 n)) = Ok (map (fun i => op (F i) (G i)) (seq 0 n)).
Proof.
  unfold bcast. rewrite !map_length, Nat.eqb_refl. f_equal. generalize (seq 0 n) as l. induction l as [|a l IH]; simpl; congruence.
Qed.

Lemma bcast_vec_seq {C} n f g (op : xr -> xr -> C) :
  bcast op (vec_of n f) (vec_of n g) = Ok (map (fun i => op (Fin (f i)) (Fin (g i))) (seq 0 n)).
Proof. unfold vec_of. apply bcast_seq. Qed.

(** ** Templates of a container *)
Lemma templates_ok w s st : GS w -> nth_error (g_stacks w) s = Some st ->
  exists ts, ls_templates w st = Ok ts /\ length ts = length (ls_dict st) /\
    forall k t, nth_error (ls_ids st) k = Some t -> exists tm, nth_error ts k = Some tm /\ nth_error (g_tmpls w) t = Some tm.
Proof.
  intros G ST. destruct (G s st ST) as (_ & _ & F).
  set (d := mk_lt "" "" 0 (0, 0) [] [] [] [] [] [] (mk_y NaN NaN NaN NaN) (mk_n (mk_aref 0 0 0) (mk_aref 0 0 0) (mk_aref 0 0 0) (mk_aref 0 0 0))).
  exists (map (fun k => nth (nth k (ls_ids st) O) (g_tmpls w) d) (seq 0 (length (ls_ids st)))). split; [|split].
  - apply mapr_nth. intros k t K. rewrite (nth_error_nth _ _ O K). destruct (F t (nth_error_In _ _ K)) as (tm & TM & _).
    unfold g_tmpl. rewrite TM, (nth_error_nth _ _ d TM). reflexivity.
  - rewrite map_length, seq_length. unfold ls_ids. apply map_length.
  - intros k t K. assert (KL : (k < length (ls_ids st))%nat) by (apply nth_error_Some; congruence). destruct (F t (nth_error_In _ _ K)) as (tm & TM & _).
    exists tm. split; auto. rewrite map_seq_nth by auto. rewrite (nth_error_nth _ _ O K), (nth_error_nth _ _ d TM). reflexivity.
Qed.

Section View.
  Variables (w : gworld) (s d : nat) (x : nat -> R) (v : cview).
  Hypothesis G : GS w.
  Hypothesis RD : lreads w s d x v.
  Hypothesis DM : ldomain v.

  Definition lnui (j : nat) : R := x (v_nt v + j)%nat.

  Lemma lfractions_real st : nth_error (g_stacks w) s = Some st ->
    ls_fractions w st (vec_of (v_nt v * v_nb v) lnui) = Ok (rmat_of (v_nt v) (v_nb v) (fun k b => v_varied v k b / v_total v k)).
  Proof.
    intros ST. destruct RD as (st' & h & S' & NT & _ & _ & TT). assert (st' = st) by congruence. subst st'. destruct DM as (B0 & T0 & TN).
    unfold ls_fractions. rewrite <- NT. rewrite (split_n_blocks (v_nt v) (v_nb v)) by (rewrite ?vec_of_length; lia). cbn [rbind]. rewrite blocks_vec.
    destruct (templates_ok w s st G ST) as (ts & E & LTS & TK). rewrite E. cbn [rbind].
    rewrite (mapr_nth _ _ (fun k => vec_of (v_nb v) (fun b => v_varied v k b / v_total v k))).
    - rewrite combine_length, map_length, seq_length, LTS, <- NT, Nat.min_id. reflexivity.
    - intros k [tm nu] K.
      assert (KL : (k < v_nt v)%nat). { assert (H : (k < length (combine ts (map (fun j => vec_of (v_nb v) (fun b => lnui (j * v_nb v + b))) (seq 0 (v_nt v)))))%nat) by (apply nth_error_Some; congruence).
        rewrite combine_length, map_length, seq_length, LTS, <- NT in H. lia. }
      destruct (nth_error (ls_ids st) k) as [t|] eqn:TI; [|apply nth_error_None in TI; unfold ls_ids in TI; rewrite map_length in TI; lia].
      destruct (TK k t TI) as (tm' & T1 & T2).
      rewrite (nth_combine _ _ k tm' (vec_of (v_nb v) (fun b => lnui (k * v_nb v + b)))) in K; [|exact T1|now rewrite map_seq_nth].
      injection K as <- <-. simpl.
      destruct (TT k t tm') as (_ & _ & (e & covs & LE & CV) & TH); [exists st; auto|exact T2|].
      rewrite (vec_of_ext _ _ (v_th v k)) by (intros b Hb; rewrite TH by auto; reflexivity).
      assert (VE : forall b, varied (v_cnt v k) (rel_error (msum (stat_cov_of e :: covs)) (v_cnt v k)) (v_th v k) b = v_varied v k b).
      { intros b. unfold varied, v_varied. rewrite (rel_error_ext _ (v_cov v k)); auto. }
      rewrite (lfractions _ _ _ _ _ _ LE).
      + f_equal. apply vec_of_ext. intros b Hb. unfold v_total. rewrite VE. f_equal. apply sumn_ext. auto.
      + rewrite (sumn_ext _ _ (v_varied v k)); [apply TN; auto|]. auto.
  Qed.

  Lemma lprec_block w1 st1 ts1 : GS w1 -> nth_error (g_stacks w1) s = Some st1 -> ls_templates w1 st1 = Ok ts1 -> lprecisions w1 s v ->
    block_diag (map lt_inv ts1) = mat_of (v_nt v * v_nb v) (bd (v_nb v) (map (v_prec v) (seq 0 (v_nt v)))).
  Proof.
    intros G1 ST E ((st' & S' & NM) & P). assert (st' = st1) by congruence. subst st'.
    destruct (templates_ok w1 s st1 G1 ST) as (ts & E' & LTS & TK). assert (ts = ts1) by congruence. subst ts.
    transitivity (block_diag (map (mat_of (v_nb v)) (map (v_prec v) (seq 0 (v_nt v))))).
    - f_equal. rewrite map_map. apply nth_ext with (d := []) (d' := []); [rewrite !map_length, seq_length; congruence|].
      intros k Hk. rewrite map_length, LTS, NM in Hk.
      destruct (nth_error (ls_ids st1) k) as [t|] eqn:TI; [|apply nth_error_None in TI; unfold ls_ids in TI; rewrite map_length in TI; lia].
      destruct (TK k t TI) as (tm & T1 & T2). destruct (P k t tm) as (c & e & covs & LE & IV); [exists st1; auto|exact T2|].
      erewrite nth_error_nth; [|apply map_nth_error; exact T1].
      symmetry. erewrite nth_error_nth; [|apply map_seq_nth; exact Hk]. symmetry.
      destruct LE as (_ & _ & _ & _ & _ & _ & _ & (Q & EQ & IQ) & _). rewrite EQ. apply mat_of_ext. apply (inverse_unique (v_nb v) (correlation (msum (stat_cov_of e :: covs)))); auto.
    - rewrite block_diag_mat, map_length, seq_length. reflexivity.
  Qed.

  Definition penalty : R := / 2 * sumn (v_nt v) (fun k => quad (v_nb v) (v_prec v k) (v_th v k)).

  Lemma nll_terms f : ln_data f = d -> ln_stack f = s ->
    ln_block f = mat_of (v_nt v * v_nb v) (bd (v_nb v) (map (v_prec v) (seq 0 (v_nt v)))) ->
    nll_call w f (vec_of (v_nt v + v_nt v * v_nb v) x) =
      Ok (xadd (np_sum (map (fun b => xsub (Fin (expected v b - v_data v b)) (lxlogyx (Fin (v_data v b)) (Fin (expected v b)))) (seq 0 (v_nb v))))
               (Fin penalty)).
  Proof.
    intros FD FS FB. pose proof RD as (st & h & ST & NT & HH & HC & TT). destruct DM as (B0 & T0 & TN). unfold nll_call. rewrite FS, FD, ST, HH, FB. rewrite <- NT.
    assert (P1 : firstn (v_nt v) (vec_of (v_nt v + v_nt v * v_nb v) x) = vec_of (v_nt v) x).
    { pose proof (vec_slice 0 (v_nt v) (v_nt v + v_nt v * v_nb v) x) as Q. simpl in Q. apply Q. lia. }
    assert (P2 : skipn (v_nt v) (vec_of (v_nt v + v_nt v * v_nb v) x) = vec_of (v_nt v * v_nb v) lnui).
    { transitivity (vec_of (v_nt v * v_nb v) (fun i => x (v_nt v + i)%nat)); [|reflexivity]. rewrite <- (vec_slice (v_nt v) (v_nt v * v_nb v) (v_nt v + v_nt v * v_nb v) x) by lia. symmetry. apply firstn_all2. rewrite skipn_length, vec_of_length. lia. }
    rewrite P1, P2, (lfractions_real st ST). cbn [rbind]. rewrite vecmat_rmat by auto. cbn [rbind].
    assert (ID : forall k, (k < v_nt v)%nat -> exists t tm, nth_error (ls_ids st) k = Some t /\ nth_error (g_tmpls w) t = Some tm).
    { intros k Hk. destruct (nth_error (ls_ids st) k) as [t|] eqn:TI; [|apply nth_error_None in TI; unfold ls_ids in TI; rewrite map_length in TI; lia].
      destruct (G s st ST) as (_ & _ & F). destruct (F t (nth_error_In _ _ TI)) as (tm & TM & _). eauto. }
    rewrite (vec_of_ext _ _ (expected v)).
    2:{ intros b Hb. unfold expected. apply sumn_ext. intros k Hk. destruct (ID k Hk) as (t & tm & TI & TM).
        destruct (TT k t tm) as (Y & EF & _); [exists st; auto|exact TM|]. rewrite Y, EF. ring. }
    rewrite HC. rewrite !bcast_vec_seq. cbn [rbind]. rewrite !bcast_seq. cbn [rbind].
    rewrite vecmat_mat by nia. cbn [rbind]. rewrite dot_vec. cbn [rbind]. f_equal. f_equal.
    simpl. f_equal. unfold penalty. replace (1 / 2) with (/ 2) by lra. f_equal.
    set (Ps := map (v_prec v) (seq 0 (v_nt v))). assert (LP : length Ps = v_nt v) by (unfold Ps; now rewrite map_length, seq_length).
    transitivity (quad (v_nt v * v_nb v) (bd (v_nb v) Ps) lnui).
    - unfold quad. rewrite sumn_swap. apply sumn_ext. intros j _. now rewrite sumn_scal_r.
    - rewrite <- LP at 1. rewrite quad_bd, LP. apply sumn_ext. intros k Hk. apply quad_ext.
      + intros a b _ _. unfold Ps. rewrite (nth_indep _ _ (v_prec v 0%nat)) by (now rewrite map_length, seq_length). rewrite map_nth, seq_nth by auto. reflexivity.
      + intros b Hb. destruct (ID k Hk) as (t & tm & TI & TM). destruct (TT k t tm) as (_ & _ & _ & TH); [exists st; auto|exact TM|]. rewrite TH by auto. reflexivity.
  Qed.

  (** all bins have data and expectation *)
  Lemma nll_value f : ln_data f = d -> ln_stack f = s ->
    ln_block f = mat_of (v_nt v * v_nb v) (bd (v_nb v) (map (v_prec v) (seq 0 (v_nt v)))) ->
    (forall b, (b < v_nb v)%nat -> 0 < v_data v b /\ 0 < expected v b) ->
    nll_call w f (vec_of (v_nt v + v_nt v * v_nb v) x) = Ok (Fin (channel_nll v)).
  Proof.
    intros FD FS FB POS. rewrite (nll_terms f FD FS FB). f_equal.
    replace (map _ (seq 0 (v_nb v))) with (vec_of (v_nb v) (fun b => poisson_term (v_data v b) (expected v b))).
    - rewrite np_sum_vec. reflexivity.
    - unfold vec_of. apply map_ext_in. intros b Hb. apply in_seq in Hb. destruct (POS b) as (P1 & P2); [lia|]. rewrite lxlogyx_value by auto.
      unfold xsub, poisson_term. simpl. destruct (Req_EM_T (v_data v b) 0); [lra|]. f_equal.
  Qed.
  (** a bin without data *)
  Lemma nll_empty f : ln_data f = d -> ln_stack f = s ->
    ln_block f = mat_of (v_nt v * v_nb v) (bd (v_nb v) (map (v_prec v) (seq 0 (v_nt v)))) ->
    (forall b, (b < v_nb v)%nat -> 0 <= v_data v b) -> (exists b, (b < v_nb v)%nat /\ v_data v b = 0) ->
    nll_call w f (vec_of (v_nt v + v_nt v * v_nb v) x) = Ok NInf.
  Proof.
    intros FD FS FB POS (b0 & L0 & E0). rewrite (nll_terms f FD FS FB). f_equal. rewrite np_sum_ninf; [reflexivity| |].
    - apply in_map_iff. exists b0. split; [|apply in_seq; lia]. rewrite E0, lxlogyx_empty. reflexivity.
    - intros a Ha. apply in_map_iff in Ha as (b & <- & Hb). apply in_seq in Hb. destruct (Rle_lt_or_eq_dec 0 (v_data v b)) as [P|P]; [apply POS; lia| |].
      + destruct (lxlogyx_data (v_data v b) (expected v b) P) as [(r & ->)| ->]; [right; eexists; reflexivity|left; reflexivity].
      + rewrite <- P, lxlogyx_empty. left. reflexivity.
  Qed.
End View.

(** ** Likelihood objects never change *)
Lemma nll_created inv w s d : snd (gstep inv w (GNll s d)) = Ok tt ->
  exists st ts, nth_error (g_stacks w) s = Some st /\ ls_templates w st = Ok ts /\
    nth_error (g_nlls (fst (gstep inv w (GNll s d)))) (length (g_nlls w)) = Some (mk_lnll d s (block_diag (map lt_inv ts))).
Proof.
  simpl gstep. unfold nll_create. destruct (nth_error (g_stacks w) s) as [st|] eqn:ST; [|discriminate]. destruct (nth_error (g_hists w) d); [|discriminate].
  destruct (ls_templates w st) as [[|t0 ts]|] eqn:E; try discriminate. intros _. exists st, (t0 :: ts). split; auto. split; auto.
  simpl. rewrite nth_error_app2, Nat.sub_diag by lia. reflexivity.
Qed.
Lemma nll_kept inv l w i f : nth_error (g_nlls w) i = Some f -> nth_error (g_nlls (grun inv w l)) i = Some f.
Proof. intros H. destruct (ge_nlls _ _ (grun_ext inv l w) i f H) as (f' & E & <-). exact E. Qed.
