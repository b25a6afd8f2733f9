(** Property theorems C40-C42: constraints and data sets. *)
From Coq Require Import Reals String Ascii ZArith Bool Arith List Lra Lia.
From Verif Require Import Model_Num Model_Hist Model_Utility Model_Template Model_World Model_Ops
  Spec_Matrix Spec_Template Spec_World Spec_Nll Spec_Data Proof_Hist Proof_Matrix Proof_Linear Proof_Utility Proof_Template Proof_Template3 Proof_HistHeap Proof_Monad Proof_World
  Proof_Eval Proof_Route Proof_Names Proof_Update Proof_Yield Proof_Nll Proof_Valid Proof_Data Proof_Constr Prop_World Prop_Params Prop_Nll.
Import ListNotations.
Local Open Scope R_scope.

(** ** C42 *)
Lemma dataset_accepted w f hs ds : WF w -> Forall2 (entry w f hs) (w_channels w) ds ->
  let w' := set_hists w (w_hists w ++ hs) in
  WF w' -> map fst ds = map fst (w_channels w) /\
  (forall i n c, channel_at w i n c -> exists cid hid h s counts, nth_error (w_channels w) i = Some (n, cid) /\ nth_error ds i = Some (n, hid) /\ nth_error (w_hists w') hid = Some h /\
     sum_of_templates w c s /\ f cid s = Ok counts /\ data_hist w c counts h) /\
  exists w'', mct_add_data ds w' = (w'', Ok tt) /\ only_data w' w'' /\
    forall i n c, channel_at w i n c -> exists hid, nth_error ds i = Some (n, hid) /\ channel_at w'' i n (with_data c (Some hid)).
Proof.
  intros W F w' W'. assert (FST : map fst ds = map fst (w_channels w)).
  { clear -F. induction F as [|? ? ? ? (E & _) _ IH]; simpl; congruence. }
  split; auto. split.
  - intros i n c (cid & H1 & H2). destruct (forall2_nth _ _ _ _ _ F H1) as ([n' hid] & D & (E & c' & s & counts & h & C & S & FE & HH & DH)). simpl in *. subst n'.
    assert (c' = c) by congruence. subst. exists cid, hid, h, s, counts. auto 10.
  - assert (FI : Forall (fits w') ds).
    { rewrite Forall_forall. intros [n hid] K. apply In_nth_error in K as (i & K).
      destruct (forall2_nth' _ _ _ _ _ F K) as ([n' cid] & NC & (E & c & s & counts & h & C & S & FE & HH & (D1 & D2 & _))). simpl in *. subst n'.
      exists cid, c, h. simpl. split; [|auto]. apply (dget_nth _ i); auto. apply (wf_names w W). }
    destruct (add_data_ok ds w' W') as (w'' & E & (S & L & A & B)); auto; [rewrite FST; apply (wf_names w W)|].
    exists w''. split; auto. split.
    + split; [exact S|]. split; [exact L|]. intros cid c C. destruct (in_dec Nat.eq_dec cid (map snd (w_channels w))) as [I|N].
      * apply in_map_iff in I as ([n cid'] & E' & I). simpl in E'. subst cid'. apply In_nth_error in I as (i & I).
        destruct (forall2_nth _ _ _ _ _ F I) as ([n' hid] & D & (E' & _)). simpl in E'. subst n'. exists (Some hid). apply (A n hid); auto.
        -- eapply nth_error_In; eauto. -- apply (dget_nth _ i); auto. apply (wf_names w W).
      * exists (c_data c). rewrite B.
        -- rewrite C. now destruct c. -- intros n hid _ D. apply N. apply dget_In in D. apply (in_map snd) in D. exact D.
    + intros i n c (cid & H1 & H2). destruct (forall2_nth _ _ _ _ _ F H1) as ([n' hid] & D & (E' & _)). simpl in E'. subst n'.
      exists hid. split; auto. exists cid. split; [rewrite S; exact H1|]. apply (A n hid); auto.
      * eapply nth_error_In; eauto. * apply (dget_nth _ i); auto. apply (wf_names w W).
Qed.

Lemma wf_new_hists inv o w w' : inv_spec inv -> WF w -> fst (step inv o w) = w' -> WF w'.
Proof. intros I W <-. now apply (wf_step inv o I w W). Qed.

Theorem C42_asimov : forall inv l b, inv_spec inv -> let w := reached inv l in
  all_have_templates w -> all_have_bins w ->
  exists w' ds, generate_asimov_dataset b w = (w', Ok ds) /\ same_but_new_hists w w' /\
    map fst ds = map fst (w_channels w) /\
    (forall i n c, channel_at w i n c -> exists hid h s, nth_error ds i = Some (n, hid) /\ nth_error (w_hists w') hid = Some h /\
       sum_of_templates w c s /\ data_hist w c (if b then map xrint s else s) h) /\
    exists w'', mct_add_data ds w' = (w'', Ok tt) /\ only_data w' w'' /\
      forall i n c, channel_at w i n c -> exists hid, nth_error ds i = Some (n, hid) /\ channel_at w'' i n (with_data c (Some hid)).
Proof.
  intros inv l b I w AT AB. assert (W : WF w) by now apply reached_wf.
  destruct (dataset_spec w (fun _ s => Ok (if b then map xrint s else s)) (fun cid => ch_asimov cid b) W AT AB) as (hs & ds & E & F).
  - intros i n c cid s es k counts hs CA NC ST FE K FE' TS. injection FE' as <-. destruct CA as (cid' & H1 & H2). assert (cid' = cid) by congruence. subst.
    unfold ch_asimov. unfold bind at 1. rewrite TS. unfold bind at 1, get_chan at 1. cbn [w_chans set_hists]. rewrite H2, K.
    unfold bind. rewrite (edges_at w cid c es hs H2 FE). reflexivity.
  - eauto.
  - assert (E' : generate_asimov_dataset b w = (set_hists w (w_hists w ++ hs), Ok ds)) by exact E.
    assert (W' : WF (set_hists w (w_hists w ++ hs))).
    { apply (wf_new_hists inv (OAsimov b) w); auto. simpl. unfold bind. rewrite E'. reflexivity. }
    destruct (dataset_accepted w _ hs ds W F W') as (FST & EN & w'' & A1 & A2 & A3).
    exists (set_hists w (w_hists w ++ hs)), ds. split; [exact E'|]. split; [repeat split; exists hs; reflexivity|]. split; auto. split.
    + intros i n c CA. destruct (EN i n c CA) as (cid & hid & h & s & counts & N & D & H & S & C & DH). injection C as <-. eauto 8.
    + eauto.
Qed.
Print Assumptions C42_asimov.

(** np.rint rounds to the nearest integer *)
Theorem C42_rint : forall r, exists z, xrint (Fin r) = Fin (IZR z) /\ nearest r z.
Proof.
  intros r. unfold xrint, Rrint. destruct (base_Int_part r) as [B1 B2].
  assert (P : IZR (Int_part r + 1) = IZR (Int_part r) + 1) by (rewrite plus_IZR; reflexivity).
  destruct (Rltb_spec (r - IZR (Int_part r)) (1 / 2)) as [H|H].
  - eexists. split; [reflexivity|]. unfold nearest. rewrite Rabs_right by lra. split; [lra|]. intros; lra.
  - destruct (Reqb_spec (r - IZR (Int_part r)) (1 / 2)) as [E|E].
    + destruct (Z.even (Int_part r)) eqn:EV.
      * eexists. split; [reflexivity|]. unfold nearest. rewrite Rabs_right by lra. split; [lra|auto].
      * eexists. split; [reflexivity|]. unfold nearest. rewrite P, Rabs_left by lra. split; [lra|]. intros _. rewrite Z.even_add, EV. reflexivity.
    + eexists. split; [reflexivity|]. unfold nearest. rewrite P, Rabs_left by lra. split; [lra|]. intros; lra.
Qed.
Print Assumptions C42_rint.

(** Toy data: the expectation has to be a non-negative number in every bin; the counts are what the
    random generator [draws] returns, one non-negative integer per bin. *)
Theorem C42_toy : forall inv l draws, inv_spec inv -> let w := reached inv l in
  all_have_templates w -> all_have_bins w ->
  (forall i n c s, channel_at w i n c -> sum_of_templates w c s -> Forall (fun m => exists r, m = Fin r /\ 0 <= r) s) ->
  (forall i n cid c, nth_error (w_channels w) i = Some (n, cid) -> nth_error (w_chans w) cid = Some c -> length (draws cid) = bins_of c) ->
  exists w' ds, generate_toy_dataset draws w = (w', Ok ds) /\ same_but_new_hists w w' /\
    map fst ds = map fst (w_channels w) /\
    (forall i n c, channel_at w i n c -> exists cid hid h, nth_error (w_channels w) i = Some (n, cid) /\ nth_error ds i = Some (n, hid) /\
       nth_error (w_hists w') hid = Some h /\ data_hist w c (map (fun k => Fin (INR k)) (draws cid)) h) /\
    exists w'', mct_add_data ds w' = (w'', Ok tt) /\ only_data w' w'' /\
      forall i n c, channel_at w i n c -> exists hid, nth_error ds i = Some (n, hid) /\ channel_at w'' i n (with_data c (Some hid)).
Proof.
  intros inv l draws I w AT AB POS DL. assert (W : WF w) by now apply reached_wf.
  assert (RV : forall i n c cid s, channel_at w i n c -> nth_error (w_channels w) i = Some (n, cid) -> sum_of_templates w c s ->
     rvs (draws cid) s = Ok (map (fun k => Fin (INR k)) (draws cid))).
  { intros i n c cid s CA NC ST. pose proof (POS i n c s CA ST) as P. unfold rvs.
    assert (X : existsb (fun m => xisnan m || xltb m (Fin 0)) s = false).
    { clear -P. induction P as [|m s (r & -> & R0) _ IH]; auto. simpl. rewrite IH. unfold Rltb. destruct (Rlt_dec r 0); [lra|reflexivity]. }
    rewrite X. destruct ST as (vs & _ & LS & _). destruct CA as (cid' & H1 & H2). assert (cid' = cid) by congruence. subst.
    rewrite LS, (DL i n cid c), Nat.eqb_refl; auto. }
  destruct (dataset_spec w (fun cid s => rvs (draws cid) s) (fun cid => ch_toy cid (draws cid)) W AT AB) as (hs & ds & E & F).
  - intros i n c cid s es k counts hs CA NC ST FE K FE' TS. destruct CA as (cid' & H1 & H2). assert (cid' = cid) by congruence. subst.
    unfold ch_toy. unfold bind at 1. rewrite TS. unfold bind at 1, get_chan at 1. cbn [w_chans set_hists]. rewrite H2, K.
    unfold bind at 1. unfold lift at 1. rewrite FE'. unfold bind. rewrite (edges_at w cid c es hs H2 FE). reflexivity.
  - intros. eexists. eauto.
  - assert (E' : generate_toy_dataset draws w = (set_hists w (w_hists w ++ hs), Ok ds)) by exact E.
    assert (W' : WF (set_hists w (w_hists w ++ hs))).
    { apply (wf_new_hists inv (OToy draws) w); auto. simpl. unfold bind. rewrite E'. reflexivity. }
    destruct (dataset_accepted w _ hs ds W F W') as (FST & EN & w'' & A1 & A2 & A3).
    exists (set_hists w (w_hists w ++ hs)), ds. split; [exact E'|]. split; [repeat split; exists hs; reflexivity|]. split; auto. split.
    + intros i n c CA. destruct (EN i n c CA) as (cid & hid & h & s & counts & N & D & H & S & C & DH). rewrite (RV i n c cid s CA N S) in C. injection C as <-. eauto 8.
    + eauto.
Qed.
Print Assumptions C42_toy.

(** Otherwise no data set is returned: an exception is raised if a channel has no template. *)
Definition same_chans (w w' : world) : Prop := w_chans w' = w_chans w.
Lemma same_chans_po : preorder same_chans. Proof. split; unfold same_chans; intros; congruence. Qed.
Lemma mapM_each {A B} (f : A -> M B) l : (forall a, pres same_chans (f a)) -> forall w w' bs, mapM f l w = (w', Ok bs) ->
  forall a, In a l -> exists w1 w2 b, same_chans w w1 /\ f a w1 = (w2, Ok b).
Proof.
  intros P. induction l as [|a l IH]; intros w w' bs E a' I; [destruct I|]. simpl in E. unfold bind in E. pose proof (P a w) as PA.
  destruct (f a w) as [w1 [b|e]] eqn:FA; [|discriminate]. destruct I as [<-|I].
  - exists w, w1, b. split; auto. apply same_chans_po.
  - destruct (mapM f l w1) as [w2 [bs'|]] eqn:ML; [|discriminate]. destruct (IH _ _ _ ML a' I) as (w3 & w4 & b' & S & E'). exists w3, w4, b'. split; auto.
    eapply same_chans_po; eauto.
Qed.
Lemma sc_template_sum cid : pres same_chans (ch_template_sum cid).
Proof. unfold ch_template_sum. pres_tac same_chans_po. Qed.
Lemma sc_bin_edges cid : pres same_chans (ch_bin_edges cid).
Proof. unfold ch_bin_edges. apply (pres_bind same_chans_po); [apply (pres_get_chan same_chans_po)|]. intros c. destruct (c_tmpls c) as [|[p t] r]; pres_tac same_chans_po. Qed.

Theorem C42_empty_channel_raises : forall inv l i n c, inv_spec inv -> let w := reached inv l in
  channel_at w i n c -> c_tmpls c = [] ->
  (forall b, exists e, snd (generate_asimov_dataset b w) = Err e) /\ (forall draws, exists e, snd (generate_toy_dataset draws w) = Err e).
Proof.
  intros inv l i n c I w (cid & H1 & H2) CT. assert (W : WF w) by now apply reached_wf.
  assert (K : c_ttype c = None) by (apply (co_ttype_tmpls _ _ _ _ (wf_chans w W _ _ H2)); auto). apply nth_error_In in H1. split.
  - intros b. destruct (generate_asimov_dataset b w) as [w' [ds|e]] eqn:E; [|eexists; reflexivity]. exfalso.
    unfold generate_asimov_dataset in E. unfold bind at 1 in E. unfold gets in E.
    eapply mapM_each with (a := (n, cid)) in E; [| |exact H1].
    + destruct E as (w1 & w2 & b' & S & E). cbn [snd] in E. unfold bind at 1 in E. unfold ch_asimov in E. unfold bind at 1 in E.
      pose proof (sc_template_sum cid w1) as S1. destruct (ch_template_sum cid w1) as [w3 [s|e]] eqn:TS; [|discriminate].
      unfold bind at 1, get_chan at 1 in E. unfold same_chans in *. simpl in S1. rewrite S1, S, H2, K in E. discriminate.
    + intros [n' cid']. cbn [snd fst]. unfold ch_asimov. apply (pres_bind same_chans_po); [|intros h; apply (pres_bind same_chans_po); [intros w0; reflexivity|intros; apply (pres_ret same_chans_po)]].
      apply (pres_bind same_chans_po); [apply sc_template_sum|]. intros s. apply (pres_bind same_chans_po); [apply (pres_get_chan same_chans_po)|]. intros c'.
      destruct (c_ttype c'); [|apply (pres_raise same_chans_po)]. apply (pres_bind same_chans_po); [apply sc_bin_edges|]. intros; apply (pres_lift same_chans_po).
  - intros draws. destruct (generate_toy_dataset draws w) as [w' [ds|e]] eqn:E; [|eexists; reflexivity]. exfalso.
    unfold generate_toy_dataset in E. unfold bind at 1 in E. unfold gets in E.
    eapply mapM_each with (a := (n, cid)) in E; [| |exact H1].
    + destruct E as (w1 & w2 & b' & S & E). cbn [snd] in E. unfold bind at 1 in E. unfold ch_toy in E. unfold bind at 1 in E.
      pose proof (sc_template_sum cid w1) as S1. destruct (ch_template_sum cid w1) as [w3 [s|e]] eqn:TS; [|discriminate].
      unfold bind at 1, get_chan at 1 in E. unfold same_chans in *. simpl in S1. rewrite S1, S, H2, K in E. discriminate.
    + intros [n' cid']. cbn [snd fst]. unfold ch_toy. apply (pres_bind same_chans_po); [|intros h; apply (pres_bind same_chans_po); [intros w0; reflexivity|intros; apply (pres_ret same_chans_po)]].
      apply (pres_bind same_chans_po); [apply sc_template_sum|]. intros s. apply (pres_bind same_chans_po); [apply (pres_get_chan same_chans_po)|]. intros c'.
      destruct (c_ttype c'); [|apply (pres_raise same_chans_po)]. apply (pres_bind same_chans_po); [apply (pres_lift same_chans_po)|]. intros ?.
      apply (pres_bind same_chans_po); [apply sc_bin_edges|]. intros; apply (pres_lift same_chans_po).
Qed.
Print Assumptions C42_empty_channel_raises.

(** ** C41 *)
Lemma NoDup_app_l {A} (a b : list A) : NoDup (a ++ b) -> NoDup a.
Proof. induction a; simpl; intros H; [constructor|]. inversion H; subst. constructor; auto. intros I. apply H2. apply in_or_app; auto. Qed.
(** add_data processes the dictionary in order.  If all entries fit, all named channels get their
    histogram and nothing else changes.  Otherwise it raises at the first entry that does not fit; the
    entries before have been stored, no other channel's data change. *)
Theorem C41_add_data_partial : forall inv l kw, inv_spec inv -> NoDup (map fst kw) -> let w := reached inv l in
  (Forall (fits w) kw -> exists w', mct_add_data kw w = (w', Ok tt) /\ data_of w kw w') /\
  (forall kw1 kv kw2, kw = kw1 ++ kv :: kw2 -> Forall (fits w) kw1 -> ~ fits w kv ->
     exists w' e, mct_add_data kw w = (w', Err e) /\ data_of w kw1 w').
Proof.
  intros inv l kw I ND w. assert (W : WF w) by now apply reached_wf. split; [now apply add_data_ok|].
  intros kw1 kv kw2 -> F NF. rewrite map_app in ND. apply NoDup_app_l in ND.
  destruct (add_data_ok kw1 w W ND F) as (w' & E & D). exists w'.
  assert (W' : WF w') by (pose proof (wf_add_data kw1 w W) as Z; rewrite E in Z; exact Z).
  assert (NF' : ~ fits w' kv).
  { intros (cid & c & h & D1 & D2 & D3 & D4). apply NF. destruct D as (S & L & A & B). rewrite S in D1, D3. cbn [w_channels set_chans w_hists] in D1, D3.
    destruct (nth_error (w_chans w) cid) as [c0|] eqn:C0.
    - exists cid, c0, h. split; auto. split; auto. split; auto.
      assert (X : c_bins c = c_bins c0 /\ c_range c = c_range c0).
      { destruct (in_dec Nat.eq_dec cid (map (fun kv => match dget String.eqb (w_channels w) (fst kv) with Some j => j | None => length (w_chans w) end) kw1)) as [IN|NI].
        - apply in_map_iff in IN as ([n hid] & EQ & IN). simpl in EQ. destruct (dget String.eqb (w_channels w) n) as [j|] eqn:DJ.
          + subst j. rewrite (A n hid cid c0 IN DJ C0) in D2. injection D2 as <-. auto.
          + assert (cid < length (w_chans w))%nat by (apply nth_error_Some; congruence). lia.
        - rewrite B in D2; [assert (c = c0) by congruence; subst; auto|]. intros n hid IN DJ. apply NI. apply in_map_iff. exists (n, hid). simpl. rewrite DJ. auto. }
      destruct X as (X1 & X2). rewrite <- X1, <- X2. auto.
    - apply nth_error_None in C0. assert (cid < length (w_chans w'))%nat by (apply nth_error_Some; congruence). lia. }
  destruct (one_data_spec w' kv W') as [(F' & _)|(_ & e & E')]; [contradiction|]. exists e. split; auto.
  rewrite add_data_fold in *. clear -E E'. clearbody w. revert w E. induction kw1 as [|a kw1 IH]; intros w E; simpl in *.
  - unfold ret in E. injection E as ->. unfold bind. now rewrite E'.
  - unfold bind at 1 in E. unfold bind at 1. destruct (one_data a w) as [w1 [u|]]; [|discriminate]. now apply IH.
Qed.
Print Assumptions C41_add_data_partial.

(** C41 is false: {A: good, B: bad} raises and replaces the data of A. *)
Theorem C41_not_atomic_refuted : forall inv, exists l kw w' cA cA' e, let w := reached inv l in
  NoDup (map fst kw) /\ channel_at w 0 "A" cA /\ mct_add_data kw w = (w', Err e) /\ channel_at w' 0 "A" cA' /\ c_data cA = Some 0%nat /\ c_data cA' = Some 1%nat.
Proof.
  intros inv. exists [ex_binned 1 3 1 2; ex_binned 2 2 1 2; ODefChannel "A" [2%nat] [(0, 2)]; ODefChannel "B" [3%nat] [(0, 2)]; OAddData [("A", 0%nat)]]%string,
    [("A", 1%nat); ("B", 1%nat)]%string.
  unfold reached, world_init, ex_binned. do 5 run_step. eexists. eexists. eexists. eexists. cbv zeta. split.
  - repeat constructor; simpl; intuition discriminate.
  - split; [exists 0%nat; split; reflexivity|]. split.
    { lazy -[Reqb Rplus Rmult Ropp Rinv IZR sqrt Rdiv Rltb]. rewrite ?Reqb_refl. reflexivity. }
    split; [exists 0%nat; split; reflexivity|split; reflexivity].
Qed.
Print Assumptions C41_not_atomic_refuted.

(** ** C40 *)
Theorem C40_undefined_process_rejected : forall inv l p v e, let w := reached inv l in
  ~ In p (w_procs w) -> add_gaussian_constraint p v e w = (w, Err RuntimeError).
Proof.
  intros inv l p v e w N. unfold add_gaussian_constraint. destruct (smem p (w_procs w)) eqn:S; auto. apply smem_In in S. contradiction.
Qed.
Print Assumptions C40_undefined_process_rejected.

Lemma index_nth p ps q : NoDup ps -> nth_error ps q = Some p -> index_of p ps = Some q.
Proof. intros ND Q. now apply index_of_nodup. Qed.

Lemma constr_terms w w1 x p v e q y : core_eq w w1 -> NoDup (w_procs w) -> nth_error (w_procs w) q = Some p -> nth_error x q = Some (Fin y) -> e <> 0 ->
  constraint_term (sc (w_cnames w ++ [p]) (dset String.eqb (w_cvals w) p v) (dset String.eqb (w_cerrs w) p e) w1) x p = Ok (Fin ((y - v) ^ 2 / (2 * e ^ 2))) /\
  forall p', p' <> p -> constraint_term (sc (w_cnames w ++ [p]) (dset String.eqb (w_cvals w) p v) (dset String.eqb (w_cerrs w) p e) w1) x p' = constraint_term w x p'.
Proof.
  intros C ND Q X E0. unfold constraint_term, sc. cbn [w_procs w_cvals w_cerrs set_constr]. rewrite (ce_procs _ _ C). split.
  - rewrite (index_nth p _ q ND Q), X, !dget_dset, String.eqb_refl. f_equal. unfold xsq. simpl. unfold Reqb.
    destruct (Req_EM_T (e * e) 0) as [Z|_]; [apply Rmult_integral in Z; tauto|]. f_equal. field. auto.
  - intros p' N. rewrite !dget_dset. destruct (String.eqb_spec p' p); [contradiction|]. reflexivity.
Qed.

(** A constraint on a process that has none makes the likelihood larger by one term, in all states
    and for all x for which the likelihood can be evaluated. *)
Theorem C40_adds_one_term_partial : forall inv l p v e x w1 r q, inv_spec inv -> let w := reached inv l in
  nth_error (w_procs w) q = Some p -> ~ In p (w_cnames w) -> e <> 0 ->
  nll (vec_of (num_params w) x) w = (w1, Ok r) ->
  exists w' w2, add_gaussian_constraint p v e w = (w', Ok tt) /\ 
    w_hists w' = w_hists w /\ w_tmpls w' = w_tmpls w /\ w_chans w' = w_chans w /\ w_channels w' = w_channels w /\ w_procs w' = w_procs w /\
    nll (vec_of (num_params w) x) w' = (w2, Ok (xadd r (Fin ((x (yield_pos q) - v) ^ 2 / (2 * e ^ 2))))).
Proof.
  intros inv l p v e x w1 r q I w Q N E0 E. assert (W : WF w) by now apply reached_wf. pose proof (wf_procs w W) as ND.
  unfold add_gaussian_constraint. rewrite (proj2 (smem_In p (w_procs w)) (nth_error_In _ _ Q)).
  eexists. rewrite nll_split in E. pose proof (core_contributions (vec_of (num_params w) x) w) as CO.
  destruct (contributions (vec_of (num_params w) x) w) as [w3 r3] eqn:CE. injection E as <- E. simpl in CO.
  pose proof (comm_contributions (w_cnames w ++ [p]) (dset String.eqb (w_cvals w) p v) (dset String.eqb (w_cerrs w) p e) (vec_of (num_params w) x) w) as CM.
  rewrite CE in CM. unfold sc in CM at 1. eexists. split; [reflexivity|]. do 5 (split; [reflexivity|]). rewrite nll_split, CM. cbn [fst snd].
  destruct r3 as [cs|]; [|discriminate]. cbn [rbind] in *.
  destruct (mapr (constraint_term w3 (vec_of (num_params w) x)) (w_cnames w3)) as [ts|] eqn:TS; [|discriminate]. cbn [rbind] in E. injection E as <-.
  assert (X : nth_error (vec_of (num_params w) x) q = Some (Fin (x (yield_pos q)))).
  { apply vec_nth. unfold num_params, yield_pos. assert (q < length (w_procs w))%nat by (apply nth_error_Some; congruence). lia. }
  destruct (constr_terms w w3 (vec_of (num_params w) x) p v e q (x (yield_pos q)) CO ND Q X E0) as (T1 & T2).
  f_equal. unfold sc at 2. cbn [w_cnames set_constr].
  assert (M : mapr (constraint_term (sc (w_cnames w ++ [p]) (dset String.eqb (w_cvals w) p v) (dset String.eqb (w_cerrs w) p e) w3) (vec_of (num_params w) x)) (w_cnames w ++ [p])
     = Ok (ts ++ [Fin ((x (yield_pos q) - v) ^ 2 / (2 * e ^ 2))])).
  { apply mapr_ok. apply Forall2_app; [|constructor; auto]. rewrite (ce_cnames _ _ CO) in TS. apply mapr_ok in TS.
    assert (NI : forall p', In p' (w_cnames w) -> p' <> p) by (intros p' H ->; contradiction).
    revert NI TS. generalize (w_cnames w) at 1 2 4 as ns. intros ns NI TS. induction TS as [|p' t ns' ts' H _ IH]; constructor.
    - rewrite T2 by (apply NI; left; auto). rewrite <- H. symmetry. now apply core_constraint.
    - apply IH. intros; apply NI; now right. }
  rewrite M. cbn [rbind]. f_equal. rewrite app_assoc, fold_left_app. reflexivity.
Qed.
Print Assumptions C40_adds_one_term_partial.

(** C40 is false for a second constraint on the same process: in every state in which p is not
    constrained, two constraints on p add twice the term of the second one. *)
Theorem C40_constrained_twice_refuted : forall inv l p v1 e1 v2 e2 x w1 r q, inv_spec inv -> let w := reached inv l in
  nth_error (w_procs w) q = Some p -> ~ In p (w_cnames w) -> e1 <> 0 -> e2 <> 0 ->
  nll (vec_of (num_params w) x) w = (w1, Ok r) ->
  let w2 := reached inv (l ++ [OConstraint p v1 e1; OConstraint p v2 e2]) in
  let t := (x (yield_pos q) - v2) ^ 2 / (2 * e2 ^ 2) in
  exists w3, nll (vec_of (num_params w) x) w2 = (w3, Ok (xadd (xadd r (Fin t)) (Fin t))).
Proof.
  intros inv l p v1 e1 v2 e2 x w1 r q I w Q N E1 E2 E w2 t. assert (W : WF w) by now apply reached_wf. pose proof (wf_procs w W) as ND.
  assert (HW2 : w2 = set_constr w ((w_cnames w ++ [p]) ++ [p]) (dset String.eqb (dset String.eqb (w_cvals w) p v1) p v2) (dset String.eqb (dset String.eqb (w_cerrs w) p e1) p e2)).
  { unfold w2, reached. rewrite run_app. fold w. change (reached inv l) with w. unfold run. simpl. unfold add_gaussian_constraint.
    change (fold_left (fun w0 o => fst (step inv o w0)) l world_init) with w.
    rewrite (proj2 (smem_In p (w_procs w)) (nth_error_In _ _ Q)). simpl.
    rewrite (proj2 (smem_In p (w_procs w)) (nth_error_In _ _ Q)). reflexivity. }
  rewrite HW2. rewrite nll_split in E. pose proof (core_contributions (vec_of (num_params w) x) w) as CO.
  destruct (contributions (vec_of (num_params w) x) w) as [w4 r3] eqn:CE. injection E as <- E. simpl in CO.
  set (A := (w_cnames w ++ [p]) ++ [p]). set (B := dset String.eqb (dset String.eqb (w_cvals w) p v1) p v2). set (C := dset String.eqb (dset String.eqb (w_cerrs w) p e1) p e2).
  pose proof (comm_contributions A B C (vec_of (num_params w) x) w) as CM. rewrite CE in CM. unfold sc in CM at 1. eexists. rewrite nll_split, CM. cbn [fst snd].
  destruct r3 as [cs|]; [|discriminate]. cbn [rbind] in *.
  destruct (mapr (constraint_term w4 (vec_of (num_params w) x)) (w_cnames w4)) as [ts|] eqn:TS; [|discriminate]. cbn [rbind] in E. injection E as <-.
  assert (X : nth_error (vec_of (num_params w) x) q = Some (Fin (x (yield_pos q)))).
  { apply vec_nth. unfold num_params, yield_pos. assert (q < length (w_procs w))%nat by (apply nth_error_Some; congruence). lia. }
  f_equal. unfold sc at 2. cbn [w_cnames set_constr].
  assert (T1 : constraint_term (sc A B C w4) (vec_of (num_params w) x) p = Ok (Fin t)).
  { unfold constraint_term, sc, B, C. cbn [w_procs w_cvals w_cerrs set_constr]. rewrite (ce_procs _ _ CO), (index_nth p _ q ND Q), X, !dget_dset, String.eqb_refl.
    f_equal. unfold xsq. simpl. unfold Reqb. destruct (Req_EM_T (e2 * e2) 0) as [Z|_]; [apply Rmult_integral in Z; tauto|]. f_equal. unfold t. field. auto. }
  assert (T2 : forall p', p' <> p -> constraint_term (sc A B C w4) (vec_of (num_params w) x) p' = constraint_term w (vec_of (num_params w) x) p').
  { intros p' NE. unfold constraint_term, sc, B, C. cbn [w_procs w_cvals w_cerrs set_constr]. rewrite (ce_procs _ _ CO), !dget_dset. destruct (String.eqb_spec p' p); [contradiction|]. reflexivity. }
  assert (M : mapr (constraint_term (sc A B C w4) (vec_of (num_params w) x)) A = Ok ((ts ++ [Fin t]) ++ [Fin t])).
  { apply mapr_ok. unfold A at 2. apply Forall2_app; [|constructor; auto]. apply Forall2_app; [|constructor; auto]. rewrite (ce_cnames _ _ CO) in TS. apply mapr_ok in TS.
    assert (NI : forall p', In p' (w_cnames w) -> p' <> p) by (intros p' H ->; contradiction).
    clear -NI TS T2 CO. revert NI TS. generalize (w_cnames w) as ns. intros ns NI TS. induction TS as [|p' t' ns' ts' H _ IH]; constructor.
    - rewrite T2 by (apply NI; left; auto). rewrite <- H. symmetry. now apply core_constraint.
    - apply IH. intros; apply NI; now right. }
  rewrite M. cbn [rbind]. f_equal. rewrite !app_assoc, !fold_left_app. reflexivity.
Qed.
Print Assumptions C40_constrained_twice_refuted.
