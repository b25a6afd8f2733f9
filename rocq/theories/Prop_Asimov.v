(** Property theorem C37, second part: the likelihood of Asimov data at the generating parameters. *)
From Coq Require Import Reals String Ascii ZArith Bool Arith List Lra Lia.
From Verif Require Import Model_Num Model_Hist Model_Utility Model_Template Model_World Model_Ops
  Spec_Matrix Spec_Template Spec_World Spec_Nll Spec_Data Proof_Hist Proof_Matrix Proof_Linear Proof_Utility Proof_Template Proof_Template3 Proof_HistHeap Proof_Monad Proof_World
  Proof_Eval Proof_Route Proof_Names Proof_Update Proof_Yield Proof_Nll Proof_Valid Proof_Data Prop_World Prop_Params Prop_Nll Prop_Data.
Import ListNotations.
Local Open Scope R_scope.

Lemma np_sum_vec' n f : np_sum (vec_of n f) = Fin (sumn n f).
Proof. apply np_sum_vec. Qed.

Lemma fold_sum (vs : list (list xr)) nb (g : nat -> nat -> R) b : (b < nb)%nat ->
  (forall k v, nth_error vs k = Some v -> v = vec_of nb (g k)) ->
  fold_left xadd (map (fun v => nth b v NaN) vs) (Fin 0) = Fin (sumn (length vs) (fun k => g k b)).
Proof.
  intros B. induction vs as [|v vs IH] using rev_ind; intros H; [reflexivity|].
  rewrite map_app, fold_left_app, app_length, IH.
  - simpl. rewrite Nat.add_1_r. simpl. rewrite (H (length vs) v).
    + rewrite (nth_error_nth _ _ NaN (vec_nth nb (g (length vs)) b B)). reflexivity.
    + rewrite nth_error_app2, Nat.sub_diag by lia. reflexivity.
  - intros k v' K. apply H. now apply nth_app_some.
Qed.

Lemma valid_app inv l1 l2 : forall w, valid_history inv w l1 -> valid_history inv (run inv l1 w) l2 -> valid_history inv w (l1 ++ l2).
Proof. induction l1 as [|o l1 IH]; intros w V1 V2; auto. destruct V1 as [V1 V1']. simpl. split; [exact V1|]. apply IH; auto. Qed.
Lemma only_data_channel w w' : only_data w w' -> forall i n c', channel_at w' i n c' -> exists c d, channel_at w i n c /\ c' = with_data c d.
Proof.
  intros (S & L & A) i n c' (cid & H1 & H2). rewrite S in H1. simpl in H1.
  destruct (nth_error (w_chans w) cid) as [c|] eqn:C.
  - destruct (A cid c C) as (d & D). exists c, d. split; [exists cid; auto|congruence].
  - apply nth_error_None in C. assert (cid < length (w_chans w'))%nat by (apply nth_error_Some; congruence). lia.
Qed.
Lemma only_data_num w w' : only_data w w' -> num_params w' = num_params w.
Proof.
  intros (S & L & A). unfold num_params, nui_offset. rewrite S at 1 2 3. simpl. f_equal. f_equal. apply map_ext. intros [n cid]. cbn [snd].
  destruct (nth_error (w_chans w) cid) as [c|] eqn:C.
  - destruct (A cid c C) as (d & D). rewrite D. reflexivity.
  - destruct (nth_error (w_chans w') cid) eqn:C'; auto. apply nth_error_None in C. assert (cid < length (w_chans w'))%nat by (apply nth_error_Some; congruence). lia.
Qed.

(** Let a MultiChannelTemplate be updated to the yields x and zero nuisance parameters, and let its
    Asimov data set be added as data.  Then the likelihood at x is what the constraints contribute, if
    in every bin the expectation is zero or at least 1e-100. *)
Theorem C37_zero_at_asimov : forall inv l x, inv_spec inv -> built_then_used l -> valid_history inv world_init l -> let w := reached inv l in
  w_channels w <> [] -> all_have_templates w -> all_have_bins w -> distinct_templates w ->
  (forall i n c k p tid t, channel_at w i n c -> template_at w c k p tid t -> np_sum (t_counts t) <> Fin 0) ->
  (forall j, (length (w_procs w) <= j)%nat -> x j = 0) ->
  exists w1 w2 ds w3, update_parameters (vec_of (num_params w) x) w = (w1, Ok tt) /\
    generate_asimov_dataset false w1 = (w2, Ok ds) /\ mct_add_data ds w2 = (w3, Ok tt) /\
    only_params w w1 /\ same_but_new_hists w1 w2 /\ only_data w2 w3 /\ all_have_data w3 /\ w_cnames w3 = w_cnames w /\ w_procs w3 = w_procs w /\ length (w_channels w3) = length (w_channels w) /\
    (exists vs, length vs = length (w_channels w3) /\ forall i v, nth_error vs i = Some v -> reads w3 x i v) /\
    forall vs ts, length vs = length (w_channels w3) ->
      (forall i v, nth_error vs i = Some v -> reads w3 x i v /\ forall b, (b < v_nb v)%nat -> expected v b = 0 \/ / 10 ^ 100 <= expected v b) ->
      Forall2 (constraint_of w3 x) (w_cnames w3) ts ->
      exists w4, nll (vec_of (num_params w) x) w3 = (w4, Ok (Fin (Rsum ts))).
Proof.
  intros inv l x I B V w NE AT AB D TN X0. assert (W : WF w) by now apply reached_wf.
  destruct (C33_update_parameters_partial inv l (vec_of (num_params w) x) I (built_templates l B) NE AT D) as (w1 & U & OP & TP & _); [apply vec_of_length|]. fold w in U, OP, TP.
  assert (R1 : w1 = reached inv (l ++ [OUpdate (vec_of (num_params w) x)])).
  { unfold reached. rewrite run_app. change (run inv l world_init) with w. unfold run. simpl. now rewrite U. }
  pose proof OP as OP'. destruct OP as (O1 & O2 & O3 & O4 & O5 & O6 & O7 & O8 & O9).
  assert (CA1 : forall i n c, channel_at w1 i n c <-> channel_at w i n c) by (intros; unfold channel_at; rewrite O2, O3; tauto).
  assert (AT1 : all_have_templates w1) by (intros i n c H; apply CA1 in H; eapply AT; eauto).
  assert (AB1 : all_have_bins w1) by (intros i n c H; apply CA1 in H; eapply AB; eauto).
  destruct (C42_asimov inv (l ++ [OUpdate (vec_of (num_params w) x)]) false I) as (w2 & ds & A1 & A2 & A3 & A4 & w3 & A5 & A6 & A7); [rewrite <- R1; auto|rewrite <- R1; auto|].
  rewrite <- R1 in A1, A2, A3, A4, A7.
  pose proof A2 as A2'. destruct A2 as (S1 & S2 & S3 & S4 & S5 & S6 & S7 & hs & S8).
  exists w1, w2, ds, w3. split; [exact U|]. split; [exact A1|]. split; [exact A5|].
  assert (E3 : w_tmpls w3 = w_tmpls w1 /\ w_procs w3 = w_procs w /\ w_cnames w3 = w_cnames w /\ w_hists w3 = w_hists w2 /\ w_channels w3 = w_channels w).
  { destruct A6 as (Z & _). rewrite Z. simpl. repeat split; congruence. }
  destruct E3 as (E3a & E3b & E3c & E3d & E3e).
  set (l3 := l ++ [OUpdate (vec_of (num_params w) x); OAsimov false; OAddData ds]).
  assert (R3 : w3 = reached inv l3).
  { unfold l3, reached. rewrite run_app. change (run inv l world_init) with w. unfold run. cbn [fold_left step]. rewrite U. cbn [fst]. unfold bind at 1. rewrite A1. cbn [fst]. unfold ret. cbn [fst]. now rewrite A5. }
  assert (W3 : WF w3) by (rewrite R3; now apply reached_wf).
  assert (B3 : built_then_used l3).
  { destruct B as (l1 & l2 & -> & B1 & B2). exists l1, (l2 ++ [OUpdate (vec_of (num_params w) x); OAsimov false; OAddData ds]). split; [unfold l3; now rewrite app_assoc|].
    split; [exact B1|]. apply Forall_app. split; [exact B2|]. repeat constructor. }
  assert (V3 : valid_history inv world_init l3).
  { apply valid_app; auto. simpl. auto. }
  assert (VI3 : VI w3) by (rewrite R3; now apply vi_reached).
  (* channels, templates of the final state *)
  assert (K3 : forall i n c3, channel_at w3 i n c3 -> exists c hid h s, channel_at w i n c /\ c3 = with_data c (Some hid) /\ nth_error (w_hists w3) hid = Some h /\
     sum_of_templates w1 c s /\ data_hist w1 c s h).
  { intros i n c3 H. assert (exists c, channel_at w1 i n c) as (c & C).
    { destruct H as (cid & H1 & H2). rewrite E3e in H1. destruct (wf_dict w W n cid (nth_error_In _ _ H1)) as (c & C & _). exists c. apply CA1. exists cid. auto. }
    destruct (A4 i n c C) as (hid & h & s & D1 & D2 & D3 & D4). destruct (A7 i n c C) as (hid' & D1' & C3). assert (hid' = hid) by congruence. subst.
    exists c, hid, h, s. split; [now apply CA1|]. split; [|rewrite E3d; auto].
    destruct H as (cid & H1 & H2), C3 as (cid' & H3 & H4). assert (cid' = cid) by congruence. subst. congruence. }
  assert (P3 : forall i n c k p tid t q v eff b, channel_at w i n c -> template_at w3 c k p tid t -> nth_error (w_procs w) q = Some p -> v = x (yield_pos q) -> nth_error (c_effs c) k = Some (p, eff) ->
     b = bins_of c -> t_params t = Fin (v * eff) :: vec_of b (fun _ => 0)).
  { intros i n c k p tid t q v eff b H (T1 & T2) Q -> EF ->. rewrite E3a in T2.
    destruct (template_at_ok w i n c k p tid W H T1) as (t0 & TA & _).
    destruct (TP i n c k p tid t0 H TA) as (q' & v' & eff' & t' & Q' & XV & EF' & T' & Y & LN & NN).
    assert (t' = t) by congruence. subst t'.
    assert (q' = q) by (apply (proj1 (NoDup_nth_error (w_procs w)) (wf_procs w W)); [apply nth_error_Some; congruence|congruence]). subst q'.
    assert (eff' = eff) by congruence. subst eff'. rewrite vec_nth in XV.
    2:{ unfold num_params, yield_pos. assert (q < length (w_procs w))%nat by (apply nth_error_Some; congruence). lia. }
    injection XV as <-. 
    assert (LP : length (t_params t) = S (t_nb t)). { apply (to_params (w_hists w3)). eapply wf_tmpls; eauto. rewrite E3a. exact T2. }
    unfold t_yield, t_nui in *. destruct (t_params t) as [|y ys]; [discriminate|]. simpl in *. subst y. f_equal. apply vec_eq; auto.
    intros b Hb. rewrite NN by auto. rewrite vec_nth.
    - f_equal. f_equal. apply X0. unfold nui_pos. lia.
    - rewrite <- (vec_of_length (num_params w) x). apply nth_error_Some. rewrite <- NN by auto. apply nth_error_Some. lia. }
  assert (VAL : forall i n c k p tid t q eff cn e covs, channel_at w i n c -> template_at w3 c k p tid t -> nth_error (w_procs w) q = Some p -> nth_error (c_effs c) k = Some (p, eff) ->
     error_state t (bins_of c) cn e covs -> sumn (bins_of c) cn <> 0 /\ t_values t = Ok (vec_of (bins_of c) (fun b => x (yield_pos q) * eff * (cn b / sumn (bins_of c) cn)))).
  { intros i n c k p tid t q eff cn e covs H TA Q EF ES. pose proof (P3 i n c k p tid t q _ eff _ H TA Q eq_refl EF eq_refl) as PP.
    destruct TA as (T1 & T2). destruct (template_at_ok w i n c k p tid W H T1) as (t0 & TA0 & _ & _ & _).
    assert (CN : t_counts t = t_counts t0).
    { rewrite E3a in T2. destruct (O9 tid t0 (proj2 TA0)) as (ps & T3). assert (t = set_params t0 ps) by congruence. subst. reflexivity. }
    assert (TB : nprod (t_bins t) = bins_of c).
    { rewrite <- (to_nb _ _ (wf_tmpls w3 W3 _ _ T2)). apply ES. }
    assert (SN : sumn (bins_of c) cn <> 0).
    { intros Z. apply (TN i n c k p tid t0 H TA0). rewrite <- CN. destruct ES as (_ & -> & _). rewrite np_sum_vec', Z. reflexivity. }
    assert (SV : sumn (bins_of c) (varied cn (rel_error (msum (stat_cov_of e :: covs)) cn) (fun _ => 0)) = sumn (bins_of c) cn).
    { apply sumn_ext. intros; apply varied_zero. }
    split; auto. rewrite (values_value t (bins_of c) cn e covs _ (fun _ => 0) ES TB PP).
    - f_equal. apply vec_of_ext. intros b Hb. rewrite SV, varied_zero. reflexivity.
    - rewrite SV. exact SN. }
  assert (TMP : forall i n c k, channel_at w i n c -> (k < length (c_tmpls c))%nat -> exists p tid t q eff, template_at w3 c k p tid t /\ nth_error (w_procs w) q = Some p /\ nth_error (c_effs c) k = Some (p, eff) /\
     exists cn e covs, error_state t (bins_of c) cn e covs).
  { intros i n c k H Kl. destruct (nth_error (c_tmpls c) k) as [[p tid]|] eqn:E; [|apply nth_error_None in E; lia].
    destruct (template_at_ok w i n c k p tid W H E) as (t0 & TA0 & _ & TB0 & _). destruct (O9 tid t0 (proj2 TA0)) as (ps & T1). pose proof (chan_ok_at w i n c W H) as O.
    destruct (effs_nth _ _ _ c k p tid O E) as (eff & EF).
    assert (PI : In p (w_procs w)). { apply (co_incl _ _ _ _ O). rewrite <- (co_keys _ _ _ _ O). apply (in_map fst (c_tmpls c) (p, tid)). eapply nth_error_In; eauto. }
    apply In_nth_error in PI as (q & Q). exists p, tid, (set_params t0 ps), q, eff. split; [split; auto; now rewrite E3a|]. split; auto. split; auto.
    assert (T3 : nth_error (w_tmpls w3) tid = Some (set_params t0 ps)) by now rewrite E3a. destruct (VI3 _ _ T3) as (cn & e & covs & ES). exists cn, e, covs. simpl in ES. rewrite TB0 in ES. exact ES. }
  (* the sum of the templates *)
  assert (SUM : forall i n c s, channel_at w i n c -> sum_of_templates w1 c s -> forall g, (forall k p tid t, template_at w3 c k p tid t -> t_values t = Ok (vec_of (bins_of c) (g k))) ->
     s = vec_of (bins_of c) (fun b => sumn (length (c_tmpls c)) (fun k => g k b))).
  { intros i n c s H (vs & F & LS & NS) g G. apply vec_eq; auto. intros b Hb. rewrite NS by auto. f_equal.
    rewrite (fold_sum vs (bins_of c) g b Hb); [now rewrite (forall2_len _ _ _ F)|]. intros k v KV.
    destruct (forall2_nth' _ _ _ _ _ F KV) as ([p tid] & E & (t & T & VT)). simpl in T.
    assert (TA : template_at w3 c k p tid t) by (split; auto; now rewrite E3a). specialize (G k p tid t TA). congruence. }
  assert (AD : all_have_data w3).
  { intros i n c3 H3. destruct (K3 i n c3 H3) as (c & hid & h & s & H & -> & HH & ST & (_ & _ & _ & _ & HC & _)).
    destruct (fin_choice (fun _ => 0) (length (c_tmpls c)) (fun k g => forall p tid t, template_at w3 c k p tid t -> t_values t = Ok (vec_of (bins_of c) g))) as (g & G).
    - intros k Hk. destruct (TMP i n c k H Hk) as (p & tid & t & q & eff & TA & Q & EF & cn & e & covs & ES).
      destruct (VAL i n c k p tid t q eff cn e covs H TA Q EF ES) as (_ & VT). eexists. intros p' tid' t' (TA1 & TA2). destruct TA as (TA3 & TA4).
      assert (tid' = tid) by congruence. subst. assert (t' = t) by congruence. subst. exact VT.
    - exists hid, h, (fun b => sumn (length (c_tmpls c)) (fun k => g k b)). split; auto. split; auto. rewrite HC. simpl.
      change (bins_of (with_data c (Some hid))) with (bins_of c). apply (SUM i n c s H ST). intros k p tid t TA. apply (G k) with (p := p) (tid := tid); auto.
      destruct TA. apply nth_error_Some. congruence. }
  split; [exact OP'|]. split; [exact A2'|]. split; [exact A6|]. split; [exact AD|]. split; [exact E3c|]. split; [exact E3b|]. split; [now rewrite E3e|]. split; [now apply views_exist|].
  intros vs ts LV RV CT.
  assert (NP : num_params w3 = num_params w).
  { rewrite (only_data_num w2 w3 A6). unfold num_params, nui_offset. rewrite S2, S3, S4, O2, O3, O4. reflexivity. }
  assert (DAT : forall i v, reads w3 x i v -> (forall k b, (k < v_nt v)%nat -> (b < v_nb v)%nat -> v_th v k b = 0) /\ (forall b, (b < v_nb v)%nat -> v_data v b = expected v b) /\
     (forall k, (k < v_nt v)%nat -> v_total v k <> 0) /\ (0 < v_nb v)%nat /\ (0 < v_nt v)%nat).
  { intros i v (n & c3 & H3 & NB & NT & TT & (hid & h & CD & HH & HC)). destruct (K3 i n c3 H3) as (c & hid' & h' & s & H & -> & HH' & ST & (_ & _ & _ & _ & HC' & _)).
    change (bins_of (with_data c (Some hid'))) with (bins_of c) in NB. simpl in NT, CD. assert (hid' = hid) by congruence. subst hid'. assert (h' = h) by congruence. subst h'.
    assert (TH : forall k b, (k < v_nt v)%nat -> (b < v_nb v)%nat -> v_th v k b = 0).
    { intros k b Hk Hb. rewrite NT in Hk. destruct (TMP i n c k H Hk) as (p & tid & t & q & eff & TA & _). destruct (TT k p tid t TA) as (_ & _ & _ & _ & Z). rewrite Z by auto.
      apply X0. unfold nui_pos. rewrite E3b. lia. }
    assert (VV : forall k b, (k < v_nt v)%nat -> (b < v_nb v)%nat -> v_varied v k b = v_cnt v k b).
    { intros k b Hk Hb. unfold v_varied. rewrite TH by auto. ring. }
    assert (VT : forall k, (k < v_nt v)%nat -> v_total v k = sumn (v_nb v) (v_cnt v k)) by (intros; apply sumn_ext; intros; now apply VV).
    assert (G : forall k p tid t, template_at w3 c k p tid t -> (k < v_nt v)%nat /\ sumn (v_nb v) (v_cnt v k) <> 0 /\
       t_values t = Ok (vec_of (v_nb v) (fun b => v_yield v k * v_eff v k * (v_cnt v k b / sumn (v_nb v) (v_cnt v k))))).
    { intros k p tid t TA. destruct (TT k p tid t TA) as ((q & Q & YV) & EF & (e & covs & ES & _) & _). simpl in EF. rewrite E3b in Q. rewrite NB in *.
      destruct (VAL i n c k p tid t q (v_eff v k) (v_cnt v k) e covs H TA Q EF ES) as (SN & VTv). split; [rewrite NT; apply nth_error_Some; destruct TA; congruence|]. split; auto. rewrite VTv, YV. reflexivity. }
    split; [exact TH|]. split; [|split; [|split]].
    - intros b Hb. assert (Z : s = vec_of (v_nb v) (v_data v)) by (rewrite HC' in HC; exact HC).
      rewrite (SUM i n c s H ST (fun k b => v_yield v k * v_eff v k * (v_cnt v k b / sumn (v_nb v) (v_cnt v k)))) in Z.
      + rewrite <- NB, <- NT in Z. pose proof (f_equal (fun l => nth_error l b) Z) as Z'. cbv beta in Z'. rewrite !vec_nth in Z' by auto. injection Z' as Z'. rewrite <- Z'.
        unfold expected. apply sumn_ext. intros k Hk. rewrite VV, VT by auto. reflexivity.
      + intros k p tid t TA. rewrite <- NB. apply (G k p tid t TA).
    - intros k Hk. rewrite VT by auto. assert (Hk' := Hk). rewrite NT in Hk'. destruct (TMP i n c k H Hk') as (p & tid & t & q & eff & TA & _). apply (G k p tid t TA).
    - rewrite NB. unfold bins_of. pose proof (AB i n c H) as Z. clear -Z. induction (c_bins c) as [|m ms IH]; simpl; [lia|].
      assert (0 < fold_right Nat.mul 1 ms)%nat by (apply IH; intros; apply Z; now right). pose proof (Z m (or_introl eq_refl)). nia.
    - rewrite NT. pose proof (AT i n c H). destruct (c_tmpls c); [congruence|simpl; lia]. }
  assert (NE3 : w_channels w3 <> []) by now rewrite E3e.
  destruct (C36_nll_value inv l3 x vs ts I B3) as (w4 & E4); try rewrite <- R3; auto.
  - intros i v IV. destruct (RV i v IV) as (RD & EX). split; auto. destruct (DAT i v RD) as (D1 & D2 & D3 & D4 & D5). split; auto. split; auto. split; auto.
    intros b Hb. rewrite D2 by auto. destruct (EX b Hb) as [Z|Z]; [now left|]. right. split; auto. assert (0 < / 10 ^ 100) by (apply Rinv_0_lt_compat, pow_lt; lra). lra.
  - rewrite <- R3, NP in E4. exists w4. rewrite E4. do 3 f_equal.
    replace (Rsum (map channel_nll vs)) with 0; [ring|].
    assert (Z : forall v, In v vs -> channel_nll v = 0).
    { intros v IV. apply In_nth_error in IV as (i & IV). destruct (RV i v IV) as (RD & _). destruct (DAT i v RD) as (D1 & D2 & _). now apply zero_at_expectation. }
    clear -Z. induction vs as [|v vs IH]; auto. simpl. rewrite (Z v (or_introl eq_refl)). unfold Rsum in *. rewrite <- IH by (intros; apply Z; now right). ring.
Qed.
Print Assumptions C37_zero_at_asimov.

(** The state of ex_ops, with yields 4 of both processes, meets the hypotheses of C36 and C37: *)
Definition ex_x (j : nat) : R := if Nat.ltb j 2 then 4 else 0.
Lemma ex_valid : forall inv, valid_history inv world_init ex_ops.
Proof.
  intros inv. unfold world_init, ex_ops, ex_binned.
  assert (HC : forall w hid h a b, nth_error (w_hists w) hid = Some h -> 
     nd_flat (h_counts h) = [Fin a; Fin b] -> nd_flat (h_errs_sq h) = [Fin (1 * 1); Fin (1 * 1)] -> nprod (h_num_bins h) = 2%nat -> nprod (h_shape h) = 2%nat ->
     exists n c e, contents_of h n c e).
  { intros w hid h a b _ A B C D. exists 2%nat, (fun i => match i with O => a | _ => b end), (fun _ => 1 * 1). unfold contents_of. rewrite A, B, C, D.
    repeat split; auto. intros; lra. }
  Ltac vstep := match goal with |- valid_history ?i ?w (?o :: ?l) =>
    change (valid_call w o /\ valid_history i (fst (step i o w)) l);
    let t := eval lazy -[Reqb Rplus Rmult Ropp Rinv IZR sqrt Rdiv Rltb relative_errors stat_cov] in (fst (step i o w)) in
    change (fst (step i o w)) with t; rewrite ?Reqb_refl; cbv iota beta delta [andb]; split; [first [exact Logic.I|idtac]|] end.
  do 2 vstep. 
  do 3 (vstep; [simpl; intros h E; eapply (HC (mk_world [h] [] [] [] [] [] [] [] [] [] []) 0%nat); [reflexivity|injection E as <-; reflexivity..]|]).
  do 8 vstep. exact Logic.I.
Qed.
Example C37_example : forall inv, inv_spec inv -> let w := reached inv ex_ops in
  exists w1 w2 ds w3 w4, update_parameters (vec_of (num_params w) ex_x) w = (w1, Ok tt) /\
    generate_asimov_dataset false w1 = (w2, Ok ds) /\ mct_add_data ds w2 = (w3, Ok tt) /\
    nll (vec_of (num_params w) ex_x) w3 = (w4, Ok (Fin 0)).
Proof.
  intros inv I w. destruct (example_hypotheses inv) as (B & NE & AT & D & _ & _ & _). fold w in NE, AT, D.
  assert (CT : forall tid t, nth_error (w_tmpls w) tid = Some t -> exists a b, t_counts t = [Fin a; Fin b] /\ a + b = 4 /\ 1 <= a /\ 1 <= b).
  { unfold w, reached, world_init, ex_ops, ex_binned. do 13 run_step. cbn [run fold_left w_tmpls]. intros [|[|[|tid]]] t T; simpl in T; try (destruct tid; discriminate).
    all: injection T as <-; simpl; eexists; eexists; split; [reflexivity|lra]. }
  assert (CC : forall i n c, channel_at w i n c -> c_bins c = [2%nat] /\ (forall k p e, nth_error (c_effs c) k = Some (p, e) -> 1 / 2 <= e)).
  { unfold w, reached, world_init, ex_ops, ex_binned. do 13 run_step. intros i n c (cid & H1 & H2).
    destruct i as [|[|[|i]]]; try discriminate; injection H1 as <- <-; injection H2 as <-; (split; [reflexivity|]);
    intros [|[|[|k]]] p e K; simpl in K; try discriminate; injection K as <- <-; lra. }
  assert (CN : w_cnames w = [] /\ w_procs w = ["s"; "b"]%string).
  { unfold w, reached, world_init, ex_ops, ex_binned. do 13 run_step. split; reflexivity. }
  destruct CN as (CN & PN).
  destruct (C37_zero_at_asimov inv ex_ops ex_x I B (ex_valid inv)) as (w1 & w2 & ds & w3 & U & A & AD & OP & SN & OD & _ & E1 & E2 & E3 & (vs & LV & RV) & N); auto.
  - intros i n c H k K. destruct (CC i n c H) as (Z & _). rewrite Z in K. destruct K as [<-|[]]. lia.
  - intros i n c k p tid t _ (_ & T). destruct (CT tid t T) as (a & b & -> & S & _). simpl. intros Z. injection Z as Z. lra.
  - fold w. rewrite PN. intros j Hj. simpl in Hj. unfold ex_x. destruct (Nat.ltb_spec j 2); [lia|reflexivity].
  - fold w in U, A, AD, OP, E1, E2, E3, N. destruct (N vs []) as (w4 & E4); auto.
    + intros i v IV. specialize (RV i v IV). split; auto. intros b Hb. right.
      assert (LE : / 10 ^ 100 <= 1 / 2). { replace (1 / 2) with (/ 2) by lra. apply Rinv_le_contravar; [lra|]. change 100%nat with (S 99). rewrite <- tech_pow_Rmult. pose proof (pow_R1_Rle 10 99). lra. }
      destruct RV as (n & c3 & H3 & NB & NT & TT & _). destruct (only_data_channel w2 w3 OD i n c3 H3) as (c & d & H2 & ->).
      assert (H : channel_at w i n c). { destruct SN as (_ & S2 & S3 & _), OP as (_ & O2 & O3 & _). destruct H2 as (cid & Z1 & Z2). exists cid. rewrite <- O2, <- O3, <- S2, <- S3. auto. }
      destruct (CC i n c H) as (CB & EF). change (bins_of (with_data c d)) with (bins_of c) in NB. unfold bins_of in NB. rewrite CB in NB. simpl in NB.
      assert (W : WF w) by now apply reached_wf. pose proof (AT i n c H) as ATc. simpl in NT.
      assert (TERM : forall k, (k < v_nt v)%nat -> 1 / 2 <= v_yield v k * v_eff v k * (v_varied v k b / v_total v k)).
      { intros k Hk. rewrite NT in Hk. destruct (nth_error (c_tmpls c) k) as [[p tid]|] eqn:E; [|apply nth_error_None in E; lia].
        destruct (template_at_ok w i n c k p tid W H E) as (t0 & (_ & T0) & _). destruct OP as (_ & _ & _ & O4 & _ & _ & _ & _ & O9). destruct (O9 tid t0 T0) as (ps & T1).
        assert (T3 : nth_error (w_tmpls w3) tid = Some (set_params t0 ps)). { destruct OD as (Z & _). rewrite Z. simpl. destruct SN as (S1 & _). rewrite S1. exact T1. }
        destruct (TT k p tid _ (conj E T3)) as ((q & Q & YV) & EFk & (e & covs & ES & CV) & _ & TH). simpl in EFk. pose proof (EF _ _ _ EFk) as EFb.
        destruct (CT tid t0 T0) as (a & b' & TC & S4 & P1 & P2). destruct ES as (_ & ES & _). simpl in ES. rewrite TC, NB in ES. unfold vec_of in ES. simpl in ES. injection ES as EA EB.
        assert (Y4 : v_yield v k = 4). { rewrite YV. rewrite E2, PN in Q. unfold yield_pos, ex_x. destruct q as [|[|[|q]]]; simpl in Q; try discriminate; reflexivity. }
        assert (TZ : forall b0, (b0 < 2)%nat -> v_varied v k b0 = v_cnt v k b0).
        { intros b0 H0. unfold v_varied. rewrite TH by (rewrite NB; auto). replace (ex_x (nui_pos w3 i (with_data c d) k b0)) with 0; [ring|].
          unfold ex_x, nui_pos. rewrite E2, PN. simpl. reflexivity. }
        assert (VT : v_total v k = 4). { unfold v_total. rewrite NB. cbn [sumn]. rewrite !TZ by lia. lra. }
        rewrite VT, Y4. rewrite TZ by lia. rewrite NB in Hb. destruct b as [|[|b]]; [| |lia]; rewrite <- ?EA, <- ?EB; nra. }
      unfold expected. assert (NT0 : (0 < v_nt v)%nat) by (rewrite NT; destruct (c_tmpls c); [congruence|simpl; lia]).
      destruct (v_nt v) as [|m]; [lia|]. cbn [sumn]. pose proof (TERM m (Nat.lt_succ_diag_r m)) as TM.
      assert (0 <= sumn m (fun k => v_yield v k * v_eff v k * (v_varied v k b / v_total v k))) by (apply sumn_nonneg; intros k Hk; pose proof (TERM k ltac:(lia)); lra). lra.
    + rewrite E1, CN. constructor.
    + exists w1, w2, ds, w3, w4. repeat split; auto.
Qed.
