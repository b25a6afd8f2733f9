(** Property theorems C23, C32-C35: parameters of templates in channels. *)
From Coq Require Import Reals String Ascii ZArith Bool Arith List Lra Lia.
From Verif Require Import Model_Num Model_Hist Model_Utility Model_Template Model_World Model_Ops
  Spec_Matrix Spec_World Proof_Hist Proof_Matrix Proof_Template Proof_HistHeap Proof_Monad Proof_World Proof_Eval Proof_Route Proof_Names
  Proof_Update Proof_Yield Prop_World.
Import ListNotations.
Local Open Scope R_scope.

Lemma built_coh inv l : built_then_used l -> coh (reached inv l).
Proof. intros (l1 & l2 & -> & U & A). apply coh_run; auto. Qed.
Lemma templates_coh inv l : templates_then_used l -> cohG false (reached inv l).
Proof. intros (l1 & l2 & -> & U & A). apply pe_run; auto. Qed.
Lemma built_templates l : built_then_used l -> templates_then_used l.
Proof.
  intros (l1 & l2 & -> & U & A). exists l1, l2. split; auto. split; auto. eapply Forall_impl; [|exact A]. intros o. destruct o; simpl; auto.
Qed.

(** C32: routing of the parameters for all histories in which add_template is not called after the
    first evaluation (see the refutation below). *)
Theorem C32_routing_partial : forall inv l x, inv_spec inv -> templates_then_used l -> let w := reached inv l in
  w_channels w <> [] -> length x = num_params w ->
  exists w' ys ns, generate_per_channel_parameters x w = (w', Ok (ys, ns)) /\
    length ys = length (w_channels w) /\ length ns = length (w_channels w) /\
    concat ns = skipn (length (w_procs w)) x /\
    forall i n c, channel_at w i n c -> exists y nu,
      nth_error ys i = Some y /\ nth_error ns i = Some nu /\
      length y = length (c_tmpls c) /\ length nu = ch_num_nui c /\
      (forall k p tid, nth_error (c_tmpls c) k = Some (p, tid) ->
         exists q v, nth_error (w_procs w) q = Some p /\ nth_error x (yield_pos q) = Some v /\ nth_error y k = Some v) /\
      (forall k b, (k < length (c_tmpls c))%nat -> (b < bins_of c)%nat ->
         exists v, nth_error nu (k * bins_of c + b) = Some v /\ nth_error x (nui_pos w i c k b) = Some v).
Proof.
  intros inv l x I B w NE L. assert (W : WF w) by now apply reached_wf. assert (C : cohG false w) by now apply templates_coh.
  destruct (pi_value_lengths w x W NE L) as (ys & ns & E & F & BL & FY & FN).
  destruct (pure_per_channel w x w (po_refl _ core_po w) C) as (w1 & E1 & C1 & _). rewrite E in E1.
  assert (LS : length (skipn (length (w_procs w)) x) = list_sum (map ch_num_nui (mct_chans w))).
  { rewrite skipn_length, L. unfold num_params. rewrite <- (nui_total w W). unfold mct_num_nui. lia. }
  exists w1, ys, ns. split; [exact E1|]. rewrite <- (forall2_len _ _ _ F), (chans_length w W). split; auto.
  rewrite <- (forall2_len _ _ _ FN), (chans_length w W). split; auto. split; [subst ns; now apply blocks_concat|].
  intros i n c H. pose proof (channel_at_chans w i n c W H) as HC.
  destruct (forall2_nth _ _ _ _ _ F HC) as (y & Y & EY). destruct (forall2_nth _ _ _ _ _ FN HC) as (nu & NU & LNU).
  assert (LX : (length (w_procs w) <= length x)%nat) by (unfold num_params in L; lia).
  destruct (take_yields w c x W (nth_error_In _ _ HC) LX) as (y' & EY' & LY & R). assert (y' = y) by congruence. subst y'.
  exists y, nu. pose proof (num_nui_spec _ _ _ _ (chan_ok_at w i n c W H)) as NN. repeat split; auto; [congruence| |].
  - intros k p tid K. destruct (R k p tid K) as (q & Q & V). destruct (nth_error x q) as [v|] eqn:X.
    + exists q, v. unfold yield_pos. auto.
    + apply nth_error_None in X. assert (q < length (w_procs w))%nat by (apply nth_error_Some; congruence). lia.
  - intros k b Hk Hb. pose proof (channel_block w i n c (skipn (length (w_procs w)) x) W H) as CB. rewrite <- BL, NU in CB.
    assert (X : nu = firstn (ch_num_nui c) (skipn (nui_offset w i) (skipn (length (w_procs w)) x))) by congruence.
    assert (kb : (k * bins_of c + b < ch_num_nui c)%nat) by (rewrite NN; nia).
    assert (Y' : nth_error nu (k * bins_of c + b) = nth_error x (nui_pos w i c k b)).
    { rewrite X, nth_firstn by auto. rewrite nth_skipn, nth_skipn. unfold nui_pos. f_equal. lia. }
    destruct (nth_error nu (k * bins_of c + b)) as [v|] eqn:V; [exists v; auto|]. apply nth_error_None in V. lia.
Qed.
Print Assumptions C32_routing_partial.

(** C33 for the same histories, if every channel has a template and no template object is used twice.
    Templates not used in a channel and everything else stay as they are. *)
Theorem C33_update_parameters_partial : forall inv l x, inv_spec inv -> templates_then_used l -> let w := reached inv l in
  w_channels w <> [] -> all_have_templates w -> distinct_templates w -> length x = num_params w ->
  exists w', update_parameters x w = (w', Ok tt) /\ only_params w w' /\
    (forall i n c k p tid t, channel_at w i n c -> template_at w c k p tid t ->
       exists q v eff t', nth_error (w_procs w) q = Some p /\ nth_error x (yield_pos q) = Some v /\ nth_error (c_effs c) k = Some (p, eff) /\
         nth_error (w_tmpls w') tid = Some t' /\ t_yield t' = xmul v (Fin eff) /\ length (t_nui t') = bins_of c /\
         forall b, (b < bins_of c)%nat -> nth_error (t_nui t') b = nth_error x (nui_pos w i c k b)) /\
    (forall tid, ~ uses_template w tid -> nth_error (w_tmpls w') tid = nth_error (w_tmpls w) tid) /\
    nui_params w' = Ok (skipn (length (w_procs w)) x).
Proof.
  intros inv l x I B w NE AT D L. assert (W : WF w) by now apply reached_wf. assert (C : cohG false w) by now apply templates_coh.
  destruct (update_spec w x W C NE AT L) as (w1 & ys & ns & C1 & E & U).
  destruct (C32_routing_partial inv l x I B NE L) as (w2 & ys2 & ns2 & E2 & LY & LN & CN & RT). fold w in E2, LY, LN, CN, RT.
  destruct (pure_per_channel w x w (po_refl _ core_po w) C) as (w3 & E3 & _). rewrite E3, E in E2. injection E2 as _ -> ->.
  eexists. split; [exact U|].
  assert (LY' : length ys2 = length (mct_chans w)) by (rewrite chans_length; auto).
  assert (LN' : length ns2 = length (mct_chans w)) by (rewrite chans_length; auto).
  pose proof (all_assigns_fst w ys2 ns2 W LY' LN') as FST.
  assert (ND : NoDup (map fst (all_assigns w ys2 ns2))) by (rewrite FST; now apply distinct_nodup).
  assert (KEY : forall i n c k p tid t, channel_at w i n c -> template_at w c k p tid t ->
     exists q v eff nu, nth_error (w_procs w) q = Some p /\ nth_error x q = Some v /\ nth_error (c_effs c) k = Some (p, eff) /\
       nth_error (assigns (w_tmpls w) (all_assigns w ys2 ns2)) tid = Some (set_params t (xmul v (Fin eff) :: nu)) /\ length nu = bins_of c /\
       forall b, (b < bins_of c)%nat -> nth_error nu b = nth_error x (nui_pos w i c k b)).
  { intros i n c k p tid t H (K & T). destruct (RT i n c H) as (y & nu & Y & NU & LYc & LNU & RY & RN).
    destruct (RY k p tid K) as (q & v & Q & X & YK). pose proof (chan_ok_at w i n c W H) as O.
    destruct (effs_nth _ _ _ c k p tid O K) as (eff & EF). assert (kl : (k < length (c_tmpls c))%nat) by (apply nth_error_Some; congruence).
    pose proof (num_nui_spec _ _ _ _ O) as NN.
    exists q, v, eff, (firstn (bins_of c) (skipn (k * bins_of c) nu)). split; auto. split; auto. split; auto. split.
    - apply assigns_in; auto. unfold all_assigns. apply in_concat. exists (ch_assign c y nu). split.
      + apply in_map_iff. exists (c, (y, nu)). split; auto. apply (nth_error_In _ i). apply nth_combine; [now apply (channel_at_chans w i n)|]. now apply nth_combine.
      + eapply ch_assign_in; eauto.
    - split; [rewrite firstn_length, skipn_length; nia|]. intros b Hb. rewrite nth_firstn, nth_skipn by auto.
      destruct (RN k b kl Hb) as (v' & V1 & V2). congruence. }
  assert (OP : only_params w (set_tmpls w1 (assigns (w_tmpls w) (all_assigns w ys2 ns2)))).
  { destruct C1. unfold only_params. simpl. rewrite ce_hists, ce_chans, ce_channels, ce_procs, ce_cnames, ce_cvals, ce_cerrs.
    do 7 (split; [reflexivity|]).
    generalize (all_assigns w ys2 ns2) as LL. generalize (w_tmpls w) as ts. intros ts LL. split.
    - revert ts. induction LL as [|a LL IH]; intros ts; auto. unfold assigns. simpl. fold (assigns (assign1 ts a) LL). rewrite IH. unfold assign1.
      destruct (nth_error ts (fst a)); auto. apply upd_length.
    - intros tid t T. assert (X : exists ps, nth_error ts tid = Some (set_params t ps)) by (exists (t_params t); rewrite T; now destruct t).
      clear T. revert ts X. induction LL as [|a LL IH]; intros ts (ps & X); [exists ps; auto|]. unfold assigns. simpl. apply IH. unfold assign1.
      destruct (nth_error ts (fst a)) as [u|] eqn:Ua; [|eauto]. destruct (Nat.eq_dec (fst a) tid) as [<-|N].
      + rewrite upd_same by (apply nth_error_Some; congruence). assert (u = set_params t ps) by congruence. subst u. eexists. reflexivity.
      + rewrite upd_other by auto. eauto. }
  split; [exact OP|]. split; [|split].
  - intros i n c k p tid t H K. destruct (KEY i n c k p tid t H K) as (q & v & eff & nu & Q & X & EF & A & LNU & RN).
    exists q, v, eff. eexists. split; [exact Q|]. split; [exact X|]. split; [exact EF|]. split; [exact A|]. simpl. auto.
  - intros tid NU. simpl. apply assigns_other. rewrite FST. intros Y. apply NU.
    apply in_concat in Y as (l0 & L0 & Y). apply in_map_iff in L0 as (c & <- & HC). apply In_nth_error in HC as (i & HC).
    apply (chans_channel_at w i c W) in HC as (n & HC). apply in_map_iff in Y as ([p tid'] & E' & Y). simpl in E'. subst tid'.
    apply In_nth_error in Y as (k & K). destruct (template_at_ok w i n c k p tid W HC K) as (t & TA & _). exists i, n, c, k, p, t. auto.
  - set (w' := set_tmpls w1 (assigns (w_tmpls w) (all_assigns w ys2 ns2))) in *.
    assert (MC : mct_chans w' = mct_chans w) by (unfold mct_chans, w'; simpl; now rewrite (ce_channels _ _ C1), (ce_chans _ _ C1)).
    assert (NB : nui_blocks w' = concat (map (fun q => blocks (repeat (bins_of (fst q)) (length (c_tmpls (fst q)))) (snd q)) (combine (mct_chans w) ns2))).
    { unfold nui_blocks. rewrite MC, flat_map_concat_map. f_equal.
      assert (X : forall j, (j <= length (mct_chans w))%nat -> map (fun c => map (fun p => match nth_error (w_tmpls w') (snd p) with Some t => t_nui t | None => [] end) (c_tmpls c)) (firstn j (mct_chans w))
         = map (fun q => blocks (repeat (bins_of (fst q)) (length (c_tmpls (fst q)))) (snd q)) (firstn j (combine (mct_chans w) ns2))).
      { induction j as [|j IH]; intros J; auto.
        destruct (nth_error (mct_chans w) j) as [c|] eqn:HC; [|apply nth_error_None in HC; lia].
        destruct (chans_channel_at w j c W HC) as (n & H). destruct (RT j n c H) as (y & nu & Y & NU & LYc & LNU & RY & RN).
        pose proof (num_nui_spec _ _ _ _ (chan_ok_at w j n c W H)) as NN.
        assert (FS : forall {A} (l0 : list A) a, nth_error l0 j = Some a -> firstn (S j) l0 = firstn j l0 ++ [a]).
        { clear. intros A l0. revert j. induction l0; intros [|j] a0; simpl; try discriminate; [congruence|]. intros H. f_equal. now apply IHl0. }
        rewrite (FS _ _ _ HC), (FS _ (combine (mct_chans w) ns2) (c, nu)) by (now apply nth_combine).
        rewrite !map_app, IH by lia. f_equal. simpl. f_equal.
        apply nth_ext with (d := []) (d' := []); [rewrite map_length, blocks_length, repeat_length; auto|].
        intros k Hk. rewrite map_length in Hk. destruct (nth_error (c_tmpls c) k) as [[p tid]|] eqn:K; [|apply nth_error_None in K; lia].
        destruct (template_at_ok w j n c k p tid W H K) as (t & TA & _). destruct (KEY j n c k p tid t H TA) as (q & v & eff & nu' & Q & X & EF & A & LNU' & RN').
        rewrite (nth_error_nth _ _ [] (map_nth_error _ _ _ K)). simpl. unfold w'; simpl. rewrite A. simpl.
        rewrite (nth_error_nth _ _ [] (blocks_repeat_nth (bins_of c) (length (c_tmpls c)) nu k Hk)).
        change (t_nui (set_params t (xmul v (Fin eff) :: nu'))) with nu'. apply nth_ext with (d := NaN) (d' := NaN); [rewrite firstn_length, skipn_length; nia|]. intros b Hb. rewrite LNU' in Hb.
        assert (Z : nth_error nu' b = nth_error (firstn (bins_of c) (skipn (k * bins_of c) nu)) b).
        { rewrite nth_firstn, nth_skipn by auto. destruct (RN k b Hk Hb) as (v' & V1 & V2). rewrite RN' by auto. congruence. }
        destruct (nth_error nu' b) as [z|] eqn:Z1; [|apply nth_error_None in Z1; lia].
        rewrite (nth_error_nth _ _ NaN Z1), (nth_error_nth _ _ NaN (eq_sym Z)). reflexivity. }
      specialize (X (length (mct_chans w)) (le_n _)). rewrite firstn_all in X. rewrite X. f_equal. apply firstn_all2. rewrite combine_length. lia. }
    unfold nui_params. assert (CC : concat (nui_blocks w') = concat ns2).
    { rewrite NB. clear -W LN' RT. 
      assert (X : forall j, concat (concat (map (fun q => blocks (repeat (bins_of (fst q)) (length (c_tmpls (fst q)))) (snd q)) (firstn j (combine (mct_chans w) ns2)))) = concat (firstn j ns2)).
      { induction j as [|j IH]; auto. destruct (nth_error (mct_chans w) j) as [c|] eqn:HC.
        - destruct (chans_channel_at w j c W HC) as (n & H). destruct (RT j n c H) as (y & nu & Y & NU & LYc & LNU & RY & RN).
          pose proof (num_nui_spec _ _ _ _ (chan_ok_at w j n c W H)) as NN.
          assert (FS : forall {A} (l0 : list A) a, nth_error l0 j = Some a -> firstn (S j) l0 = firstn j l0 ++ [a]).
          { clear. intros A l0. revert j. induction l0; intros [|j] a0; simpl; try discriminate; [congruence|]. intros H. f_equal. now apply IHl0. }
          rewrite (FS _ ns2 nu NU), (FS _ (combine (mct_chans w) ns2) (c, nu)) by (now apply nth_combine).
          rewrite map_app, !concat_app, IH. f_equal. simpl. rewrite !app_nil_r. apply blocks_concat. rewrite LNU, NN.
          clear. induction (length (c_tmpls c)); simpl; auto.
        - apply nth_error_None in HC. rewrite !firstn_all2 in * by (rewrite ?combine_length; lia). exact IH. }
      specialize (X (length (mct_chans w))). rewrite !firstn_all2 in X by (rewrite ?combine_length; lia). exact X. }
    rewrite CN in CC. destruct (nui_blocks w') as [|b0 bs] eqn:NBE; [|now rewrite <- CC].
    exfalso. destruct (w_channels w) as [|[n cid] r] eqn:CH; [congruence|].
    destruct (wf_dict w W n cid) as (c & HC & _); [rewrite CH; left; auto|]. assert (H : channel_at w 0 n c) by (exists cid; rewrite CH; auto).
    pose proof (AT 0%nat n c H) as NT. destruct (c_tmpls c) as [|pt rr] eqn:CT; [congruence|].
    assert (X : In (match nth_error (w_tmpls w') (snd pt) with Some t => t_nui t | None => [] end) (nui_blocks w')).
    { unfold nui_blocks. rewrite MC. apply in_flat_map. exists c. split; [eapply nth_error_In, channel_at_chans; eauto|]. rewrite CT. left. auto. }
    rewrite NBE in X. destruct X.
Qed.
Print Assumptions C33_update_parameters_partial.

(** C32 and C33 are false in general.  After add_template following an evaluation the cached process
    indices of the channel are used: two templates get one yield, and update_parameters raises. *)
Definition ex_stale : list op :=
  [ex_binned 1 3 1 4; OTemplate K1 "t" 0; OTemplate K1 "t" 0; ODefChannel "A" [2%nat] [(0, 4)]; ODefProcess "s"; ODefProcess "b";
   OAddTemplate "A" "s" 0 1; OUpdate (repeat (Fin 1) 4); OAddTemplate "A" "b" 1 1]%string.
Theorem C32_stale_indices_refuted : forall inv, let w := reached inv ex_stale in
  num_params w = 6%nat /\ (exists c, channel_at w 0 "A" c /\ map fst (c_tmpls c) = ["s"; "b"]%string) /\ w_procs w = ["s"; "b"]%string /\
  snd (generate_per_channel_parameters [Fin 1; Fin 2; Fin 3; Fin 4; Fin 5; Fin 6] w) = Ok ([[Fin 1]], [[Fin 3; Fin 4; Fin 5; Fin 6]]).
Proof.
  intros inv. unfold reached, world_init, ex_stale, ex_binned. do 9 run_step. cbv zeta. split; [reflexivity|]. split.
  - eexists. split; [exists 0%nat; split; reflexivity|reflexivity].
  - split; reflexivity.
Qed.
Print Assumptions C32_stale_indices_refuted.
Theorem C33_stale_indices_refuted : forall inv, let w := reached inv ex_stale in
  num_params w = 6%nat /\ all_have_templates w /\ distinct_templates w /\
  snd (update_parameters [Fin 1; Fin 2; Fin 3; Fin 4; Fin 5; Fin 6] w) = Err ValueError.
Proof.
  intros inv. unfold reached, world_init, ex_stale, ex_binned. do 9 run_step. cbv zeta. split; [reflexivity|]. split; [|split; [|reflexivity]].
  - intros i n c (cid & H1 & H2). destruct i as [|[|i]]; try discriminate. injection H1 as <- <-. injection H2 as <-. discriminate.
  - intros i i' n n' c c' k k' p p' tid t t' (cid & H1 & H2) (cid' & H1' & H2') (K & _) (K' & _).
    destruct i as [|[|i]]; try discriminate. injection H1 as <- <-. injection H2 as <-.
    destruct i' as [|[|i']]; try discriminate. injection H1' as <- <-. injection H2' as <-. split; auto.
    destruct k as [|[|[|k]]]; try discriminate; destruct k' as [|[|[|k']]]; try discriminate; auto; simpl in K, K'; congruence.
Qed.
Print Assumptions C33_stale_indices_refuted.
(** A template object used in two channels gets the efficiency of the last one. *)
Theorem C33_shared_template_refuted : forall inv, exists l x w' c t', let w := reached inv l in
  built_then_used l /\ all_have_templates w /\ length x = num_params w /\ nth_error x 0 = Some (Fin 8) /\
  update_parameters x w = (w', Ok tt) /\ channel_at w' 0 "A" c /\ c_effs c = [("s"%string, 1)] /\
  template_at w' c 0 "s" 0 t' /\ t_yield t' = Fin (8 * / 2).
Proof.
  intros inv. exists [ex_binned 1 3 1 4; OTemplate K1 "t" 0; ODefChannel "A" [2%nat] [(0, 4)]; ODefChannel "B" [2%nat] [(0, 4)]; ODefProcess "s";
    OAddTemplate "A" "s" 0 1; OAddTemplate "B" "s" 0 (/ 2)]%string, [Fin 8; Fin 0; Fin 0; Fin 0; Fin 0].
  unfold reached, world_init, ex_binned. do 7 run_step. eexists. eexists. eexists. cbv zeta. split; [|split].
  - eexists. exists []. split; [symmetry; apply app_nil_r|]. split; [|constructor]. repeat constructor.
  - intros i n c (cid & H1 & H2). destruct i as [|[|[|i]]]; try discriminate; injection H1 as <- <-; injection H2 as <-; discriminate.
  - split; [reflexivity|]. split; [reflexivity|]. split; [reflexivity|]. split; [exists 0%nat; split; reflexivity|].
    split; [reflexivity|]. split; [split; reflexivity|]. reflexivity.
Qed.
Print Assumptions C33_shared_template_refuted.

(** C34: what get_yield returns after set_yield is the yield times the sum of the efficiencies over the
    channels; it is the yield that was set if these sum to one (no template object used twice). *)
Lemma sum_effs_total w p : WF w -> sum_effs (mct_chans w) p = total_eff w p.
Proof.
  intros W. unfold total_eff. pose proof (chans_forall2 w W) as F. induction F as [|nc c l l' H1 H2 IH]; auto. simpl. rewrite H1, IH. reflexivity.
Qed.
Theorem C34_get_after_set_partial : forall inv l p v, inv_spec inv -> let w := reached inv l in
  In p (w_procs w) -> distinct_templates w ->
  exists w', set_yield p v w = (w', Ok tt) /\ snd (get_yield p w') = Ok (Fin (v * total_eff w p)) /\
    (total_eff w p = 1 -> snd (get_yield p w') = Ok (Fin v)).
Proof.
  intros inv l p v I w P D. assert (W : WF w) by now apply reached_wf. rewrite (set_yield_spec w p v W P). eexists. split; [reflexivity|].
  set (L := flat_map (sy_assign (w_tmpls w) p v) (mct_chans w)).
  assert (W' : WF (set_tmpls w (assigns (w_tmpls w) L))).
  { apply wf_set_tmpls_assigns; auto. intros a A. unfold L in A. apply in_flat_map in A as (c & C & A).
    unfold sy_assign in A. destruct (dget String.eqb (c_tmpls c) p) as [tid|] eqn:DT; [|destruct A]. destruct (dget String.eqb (c_effs c) p); [|destruct A].
    destruct (nth_error (w_tmpls w) tid) as [t|] eqn:T; [|destruct A]. destruct A as [<-|[]]. simpl.
    pose proof (to_params _ _ (wf_tmpls w W _ _ T)) as LP. exists (t_nb t). split; [exists t; auto|]. unfold t_nui.
    destruct (t_params t); simpl in *; lia. }
  assert (E : snd (get_yield p (set_tmpls w (assigns (w_tmpls w) L))) = Ok (Fin (v * total_eff w p))).
  { rewrite get_yield_value; [|exact P|apply (wf_procs w W)]. simpl. f_equal. rewrite <- (sum_effs_total w p W).
    change (mct_chans w) with (mct_chans (set_tmpls w (assigns (w_tmpls w) L))). apply process_yield_scaled; auto.
    intros i n c k tid t eff (cid & H1 & H2) (K & T) EF. simpl in H1, H2, T.
    assert (CA : channel_at w i n c) by (exists cid; auto). destruct (template_at_ok w i n c k p tid W CA K) as (t0 & TA & _).
    rewrite (assigns_in _ L tid (Fin (v * eff) :: t_nui t0) t0) in T.
    - injection T as <-. reflexivity.
    - unfold L. now apply sy_nodup.
    - unfold L. apply in_flat_map. exists c. split; [eapply nth_error_In, channel_at_chans; eauto|].
      rewrite (sy_assign_in w c k p tid t0 eff v i n W CA TA EF). left. reflexivity.
    - apply TA. }
  split; [exact E|]. intros T. rewrite E, T, Rmult_1_r. reflexivity.
Qed.
Print Assumptions C34_get_after_set_partial.
Theorem C34_get_after_update_partial : forall inv l x q p v, inv_spec inv -> templates_then_used l -> let w := reached inv l in
  w_channels w <> [] -> all_have_templates w -> distinct_templates w -> length x = num_params w ->
  nth_error (w_procs w) q = Some p -> nth_error x (yield_pos q) = Some (Fin v) ->
  exists w', update_parameters x w = (w', Ok tt) /\ snd (get_yield p w') = Ok (Fin (v * total_eff w p)).
Proof.
  intros inv l x q p v I B w NE AT D L Q X. assert (W : WF w) by now apply reached_wf.
  destruct (C33_update_parameters_partial inv l x I B NE AT D L) as (w' & U & OP & T & _). fold w in U, OP, T.
  exists w'. split; auto. destruct OP as (_ & OC & OH & OPr & _).
  assert (W' : WF w') by (pose proof (wf_update x w W) as Z; rewrite U in Z; exact Z).
  rewrite get_yield_value; [|rewrite OPr; eapply nth_error_In; eauto|rewrite OPr; apply (wf_procs w W)]. simpl. f_equal.
  rewrite <- (sum_effs_total w p W).
  replace (mct_chans w) with (mct_chans w') by (unfold mct_chans; now rewrite OC, OH). apply process_yield_scaled; auto.
  intros i n c k tid t' eff (cid & H1 & H2) (K & T') EF. rewrite OH in H1. rewrite OC in H2.
  assert (CA : channel_at w i n c) by (exists cid; auto). destruct (template_at_ok w i n c k p tid W CA K) as (t0 & TA & _).
  destruct (T i n c k p tid t0 CA TA) as (q' & v' & eff' & t1 & Q' & X' & EF' & T1 & Y & _).
  assert (q' = q). { apply (proj1 (NoDup_nth_error (w_procs w)) (wf_procs w W)); [apply nth_error_Some; congruence|congruence]. }
  subst q'. assert (t1 = t') by congruence. subst t1. rewrite Y. unfold yield_pos in *. assert (v' = Fin v) by congruence. subst v'. simpl. f_equal. f_equal. congruence.
Qed.
Print Assumptions C34_get_after_update_partial.
(** C34 is false: with efficiency 1/2 the yield is halved by setting and getting it. *)
Theorem C34_get_after_set_refuted : forall inv, exists l p v, let w := reached inv l in
  snd (set_yield p v w) = Ok tt /\ snd (get_yield p (fst (set_yield p v w))) = Ok (Fin 4) /\ v = 8.
Proof.
  intros inv. exists [ex_binned 1 3 1 4; OTemplate K1 "t" 0; ODefChannel "A" [2%nat] [(0, 4)]; ODefProcess "s"; OAddTemplate "A" "s" 0 (/ 2)]%string, "s"%string, 8.
  unfold reached, world_init, ex_binned. do 5 run_step. cbv zeta. split; [reflexivity|]. split; [|reflexivity].
  replace 4 with (0 + 8 * / 2) by lra. reflexivity.
Qed.
Print Assumptions C34_get_after_set_refuted.
(** a process that is not defined: both calls raise RuntimeError and change nothing, in any state *)
Theorem C34_unknown_process : forall w p v, ~ In p (w_procs w) -> get_yield p w = (w, Err RuntimeError) /\ set_yield p v w = (w, Err RuntimeError).
Proof.
  intros w p v N. split; [|now apply set_yield_unknown]. unfold get_yield, bind, gets. replace (index_of p (w_procs w)) with (@None nat); [reflexivity|].
  symmetry. revert N. generalize (w_procs w). intros l. induction l as [|q l IH]; intros N; simpl; [reflexivity|].
  destruct (String.eqb_spec p q) as [->|NE]; [exfalso; apply N; now left|]. rewrite IH; [reflexivity|]. intros H. apply N. now right.
Qed.
Print Assumptions C34_unknown_process.

(** C35 *)
Theorem C35_set_yield_only_named_process : forall inv l p v, inv_spec inv -> let w := reached inv l in
  (~ In p (w_procs w) -> set_yield p v w = (w, Err RuntimeError)) /\
  (In p (w_procs w) -> exists ts', set_yield p v w = (set_tmpls w ts', Ok tt) /\
     (forall tid, ~ uses_template_of w p tid -> nth_error ts' tid = nth_error (w_tmpls w) tid) /\
     (distinct_templates w -> forall i n c k tid t, channel_at w i n c -> template_at w c k p tid t ->
        exists eff, nth_error (c_effs c) k = Some (p, eff) /\ nth_error ts' tid = Some (set_params t (Fin (v * eff) :: t_nui t)))).
Proof.
  intros inv l p v I w. assert (W : WF w) by now apply reached_wf. split; [apply set_yield_unknown|]. intros P.
  rewrite (set_yield_spec w p v W P). eexists. split; [reflexivity|]. split.
  - intros tid N. apply assigns_other. intros Y. apply N. apply in_map_iff in Y as (a & E & Y). apply in_flat_map in Y as (c & C & Y).
    assert (Z : In tid (map fst (sy_assign (w_tmpls w) p v c))) by (rewrite <- E; now apply in_map). apply sy_assign_fst in Z.
    apply In_nth_error in C as (i & C). apply (chans_channel_at w i c W) in C as (n & C). apply In_nth_error in Z as (k & K).
    destruct (template_at_ok w i n c k p tid W C K) as (t & TA & _). exists i, n, c, k, t. auto.
  - intros D i n c k tid t H TA. pose proof (chan_ok_at w i n c W H) as O. destruct TA as (K & T).
    destruct (effs_nth _ _ _ c k p tid O K) as (eff & EF). exists eff. split; auto. apply assigns_in; auto; [now apply sy_nodup|].
    apply in_flat_map. exists c. split; [eapply nth_error_In, channel_at_chans; eauto|].
    rewrite (sy_assign_in w c k p tid t eff v i n W H (conj K T) EF). left. reflexivity.
Qed.
Print Assumptions C35_set_yield_only_named_process.

(** The state of ex_ops (two channels, process "s" in both) meets the hypotheses of C32-C35. *)
Example example_hypotheses : forall inv, let w := reached inv ex_ops in
  built_then_used ex_ops /\ w_channels w <> [] /\ all_have_templates w /\ distinct_templates w /\
  length (map (fun n => Fin (INR n)) (seq 1 8)) = num_params w /\ nth_error (w_procs w) 0 = Some "s"%string /\
  total_eff w "s" = 2 /\ total_eff w "b" = 1 / 2.
Proof.
  intros inv. split.
  { exists ex_ops, []. split; [symmetry; apply app_nil_r|]. split; [|constructor]. repeat constructor. }
  unfold reached, world_init, ex_ops, ex_binned. do 13 run_step. cbv zeta. split; [discriminate|]. split.
  - intros i n c (cid & H1 & H2). destruct i as [|[|[|i]]]; try discriminate; injection H1 as <- <-; injection H2 as <-; discriminate.
  - split.
    + intros i i' n n' c c' k k' p p' tid t t' (cid & H1 & H2) (cid' & H1' & H2') (K & _) (K' & _).
      destruct i as [|[|[|i]]]; try discriminate; injection H1 as <- <-; injection H2 as <-;
      destruct i' as [|[|[|i']]]; try discriminate; injection H1' as <- <-; injection H2' as <-;
      destruct k as [|[|[|k]]]; try discriminate; destruct k' as [|[|[|k']]]; try discriminate; simpl in K, K'; try congruence; auto.
    + split; [reflexivity|]. split; [reflexivity|]. split; unfold total_eff; simpl; lra.
Qed.
