(** Property theorems C102, C103: programs with several MultiChannelTemplates and direct calls of Channel methods. *)
From Coq Require Import Reals String ZArith Bool Arith List Lra Lia.
From Verif Require Import Model_Num Model_Hist Model_Utility Model_Template Model_World Model_Ops Model_Multi
  Spec_Matrix Spec_Template Spec_World Spec_Nll Spec_Multi Proof_Hist Proof_Matrix Proof_Template Proof_HistHeap Proof_Monad Proof_World Proof_Eval
  Proof_Route Proof_Names Proof_Nll Proof_Multi Proof_Multi2 Proof_Multi3 Proof_Multi4.
Import ListNotations.
Local Open Scope R_scope.

(** C102: several models, built and used in any interleaving, no channel getting templates or uncertainties after its own
    first evaluation.  Every evaluation returns what it would return in a new process with the same objects: neither
    earlier evaluations nor the caches shared with the other models matter. *)
Theorem C102_fresh : forall inv l k x, disciplined inv l -> let s := mreached inv l in
  ask k (nll x) s = ask k (nll x) (mfresh s).
Proof.
  intros inv l k x D s. pose proof (coh_mreached inv l D) as C. fold s in C. unfold ask, mfresh. cbn [mw_models mw_heap].
  destruct (nth_error (mw_models s) k) as [m|]; [|reflexivity]. rewrite nll_is by now apply coh_load.
  rewrite nll_is by (apply coh_load, no_cache_coh; repeat split). reflexivity.
Qed.
Print Assumptions C102_fresh.
Theorem C102_fresh_channel : forall inv l cid, disciplined inv l -> let s := mreached inv l in
  (forall y n, askc (nll_contribution cid y n) s = askc (nll_contribution cid y n) (mfresh s)) /\
  (forall x, askc (bin_counts_from_param_values cid x) s = askc (bin_counts_from_param_values cid x) (mfresh s)).
Proof.
  intros inv l cid D s. pose proof (coh_mreached inv l D) as C. fold s in C. unfold askc, mfresh. cbn [mw_heap].
  assert (C0 : coh (mk_world (w_hists (mw_heap s)) (w_tmpls (mw_heap s)) (w_chans (mw_heap s)) [] [] [] [] [] [] [] [])) by (apply no_cache_coh; repeat split).
  split; intros; [rewrite !contribution_is by assumption|rewrite !bin_counts_is by assumption]; reflexivity.
Qed.
Print Assumptions C102_fresh_channel.

(** Calls that do not change anything of model k leave all its answers as they are. *)
Theorem C102_independent : forall inv l l' k, inv_spec inv -> disciplined inv (l ++ l') ->
  let s := mreached inv l in let s' := mreached inv (l ++ l') in
  (k < length (mw_models s))%nat -> leaves inv k s l' ->
  (forall x, ask k (nll x) s' = ask k (nll x) s) /\
  (forall p, ask k (get_yield p) s' = ask k (get_yield p) s) /\
  ask k (gets process_yields) s' = ask k (gets process_yields) s /\
  ask k (gets param_names) s' = ask k (gets param_names) s /\
  ask k (fun w => (w, nll_x0 w)) s' = ask k (fun w => (w, nll_x0 w)) s /\
  (forall cid, in_model s k cid ->
     (forall y n, askc (nll_contribution cid y n) s' = askc (nll_contribution cid y n) s) /\
     (forall x, askc (bin_counts_from_param_values cid x) s' = askc (bin_counts_from_param_values cid x) s) /\
     (forall b, askc (ch_asimov cid b) s' = askc (ch_asimov cid b) s) /\
     (forall d, askc (ch_toy cid d) s' = askc (ch_toy cid d) s)).
Proof.
  intros inv l l' k IS D s s' K L. destruct (nth_error (mw_models s) k) as [m|] eqn:M; [|apply nth_error_None in M; lia].
  destruct (reached_inv inv l IS) as (W & CA). fold s in W, CA.
  assert (C' : coh (mw_heap s')) by now apply coh_mreached.
  assert (C : coh (mw_heap s)) by (apply coh_mreached; eapply complete_app; exact D).
  destruct (fp_run inv l' IS s k m W CA M L) as [M' F]. assert (E : mrun inv l' s = s') by (unfold s', s, mreached; now rewrite mrun_app). rewrite E in M', F. clear E.
  unfold ask. rewrite M, M'. cbn [gets snd]. split; [intros x; rewrite !nll_is by (now apply coh_load); now apply fp_nll|]. split; [intros p; now apply fp_get_yield|].
  split; [f_equal; now apply fp_yields|]. split; [f_equal; now apply fp_names|]. split; [now apply fp_x0|].
  intros cid (m0 & n & M0 & I). assert (m0 = m) by congruence. subst m0. destruct (F n cid I) as (c & A & B & T & DD). unfold askc.
  split; [intros y nu; rewrite !contribution_is by assumption; unfold oget; rewrite A, B; cbn [rbind]; now apply sc_contribution|].
  split; [intros x; rewrite !bin_counts_is by assumption; unfold oget; rewrite A, B; cbn [rbind]; now apply sc_expected|].
  split; intros; [rewrite (asimov_is _ cid c b A), (asimov_is _ cid c b B)|rewrite (toy_is _ cid c d A), (toy_is _ cid c d B)]; cbn [snd]; [now apply sc_asimov|now apply sc_toy].
Qed.
Print Assumptions C102_independent.

(** The value: model k, with what it sees of the objects, has the documented likelihood (C36), whatever the other models
    and the channels outside of it are. *)
Definition trim (ids : list nat) (l : list chan) : list chan :=
  map (fun q => if existsb (Nat.eqb (fst q)) ids then snd q else chan_new "" [] []) (combine (seq 0 (length l)) l).
Lemma nth_combine_seq {A} (l : list A) : forall a i, nth_error (combine (seq a (length l)) l) i = option_map (fun c => ((a + i)%nat, c)) (nth_error l i).
Proof. induction l as [|x l IH]; intros a [|i]; simpl; auto; [now rewrite Nat.add_0_r|]. rewrite IH. now rewrite Nat.add_succ_r. Qed.
Lemma nth_trim ids l i : nth_error (trim ids l) i = option_map (fun c => if existsb (Nat.eqb i) ids then c else chan_new "" [] []) (nth_error l i).
Proof. unfold trim. rewrite nth_error_map, nth_combine_seq. destruct (nth_error l i); reflexivity. Qed.
Lemma nth_trim_in ids l i : In i ids -> nth_error (trim ids l) i = nth_error l i.
Proof.
  intros I. rewrite nth_trim. assert (E : existsb (Nat.eqb i) ids = true) by (apply existsb_exists; exists i; split; auto; apply Nat.eqb_refl). rewrite E. now destruct (nth_error l i).
Qed.

Theorem C102_value : forall inv l k m x vs ts, inv_spec inv -> disciplined inv l -> let s := mreached inv l in
  nth_error (mw_models s) k = Some m -> let w := load m (mw_heap s) in
  w_channels w <> [] -> length vs = length (w_channels w) ->
  (forall i v, nth_error vs i = Some v -> reads w x i v /\ in_domain v) ->
  Forall2 (constraint_of w x) (w_cnames w) ts ->
  ask k (nll (vec_of (num_params w) x)) s = Ok (Fin (Rsum (map channel_nll vs) + Rsum ts)).
Proof.
  intros inv l k m x vs ts IS D s M w NE LV RD CT. pose proof (coh_mreached inv l D) as C. fold s in C. destruct (reached_inv inv l IS) as ((P & W) & _). fold s in W.
  unfold ask. rewrite M. fold w. rewrite nll_is by now apply coh_load.
  assert (W1 : WFg P w) by (apply W; right; eapply nth_error_In; eauto).
  set (h := mw_heap s) in *. set (ids := map snd (m_channels m)).
  set (h0 := mk_world (w_hists h) (w_tmpls h) (trim ids (w_chans h)) [] [] [] [] [] [] [] []). set (w0 := load m h0).
  assert (CH : forall n cid, In (n, cid) (m_channels m) -> nth_error (w_chans h0) cid = nth_error (w_chans h) cid).
  { intros n cid I. apply nth_trim_in. apply in_map_iff. exists (n, cid). auto. }
  assert (OK : forall n cid c, In (n, cid) (m_channels m) -> nth_error (w_chans h) cid = Some c -> incl (c_procs c) (m_procs m)).
  { intros n cid c I CC p IP. apply In_nth_error in I as (i & I). destruct (nth_error vs i) as [v|] eqn:V.
    2:{ apply nth_error_None in V. assert (i < length (w_channels w))%nat by (apply nth_error_Some; cbn [w load w_channels]; congruence). lia. }
    destruct (RD i v V) as ((n' & c' & (cid' & A1 & A2) & _ & _ & T & _) & _). cbn [w load w_channels w_chans] in A1, A2.
    assert (cid' = cid) by congruence. subst cid'. assert (c' = c) by congruence. subst c'.
    pose proof (wfg_chans w W1 cid c CC) as CO. rewrite <- (co_keys _ _ _ _ CO) in IP. apply in_map_iff in IP as ([p' tid] & <- & IP). cbn [fst].
    destruct (co_tmpl _ _ _ _ CO p' tid IP) as (t & TT & _). apply In_nth_error in IP as (j & IP).
    destruct (T j p' tid t (conj IP TT)) as ((q & Q & _) & _). cbn [w load w_procs] in Q. eapply nth_error_In; eauto. }
  assert (W0 : WF w0).
  { constructor; try apply W1.
    - intros i c H. cbn [w0 load w_chans h0] in H. rewrite nth_trim in H. destruct (nth_error (w_chans h) i) as [c'|] eqn:E; [|discriminate]. cbn [option_map] in H. injection H as <-.
      destruct (existsb (Nat.eqb i) ids) eqn:X.
      + apply existsb_exists in X as (j & J & X). apply Nat.eqb_eq in X. subst j. apply in_map_iff in J as ([n cid] & E1 & J). cbn [snd] in E1. subst cid.
        destruct (wfg_chans w W1 i c' E). constructor; auto. intros p IP. cbn [app w0 load w_procs]. now apply (OK n i c' J E).
      + constructor; simpl; auto; try constructor; try discriminate; [intros y []|intros p tid []].
    - intros n i I. cbn [w0 load w_chans w_channels] in *. rewrite (CH n i I). exact (wfg_dict w W1 n i I). }
  assert (F : fp m h h0).
  { intros n cid I. destruct (wfg_dict w W1 n cid I) as (c & CC & _). cbn [w load w_chans] in CC. pose proof (wfg_chans w W1 cid c CC) as CO. exists c. rewrite (CH n cid I). repeat split; auto.
    - intros p tid TI. destruct (co_tmpl _ _ _ _ CO p tid TI) as (t & TT & _). destruct (to_hist _ _ (wfg_tmpls w W1 tid t TT)) as (hh & HH & _).
      exists t. repeat split; auto. exists hh. auto.
    - intros hid DD. destruct (co_data _ _ _ _ CO hid DD) as (hh & HH & _). exists hh. auto. }
  assert (CA : forall i n c, channel_at w0 i n c <-> channel_at w i n c).
  { intros i n c. unfold channel_at. cbn [w w0 load w_channels w_chans]. split; intros (cid & A & B); exists cid; (split; [exact A|]); apply nth_error_In in A; [rewrite <- (CH n cid A)|rewrite (CH n cid A)]; exact B. }
  assert (NO : forall i, nui_offset w0 i = nui_offset w i).
  { intros i. unfold nui_offset. cbn [w w0 load w_channels w_chans]. f_equal. apply map_ext_in. intros [n cid] I. cbn [snd].
    assert (J : In (n, cid) (m_channels m)) by (rewrite <- (firstn_skipn i (m_channels m)); apply in_or_app; auto). now rewrite (CH n cid J). }
  assert (NP : num_params w0 = num_params w) by (unfold num_params; now rewrite NO).
  assert (E : nll_res w0 (vec_of (num_params w) x) = nll_res w (vec_of (num_params w) x)) by now apply fp_nll. rewrite <- E, <- NP.
  apply nll_real; auto. intros i v V. destruct (RD i v V) as ((n & c & A & NB & NT & T & DD) & IN). split; auto. exists n, c. split; [now apply CA|]. repeat (split; [assumption|]).
  split; [|exact DD]. intros j p tid t TA. destruct (T j p tid t TA) as (T1 & T2 & T3 & T4 & T5). repeat (split; [assumption|]).
  intros b Hb. rewrite (T5 b Hb). unfold nui_pos. now rewrite NO.
Qed.
Print Assumptions C102_value.
