(** Property theorems C27-C31: building a MultiChannelTemplate, start values and parameter names.
    [reached inv l] is the state after an arbitrary sequence l of calls (Model_Ops), including calls
    that raise. *)
From Coq Require Import Reals String Ascii ZArith Bool Arith List Lra Lia.
From Verif Require Import Model_Num Model_Hist Model_Utility Model_Template Model_World Model_Ops
  Spec_Matrix Spec_World Proof_Hist Proof_Matrix Proof_Template Proof_HistHeap Proof_Monad Proof_World Proof_Eval Proof_Route Proof_Names Proof_Unique.
Import ListNotations.
Local Open Scope R_scope.

Lemma upd_self {A} i (l : list A) a : nth_error l i = Some a -> upd i a l = l.
Proof. revert i; induction l; intros [|i]; simpl; try discriminate; auto. - congruence. - intros; f_equal; auto. Qed.
Lemma set_chans_self w : set_chans w (w_chans w) = w. Proof. now destruct w. Qed.

(** C07 in a program: x_projection/y_projection of a two-dimensional histogram object creates one new object (the marginal
    histogram) and changes no other; a one-dimensional histogram has no projections: AttributeError, and nothing changes *)
Theorem C07_projection_in_program : forall inv l i ax h, let w := reached inv l in
  nth_error (w_hists w) i = Some h ->
  (h_kind h = K1 -> step inv (OProjection i ax) w = (w, Err AttributeError)) /\
  (h_kind h = K2 -> forall p, (if ax then x_projection h else y_projection h) = Ok p ->
     step inv (OProjection i ax) w = (set_hists w (w_hists w ++ [p]), Ok tt)) /\
  (forall e, snd (step inv (OProjection i ax) w) = Err e -> fst (step inv (OProjection i ax) w) = w).
Proof.
  intros inv l i ax h w H. unfold step, bind, get_hist, lift. rewrite H.
  split; [|split].
  - intros ->. reflexivity.
  - intros -> p P. cbn [kind_eqb]. assert (Q : hist2_projection ax h = Ok p) by (destruct ax; exact P). rewrite Q. reflexivity.
  - intros e. destruct (if kind_eqb (h_kind h) K2 then hist2_projection ax h else Err AttributeError); [discriminate|reflexivity].
Qed.
Print Assumptions C07_projection_in_program.
Example C07_ex_program : forall inv,
  let w := reached inv [OHist1 (B1Int 2) (Some (0, 2)) None WNone; OHist2 (B2Ints 1 1) (Some ((0, 1), (0, 1))) None WNone] in
  step inv (OProjection 0 true) w = (w, Err AttributeError) /\ snd (step inv (OProjection 1 true) w) = Ok tt.
Proof. intros inv. split; reflexivity. Qed.

(** C27: add_template raises and changes nothing at all, or it appends one template with its
    efficiency to the named channel and changes nothing else.  It succeeds exactly if channel and
    process are defined, the process has no template in the channel, and the template has the bins and
    range of the channel and the class of its other templates. *)
Theorem C27_add_template_atomic : forall inv l ch p tid eff, inv_spec inv ->
  let w := reached inv l in
  let '(w', r) := mct_add_template ch p tid eff w in
  (exists e, r = Err e /\ w' = w) \/
  (r = Ok tt /\ exists i cid c c' t,
     nth_error (w_channels w) i = Some (ch, cid) /\ nth_error (w_chans w) cid = Some c /\ nth_error (w_chans w') cid = Some c' /\
     c_tmpls c' = c_tmpls c ++ [(p, tid)] /\ c_effs c' = c_effs c ++ [(p, eff)] /\ c_procs c' = c_procs c ++ [p] /\
     c_name c' = c_name c /\ c_bins c' = c_bins c /\ c_range c' = c_range c /\ c_data c' = c_data c /\
     nth_error (w_tmpls w) tid = Some t /\ t_bins t = c_bins c /\ t_range t = c_range c /\
     In p (w_procs w) /\ ~ In p (c_procs c) /\
     (forall j, j <> cid -> nth_error (w_chans w') j = nth_error (w_chans w) j) /\
     w' = set_chans w (w_chans w')).
Proof.
  intros inv l ch p tid eff I w. assert (W : WF w) by now apply reached_wf.
  unfold mct_add_template. destruct (dget String.eqb (w_channels w) ch) as [cid|] eqn:D; [|left; eauto].
  destruct (smem p (w_procs w)) eqn:S; [|left; eauto]. apply smem_In in S.
  unfold bind, get_tmpl. destruct (nth_error (w_tmpls w) tid) as [t|] eqn:T; [|left; eauto].
  unfold on_chan. destruct (nth_error (w_chans w) cid) as [c|] eqn:C; [|left; eauto].
  pose proof (wf_chans w W _ _ C) as O.
  destruct (add_template_cases _ _ _ c p tid t eff O) as [(e & E)|(NI & B & Rg & K & dim & _ & E)]; rewrite E.
  - left. exists e. split; auto. rewrite upd_self by auto. apply set_chans_self.
  - right. split; auto. apply dget_In in D. apply In_nth_error in D as (i & D).
    eexists i, cid, c, _, t. simpl. rewrite upd_same by (apply nth_error_Some; congruence).
    split; [exact D|]. split; [exact C|]. split; [reflexivity|]. simpl. repeat split; auto.
    intros j J. apply upd_other. auto.
Qed.
Print Assumptions C27_add_template_atomic.

(** every rejection of an existing template is a RuntimeError *)
Theorem C27_add_template_rejected : forall inv l ch p tid eff t, inv_spec inv ->
  let w := reached inv l in
  nth_error (w_tmpls w) tid = Some t -> snd (mct_add_template ch p tid eff w) <> Ok tt ->
  mct_add_template ch p tid eff w = (w, Err RuntimeError).
Proof.
  intros inv l ch p tid eff t I w T N. assert (W : WF w) by now apply reached_wf.
  assert (E : snd (mct_add_template ch p tid eff w) = Ok tt \/ snd (mct_add_template ch p tid eff w) = Err RuntimeError).
  { unfold mct_add_template. destruct (dget String.eqb (w_channels w) ch) as [cid|] eqn:D; [|auto].
    destruct (smem p (w_procs w)); [|auto]. unfold bind, get_tmpl. rewrite T. unfold on_chan. apply dget_In in D. destruct (wfg_dict _ W _ _ D) as (c & C & _). rewrite C.
    unfold ch_add_template, add_template_raw. destruct (check_template c t); [|auto]. destruct (smem p (keys (c_tmpls c))); [auto|]. destruct (negb _); auto. }
  pose proof (C27_add_template_atomic inv l ch p tid eff I) as A. cbv zeta in A. fold w in A. destruct (mct_add_template ch p tid eff w) as [w' r]. cbn [snd] in *.
  destruct A as [(e & -> & ->)|(-> & _)]; [|now destruct N]. destruct E as [E|E]; [discriminate|]. now rewrite E.
Qed.
Print Assumptions C27_add_template_rejected.

Theorem C27_add_template_accepted_iff : forall inv l ch p tid eff, inv_spec inv ->
  let w := reached inv l in
  snd (mct_add_template ch p tid eff w) = Ok tt <->
  exists c t, channel_named w ch = Some c /\ In p (w_procs w) /\ ~ In p (c_procs c) /\ nth_error (w_tmpls w) tid = Some t /\
    t_bins t = c_bins c /\ t_range t = c_range c /\
    (forall q tid' t', In (q, tid') (c_tmpls c) -> nth_error (w_tmpls w) tid' = Some t' -> t_kind t' = t_kind t).
Proof.
  intros inv l ch p tid eff I w. assert (W : WF w) by now apply reached_wf.
  unfold mct_add_template, channel_named. destruct (dget String.eqb (w_channels w) ch) as [cid|] eqn:D.
  2:{ split; [discriminate|]. intros (c & t & H & _). discriminate. }
  destruct (smem p (w_procs w)) eqn:S.
  2:{ split; [discriminate|]. intros (c & t & _ & H & _). apply smem_In in H. congruence. }
  apply smem_In in S. unfold bind, get_tmpl. destruct (nth_error (w_tmpls w) tid) as [t|] eqn:T.
  2:{ split; [discriminate|]. intros (c & t & _ & _ & _ & H & _). congruence. }
  unfold on_chan. destruct (nth_error (w_chans w) cid) as [c|] eqn:C.
  2:{ split; [discriminate|]. intros (c & t' & H & _). congruence. }
  pose proof (wf_chans w W _ _ C) as O.
  unfold ch_add_template, add_template_raw. split.
  - destruct (check_template c t) eqn:E; [|discriminate]. apply check_template_eq in E as [E1 E2].
    destruct (smem p (keys (c_tmpls c))) eqn:M; [discriminate|]. apply smem_false in M. rewrite (co_keys _ _ _ _ O) in M.
    intros H. exists c, t. repeat split; auto. intros q tid' t' Q T'.
    destruct (co_tmpl _ _ _ _ O _ _ Q) as (t2 & T2 & _ & _ & K). assert (t2 = t') by congruence. subst. rewrite K in H.
    destruct (kind_eqb_spec (t_kind t) (t_kind t')); [congruence|discriminate].
  - intros (c0 & t0 & [= <-] & _ & NI & [= <-] & B & Rg & K).
    rewrite (proj2 (check_template_eq c t) (conj B Rg)).
    rewrite (proj2 (smem_false p (keys (c_tmpls c)))) by (rewrite (co_keys _ _ _ _ O); auto).
    assert (KK : kind_eqb (t_kind t) (match c_ttype c with Some k => k | None => t_kind t end) = true).
    { destruct (c_ttype c) as [k|] eqn:Y; [|destruct (t_kind t); reflexivity].
      destruct (c_tmpls c) as [|[q tid'] r] eqn:L.
      - (* a channel without templates has no class *)
        exfalso. pose proof (co_ttype_tmpls _ _ _ _ O) as X. rewrite L in X. specialize (X eq_refl). congruence.
      - destruct (co_tmpl _ _ _ _ O q tid') as (t2 & T2 & _ & _ & K2); [rewrite L; left; auto|].
        rewrite <- (K q tid' t2 (or_introl eq_refl) T2). assert (k = t_kind t2) by congruence. subst. destruct (t_kind t2); reflexivity. }
    rewrite KK. reflexivity.
Qed.
Print Assumptions C27_add_template_accepted_iff.

(** ... and in every reachable state the processes of a channel are unique and listed in the same
    order as templates and efficiencies. *)
Theorem C27_processes_ordered_unique : forall inv l i n c, inv_spec inv ->
  channel_at (reached inv l) i n c ->
  map fst (c_tmpls c) = c_procs c /\ map fst (c_effs c) = c_procs c /\ NoDup (c_procs c) /\
  (forall p, In p (c_procs c) -> In p (w_procs (reached inv l))) /\ c_name c = n.
Proof.
  intros inv l i n c I H. pose proof (reached_wf inv l I) as W. pose proof (chan_ok_at _ _ _ _ W H) as O.
  split; [apply (co_keys _ _ _ _ O)|]. split; [apply (co_ekeys _ _ _ _ O)|]. split; [apply (co_nodup _ _ _ _ O)|].
  split; [apply (co_incl _ _ _ _ O)|]. destruct H as (cid & H1 & H2).
  destruct (wf_dict _ W n cid) as (c' & C & N); [eapply nth_error_In; eauto|]. congruence.
Qed.
Print Assumptions C27_processes_ordered_unique.

(** C28: what is checked is the number of bins and the range in every dimension, and this is kept by
    all later calls (t_hist is the histogram object of the template). *)
Theorem C28_same_shape_and_range_partial : forall inv l i n c, inv_spec inv ->
  let w := reached inv l in
  channel_at w i n c ->
  (forall p tid, In (p, tid) (c_tmpls c) -> exists t h, nth_error (w_tmpls w) tid = Some t /\ nth_error (w_hists w) (t_hist t) = Some h /\
     h_shape h = c_bins c /\ h_range h = c_range c) /\
  (forall hid, c_data c = Some hid -> exists h, nth_error (w_hists w) hid = Some h /\ h_shape h = c_bins c /\ h_range h = c_range c).
Proof.
  intros inv l i n c I w H. pose proof (reached_wf inv l I) as W. fold w in W. pose proof (chan_ok_at _ _ _ _ W H) as O. split.
  - intros p tid P. destruct (co_tmpl _ _ _ _ O _ _ P) as (t & T & B & Rg & _). destruct (to_hist _ _ (wf_tmpls _ W _ _ T)) as (h & A1 & A2 & A3 & _).
    exists t, h. repeat split; congruence.
  - apply (co_data _ _ _ _ O).
Qed.
Print Assumptions C28_same_shape_and_range_partial.
(** Consequently histograms with equally spaced edges share their edges. *)
Definition equally_spaced (h : hist) : Prop :=
  Forall2 (fun e (nr : nat * (R * R)) => e_vals e = np_linspace (fst (snd nr)) (snd (snd nr)) (fst nr + 1))
    (h_edges h) (combine (h_shape h) (h_range h)).
Theorem C28_equally_spaced_edges_agree_partial : forall inv l i n c p tid t h q tid' t' h', inv_spec inv ->
  let w := reached inv l in
  channel_at w i n c -> In (p, tid) (c_tmpls c) -> In (q, tid') (c_tmpls c) ->
  nth_error (w_tmpls w) tid = Some t -> nth_error (w_hists w) (t_hist t) = Some h ->
  nth_error (w_tmpls w) tid' = Some t' -> nth_error (w_hists w) (t_hist t') = Some h' ->
  equally_spaced h -> equally_spaced h' -> map e_vals (h_edges h) = map e_vals (h_edges h').
Proof.
  intros inv l i n c p tid t h q tid' t' h' I w H P Q T TH T' TH' E E'.
  destruct (C28_same_shape_and_range_partial inv l i n c I H) as (A & _).
  destruct (A _ _ P) as (t1 & h1 & X1 & X2 & X3 & X4), (A _ _ Q) as (t2 & h2 & Y1 & Y2 & Y3 & Y4).
  fold w in X1, X2, Y1, Y2. assert (t1 = t) by congruence. assert (t2 = t') by congruence. subst.
  assert (h1 = h) by congruence. assert (h2 = h') by congruence. subst.
  unfold equally_spaced in E, E'. rewrite X3, X4 in E. rewrite Y3, Y4 in E'. revert E'. generalize (h_edges h') as es'. 
  induction E as [|e nr es nrs E1 E2 IH]; intros es' E'; inversion E' as [|e' nr' ? ? F1 F2]; subst; simpl; auto. f_equal; [congruence|auto].
Qed.
Print Assumptions C28_equally_spaced_edges_agree_partial.

(** C28 is false: templates with edges 0,1,4 and 0,2,4 are accepted in the same channel. *)
Ltac run_step := rewrite run_cons;
  match goal with |- context[fst (step ?i ?o ?w)] =>
    let t := eval lazy -[Reqb Rplus Rmult Ropp Rinv IZR sqrt Rdiv Rltb relative_errors stat_cov] in (fst (step i o w)) in
    change (fst (step i o w)) with t; rewrite ?Reqb_refl; cbv iota beta delta [andb] end.
Definition ex_binned (c0 c1 e1 e2 : R) : op :=
  OFromBinned K1 (mk_nd [2%nat] [Fin c0; Fin c1]) [mk_edges false [0; e1; e2]] (Some (mk_nd [2%nat] [Fin 1; Fin 1])).
Theorem C28_edges_refuted : forall inv, exists l c t t' h h', let w := reached inv l in
  channel_at w 0 "A" c /\ template_at w c 0 "s" 0 t /\ template_at w c 1 "b" 1 t' /\
  nth_error (w_hists w) (t_hist t) = Some h /\ nth_error (w_hists w) (t_hist t') = Some h' /\
  map e_vals (h_edges h) = [[0; 1; 4]] /\ map e_vals (h_edges h') = [[0; 2; 4]].
Proof.
  intros inv. exists [ex_binned 1 3 1 4; ex_binned 1 3 2 4; OTemplate K1 "t" 0; OTemplate K1 "t" 1; ODefChannel "A" [2%nat] [(0, 4)];
    ODefProcess "s"; ODefProcess "b"; OAddTemplate "A" "s" 0 1; OAddTemplate "A" "b" 1 1]%string.
  unfold reached, world_init, ex_binned. do 9 run_step.
  eexists. eexists. eexists. eexists. eexists. cbv zeta. split; [exists 0%nat; split; reflexivity|].
  split; [split; reflexivity|]. split; [split; reflexivity|]. repeat split.
Qed.
Print Assumptions C28_edges_refuted.

(** C29: define_process rejects a duplicate without effect and otherwise appends the process to the
    list and changes nothing else; define_channel with a new name appends an empty channel. *)
Theorem C29_define_process : forall inv l n, inv_spec inv -> let w := reached inv l in
  let '(w', r) := define_process n w in
  (In n (w_procs w) -> r = Err RuntimeError /\ w' = w) /\
  (~ In n (w_procs w) -> r = Ok tt /\ w_procs w' = w_procs w ++ [n] /\ w' = set_procs w (w_procs w')).
Proof.
  intros inv l n _ w. unfold define_process. destruct (smem n (w_procs w)) eqn:S.
  - apply smem_In in S. split; [auto|contradiction].
  - apply smem_false in S. split; [contradiction|auto].
Qed.
Print Assumptions C29_define_process.
Theorem C29_define_new_channel_partial : forall inv l n b r, inv_spec inv -> let w := reached inv l in
  ~ In n (map fst (w_channels w)) ->
  let '(w', res) := define_channel n b r w in
  res = Ok tt /\
  (forall i m c, channel_at w i m c -> channel_at w' i m c) /\
  (exists c, channel_at w' (length (w_channels w)) n c /\ c_bins c = b /\ c_range c = r /\ c_tmpls c = [] /\ c_data c = None) /\
  w_hists w' = w_hists w /\ w_tmpls w' = w_tmpls w /\ w_procs w' = w_procs w /\
  w_cnames w' = w_cnames w /\ w_cvals w' = w_cvals w /\ w_cerrs w' = w_cerrs w /\ length (w_channels w') = S (length (w_channels w)).
Proof.
  intros inv l n b r I w N. simpl. rewrite dset_new by auto. split; auto. split; [|split].
  - intros i m c (cid & H1 & H2). exists cid. simpl. split; now apply nth_app_some.
  - exists (chan_new n b r). split; [|repeat split]. exists (length (w_chans w)). simpl. rewrite !nth_error_app2, !Nat.sub_diag by lia. auto.
  - rewrite app_length. simpl. repeat split; auto; lia.
Qed.
Print Assumptions C29_define_new_channel_partial.
(** C29 is false for channels: defining a channel again silently drops its template and data. *)
Theorem C29_define_channel_again_refuted : forall inv, exists l n b r, let w := reached inv l in
  (exists c, channel_named w n = Some c /\ c_tmpls c = [("s"%string, 0%nat)] /\ c_data c = Some 0%nat) /\
  snd (define_channel n b r w) = Ok tt /\
  exists c', channel_named (fst (define_channel n b r w)) n = Some c' /\ c_tmpls c' = [] /\ c_data c' = None.
Proof.
  intros inv. exists [ex_binned 1 3 1 4; OTemplate K1 "t" 0; ODefChannel "A" [2%nat] [(0, 4)];
    ODefProcess "s"; OAddTemplate "A" "s" 0 1; OAddData [("A", 0%nat)]]%string, "A"%string, [2%nat], [(0, 4)].
  unfold reached, world_init, ex_binned. do 6 run_step. cbv zeta. split; [|split].
  - eexists. repeat split. - reflexivity. - eexists. repeat split.
Qed.
Print Assumptions C29_define_channel_again_refuted.

(** C30 *)
Theorem C30_aligned : forall inv l, inv_spec inv -> let w := reached inv l in
  num_params w = (length (w_procs w) + mct_num_nui w)%nat /\
  length (param_names w) = num_params w /\
  (forall q p, nth_error (w_procs w) q = Some p -> nth_error (param_names w) (yield_pos q) = Some (p ++ "_yield")%string) /\
  (forall i n c k p tid t b, channel_at w i n c -> template_at w c k p tid t -> (b < bins_of c)%nat ->
     nth_error (param_names w) (nui_pos w i c k b) = Some (n ++ "_" ++ p ++ "_bin_" ++ decimal b)%string) /\
  forall x, nll_x0 w = Ok x ->
    length x = num_params w /\
    (forall q p, nth_error (w_procs w) q = Some p -> exists y, nth_error x (yield_pos q) = Some y /\ snd (get_yield p w) = Ok y) /\
    (forall i n c k p tid t b, channel_at w i n c -> template_at w c k p tid t -> (b < bins_of c)%nat ->
       exists v, nth_error x (nui_pos w i c k b) = Some v /\ nth_error (t_nui t) b = Some v).
Proof.
  intros inv l I w. assert (W : WF w) by now apply reached_wf.
  assert (NL : forall (n p : string) t, tmpl_ok (w_hists w) t -> length (name_block n p t) = t_nb t) by (intros; unfold name_block; rewrite map_length; apply seq_length).
  assert (VL : forall (n p : string) t, tmpl_ok (w_hists w) t -> length (value_block n p t) = t_nb t).
  { intros n p t T. unfold value_block, t_nui. pose proof (to_params _ _ T). destruct (t_params t); simpl in *; lia. }
  split; [unfold num_params; now rewrite nui_total|].
  split; [rewrite param_names_blocks, app_length, map_length, (blocks_total w W name_block NL); reflexivity|].
  split; [|split].
  - intros q p Q. unfold yield_pos. rewrite param_names_blocks, nth_error_app1.
    + now rewrite (map_nth_error _ _ _ Q). + rewrite map_length. apply nth_error_Some. congruence.
  - intros i n c k p tid t b H K B. unfold nui_pos. rewrite param_names_blocks, nth_error_app2 by (rewrite map_length; lia).
    rewrite map_length. replace (_ + _ - _)%nat with (nui_offset w i + k * bins_of c + b)%nat by lia.
    rewrite (cblock_nth w W name_block NL i n c k p tid t b H K B). unfold name_block.
    destruct K as (K & T). destruct (template_at_ok w i n c k p tid W H K) as (t' & (_ & T2) & T3 & T4 & _).
    assert (t' = t) by congruence. subst. rewrite T4. change (n ++ "_" ++ p ++ "_bin_" ++ decimal b)%string with (nui_name n p b). apply map_nth_error.
    rewrite nth_error_nth' with (d := O) by (rewrite seq_length; auto). f_equal. now rewrite seq_nth.
  - intros x X. assert (X' : x = process_yields w ++ concat (nui_blocks w)).
    { unfold nll_x0, nui_params in X. destruct (nui_blocks w); [discriminate|]. cbn [rbind] in X. congruence. }
    clear X. subst x. rewrite (nui_blocks_concat w W).
    assert (PL : length (process_yields w) = length (w_procs w)) by (unfold process_yields; apply map_length).
    split; [rewrite app_length, PL, (blocks_total w W value_block VL); reflexivity|]. split.
    + intros q p Q. unfold yield_pos. assert (q < length (w_procs w))%nat by (apply nth_error_Some; congruence).
      rewrite nth_error_app1 by lia. unfold process_yields. rewrite (map_nth_error _ _ _ Q). eexists. split; [reflexivity|].
      unfold get_yield, bind, gets, lift. rewrite (index_of_nodup p (w_procs w) q (wf_procs w W) Q). simpl.
      unfold process_yields. rewrite (map_nth_error _ _ _ Q). reflexivity.
    + intros i n c k p tid t b H K B. unfold nui_pos. rewrite nth_error_app2 by lia. rewrite PL.
      replace (_ + _ - _)%nat with (nui_offset w i + k * bins_of c + b)%nat by lia.
      rewrite (cblock_nth w W value_block VL i n c k p tid t b H K B). unfold value_block.
      destruct K as (K & T). destruct (template_at_ok w i n c k p tid W H K) as (t' & (_ & T2) & T3 & T4 & _).
      assert (t' = t) by congruence. subst. pose proof (VL n p t T3) as L. unfold value_block in L.
      destruct (nth_error (t_nui t) b) as [v|] eqn:V; [eauto|]. apply nth_error_None in V. lia.
Qed.
Print Assumptions C30_aligned.
(** the start values exist as soon as a channel has a template *)
Theorem C30_start_values_exist : forall inv l, inv_spec inv -> let w := reached inv l in
  (exists x, nll_x0 w = Ok x) <-> exists i n c, channel_at w i n c /\ c_tmpls c <> [].
Proof.
  intros inv l I w. assert (W : WF w) by now apply reached_wf. unfold nll_x0, nui_params.
  assert (E : nui_blocks w = [] <-> ~ exists i n c, channel_at w i n c /\ c_tmpls c <> []).
  { unfold nui_blocks. split.
    - intros H (i & n & c & C & N). apply channel_at_chans in C; auto. apply nth_error_In in C.
      destruct (c_tmpls c) as [|pt r] eqn:L; [congruence|]. 
      assert (X : In (match nth_error (w_tmpls w) (snd pt) with Some t => t_nui t | None => [] end)
        (flat_map (fun c => map (fun p => match nth_error (w_tmpls w) (snd p) with Some t => t_nui t | None => [] end) (c_tmpls c)) (mct_chans w))).
      { apply in_flat_map. exists c. split; auto. rewrite L. left. auto. }
      rewrite H in X. destruct X.
    - intros H. assert (A : forall c, In c (mct_chans w) -> c_tmpls c = []).
      { intros c C. apply In_nth_error in C as (i & C). apply (chans_channel_at w i c W) in C as (n & C).
        destruct (c_tmpls c) eqn:L; auto. exfalso. apply H. exists i, n, c. split; auto. congruence. }
      induction (mct_chans w) as [|c r IH]; simpl; auto. rewrite (A c) by (left; auto). apply IH. intros; apply A; right; auto. }
  destruct (nui_blocks w) as [|b bs].
  - split; [intros (x & H); discriminate|]. intros H. exfalso. now apply (proj1 E).
  - split; [|simpl; eauto]. intros _. destruct (Classical_Prop.classic (exists i n c, channel_at w i n c /\ c_tmpls c <> [])); auto.
    apply E in H. discriminate.
Qed.
Print Assumptions C30_start_values_exist.
(** otherwise (no channel, or only channels without templates) asking for them, and every fit, raises ValueError;
    and x0 raises nothing else, in any state *)
Theorem C30_start_values_error : forall w e, nll_x0 w = Err e -> e = ValueError.
Proof. intros w e. unfold nll_x0, nui_params. destruct (nui_blocks w); simpl; congruence. Qed.
Print Assumptions C30_start_values_error.

(** C31: names are unique if no two templates give the same channel_process string, in particular if no
    channel name contains an underscore. *)
Theorem C31_names_unique_partial : forall inv l, inv_spec inv -> let w := reached inv l in
  unambiguous w -> NoDup (param_names w).
Proof. intros inv l I w. apply names_unique. now apply reached_wf. Qed.
Print Assumptions C31_names_unique_partial.
Theorem C31_no_underscore_partial : forall inv l, inv_spec inv -> let w := reached inv l in
  (forall i n c, channel_at w i n c -> ~ has_char "_" n) -> NoDup (param_names w).
Proof.
  intros inv l I w H. apply C31_names_unique_partial; auto. intros i n c p i' n' c' p' C C' _ _. apply no_us_prefix; eauto.
Qed.
Print Assumptions C31_no_underscore_partial.
(** C31 is false in general: process "b_c" in channel "a" and process "c" in channel "a_b". *)
Theorem C31_names_collide_refuted : forall inv, exists l, let w := reached inv l in ~ NoDup (param_names w).
Proof.
  intros inv. exists [ex_binned 1 3 1 4; OTemplate K1 "t" 0; OTemplate K1 "t" 0; ODefChannel "a" [2%nat] [(0, 4)]; ODefChannel "a_b" [2%nat] [(0, 4)];
    ODefProcess "c"; ODefProcess "b_c"; OAddTemplate "a" "b_c" 0 1; OAddTemplate "a_b" "c" 1 1]%string.
  unfold reached, world_init, ex_binned. do 9 run_step. cbv zeta. unfold param_names. 
  cbn [w_procs w_channels w_chans w_tmpls flat_map nth_error fst snd c_tmpls t_nb map app seq run fold_left].
  intros N. inversion N as [|? ? _ N1]; subst. inversion N1 as [|? ? _ N2]; subst. inversion N2 as [|? ? NI _]; subst. apply NI.
  right. left. reflexivity.
Qed.
Print Assumptions C31_names_collide_refuted.

(** A non-trivial state: two channels, two processes, three templates (process "s" in both channels,
    listed second in channel "A"), data in both channels. *)
Definition ex_ops : list op :=
  [ex_binned 1 3 1 2; ex_binned 2 2 1 2; OTemplate K1 "t0" 0; OTemplate K1 "t1" 1; OTemplate K1 "t2" 0;
   ODefChannel "A" [2%nat] [(0, 2)]; ODefChannel "B" [2%nat] [(0, 2)]; ODefProcess "s"; ODefProcess "b";
   OAddTemplate "A" "b" 0 (1/2); OAddTemplate "A" "s" 1 1; OAddTemplate "B" "s" 2 1; OAddData [("A", 0%nat); ("B", 1%nat)]]%string.
Example example_state : forall inv, let w := reached inv ex_ops in
  exists cA cB t0 t1 t2, channel_at w 0 "A" cA /\ channel_at w 1 "B" cB /\
    template_at w cA 0 "b" 0 t0 /\ template_at w cA 1 "s" 1 t1 /\ template_at w cB 0 "s" 2 t2 /\
    bins_of cA = 2%nat /\ bins_of cB = 2%nat /\ w_procs w = ["s"; "b"]%string /\ num_params w = 8%nat /\
    nui_offset w 1 = 4%nat /\ c_data cA = Some 0%nat /\ c_data cB = Some 1%nat /\ length (w_channels w) = 2%nat /\
    (exists x, nll_x0 w = Ok x) /\
    param_names w = ["s_yield"; "b_yield"; "A_b_bin_0"; "A_b_bin_1"; "A_s_bin_0"; "A_s_bin_1"; "B_s_bin_0"; "B_s_bin_1"]%string.
Proof.
  intros inv. unfold reached, world_init, ex_ops, ex_binned. do 13 run_step. cbv zeta.
  eexists. eexists. eexists. eexists. eexists. split; [exists 0%nat; split; reflexivity|]. split; [exists 1%nat; split; reflexivity|].
  split; [split; reflexivity|]. split; [split; reflexivity|]. split; [split; reflexivity|].
  repeat (split; [reflexivity|]). split; [eexists; reflexivity|reflexivity].
Qed.
