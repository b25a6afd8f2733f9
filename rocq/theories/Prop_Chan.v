(** Property theorem C103: methods of Channel objects called directly. *)
From Coq Require Import Reals String ZArith Bool Arith List Lra Lia.
From Verif Require Import Model_Num Model_Hist Model_Utility Model_Template Model_World Model_Ops Model_Multi
  Spec_Matrix Spec_Template Spec_World Spec_Nll Spec_Multi Proof_Hist Proof_Matrix Proof_Template Proof_HistHeap Proof_Monad Proof_World Proof_Eval
  Proof_Route Proof_Names Proof_Update Proof_Nll Proof_Multi Proof_Multi2 Proof_Multi3 Proof_Multi4 Prop_World Prop_Multi.
Import ListNotations.
Local Open Scope R_scope.

(** what holds of all objects after every program *)
Lemma objects_ok inv l : inv_spec inv -> let h := mw_heap (mreached inv l) in exists P,
  (forall cid c, nth_error (w_chans h) cid = Some c -> chan_ok (w_hists h) (w_tmpls h) P c) /\
  (forall tid t, nth_error (w_tmpls h) tid = Some t -> tmpl_ok (w_hists h) t) /\
  (forall hid x, nth_error (w_hists h) hid = Some x -> hist_ok x).
Proof.
  intros IS h. destruct (reached_inv inv l IS) as ((P & W) & _). specialize (W model_new (or_introl eq_refl)). exists (P ++ []). split; [|split].
  - intros cid c C. exact (wfg_chans _ W cid c C). - intros tid t T. exact (wfg_tmpls _ W tid t T). - intros hid x H. exact (wfg_hists _ W hid x H).
Qed.

(** C103: channel.add_template either raises RuntimeError and changes nothing or appends the template; it succeeds exactly
    if the template has the bins and range of the channel, its class is that of the channel's templates and the process is
    new in the channel. *)
Theorem C103_add_template : forall inv l cid c p tid t eff, inv_spec inv -> let s := mreached inv l in
  nth_error (w_chans (mw_heap s)) cid = Some c -> nth_error (w_tmpls (mw_heap s)) tid = Some t ->
  let '(s', r) := mstep inv (MChan (CAddTemplate cid p tid eff)) s in
  (r = Ok tt <-> t_bins t = c_bins c /\ t_range t = c_range c /\ ~ In p (map fst (c_tmpls c)) /\
     forall q tid' t', In (q, tid') (c_tmpls c) -> nth_error (w_tmpls (mw_heap s)) tid' = Some t' -> t_kind t' = t_kind t) /\
  (r <> Ok tt -> r = Err RuntimeError /\ s' = s) /\
  (r = Ok tt -> mw_models s' = mw_models s /\ exists c', mw_heap s' = set_chans (mw_heap s) (upd cid c' (w_chans (mw_heap s))) /\
     c_tmpls c' = c_tmpls c ++ [(p, tid)] /\ c_effs c' = c_effs c ++ [(p, eff)] /\ c_procs c' = c_procs c ++ [p] /\
     c_name c' = c_name c /\ c_bins c' = c_bins c /\ c_range c' = c_range c /\ c_data c' = c_data c).
Proof.
  intros inv l cid c p tid t eff IS s C T. destruct (objects_ok inv l IS) as (P & OC & OT & _). fold s in OC, OT. specialize (OC cid c C).
  cbn [mstep cstep]. unfold bind, get_tmpl. rewrite T. unfold on_chan. rewrite C.
  assert (BK : c_ttype c = None \/ c_ttype c = Some (t_kind t) <->
     forall q tid' t', In (q, tid') (c_tmpls c) -> nth_error (w_tmpls (mw_heap s)) tid' = Some t' -> t_kind t' = t_kind t).
  { split.
    - intros K q tid' t' I T'. destruct (co_tmpl _ _ _ _ OC q tid' I) as (t1 & T1 & _ & _ & K1). destruct K as [K|K]; [congruence|]. assert (t1 = t') by congruence. subst. congruence.
    - intros K. destruct (c_tmpls c) as [|[q tid'] ts] eqn:E; [left; now apply (co_ttype_tmpls _ _ _ _ OC)|]. destruct (co_tmpl _ _ _ _ OC q tid') as (t1 & T1 & _ & _ & K1); [rewrite E; simpl; auto|].
      right. rewrite K1. f_equal. apply (K q tid' t1); simpl; auto. }
  assert (KP : map fst (c_tmpls c) = c_procs c) by apply (co_keys _ _ _ _ OC). rewrite KP.
  assert (ID : mk_mworld (set_chans (mw_heap s) (upd cid c (w_chans (mw_heap s)))) (mw_models s) = s).
  { rewrite upd_self by auto. rewrite set_chans_self. now destruct s. }
  unfold ch_add_template. destruct (check_template c t) eqn:E.
  2:{ split; [|split; [auto|discriminate]]. split; [discriminate|]. intros (A & B & _). exfalso. assert (X : check_template c t = true) by (apply check_template_eq; auto). congruence. }
  apply check_template_eq in E as [E1 E2]. unfold add_template_raw. fold (keys (c_tmpls c)) in KP. destruct (smem p (keys (c_tmpls c))) eqn:S.
  { split; [|split; [auto|discriminate]]. split; [discriminate|]. intros (_ & _ & N & _). apply smem_In in S. exfalso. apply N. congruence. }
  apply smem_false in S. rewrite (dset_new _ _ _ S). rewrite dset_new by (rewrite (co_ekeys _ _ _ _ OC), <- (co_keys _ _ _ _ OC); auto). rewrite KP in S.
  destruct (c_ttype c) as [k|] eqn:TT.
  - assert (D : c_dim c = Some (length (c_bins c))) by (rewrite (co_dim _ _ _ _ OC), TT; reflexivity). rewrite D. destruct (kind_eqb_spec (t_kind t) k) as [K|K]; cbn [negb].
    + split; [split; auto; intros _; split; [auto|]; split; [auto|]; split; [auto|]; apply BK; right; congruence|]. split; [congruence|]. intros _. cbn [mw_models mw_heap]. split; auto. eexists. split; [reflexivity|]. repeat split.
    + split; [split; [discriminate|]; intros (_ & _ & _ & X); apply BK in X as [X|X]; congruence|]. split; [|discriminate]. intros _. split; auto.
      replace (mk_chan _ _ _ _ _ _ _ _ _) with c; auto. rewrite <- D, <- TT. now destruct c.
  - destruct (kind_eqb_spec (t_kind t) (t_kind t)) as [_|X]; [cbn [negb]|congruence].
    split; [split; auto; intros _; split; [auto|]; split; [auto|]; split; [auto|]; apply BK; auto|]. split; [congruence|]. intros _. cbn [mw_models mw_heap]. split; auto. eexists. split; [reflexivity|]. repeat split.
Qed.
Print Assumptions C103_add_template.

(** channel.add_data either raises RuntimeError and changes nothing, or the given histogram becomes the data; it succeeds
    exactly if the histogram has the bins and the range of the channel. *)
Theorem C103_add_data : forall inv l cid c hid h, let s := mreached inv l in
  nth_error (w_chans (mw_heap s)) cid = Some c -> nth_error (w_hists (mw_heap s)) hid = Some h ->
  let '(s', r) := mstep inv (MChan (CAddData cid hid)) s in
  (r = Ok tt <-> h_shape h = c_bins c /\ h_range h = c_range c) /\
  (r <> Ok tt -> r = Err RuntimeError /\ s' = s) /\
  (r = Ok tt -> mw_models s' = mw_models s /\ exists c', mw_heap s' = set_chans (mw_heap s) (upd cid c' (w_chans (mw_heap s))) /\
     c_data c' = Some hid /\ c_tmpls c' = c_tmpls c /\ c_effs c' = c_effs c /\ c_procs c' = c_procs c /\
     c_name c' = c_name c /\ c_bins c' = c_bins c /\ c_range c' = c_range c).
Proof.
  intros inv l cid c hid h s C H. cbn [mstep cstep]. unfold bind, get_hist. rewrite H. unfold on_chan. rewrite C. unfold ch_add_data.
  destruct (check_hist c h) eqn:E.
  - apply check_hist_eq in E as [E1 E2]. split; [split; auto|]. split; [congruence|]. intros _. cbn [mw_models mw_heap]. split; auto. eexists. split; [reflexivity|]. repeat split.
  - split; [|split; [|discriminate]].
    + split; [discriminate|]. intros (A & B). exfalso. assert (X : check_hist c h = true) by (apply check_hist_eq; auto). congruence.
    + intros _. split; auto. rewrite upd_self by auto. rewrite set_chans_self. now destruct s.
Qed.
Print Assumptions C103_add_data.

(** A channel without templates has no histogram type: asimov and toy data sets raise AttributeError, nothing changes. *)
Theorem C103_empty_channel_raises : forall inv l cid c, inv_spec inv -> let s := mreached inv l in
  nth_error (w_chans (mw_heap s)) cid = Some c -> c_tmpls c = [] ->
  (forall b, mstep inv (MChan (CAsimov cid b)) s = (s, Err AttributeError)) /\
  mstep inv (MChan (CToy cid [])) s = (s, Err AttributeError).
Proof.
  intros inv l cid c IS s C N. destruct (objects_ok inv l IS) as (P & OC & OT & _). fold s in OC, OT. specialize (OC cid c C).
  assert (K : c_ttype c = None) by (apply (co_ttype_tmpls _ _ _ _ OC); auto).
  split; [intros b|]; cbn [mstep cstep]; unfold ch_asimov, ch_toy, ch_template_sum, bind, get_chan; rewrite C; rewrite N; cbn [mapM ret]; rewrite C; rewrite K; cbn; destruct s; reflexivity.
Qed.
Print Assumptions C103_empty_channel_raises.


(** channel.update_parameters with one yield per template and one nuisance parameter per template and bin: template number k
    gets its yield times its efficiency and its block of the nuisance parameters; nothing else changes. *)
Theorem C103_update_parameters : forall inv l cid c y nui, inv_spec inv -> let s := mreached inv l in let w := mw_heap s in
  nth_error (w_chans w) cid = Some c -> c_tmpls c <> [] -> NoDup (map snd (c_tmpls c)) ->
  length y = length (c_tmpls c) -> length nui = (length (c_tmpls c) * bins_of c)%nat ->
  exists ts', mstep inv (MChan (CUpdate cid y nui)) s = (mk_mworld (set_tmpls w ts') (mw_models s), Ok tt) /\
    (forall k p tid t, template_at w c k p tid t -> exists eff v, nth_error (c_effs c) k = Some (p, eff) /\ nth_error y k = Some v /\
       nth_error ts' tid = Some (set_params t (xmul v (Fin eff) :: firstn (bins_of c) (skipn (k * bins_of c) nui)))) /\
    (forall tid, ~ In tid (map snd (c_tmpls c)) -> nth_error ts' tid = nth_error (w_tmpls w) tid).
Proof.
  intros inv l cid c y nui IS s w C NE ND LY LN. destruct (objects_ok inv l IS) as (P & OC & OT & _). fold s in OC, OT. fold w in OC, OT. specialize (OC cid c C).
  exists (assigns (w_tmpls w) (ch_assign c y nui)). split; [|split].
  - cbn [mstep cstep]. fold w. rewrite (ch_update_spec w cid c y nui (bins_of c)); auto.
    + unfold num_templates. rewrite <- (co_keys _ _ _ _ OC). unfold keys. apply map_length.
    + intros p tid I. destruct (co_tmpl _ _ _ _ OC p tid I) as (t & T & B & _). pose proof (OT tid t T) as TO. exists t.
      assert (NB : t_nb t = bins_of c) by (rewrite (to_nb _ _ TO), B; reflexivity). repeat split; auto. rewrite <- NB. apply (to_params _ _ TO).
  - intros k p tid t (K & T). destruct (effs_nth _ _ _ _ k p tid OC K) as (eff & E).
    destruct (nth_error y k) as [v|] eqn:Y; [|apply nth_error_None in Y; assert (k < length (c_tmpls c))%nat by (apply nth_error_Some; congruence); lia].
    exists eff, v. repeat split; auto. apply assigns_in; auto.
    + rewrite ch_assign_fst; auto. pose proof (co_keys _ _ _ _ OC) as A. pose proof (co_ekeys _ _ _ _ OC) as B. unfold keys in *. rewrite <- (map_length fst (c_effs c)), <- (map_length fst (c_tmpls c)). congruence.
    + eapply ch_assign_in; eauto.
  - intros tid N. apply assigns_other. rewrite ch_assign_fst; auto. pose proof (co_keys _ _ _ _ OC) as A. pose proof (co_ekeys _ _ _ _ OC) as B. unfold keys in *. rewrite <- (map_length fst (c_effs c)), <- (map_length fst (c_tmpls c)). congruence.
Qed.
Print Assumptions C103_update_parameters.

(** The contribution of a channel object and its expectation per bin at given yields and nuisance parameters, after every
    program in which channels are complete when they are used; the channel need not belong to a MultiChannelTemplate. *)
Theorem C103_values : forall inv l cid c v th, inv_spec inv -> disciplined inv l -> let s := mreached inv l in
  nth_error (w_chans (mw_heap s)) cid = Some c -> channel_reads (mw_heap s) c v -> in_domain v ->
  (forall k b, (k < v_nt v)%nat -> (b < v_nb v)%nat -> v_th v k b = th (k * v_nb v + b)%nat) ->
  askc (nll_contribution cid (vec_of (v_nt v) (v_yield v)) (vec_of (v_nt v * v_nb v) th)) s = Ok (Fin (channel_nll v)) /\
  askc (bin_counts_from_param_values cid (vec_of (v_nt v) (v_yield v) ++ vec_of (v_nt v * v_nb v) th)) s = Ok (vec_of (v_nb v) (expected v)).
Proof.
  intros inv l cid c v th IS DI s C RD DV TH. destruct (objects_ok inv l IS) as (P & OC & OT & OH). fold s in OC, OT, OH. pose proof (OC cid c C) as CO.
  pose proof (coh_mreached inv l DI) as CH. fold s in CH. unfold askc. set (h := mw_heap s) in *.
  destruct RD as (NB & NT & T & (hid & x & CD & HH & HC)).
  set (w0 := mk_world (w_hists h) (w_tmpls h) [c] [(c_name c, O)] (c_procs c) [] [] [] [] [] []).
  set (xx := fun j => if Nat.ltb j (v_nt v) then v_yield v j else th (j - v_nt v)%nat).
  assert (LP : length (c_procs c) = v_nt v) by (rewrite <- (co_keys _ _ _ _ CO); unfold keys; rewrite map_length; auto).
  assert (W0 : WF w0).
  { constructor; cbn [w0 w_hists w_tmpls w_chans w_channels w_procs w_cnames]; auto.
    - intros [|i] c' H; [|destruct i; discriminate]. injection H as <-. destruct CO. constructor; auto. apply incl_refl.
    - repeat constructor; simpl; tauto.
    - repeat constructor; simpl; tauto.
    - intros n i [H|[]]. injection H as <- <-. exists c. auto.
    - apply (co_nodup _ _ _ _ CO).
    - intros p []. }
  assert (CA : channel_at w0 0 (c_name c) c) by (exists O; auto).
  assert (TT : forall k p tid t, template_at w0 c k p tid t ->
       (exists q, nth_error (w_procs w0) q = Some p /\ v_yield v k = xx (yield_pos q)) /\
       nth_error (c_effs c) k = Some (p, v_eff v k) /\
       (exists e covs, error_state t (v_nb v) (v_cnt v k) e covs /\ forall a b, v_cov v k a b = msum (stat_cov_of e :: covs) a b) /\
       inverse_of (v_nb v) (correlation (v_cov v k)) (v_prec v k) /\
       (forall b, (b < v_nb v)%nat -> v_th v k b = xx (nui_pos w0 0 c k b))).
  { intros k p tid t TA. assert (KL : (k < v_nt v)%nat) by (rewrite NT; apply nth_error_Some; destruct TA; congruence).
    destruct (T k p tid t TA) as (T1 & T2 & T3). split; [|repeat (split; [assumption|])].
    - exists k. split; [cbn [w0 w_procs]; rewrite <- (co_keys _ _ _ _ CO); destruct TA as [TA _]; apply (map_nth_error fst) in TA; exact TA|].
      unfold xx, yield_pos. destruct (Nat.ltb_spec k (v_nt v)); [reflexivity|lia].
    - intros b Hb. rewrite (TH k b KL Hb). unfold xx, nui_pos, nui_offset. cbn [firstn map list_sum w0 w_procs]. rewrite LP, <- NB.
      match goal with |- context [Nat.ltb ?a ?b] => destruct (Nat.ltb_spec a b) as [Q|Q]; [exfalso; apply (Nat.lt_irrefl (v_nt v)); eapply Nat.le_lt_trans; [apply Nat.le_add_r|exact Q]|] end. f_equal. symmetry. match goal with |- (?a + ?b - ?a)%nat = _ => rewrite (Nat.add_comm a b), Nat.add_sub; reflexivity end. }
  assert (NF : vec_of (v_nt v * v_nb v) (nui_fun w0 xx 0) = vec_of (v_nt v * v_nb v) th).
  { apply vec_of_ext. intros j Hj. unfold nui_fun, xx, nui_offset. cbn [firstn map list_sum w0 w_procs]. rewrite LP.
    match goal with |- context [Nat.ltb ?a ?b] => destruct (Nat.ltb_spec a b) as [Q|Q]; [exfalso; apply (Nat.lt_irrefl (v_nt v)); eapply Nat.le_lt_trans; [apply Nat.le_add_r|exact Q]|] end. f_equal. match goal with |- (?a + ?b - ?a)%nat = _ => rewrite (Nat.add_comm a b), Nat.add_sub; reflexivity end. }
  pose proof (contribution_real w0 xx 0 (c_name c) c v W0 CA NB NT TT hid x CD HH HC DV) as R1.
  pose proof (expected_real w0 xx 0 (c_name c) c v W0 CA NB NT TT DV) as R2. rewrite NF in R1, R2.
  split.
  - rewrite contribution_is by assumption. unfold oget. rewrite C. cbn [rbind]. exact R1.
  - rewrite bin_counts_is by assumption. unfold oget. rewrite C. cbn [rbind]. unfold split_parameter_array, num_templates. cbn [fst snd]. rewrite LP.
    rewrite firstn_app, skipn_app, vec_of_length, Nat.sub_diag, firstn_all2, skipn_all2 by (rewrite vec_of_length; lia). cbn [firstn skipn app]. rewrite app_nil_r. exact R2.
Qed.
Print Assumptions C103_values.
