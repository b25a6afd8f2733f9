(** Templates of valid histories have a valid error state *)
From Coq Require Import Reals String ZArith Bool Arith List Lra Lia.
From Verif Require Import Model_Num Model_Hist Model_Utility Model_Template Model_World Model_Ops
  Spec_Matrix Spec_Template Spec_World Spec_Nll Proof_Hist Proof_Matrix Proof_Template Proof_Template2 Proof_Template3 
  Proof_HistHeap Proof_Monad Proof_World Proof_Eval Proof_Route Proof_Names Proof_Update Proof_Nll.
Import ListNotations.
Local Open Scope R_scope.

(** only parameters of templates change *)
Definition ppar (w w' : world) : Prop :=
  forall tid t', nth_error (w_tmpls w') tid = Some t' -> exists t ps, nth_error (w_tmpls w) tid = Some t /\ t' = set_params t ps.
Lemma set_params_id t : t = set_params t (t_params t). Proof. now destruct t. Qed.
Lemma ppar_po : preorder ppar.
Proof.
  split.
  - intros w tid t H. exists t, (t_params t). split; auto. apply set_params_id.
  - intros a b c H1 H2 tid t' H. destruct (H2 _ _ H) as (t1 & ps & T1 & ->). destruct (H1 _ _ T1) as (t & ps' & T & ->).
    exists t, ps. split; auto.
Qed.
Lemma ppar_same w w' : w_tmpls w' = w_tmpls w -> ppar w w'.
Proof. intros E. intros tid t. rewrite E. apply ppar_po. Qed.
Lemma ppar_core {A} (m : M A) : pres core_eq m -> pres ppar m.
Proof. intros H w. apply ppar_same, (ce_tmpls _ _ (H w)). Qed.
Lemma ppar_on_tmpl {A} i (f : tmpl -> tmpl * res A) : (forall t, exists ps, fst (f t) = set_params t ps) -> pres ppar (on_tmpl i f).
Proof.
  intros H w. unfold on_tmpl. destruct (nth_error (w_tmpls w) i) as [t|] eqn:E; [|apply ppar_po]. destruct (H t) as (ps & P). destruct (f t) as [t1 r]. simpl in *. subst t1.
  intros tid t' T. simpl in T. apply upd_some in T as [[-> ->]|[_ T]]; [eauto|]. apply (po_refl _ ppar_po). auto.
Qed.
Lemma ppar_params v t : exists ps, fst (params_setter t v) = set_params t ps.
Proof. destruct (params_setter_spec t v) as [(e & ->)|(l & _ & _ & ->)]; simpl; eauto using set_params_id. Qed.
Lemma ppar_yield v t : exists ps, fst (yield_setter t v) = set_params t ps.
Proof. destruct (yield_setter_spec t v) as [(e & ->)|(l & _ & _ & ->)]; simpl; eauto using set_params_id. Qed.
Lemma ppar_nui v t : exists ps, fst (nui_setter t v) = set_params t ps.
Proof. destruct (nui_setter_spec t v) as [(e & ->)|(l & _ & _ & ->)]; simpl; eauto using set_params_id. Qed.
Lemma ppar_tmpl_reset i : pres ppar (tmpl_reset i).
Proof. unfold tmpl_reset. pres_tac ppar_po. apply ppar_on_tmpl. intros t. simpl. unfold t_reset. eauto. Qed.
Lemma ppar_reset : pres ppar reset_parameters.
Proof. unfold reset_parameters, ch_reset. pres_tac ppar_po. apply ppar_tmpl_reset. Qed.
Lemma ppar_set_yield p v : pres ppar (set_yield p v).
Proof.
  unfold set_yield. pres_tac ppar_po. destruct (smem p a); pres_tac ppar_po.
  destruct (dget String.eqb (c_tmpls a2) p); pres_tac ppar_po. destruct (dget String.eqb (c_effs a2) p); pres_tac ppar_po.
  apply ppar_on_tmpl. apply ppar_yield.
Qed.
Lemma ppar_ch_update cid y n : pres ppar (ch_update_parameters cid y n).
Proof.
  unfold ch_update_parameters. pres_tac ppar_po. destruct a2 as [[[tid eff] yy] nn].
  pres_tac ppar_po; apply ppar_on_tmpl; intros; [apply ppar_yield|apply ppar_nui].
Qed.
Lemma ppar_update x : pres ppar (update_parameters x).
Proof. unfold update_parameters. pres_tac ppar_po; [apply ppar_core, core_per_channel|apply ppar_ch_update]. Qed.
Lemma ppar_alloc h : pres ppar (alloc_hist h). Proof. intros w. now apply ppar_same. Qed.
Lemma ppar_on_hist {A} i (f : hist -> hist * res A) : pres ppar (on_hist i f).
Proof. intros w. unfold on_hist. destruct (nth_error (w_hists w) i); [|apply ppar_po]. destruct (f h). now apply ppar_same. Qed.
Lemma ppar_on_chan {A} i (f : chan -> chan * res A) : pres ppar (on_chan i f).
Proof. intros w. unfold on_chan. destruct (nth_error (w_chans w) i); [|apply ppar_po]. destruct (f c). now apply ppar_same. Qed.
Lemma ppar_template_sum cid : pres ppar (ch_template_sum cid).
Proof. unfold ch_template_sum. pres_tac ppar_po. Qed.
Lemma ppar_bin_edges cid : pres ppar (ch_bin_edges cid).
Proof. unfold ch_bin_edges. pres_tac ppar_po. destruct (c_tmpls a) as [|[? ?] ?]; pres_tac ppar_po. Qed.

Definition makes_tmpl (o : op) : bool := match o with OTemplate _ _ _ | OAddCov _ _ | OAddVar _ _ _ _ => true | _ => false end.
Lemma ppar_step inv o : makes_tmpl o = false -> pres ppar (step inv o).
Proof.
  intros H. destruct o; simpl in H; try discriminate; unfold step; pres_tac ppar_po;
    try apply ppar_alloc; try apply ppar_on_hist; try apply ppar_set_yield; try apply ppar_reset; try apply ppar_update;
    try apply ppar_tmpl_reset; try (apply ppar_core, core_nll);
    try (apply ppar_on_tmpl; intros; first [apply ppar_params|apply ppar_yield|apply ppar_nui]).
  - intros w. now apply ppar_same.
  - intros w. unfold define_process. destruct (smem _ _); now apply ppar_same.
  - intros w. unfold mct_add_template. destruct (dget _ _ _); [|apply ppar_po]. destruct (smem _ _); [|apply ppar_po].
    apply (pres_bind ppar_po (get_tmpl tid)); [apply (pres_get_tmpl ppar_po)|intros; apply ppar_on_chan].
  - unfold mct_add_data. pres_tac ppar_po. intros w. destruct (dget _ _ _); [|apply ppar_po].
    apply (pres_bind ppar_po (get_hist (snd a))); [apply (pres_get_hist ppar_po)|intros; apply ppar_on_chan].
  - intros w. unfold add_gaussian_constraint. destruct (smem _ _); now apply ppar_same.
  - unfold generate_asimov_dataset, ch_asimov. pres_tac ppar_po; try apply ppar_alloc; try apply ppar_template_sum.
    destruct (c_ttype _); pres_tac ppar_po. apply ppar_bin_edges.
  - unfold generate_toy_dataset, ch_toy. pres_tac ppar_po; try apply ppar_alloc; try apply ppar_template_sum.
    destruct (c_ttype _); pres_tac ppar_po. apply ppar_bin_edges.
Qed.

Definition VI (w : world) : Prop :=
  forall tid t, nth_error (w_tmpls w) tid = Some t -> exists c e covs, error_state t (t_nb t) c e covs.

Lemma vi_step inv o w : inv_spec inv -> WF w -> valid_call w o -> VI w -> VI (fst (step inv o w)).
Proof.
  intros I W V H. destruct (makes_tmpl o) eqn:MT.
  - assert (OT : forall (tid : nat) (f : tmpl -> tmpl * res unit) (o : t_op),
       (forall t, f t = t_do inv t o) -> (forall n, valid_covs n [o]) -> VI (fst (on_tmpl tid f w))).
    { intros tid f o' F VC. unfold on_tmpl. destruct (nth_error (w_tmpls w) tid) as [t|] eqn:T; [|exact H].
      rewrite F. destruct (t_do inv t o') as [t1 r] eqn:D. simpl. intros j u U. simpl in U. apply upd_some in U as [[-> ->]|[_ U]]; [|eauto].
      destruct (H _ _ T) as (c & e & covs & ES).
      destruct (run_any inv I [o'] t (t_nb t) c e covs (to_params _ _ (wf_tmpls w W _ _ T)) ES (VC _) t1 [(o', r)]) as (_ & FE & Cs & ES').
      - simpl. rewrite D. reflexivity.
      - exists c, e, (covs ++ Cs). replace (t_nb t1) with (t_nb t); auto. destruct ES' as (A & _). auto. }
    destruct o; simpl in MT; try discriminate; simpl step.
    + simpl in V. unfold bind, get_hist. destruct (nth_error (w_hists w) hid) as [h|] eqn:Hh; [|exact H]. unfold lift.
      destruct (template_new k name hid h) as [t0|] eqn:T0; [|exact H]. simpl. intros j u U. simpl in U. apply nth_snoc in U as [[U _]|[-> ->]]; [eauto|].
      destruct (V h eq_refl) as (n & c & e & CO). destruct (template_new_state _ _ _ _ _ _ _ _ T0 CO) as (ES & _). exists c, e, [].
      replace (t_nb t0) with n; auto. symmetry. apply ES.
    + destruct V as (n & C & -> & SY & PS).
      destruct (nth_error (w_tmpls w) tid) as [t|] eqn:T; [|unfold on_tmpl; rewrite T; exact H].
      destruct (Nat.eq_dec (t_nb t) n) as [E|E].
      * subst n. unfold on_tmpl. rewrite T.
        destruct (H _ _ T) as (c & e & covs & ES). destruct (t_add_cov_mat inv t (mat_of (t_nb t) C)) as [t1 r] eqn:D. simpl.
        intros j u U. simpl in U. apply upd_some in U as [[-> ->]|[_ U]]; [|eauto].
        destruct (run_any inv I [TCov C] t (t_nb t) c e covs (to_params _ _ (wf_tmpls w W _ _ T)) ES) with (t' := t1) (log := [(TCov C, r)]) as (_ & FE & Cs & ES').
        -- constructor; auto. -- simpl. rewrite D. reflexivity.
        -- exists c, e, (covs ++ Cs). replace (t_nb t1) with (t_nb t); auto. destruct ES' as (A & _). auto.
      * unfold on_tmpl. rewrite T. assert (X : exists e, t_add_cov_mat inv t (mat_of n C) = (t, Err e)).
        { unfold t_add_cov_mat. destruct (t_kind t); [|eauto]. destruct (square (t_nb t) (mat_of n C)) eqn:S; [|eauto]. apply square_of_mat in S. contradiction. }
        destruct X as (e & ->). simpl. intros j u U. simpl in U. apply upd_some in U as [[-> ->]|[_ U]]; eauto.
    + apply (OT tid _ (TVar d up down)); auto. intros n. constructor; auto.
  - intros tid t' T. destruct (ppar_step inv o MT w tid t' T) as (t & ps & T1 & ->). destruct (H _ _ T1) as (c & e & covs & ES). exists c, e, covs. exact ES.
Qed.

Lemma vi_run inv l : inv_spec inv -> forall w, WF w -> VI w -> valid_history inv w l -> VI (run inv l w).
Proof.
  intros I. induction l as [|o l IH]; intros w W H V; auto. destruct V as [V1 V2]. rewrite run_cons. apply IH; auto.
  - apply (wf_step inv o I w W). - now apply vi_step.
Qed.
Lemma vi_reached inv l : inv_spec inv -> valid_history inv world_init l -> VI (reached inv l).
Proof.
  intros I V. apply vi_run; auto. - apply (reached_wf inv [] I). - intros [|tid] t; discriminate.
Qed.

(** ** Views exist *)
Lemma fin_choice {A} (d : A) n (P : nat -> A -> Prop) : (forall k, (k < n)%nat -> exists a, P k a) ->
  exists f, forall k, (k < n)%nat -> P k (f k).
Proof.
  induction n as [|n IH]; intros H; [exists (fun _ => d); intros; lia|].
  destruct IH as (f & F); [intros; apply H; lia|]. destruct (H n) as (a & A0); [lia|].
  exists (fun k => if Nat.eqb k n then a else f k). intros k K. destruct (Nat.eqb_spec k n) as [->|N]; auto. apply F. lia.
Qed.

Lemma view_exists w x i n c : WF w -> VI w -> channel_at w i n c ->
  (exists hid h d, c_data c = Some hid /\ nth_error (w_hists w) hid = Some h /\ nd_flat (h_counts h) = vec_of (bins_of c) d) ->
  exists v, reads w x i v.
Proof.
  intros W V CA (hid & h & d & CD & HH & HC).
  set (P := fun k (q : (R * R) * ((nat -> R) * (nat -> nat -> R)) * (nat -> nat -> R)) =>
     forall p tid t, template_at w c k p tid t ->
       (exists q', nth_error (w_procs w) q' = Some p /\ fst (fst (fst q)) = x (yield_pos q')) /\
       nth_error (c_effs c) k = Some (p, snd (fst (fst q))) /\
       (exists e covs, error_state t (bins_of c) (fst (snd (fst q))) e covs /\ forall a b, snd (snd (fst q)) a b = msum (stat_cov_of e :: covs) a b) /\
       inverse_of (bins_of c) (correlation (snd (snd (fst q)))) (snd q)).
  destruct (fin_choice ((0, 0), ((fun _ => 0), (fun _ _ => 0)), (fun _ _ => 0)) (length (c_tmpls c)) P) as (f & F).
  - intros k K. destruct (nth_error (c_tmpls c) k) as [[p tid]|] eqn:E; [|apply nth_error_None in E; lia].
    destruct (template_at_ok w i n c k p tid W CA E) as (t & TA & TO & TB & _).
    pose proof (chan_ok_at w i n c W CA) as O. destruct (effs_nth _ _ _ c k p tid O E) as (eff & EF).
    assert (PI : In p (w_procs w)). { apply (co_incl _ _ _ _ O). rewrite <- (co_keys _ _ _ _ O). apply (in_map fst (c_tmpls c) (p, tid)). eapply nth_error_In; eauto. }
    apply In_nth_error in PI as (q & Q). destruct (V tid t (proj2 TA)) as (cn & e & covs & ES). rewrite TB in ES.
    pose proof ES as (_ & _ & _ & _ & _ & _ & _ & _ & (PP & _ & IP) & _).
    exists ((x (yield_pos q), eff), (cn, msum (stat_cov_of e :: covs)), PP). intros p' tid' t' TA'.
    destruct TA as (K1 & K2), TA' as (K3 & K4). assert (p' = p) by congruence. assert (tid' = tid) by congruence. subst. assert (t' = t) by congruence. subst t'.
    simpl. repeat split; eauto; apply IP; auto.
  - exists (mk_cview (bins_of c) (length (c_tmpls c)) (fun k => fst (fst (fst (f k)))) (fun k => snd (fst (fst (f k)))) (fun k => fst (snd (fst (f k))))
      (fun k => snd (snd (fst (f k)))) (fun k b => x (nui_pos w i c k b)) (fun k => snd (f k)) d).
    exists n, c. split; auto. split; auto. split; auto. split.
    + intros k p tid t TA. assert (KL : (k < length (c_tmpls c))%nat) by (apply nth_error_Some; destruct TA; congruence).
      destruct (F k KL p tid t TA) as (A1 & A2 & A3 & A4). simpl. repeat split; auto; apply A4; auto.
    + exists hid, h. auto.
Qed.
Lemma views_exist w x : WF w -> VI w -> all_have_data w ->
  exists vs, length vs = length (w_channels w) /\ forall i v, nth_error vs i = Some v -> reads w x i v.
Proof.
  intros W V D. destruct (fin_choice (mk_cview 0 0 (fun _ => 0) (fun _ => 0) (fun _ _ => 0) (fun _ _ _ => 0) (fun _ _ => 0) (fun _ _ _ => 0) (fun _ => 0))
     (length (w_channels w)) (reads w x)) as (f & F).
  - intros i Hi. destruct (nth_error (w_channels w) i) as [[n cid]|] eqn:E; [|apply nth_error_None in E; lia].
    destruct (wf_dict w W n cid (nth_error_In _ _ E)) as (c & C & _). assert (CA : channel_at w i n c) by (exists cid; auto).
    eapply view_exists; eauto.
  - exists (map f (seq 0 (length (w_channels w)))). rewrite map_length, seq_length. split; auto. intros i v E.
    assert (Hi : (i < length (w_channels w))%nat). { assert (L : (i < length (map f (seq 0 (length (w_channels w)))))%nat) by (apply nth_error_Some; congruence). now rewrite map_length, seq_length in L. }
    rewrite (map_nth_error _ i _ (d := i)) in E; [injection E as <-; auto|]. rewrite (nth_error_nth' _ 0%nat) by (rewrite seq_length; auto). now rewrite seq_nth.
Qed.

(** ** The value is not negative *)
Lemma poisson_nonneg n nu : (n = 0 \/ (0 < n /\ 0 < nu)) -> 0 <= nu -> 0 <= poisson_term n nu.
Proof.
  intros H N. unfold poisson_term. destruct (Req_EM_T n 0) as [->|E]; [lra|]. destruct H as [?|[H1 H2]]; [contradiction|].
  pose proof (Proof_Utility.dev_nonneg n nu H1 H2) as D. exact D.
Qed.
Lemma prec_psd w x i v k : WF w -> reads w x i v -> (k < v_nt v)%nat -> psd (v_nb v) (v_prec v k).
Proof.
  intros W (n & c & CA & NB & NT & T & _) K. destruct (tmpl_k w i n c v W CA NB NT k K) as (p & tid & t & _ & TA).
  destruct (T k p tid t TA) as (_ & _ & (e & covs & ES & CV) & IV & _).
  destruct ES as (_ & _ & _ & _ & _ & SY & PD & _).
  assert (SY' : symmetric (v_nb v) (v_cov v k)) by (intros a b Ha Hb; rewrite !CV; apply SY; auto).
  assert (PD' : posdef (v_nb v) (v_cov v k)) by (eapply posdef_ext; [|exact PD]; intros; symmetry; apply CV).
  assert (DG : forall a, (a < v_nb v)%nat -> 0 < v_cov v k a a) by (intros; eapply Proof_Linear.posdef_diag; eauto).
  eapply Proof_Linear.inverse_psd; [| |exact IV].
  - intros a b Ha Hb. unfold correlation. rewrite (SY' a b) by auto. f_equal. ring.
  - intros u. change (correlation (v_cov v k)) with (corr_of (v_cov v k)). rewrite quad_corr by auto. apply (Proof_Linear.posdef_psd _ _ PD').
Qed.
Lemma channel_nonneg w x i v : WF w -> reads w x i v -> in_domain v -> (forall b, (b < v_nb v)%nat -> 0 <= expected v b) -> 0 <= channel_nll v.
Proof.
  intros W RV (B0 & T0 & TN & D) PO. unfold channel_nll.
  assert (0 <= sumn (v_nb v) (fun b => poisson_term (v_data v b) (expected v b))).
  { apply sumn_nonneg. intros b Hb. apply poisson_nonneg; auto. destruct (D b Hb) as [?|[D1 D2]]; auto. right. split; auto.
    assert (0 < / 10 ^ 100) by (apply Rinv_0_lt_compat, pow_lt; lra). lra. }
  assert (0 <= sumn (v_nt v) (fun k => quad (v_nb v) (v_prec v k) (v_th v k))).
  { apply sumn_nonneg. intros k Hk. eapply prec_psd; eauto. }
  lra.
Qed.
