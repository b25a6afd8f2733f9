(** Creation, reset and update of legacy templates *)
From Coq Require Import Reals String ZArith Bool Arith List Lra Lia.
From Verif Require Import Model_Num Model_Hist Model_Utility Model_Template Model_World Model_Legacy
  Spec_Hist Spec_Matrix Spec_Template Spec_Nll Spec_Legacy Proof_Hist Proof_Hist2 Proof_Hist3 Proof_Matrix Proof_HistHeap Proof_LegacyHist
  Proof_Template Proof_Template2 Proof_World Proof_Legacy.
Import ListNotations.
Local Open Scope R_scope.

(** ** New templates *)
Lemma lt_create_new w name var nb lim data ws t : snd (lt_create w name var nb lim data ws) = Ok t ->
  exists tm n c e, g_tmpls (fst (lt_create w name var nb lim data ws)) = g_tmpls w ++ [tm] /\ t = length (g_tmpls w) /\
    g_stacks (fst (lt_create w name var nb lim data ws)) = g_stacks w /\
    n = Z.to_nat nb /\ (0 < n)%nat /\ lt_name tm = name /\ lt_var tm = var /\ lt_limits tm = lim /\ lt_nb tm = n /\
    lerrors tm n c e [] /\ lt_counts tm = vec_of n c /\ lt_errs_sq tm = vec_of n e /\
    params_of (fst (lt_create w name var nb lim data ws)) t = Some (initial tm).
Proof.
  destruct lim as [lo hi]. unfold lt_create. destruct (hist1_new _ _ _ _) as [h|] eqn:E; [|discriminate].
  destruct (Nat.eqb_spec (Z.to_nat nb) 0) as [|NZ]; [discriminate|]. cbn [snd fst]. intros H. injection H as <-.
  destruct (hist1_contents_of _ _ _ _ h [] h E eq_refl) as (n & c & e & CO).
  assert (NN : n = Z.to_nat nb).
  { destruct CO as (-> & _). destruct (hist1_new_contents _ _ _ _ _ E) as (h0 & E0 & F).
    destruct (Proof_Hist.hist1_empty_ok _ _ _ E0) as (_ & _ & _ & _ & B & B2). destruct (fills1_contents _ _ _ _ B2 F) as (_ & (_ & _ & G3 & G4 & _) & _).
    rewrite G3. revert E0. unfold hist1_empty, hist1_init_bin_edges, linspace_edges. destruct (Z.ltb nb 0); [discriminate|]. simpl. intros E0. injection E0 as <-. simpl. unfold nprod; simpl. lia. }
  destruct (template_new K1 name 0 h) as [tt'|er] eqn:TN.
  2:{ exfalso. unfold template_new in TN. destruct CO as (C1 & _ & C3 & C4 & _).
      assert (K : h_kind h = K1). { destruct (hist1_new_contents _ _ _ _ _ E) as (h0 & E0 & F). destruct (Proof_Hist.hist1_empty_ok _ _ _ E0) as (K0 & _ & _ & _ & _ & B2). destruct (fills1_contents _ _ _ _ B2 F) as (_ & (G1 & _) & _). congruence. }
      rewrite K in TN. simpl in TN. rewrite C3, C4, !vec_of_length, <- C1, Nat.eqb_refl in TN. discriminate. }
  destruct (template_new_state _ _ _ _ _ _ _ _ TN CO) as (ES & _).
  unfold template_new in TN. destruct (negb _) in TN; [discriminate|]. destruct (negb _) in TN; [discriminate|]. injection TN as <-.
  destruct ES as (_ & S2 & S3 & _ & S5 & S6 & S7 & S8 & S9 & S10). simpl in S2, S3, S5, S8, S9, S10.
  assert (NH : nprod (h_num_bins h) = Z.to_nat nb) by (destruct CO as (C1 & _); congruence). rewrite NH in S8, S9. rewrite <- NN in *.
  eexists _, n, c, e. split; [reflexivity|]. do 2 (split; [reflexivity|]). split; [reflexivity|]. split; [lia|]. do 4 (split; [reflexivity|]).
  split; [|split; [exact S2|]; split; [exact S3|]].
  - unfold lerrors; cbv zeta; simpl. repeat (split; [assumption || reflexivity|]). exact S10.
  - unfold params_of. cbn [g_tmpls]. rewrite nth_error_app2, Nat.sub_diag by lia. cbn [nth_error]. f_equal. unfold initial. cbn. unfold aread. cbn.
    rewrite nth_error_app2, Nat.sub_diag by lia. cbn [nth_error]. f_equal.
    + unfold slice. simpl. rewrite Nat.sub_0_r. rewrite <- (repeat_length (Fin 0) n) at 1. apply firstn_all.
    + change (match g_bufs w ++ [repeat (Fin 0) n; repeat (Fin 1) n] with [] => None | _ :: l => nth_error l (length (g_bufs w)) end) with
        (nth_error (g_bufs w ++ [repeat (Fin 0) n; repeat (Fin 1) n]) (S (length (g_bufs w)))).
      rewrite nth_error_app2 by lia. replace (S (length (g_bufs w)) - length (g_bufs w))%nat with 1%nat by lia. cbn [nth_error].
      unfold slice. simpl. rewrite Nat.sub_0_r. rewrite <- (repeat_length (Fin 1) n) at 1. apply firstn_all.
Qed.

Lemma lt_create_succeeds w name var n lo hi data ws : (1 <= n)%nat -> lo < hi -> length data = length ws ->
  exists w' s q, lt_create w name var (Z.of_nat n) (lo, hi) data ws = (w', Ok (length (g_tmpls w))) /\
    params_of w' (length (g_tmpls w)) = Some (mk_lparams (Fin s) (Fin (sqrt q)) (repeat (Fin 0) n) (repeat (Fin 1) n)) /\
    wsum (fun x => lo <= x <= hi) (combine data ws) s /\ wsum (fun x => lo <= x <= hi) (squared (combine data ws)) q.
Proof.
  intros Hn Hl LD.
  destruct (hist1_new (B1Int (Z.of_nat n)) (Some (lo, hi)) (Some data) (WArr ws)) as [h|er] eqn:E.
  2:{ exfalso. destruct (equal_width_binning n lo hi Hn Hl) as (h & e & _ & _ & E0 & He & _ & _ & _ & _ & V & _).
      destruct (fill1_succeeds h data (WArr ws)) as (h' & F & _); auto.
      - eapply new1_ready; eauto.
      - exact I.
      - unfold hist1_new in E, E0. destruct (hist1_empty _ _) as [h0|]; [|discriminate]. simpl in E, E0. injection E0 as ->. rewrite F in E. discriminate. }
  pose proof (lt_create_new w name var (Z.of_nat n) (lo, hi) data ws) as N.
  assert (R : exists w', lt_create w name var (Z.of_nat n) (lo, hi) data ws = (w', Ok (length (g_tmpls w)))).
  { unfold lt_create. rewrite E. destruct (Nat.eqb_spec (Z.to_nat (Z.of_nat n)) 0) as [X|_]; [rewrite Nat2Z.id in X; lia|]. eexists; reflexivity. }
  destruct R as (w' & R). destruct (N (length (g_tmpls w))) as (tm & n' & c & e & ET & _ & _ & -> & _ & _ & _ & _ & NB & LE & LC & LQ & P); [rewrite R; reflexivity|].
  rewrite R in ET, P. cbn [fst] in ET, P. rewrite Nat2Z.id in *.
  assert (EDG : exists e0, h_edges h = [e0] /\ e_vals e0 = np_linspace lo hi (n + 1)).
  { destruct (hist1_new_contents _ _ _ _ _ E) as (h0 & E0 & F). destruct (Proof_Hist.hist1_empty_ok _ _ _ E0) as (_ & _ & _ & _ & _ & B2).
    destruct (fills1_contents _ _ _ _ B2 F) as (_ & (_ & G2 & _) & _). rewrite G2. revert E0. unfold hist1_empty, hist1_init_bin_edges, linspace_edges.
    destruct (Z.ltb_spec (Z.of_nat n) 0); [lia|]. simpl. intros E0. injection E0 as <-. simpl. eexists. split; [reflexivity|]. simpl. now rewrite Nat2Z.id. }
  destruct EDG as (e0 & HE & EV). assert (V : valid_edges (e_vals e0)) by (rewrite EV; apply linspace_valid; auto).
  destruct (fill1_total _ _ _ _ _ [] h e0 E eq_refl HE V) as (s & q & S1 & S2 & Q1 & Q2). simpl in S2, Q2. rewrite !app_nil_r in *.
  assert (IR : forall x, in_range (e_vals e0) x <-> lo <= x <= hi).
  { intros x. unfold in_range. rewrite EV, linspace_length. replace (S n - 1)%nat with n by lia. rewrite !linspace_nth by lia.
    change (INR 0) with 0. assert (INR n <> 0) by (apply not_0_INR; lia). replace (lo + 0 * ((hi - lo) / INR n)) with lo by ring.
    replace (lo + INR n * ((hi - lo) / INR n)) with hi by (field; auto). tauto. }
  exists w', s, q. split; [exact R|]. split; [|split; [eapply wsum_ext; [exact IR|exact S2]|eapply wsum_ext; [exact IR|exact Q2]]].
  rewrite P. f_equal. unfold initial. rewrite NB.
  assert (CT : lt_counts tm = nd_flat (h_counts h) /\ lt_errs_sq tm = nd_flat (h_errs_sq h)).
  { unfold lt_create in R. rewrite E in R. destruct (Nat.eqb _ _) in R; [discriminate|]. injection R as <-. cbn [g_tmpls] in ET. apply app_inv_head in ET. injection ET as <-. split; reflexivity. }
  destruct CT as (-> & ->). rewrite S1, Q1. f_equal. simpl. destruct (Rltb_spec q 0); auto. exfalso.
  pose proof (wsum_sq_pos _ _ _ _ S2 Q2). lra.
Qed.

(** ** The templates of a container exist and fit *)
Definition fits (w : gworld) (st : lstack) (t : nat) : Prop :=
  exists tm, nth_error (g_tmpls w) t = Some tm /\ lt_nb tm = ls_nb st /\ lt_var tm = ls_var st /\ lt_limits tm = ls_limits st.
Definition GS (w : gworld) : Prop := forall s st, nth_error (g_stacks w) s = Some st ->
  (0 < ls_nb st)%nat /\ NoDup (map fst (ls_dict st)) /\ forall t, In t (ls_ids st) -> fits w st t.

Lemma fits_ext w w' st st' t : keeps same_orig (g_tmpls w) (g_tmpls w') -> same_geom st st' -> fits w st t -> fits w' st' t.
Proof.
  intros K (_ & G2 & G3 & G4 & _) (tm & E & A & B & C). destruct (K t tm E) as (tm' & E' & (_ & S2 & S3 & S4 & _)).
  exists tm'. split; auto. rewrite S2, S3, S4, G2, G3, G4. auto.
Qed.
Lemma GS_same w w' : keeps same_orig (g_tmpls w) (g_tmpls w') -> g_stacks w' = g_stacks w -> GS w -> GS w'.
Proof.
  intros K E G s st H. rewrite E in H. destruct (G s st H) as (A & B & C). split; auto. split; auto. intros t I. eapply fits_ext; eauto using sg_refl.
Qed.
Lemma GS_upd w s st st' : GS w -> nth_error (g_stacks w) s = Some st -> same_geom st st' -> NoDup (map fst (ls_dict st')) ->
  (forall t, In t (ls_ids st') -> fits w st' t) -> GS (upd_stack w s st').
Proof.
  intros G E SG ND F s' st0 H. unfold upd_stack in H. simpl in H. destruct (Nat.eq_dec s s') as [->|N].
  - rewrite upd_same in H by (apply nth_error_Some; congruence). injection H as <-. destruct (G s' st E) as (A & _). destruct SG as (_ & _ & S3 & _).
    split; [lia|]. split; auto.
  - rewrite upd_other in H by auto. destruct (G s' st0 H) as (A & B & C). split; auto.
Qed.
Lemma limits_eqb_eq a b : limits_eqb a b = true -> a = b.
Proof.
  destruct a as [a1 a2], b as [b1 b2]. unfold limits_eqb. simpl. intros H. apply andb_true_iff in H as [H1 H2].
  destruct (Reqb_spec a1 b1); [|discriminate]. destruct (Reqb_spec a2 b2); [|discriminate]. congruence.
Qed.

Lemma stacks_step inv w o : (forall n v nb lim, o <> GStack n v nb lim) -> (forall s i t, o <> GAddTemplate s i t) ->
  (forall s i d ws, o <> GCreateTemplate s i d ws) -> g_stacks (fst (gstep inv w o)) = g_stacks w.
Proof.
  intros H1 H2 H3. destruct o; simpl gstep; try (destruct (aref_ok _ _); [|reflexivity]); try reflexivity.
  - unfold awrite. destruct (nth_error (g_bufs w) (a_buf a)) as [c|] eqn:E; [|reflexivity]. destruct (Nat.ltb _ _); reflexivity.
  - unfold new_hist. destruct (hist1_new _ _ _ _); reflexivity.
  - unfold new_hist. destruct (hist1_from_binned _ _ _); reflexivity.
  - destruct (nth_error (g_hists w) h) as [h0|]; [|reflexivity]. destruct (hist1_fill _ _ _). reflexivity.
  - unfold on_stack. destruct (nth_error (g_stacks w) s); [|reflexivity]. unfold new_hist. destruct (ls_asimov _ _ _); reflexivity.
  - unfold lt_create. destruct (hist1_new _ _ _ _); [|reflexivity]. destruct (Nat.eqb _ _); reflexivity.
  - unfold on_tmpl. destruct (nth_error (g_tmpls w) t); [|reflexivity]. destruct (lt_add_cov _ _ _). reflexivity.
  - unfold on_tmpl. destruct (nth_error (g_tmpls w) t); reflexivity.
  - unfold on_tmpl. destruct (nth_error (g_tmpls w) t); reflexivity.
  - unfold on_tmpl. destruct (nth_error (g_tmpls w) t); reflexivity.
  - unfold on_tmpl. destruct (nth_error (g_tmpls w) t); reflexivity.
  - unfold on_tmpl. destruct (nth_error (g_tmpls w) t); reflexivity.
  - exfalso. eapply H1; reflexivity.
  - exfalso. eapply H2; reflexivity.
  - exfalso. eapply H3; reflexivity.
  - unfold on_stack. destruct (nth_error (g_stacks w) s); reflexivity.
  - unfold on_stack. destruct (nth_error (g_stacks w) s); reflexivity.
  - unfold on_stack. destruct (nth_error (g_stacks w) s); [|reflexivity]. unfold ls_set_nuis. destruct (asplit _ _); reflexivity.
  - unfold on_stack. destruct (nth_error (g_stacks w) s); [|reflexivity]. unfold ls_set_nui_errs. destruct (asplit _ _); reflexivity.
  - destruct (aref_ok w e); [|reflexivity]. unfold on_stack. destruct (nth_error (g_stacks w) s) as [st|]; [|reflexivity]. unfold ls_update, ls_set_nuis.
    destruct (asplit _ _) as [ps|]; simpl; [|reflexivity]. unfold ls_set_nui_errs. destruct (asplit _ _); reflexivity.
  - unfold on_stack. destruct (nth_error (g_stacks w) s); reflexivity.
  - unfold nll_create. destruct (nth_error (g_stacks w) s) as [st|] eqn:E; [|reflexivity]. destruct (nth_error (g_hists w) data); [|reflexivity].
    destruct (ls_templates w st) as [[|t0 ts]|er]; reflexivity.
Qed.

Lemma GS_step inv w o : GS w -> GS (fst (gstep inv w o)).
Proof.
  intros G. pose proof (ge_tmpls _ _ (gstep_ext inv w o)) as K.
  assert (D : (forall n v nb lim, o <> GStack n v nb lim) -> (forall s i t, o <> GAddTemplate s i t) ->
    (forall s i d ws, o <> GCreateTemplate s i d ws) -> GS (fst (gstep inv w o))).
  { intros H1 H2 H3. apply (GS_same w); auto. apply stacks_step; auto. }
  destruct o; try (apply D; intros; discriminate); clear D.
  - simpl gstep in *. unfold ls_create. destruct (Z.ltb_spec nb (-1)); [exact G|]. destruct (Z.ltb_spec nb 1); [exact G|]. simpl. intros s st HH. simpl in HH.
    destruct (Nat.lt_ge_cases s (length (g_stacks w))).
    + rewrite nth_error_app1 in HH by auto. destruct (G s st HH) as (A & B & C). auto.
    + rewrite nth_error_app2 in HH by auto. destruct (s - length (g_stacks w))%nat as [|k]; [|destruct k; discriminate]. injection HH as <-. simpl. split; [lia|]. split; [constructor|tauto].
  - simpl gstep in *. unfold ls_add_template in *. destruct (nth_error (g_stacks w) s) as [st|] eqn:E; [|exact G].
    destruct (nth_error (g_tmpls w) t) as [tm|] eqn:T; [|exact G]. destruct (_ && _) eqn:B; [|exact G].
    apply andb_true_iff in B as [B B3]. apply andb_true_iff in B as [B1 B2]. apply String.eqb_eq in B1. apply Nat.eqb_eq in B2. apply limits_eqb_eq in B3.
    destruct (G s st E) as (G1 & G2 & G3). cbn [fst]. apply (GS_upd w s st); auto.
    + unfold same_geom; simpl; tauto.
    + apply (dset_keys_nodup (ls_dict st)); auto.
    + intros t' I. apply dset_snd_in in I as [->|I].
      * exists tm. simpl. auto.
      * destruct (G3 t' I) as (tm' & Q). exists tm'. exact Q.
  - simpl gstep in *. unfold ls_create_template in *. destruct (nth_error (g_stacks w) s) as [st|] eqn:E; [|exact G].
    pose proof (lt_create_new w tid (ls_var st) (Z.of_nat (ls_nb st)) (ls_limits st) data ws) as N.
    destruct (lt_create _ _ _ _ _ _ _) as [w' [t|er]] eqn:L.
    + destruct (N t eq_refl) as (tm & n & c & e & ET & -> & ES & -> & _ & _ & V & LM & NB & _). cbn [fst] in *.
      assert (K' : keeps same_orig (g_tmpls w) (g_tmpls w')) by (rewrite ET; apply keeps_app, so_refl).
      assert (G' : GS w') by (apply (GS_same w); auto). destruct (G' s st) as (G1 & G2 & G3); [congruence|]. cbn [fst]. apply (GS_upd w' s st); auto.
      * congruence.
      * unfold same_geom; simpl; tauto.
      * apply (dset_keys_nodup (ls_dict st)); auto.
      * intros t' I. apply dset_snd_in in I as [->|I].
        -- exists tm. simpl. rewrite ET, nth_error_app2, Nat.sub_diag by lia. rewrite NB, Nat2Z.id. auto.
        -- destruct (G3 t' I) as (tm' & Q). exists tm'. exact Q.
    + unfold lt_create in L. destruct (hist1_new _ _ _ _); [|injection L as <- _; exact G]. destruct (Nat.eqb _ _); [injection L as <- _; exact G|discriminate].
Qed.
Lemma GS_run inv l : forall w, GS w -> GS (grun inv w l).
Proof. induction l as [|o l IH]; intros w G; simpl; auto. apply IH, GS_step, G. Qed.
Lemma GS_empty : GS g_empty. Proof. intros [|s] st H; discriminate. Qed.
