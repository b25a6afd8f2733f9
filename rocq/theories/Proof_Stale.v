(** What a sequence of calls keeps about one template and one histogram; evaluation without caches. *)
From Coq Require Import Reals String ZArith Bool Arith List Lra Lia.
From Verif Require Import Model_Num Model_Hist Model_Utility Model_Template Model_World Model_Ops
  Spec_Matrix Spec_Template Spec_World Proof_Hist Proof_Matrix Proof_Template Proof_HistHeap Proof_Monad Proof_World Proof_Eval
  Proof_Route Proof_Names Proof_Update Proof_Nll Proof_Valid.
Import ListNotations.
Local Open Scope R_scope.

(** histogram hid is unchanged, template tid keeps its histogram object and number of bins *)
Definition keep (hid tid : nat) (w w' : world) : Prop :=
  (forall h, nth_error (w_hists w) hid = Some h -> nth_error (w_hists w') hid = Some h) /\
  (forall t, nth_error (w_tmpls w) tid = Some t -> exists t', nth_error (w_tmpls w') tid = Some t' /\ t_hist t' = t_hist t /\ t_nb t' = t_nb t).

Section Keep.
  Variables hid tid : nat.
  Lemma keep_po : preorder (keep hid tid).
  Proof.
    split.
    - intros w. split; eauto.
    - intros a b c (A1 & A2) (B1 & B2). split; auto. intros t T. destruct (A2 t T) as (t1 & T1 & E1 & E2). destruct (B2 _ T1) as (t2 & T2 & E3 & E4).
      exists t2. repeat split; congruence.
  Qed.
  Lemma keep_same w w' : w_tmpls w' = w_tmpls w -> w_hists w' = w_hists w -> keep hid tid w w'.
  Proof. intros E F. split; rewrite ?E, ?F; eauto. Qed.
  Lemma keep_core {A} (m : M A) : pres core_eq m -> pres (keep hid tid) m.
  Proof. intros H w. apply keep_same; [apply (ce_tmpls _ _ (H w))|apply (ce_hists _ _ (H w))]. Qed.
  Lemma keep_on_tmpl {A} i (f : tmpl -> tmpl * res A) : (forall t, t_hist (fst (f t)) = t_hist t /\ t_nb (fst (f t)) = t_nb t) -> pres (keep hid tid) (on_tmpl i f).
  Proof.
    intros H w. unfold on_tmpl. destruct (nth_error (w_tmpls w) i) as [t|] eqn:E; [|apply keep_po]. destruct (H t) as (H1 & H2). destruct (f t) as [t1 r]. simpl in *.
    split; simpl; auto. intros u U. destruct (Nat.eq_dec i tid) as [->|N].
    - exists t1. rewrite upd_same by (apply nth_error_Some; congruence). repeat split; congruence.
    - exists u. rewrite upd_other; auto.
  Qed.
  Lemma keep_ps (t : tmpl) t' : (exists ps, t' = set_params t ps) -> t_hist t' = t_hist t /\ t_nb t' = t_nb t.
  Proof. intros (ps & ->). split; reflexivity. Qed.
  Lemma keep_tmpl_reset i : pres (keep hid tid) (tmpl_reset i).
  Proof. unfold tmpl_reset. pres_tac keep_po. apply keep_on_tmpl. intros t. simpl. split; reflexivity. Qed.
  Lemma keep_reset : pres (keep hid tid) reset_parameters.
  Proof. unfold reset_parameters, ch_reset. pres_tac keep_po. apply keep_tmpl_reset. Qed.
  Lemma keep_set_yield p v : pres (keep hid tid) (set_yield p v).
  Proof.
    unfold set_yield. pres_tac keep_po. destruct (smem p a); pres_tac keep_po.
    destruct (dget String.eqb (c_tmpls a2) p); pres_tac keep_po. destruct (dget String.eqb (c_effs a2) p); pres_tac keep_po.
    apply keep_on_tmpl. intros. apply keep_ps, ppar_yield.
  Qed.
  Lemma keep_ch_update cid y n : pres (keep hid tid) (ch_update_parameters cid y n).
  Proof.
    unfold ch_update_parameters. pres_tac keep_po. destruct a2 as [[[i eff] yy] nn].
    pres_tac keep_po; apply keep_on_tmpl; intros; apply keep_ps; [apply ppar_yield|apply ppar_nui].
  Qed.
  Lemma keep_update x : pres (keep hid tid) (update_parameters x).
  Proof. unfold update_parameters. pres_tac keep_po; [apply keep_core, core_per_channel|apply keep_ch_update]. Qed.
  Lemma keep_alloc h : pres (keep hid tid) (alloc_hist h).
  Proof. intros w. split; simpl; eauto. intros. now apply nth_app_some. Qed.
  Lemma keep_on_hist {A} i (f : hist -> hist * res A) : i <> hid -> pres (keep hid tid) (on_hist i f).
  Proof.
    intros N w. unfold on_hist. destruct (nth_error (w_hists w) i); [|apply keep_po]. destruct (f h). split; simpl; eauto.
    intros g G. rewrite upd_other; auto.
  Qed.
  Lemma keep_on_chan {A} i (f : chan -> chan * res A) : pres (keep hid tid) (on_chan i f).
  Proof. intros w. unfold on_chan. destruct (nth_error (w_chans w) i); [|apply keep_po]. destruct (f c). now apply keep_same. Qed.
  Lemma keep_template_sum cid : pres (keep hid tid) (ch_template_sum cid).
  Proof. unfold ch_template_sum. pres_tac keep_po. Qed.
  Lemma keep_bin_edges cid : pres (keep hid tid) (ch_bin_edges cid).
  Proof. unfold ch_bin_edges. pres_tac keep_po. destruct (c_tmpls a) as [|[? ?] ?]; pres_tac keep_po. Qed.
  Lemma add_cov_raw_keep inv t c : t_hist (fst (add_cov_raw inv t c)) = t_hist t /\ t_nb (fst (add_cov_raw inv t c)) = t_nb t.
  Proof. unfold add_cov_raw. destruct (inv _); split; reflexivity. Qed.
  Lemma add_cov_keep inv t c : t_hist (fst (t_add_cov_mat inv t c)) = t_hist t /\ t_nb (fst (t_add_cov_mat inv t c)) = t_nb t.
  Proof. unfold t_add_cov_mat. destruct (t_kind t); [|auto]. destruct (square _ _); [apply add_cov_raw_keep|auto]. Qed.
  Lemma add_var_keep inv t d u v : t_hist (fst (t_add_variation inv t d u v)) = t_hist t /\ t_nb (fst (t_add_variation inv t d u v)) = t_nb t.
  Proof.
    unfold t_add_variation. destruct (t_kind t), d; auto.
    - destruct (t_range t) as [|r [|]]; auto. destruct (_ <- _ ;; _); [apply add_cov_raw_keep|auto].
    - destruct (t_bins t) as [|nx [|ny [|]]]; auto. destruct (t_range t) as [|rx [|ry [|]]]; auto. destruct (_ <- _ ;; _); auto.
  Qed.

  Definition fills (o : op) : bool := match o with OFill1 i _ _ | OFill2 i _ _ _ => Nat.eqb i hid | _ => false end.
  Lemma keep_step inv o : fills o = false -> pres (keep hid tid) (step inv o).
  Proof.
    intros H. destruct o; simpl in H; try apply Nat.eqb_neq in H; unfold step; pres_tac keep_po;
      try apply keep_alloc; try (apply keep_on_hist; assumption); try apply keep_set_yield; try apply keep_reset; try apply keep_update;
      try apply keep_tmpl_reset; try (apply keep_core, core_nll);
      try (apply keep_on_tmpl; intros; first [apply keep_ps, ppar_params|apply keep_ps, ppar_yield|apply keep_ps, ppar_nui|apply add_cov_keep|apply add_var_keep]).
    - intros w. split; simpl; eauto. intros t T. exists t. split; auto. now apply nth_app_some.
    - intros w. now apply keep_same.
    - intros w. unfold define_process. destruct (smem _ _); now apply keep_same.
    - intros w. unfold mct_add_template. destruct (dget _ _ _); [|apply keep_po]. destruct (smem _ _); [|apply keep_po].
      apply (pres_bind keep_po (get_tmpl _)); [apply (pres_get_tmpl keep_po)|intros; apply keep_on_chan].
    - unfold mct_add_data. pres_tac keep_po. intros w. destruct (dget _ _ _); [|apply keep_po].
      apply (pres_bind keep_po (get_hist (snd a))); [apply (pres_get_hist keep_po)|intros; apply keep_on_chan].
    - intros w. unfold add_gaussian_constraint. destruct (smem _ _); now apply keep_same.
    - unfold generate_asimov_dataset, ch_asimov. pres_tac keep_po; try apply keep_alloc; try apply keep_template_sum.
      destruct (c_ttype _); pres_tac keep_po. apply keep_bin_edges.
    - unfold generate_toy_dataset, ch_toy. pres_tac keep_po; try apply keep_alloc; try apply keep_template_sum.
      destruct (c_ttype _); pres_tac keep_po. apply keep_bin_edges.
  Qed.
  Lemma keep_run inv l w : Forall (fun o => fills o = false) l -> keep hid tid w (run inv l w).
  Proof.
    intros H. revert w. induction H as [|o l Ho Hl IH]; intros w; [apply keep_po|]. rewrite run_cons. eapply keep_po; [apply (keep_step inv o Ho)|apply IH].
  Qed.
End Keep.

(** ** reset *)
Lemma tmpl_reset_run w tid t h : nth_error (w_tmpls w) tid = Some t -> nth_error (w_hists w) (t_hist t) = Some h ->
  tmpl_reset tid w = (set_tmpls w (upd tid (t_reset t h) (w_tmpls w)), Ok tt).
Proof. intros T H. unfold tmpl_reset, bind, get_tmpl, get_hist, on_tmpl. rewrite T, H. reflexivity. Qed.

(** reset_parameters succeeds and gives every template used in a channel the parameters of a new template
    of its histogram object; other templates are unchanged *)
Definition is_reset (w : world) (t : tmpl) : Prop :=
  exists h, nth_error (w_hists w) (t_hist t) = Some h /\ t_params t = init_params (t_nb t) (nd_flat (h_counts h)).
Record resetting (w w' : world) : Prop := {
  rs_hists : w_hists w' = w_hists w; rs_chans : w_chans w' = w_chans w; rs_channels : w_channels w' = w_channels w;
  rs_same : forall i t, nth_error (w_tmpls w) i = Some t -> exists t', nth_error (w_tmpls w') i = Some t' /\ (t' = t \/ exists ps, t' = set_params t ps /\ is_reset w' t');
  rs_back : forall i t', nth_error (w_tmpls w') i = Some t' -> exists t, nth_error (w_tmpls w) i = Some t }.
Lemma resetting_po : preorder resetting.
Proof.
  split.
  - intros w. constructor; eauto.
  - intros a b c [A1 A2 A3 A4 A5] [B1 B2 B3 B4 B5]. constructor; try congruence.
    + intros i t T. destruct (A4 i t T) as (t1 & T1 & H1). destruct (B4 i t1 T1) as (t2 & T2 & H2). exists t2. split; auto.
      destruct H2 as [->|(ps & -> & H2)].
      * destruct H1 as [->|(ps & -> & H1)]; auto. right. exists ps. split; auto. destruct H1 as (h & H1 & H3). exists h. split; auto. now rewrite B1.
      * right. destruct H1 as [->|(ps' & -> & H1)]; exists ps; auto.
    + intros i t' T'. destruct (B5 _ _ T') as (t & T). eauto.
Qed.
Lemma tmpl_reset_resetting tid : pres resetting (tmpl_reset tid).
Proof.
  intros w. destruct (nth_error (w_tmpls w) tid) as [t|] eqn:T.
  - destruct (nth_error (w_hists w) (t_hist t)) as [h|] eqn:H.
    + rewrite (tmpl_reset_run _ _ _ _ T H). simpl. constructor; simpl; auto.
      * intros i u U. destruct (Nat.eq_dec tid i) as [->|N].
        -- rewrite upd_same by (apply nth_error_Some; congruence). eexists. split; [reflexivity|]. right. assert (u = t) by congruence. subst.
           unfold t_reset. eexists. split; [reflexivity|]. exists h. split; auto.
        -- rewrite upd_other by auto. eauto.
      * intros i t' U. apply upd_some in U as [[-> _]|[_ U]]; eauto.
    + unfold tmpl_reset, bind, get_tmpl, get_hist. rewrite T, H. apply resetting_po.
  - unfold tmpl_reset, bind, get_tmpl. rewrite T. apply resetting_po.
Qed.

(** one template reset, others later: the list of templates passed is reset at the end *)
Definition live (w : world) (i : nat) : Prop := exists t h, nth_error (w_tmpls w) i = Some t /\ nth_error (w_hists w) (t_hist t) = Some h.
Definition reset_at (w : world) (i : nat) : Prop := exists t, nth_error (w_tmpls w) i = Some t /\ is_reset w t.
Lemma live_resetting w w' i : resetting w w' -> live w i -> live w' i.
Proof.
  intros RS (t & h & T & H). destruct (rs_same _ _ RS _ _ T) as (t' & T' & [->|(ps & -> & _)]); eexists; exists h; (split; [exact T'|]); rewrite (rs_hists _ _ RS); exact H.
Qed.
Lemma reset_resetting w w' i : resetting w w' -> reset_at w i -> reset_at w' i.
Proof.
  intros RS (t & T & R). destruct (rs_same _ _ RS _ _ T) as (t' & T' & [->|(ps & -> & R')]); eexists; (split; [exact T'|]); auto.
  destruct R as (h & H & E). exists h. now rewrite (rs_hists _ _ RS).
Qed.
Lemma tmpl_reset_done w i : live w i -> exists w', tmpl_reset i w = (w', Ok tt) /\ resetting w w' /\ reset_at w' i.
Proof.
  intros (t & h & T & H). pose proof (tmpl_reset_resetting i w) as RS. rewrite (tmpl_reset_run _ _ _ _ T H) in *. eexists. split; [reflexivity|]. split; [exact RS|].
  exists (t_reset t h). simpl. rewrite upd_same by (apply nth_error_Some; congruence). split; auto. exists h. split; auto.
Qed.
Lemma forM_reset {A} (f : A -> M unit) (ids : A -> list nat) (ok : world -> A -> Prop) :
  (forall w w' a, resetting w w' -> ok w a -> ok w' a) ->
  (forall w a, ok w a -> exists w', f a w = (w', Ok tt) /\ resetting w w' /\ forall i, In i (ids a) -> reset_at w' i) ->
  forall l w, (forall a, In a l -> ok w a) ->
  exists w', forM f l w = (w', Ok tt) /\ resetting w w' /\ forall a i, In a l -> In i (ids a) -> reset_at w' i.
Proof.
  intros K F. induction l as [|a l IH]; intros w O; simpl.
  - exists w. split; [reflexivity|]. split; [apply resetting_po|]. intros; contradiction.
  - destruct (F w a (O a (or_introl eq_refl))) as (w1 & E1 & R1 & D1). unfold bind. rewrite E1.
    destruct (IH w1) as (w2 & E2 & R2 & D2); [intros b B; eapply K; eauto; apply O; now right|].
    exists w2. split; [exact E2|]. split; [eapply resetting_po; eauto|]. intros b i [->|B] I; [|eauto]. eapply reset_resetting; eauto.
Qed.
Lemma reset_parameters_done w : WF w -> exists w', reset_parameters w = (w', Ok tt) /\ resetting w w' /\ forall tid, uses_template w tid -> reset_at w' tid.
Proof.
  intros W. unfold reset_parameters, bind, gets.
  set (ok := fun (w' : world) cid => resetting w w' /\ exists n, In (n, cid) (w_channels w)).
  set (ids := fun cid => match nth_error (w_chans w) cid with Some c => map snd (c_tmpls c) | None => [] end).
  destruct (forM_reset ch_reset ids ok) with (l := map snd (w_channels w)) (w := w) as (w' & E & RS & D).
  - intros a b cid RS (R & N). split; auto. eapply resetting_po; eauto.
  - intros w1 cid (R & n & N). destruct (wf_dict w W _ _ N) as (c & C & _). unfold ch_reset, bind, get_chan. rewrite (rs_chans _ _ R), C. unfold ids. rewrite C.
    destruct (forM_reset (fun p : string * nat => tmpl_reset (snd p)) (fun p => [snd p]) (fun w' p => live w' (snd p))) with (l := c_tmpls c) (w := w1) as (w2 & E2 & R2 & D2).
    + intros a b p. apply live_resetting.
    + intros a p L. destruct (tmpl_reset_done a (snd p) L) as (b & B1 & B2 & B3). exists b. split; auto. split; auto. intros i [<-|[]]. exact B3.
    + intros [p tid] P. eapply live_resetting; [exact R|]. simpl. destruct (co_tmpl _ _ _ _ (wf_chans w W _ _ C) _ _ P) as (t & T & _).
      destruct (to_hist _ _ (wf_tmpls w W _ _ T)) as (h & H & _). exists t, h. auto.
    + exists w2. split; [exact E2|]. split; auto. intros i I. apply in_map_iff in I as (p & <- & P). apply (D2 p); [exact P|left; auto].
  - intros cid H. apply in_map_iff in H as ([n cid'] & <- & N). split; [apply resetting_po|exists n; exact N].
  - exists w'. split; [exact E|]. split; auto. intros tid (i & n & c & k & p & t & (cid & C1 & C2) & (T1 & T2)).
    apply (D cid); [apply (in_map snd _ (n, cid)); eapply nth_error_In; eauto|]. unfold ids. rewrite C2. apply (in_map snd _ (p, tid)). eapply nth_error_In; eauto.
Qed.
