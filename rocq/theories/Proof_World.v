(** The structural invariant of all reachable states *)
From Coq Require Import Reals String ZArith Bool Arith List Lra Lia.
From Verif Require Import Model_Num Model_Hist Model_Utility Model_Template Model_World Model_Ops
  Spec_Matrix Proof_Hist Proof_Matrix Proof_Template Proof_HistHeap Proof_Monad Proof_Template2.
Import ListNotations.
Local Open Scope R_scope.

Definition kdim (k : kind) : nat := match k with K1 => 1 | K2 => 2 end.

(** geometry of a histogram *)
Record hist_ok (h : hist) : Prop := {
  ho_bins : h_num_bins h = h_shape h;
  ho_edges_shape : h_shape h = map (fun e => (length (e_vals e) - 1)%nat) (h_edges h);
  ho_edges_ne : forall e, In e (h_edges h) -> e_vals e <> [];
  ho_ranges : (forall n, In n (h_shape h) -> (1 <= n)%nat) -> map get_bin_range (h_edges h) = map Ok (h_range h);
  ho_kdim : length (h_edges h) = kdim (h_kind h) }.

(** a template and the histogram it refers to *)
Record tmpl_ok (hs : list hist) (t : tmpl) : Prop := {
  to_hist : exists h, nth_error hs (t_hist t) = Some h /\ t_bins t = h_shape h /\ t_range t = h_range h /\ t_kind t = h_kind h;
  to_nb : t_nb t = nprod (t_bins t);
  to_params : length (t_params t) = S (t_nb t);
  to_counts : length (t_counts t) = t_nb t;
  to_rel : length (t_rel t) = t_nb t;
  to_cov : square (t_nb t) (t_cov t) = true;
  to_inv : square (t_nb t) (t_inv t) = true }.

Record chan_ok (hs : list hist) (ts : list tmpl) (procs : list string) (c : chan) : Prop := {
  co_keys : keys (c_tmpls c) = c_procs c;
  co_ekeys : keys (c_effs c) = c_procs c;
  co_nodup : NoDup (c_procs c);
  co_incl : incl (c_procs c) procs;
  co_tmpl : forall p tid, In (p, tid) (c_tmpls c) -> exists t, nth_error ts tid = Some t /\
     t_bins t = c_bins c /\ t_range t = c_range c /\ c_ttype c = Some (t_kind t);
  co_dim : c_dim c = match c_ttype c with None => None | Some _ => Some (length (c_bins c)) end;
  co_ttype_tmpls : c_tmpls c = [] -> c_ttype c = None;
  co_data : forall hid, c_data c = Some hid -> exists h, nth_error hs hid = Some h /\
     h_shape h = c_bins c /\ h_range h = c_range c }.

(** [P]: processes that channels may have although the MultiChannelTemplate does not know them (none in programs with one
    MultiChannelTemplate whose channels are used through it) *)
Record WFg (P : list string) (w : world) : Prop := {
  wfg_hists : forall i h, nth_error (w_hists w) i = Some h -> hist_ok h;
  wfg_tmpls : forall i t, nth_error (w_tmpls w) i = Some t -> tmpl_ok (w_hists w) t;
  wfg_chans : forall i c, nth_error (w_chans w) i = Some c -> chan_ok (w_hists w) (w_tmpls w) (P ++ w_procs w) c;
  wfg_names : NoDup (keys (w_channels w));
  wfg_ids : NoDup (map snd (w_channels w));
  wfg_dict : forall n i, In (n, i) (w_channels w) -> exists c, nth_error (w_chans w) i = Some c /\ c_name c = n;
  wfg_procs : NoDup (w_procs w);
  wfg_cons : forall p, In p (w_cnames w) -> In p (w_procs w) /\ (exists v, dget String.eqb (w_cvals w) p = Some v)
               /\ (exists v, dget String.eqb (w_cerrs w) p = Some v) }.
Arguments wfg_hists {P} w _. Arguments wfg_tmpls {P} w _. Arguments wfg_chans {P} w _. Arguments wfg_names {P} w _.
Arguments wfg_ids {P} w _. Arguments wfg_dict {P} w _. Arguments wfg_procs {P} w _. Arguments wfg_cons {P} w _.

(** ** Extensions of the heaps *)
Definition hext (hs hs' : list hist) : Prop :=
  forall i h, nth_error hs i = Some h -> exists h', nth_error hs' i = Some h' /\ same_geometry h h'.

Definition same_body (t t' : tmpl) : Prop :=
  t_kind t' = t_kind t /\ t_name t' = t_name t /\ t_hist t' = t_hist t /\ t_counts t' = t_counts t /\
  t_errs_sq t' = t_errs_sq t /\ t_bins t' = t_bins t /\ t_nb t' = t_nb t /\ t_range t' = t_range t.
Definition text (ts ts' : list tmpl) : Prop :=
  forall i t, nth_error ts i = Some t -> exists t', nth_error ts' i = Some t' /\ same_body t t'.

Lemma geometry_refl h : same_geometry h h. Proof. repeat split. Qed.
Lemma body_refl t : same_body t t. Proof. repeat split. Qed.
Lemma hext_refl hs : hext hs hs. Proof. intros i h H; eauto using geometry_refl. Qed.
Lemma text_refl ts : text ts ts. Proof. intros i h H; eauto using body_refl. Qed.
Lemma nth_app_some {A} (l l' : list A) i a : nth_error l i = Some a -> nth_error (l ++ l') i = Some a.
Proof. intros H. rewrite nth_error_app1; auto. apply nth_error_Some. congruence. Qed.
Lemma hext_app hs l : hext hs (hs ++ l).
Proof. intros i h H. exists h. split; [now apply nth_app_some|apply geometry_refl]. Qed.
Lemma text_app ts l : text ts (ts ++ l).
Proof. intros i h H. exists h. split; [now apply nth_app_some|apply body_refl]. Qed.
Lemma hext_upd hs i h h' : nth_error hs i = Some h -> same_geometry h h' -> hext hs (upd i h' hs).
Proof.
  intros H G j g Hj. destruct (Nat.eq_dec i j) as [->|N].
  - assert (g = h) by congruence. subst. exists h'. split; auto. apply upd_same. apply nth_error_Some. congruence.
  - exists g. rewrite upd_other by auto. split; auto. apply geometry_refl.
Qed.
Lemma text_upd ts i h h' : nth_error ts i = Some h -> same_body h h' -> text ts (upd i h' ts).
Proof.
  intros H G j g Hj. destruct (Nat.eq_dec i j) as [->|N].
  - assert (g = h) by congruence. subst. exists h'. split; auto. apply upd_same. apply nth_error_Some. congruence.
  - exists g. rewrite upd_other by auto. split; auto. apply body_refl.
Qed.

Lemma hist_ok_geometry h h' : same_geometry h h' -> hist_ok h -> hist_ok h'.
Proof. intros (A & B & C & D & E) []. constructor; rewrite ?A, ?B, ?C, ?D, ?E; auto. Qed.
Lemma tmpl_ok_hext hs hs' t : hext hs hs' -> tmpl_ok hs t -> tmpl_ok hs' t.
Proof.
  intros H []. constructor; auto. destruct to_hist0 as (h & H1 & H2 & H3 & H4).
  destruct (H _ _ H1) as (h' & H5 & (A & B & C & D & E)). exists h'. repeat split; congruence.
Qed.
Lemma chan_ok_ext hs hs' ts ts' ps ps' c : hext hs hs' -> text ts ts' -> incl ps ps' ->
  chan_ok hs ts ps c -> chan_ok hs' ts' ps' c.
Proof.
  intros H T P []. constructor; auto.
  - eapply incl_tran; eauto.
  - intros p tid Hi. destruct (co_tmpl0 _ _ Hi) as (t & H1 & H2 & H3 & H4).
    destruct (T _ _ H1) as (t' & H5 & (A & B & C & D & E & F & G & I)). exists t'. repeat split; congruence.
  - intros hid Hd. destruct (co_data0 _ Hd) as (h & H1 & H2 & H3).
    destruct (H _ _ H1) as (h' & H5 & (A & B & C & D & E)). exists h'. repeat split; congruence.
Qed.

(** ** The order "if w is well formed so is w'" *)
Section Keeps.
Context {P : list string}.
Local Notation WF := (WFg P).
Definition keepsWF (w w' : world) : Prop := WF w -> WF w'.
Lemma wf_po : preorder keepsWF.
Proof. split; unfold keepsWF; auto. Qed.

Lemma wf_core w w' : core_eq w w' -> WF w -> WF w'.
Proof. intros [E1 E2 E3 E4 E5 E6 E7 E8] []. constructor; rewrite ?E1, ?E2, ?E3, ?E4, ?E5, ?E6, ?E7, ?E8; auto. Qed.

Lemma pres_core_wf {A} (m : M A) : pres core_eq m -> pres keepsWF m.
Proof. intros H w W. eapply wf_core; eauto. Qed.

Lemma wf_set_hists w hs : WF w -> hext (w_hists w) hs -> (forall i h, nth_error hs i = Some h -> hist_ok h) ->
  WF (set_hists w hs).
Proof.
  intros [] E H. constructor; simpl; auto.
  - intros. eapply tmpl_ok_hext; eauto.
  - intros. eapply chan_ok_ext; eauto using text_refl, incl_refl.
Qed.
Lemma wf_set_tmpls w ts : WF w -> text (w_tmpls w) ts -> (forall i t, nth_error ts i = Some t -> tmpl_ok (w_hists w) t) ->
  WF (set_tmpls w ts).
Proof. intros [] E H. constructor; simpl; auto. intros. eapply chan_ok_ext; eauto using hext_refl, incl_refl. Qed.

Lemma wf_alloc_hist h : hist_ok h -> pres keepsWF (alloc_hist h).
Proof.
  intros H w W. simpl. apply wf_set_hists; auto using hext_app.
  intros i g G. apply nth_snoc in G as [[G _]|[-> ->]]; auto. eapply wfg_hists; eauto.
Qed.

Lemma wf_on_hist {A} i (f : hist -> hist * res A) : (forall h, same_geometry h (fst (f h))) -> pres keepsWF (on_hist i f).
Proof.
  intros H w W. unfold on_hist. destruct (nth_error (w_hists w) i) as [h|] eqn:E; [|exact W].
  specialize (H h). destruct (f h) as [h' r]. simpl in *. apply wf_set_hists; eauto using hext_upd.
  intros j g G. apply upd_some in G as [[-> ->]|[_ G]]; eauto using wfg_hists.
  eapply hist_ok_geometry; eauto. eapply wfg_hists; eauto.
Qed.

Lemma wf_on_tmpl {A} i (f : tmpl -> tmpl * res A) :
  (forall hs t, tmpl_ok hs t -> same_body t (fst (f t)) /\ tmpl_ok hs (fst (f t))) -> pres keepsWF (on_tmpl i f).
Proof.
  intros H w W. unfold on_tmpl. destruct (nth_error (w_tmpls w) i) as [t|] eqn:E; [|exact W].
  destruct (H (w_hists w) t) as [H1 H2]; [eapply wfg_tmpls; eauto|]. destruct (f t) as [t' r]. simpl in *.
  apply wf_set_tmpls; eauto using text_upd.
  intros j g G. apply upd_some in G as [[-> ->]|[_ G]]; eauto using wfg_tmpls.
Qed.

(** ** Histograms *)
Lemma fill_with_geometry stat shape h n w : same_geometry h (fst (fill_with stat shape h n w)).
Proof.
  unfold fill_with.
  repeat match goal with |- context [match ?x with _ => _ end] => destruct x end; simpl; repeat split.
Qed.
Lemma fill1_geometry h d w : same_geometry h (fst (hist1_fill h d w)). Proof. apply fill_with_geometry. Qed.
Lemma fill2_geometry h d d' w : same_geometry h (fst (hist2_fill h d d' w)). Proof. apply fill_with_geometry. Qed.

Lemma last_nth_R (l : list R) d : l <> [] -> last l d = nth (length l - 1) l d.
Proof.
  intros H. induction l as [|a l IH]; [congruence|]. destruct l as [|b l]; auto.
  change (last (a :: b :: l) d) with (last (b :: l) d). rewrite IH by discriminate. simpl. rewrite Nat.sub_0_r. reflexivity.
Qed.

Lemma linspace_length lo hi n : length (np_linspace lo hi (n + 1)) = S n.
Proof. rewrite Nat.add_1_r. destruct n; simpl; auto. rewrite map_length, seq_length. reflexivity. Qed.
Lemma linspace_range lo hi n : (1 <= n)%nat -> get_bin_range (mk_edges false (np_linspace lo hi (n + 1))) = Ok (lo, hi).
Proof.
  intros H. assert (L := linspace_length lo hi n).
  assert (L0 : np_linspace lo hi (n + 1) <> []) by (destruct (np_linspace lo hi (n + 1)); simpl in L; congruence).
  unfold get_bin_range. cbn [e_vals]. rewrite last_nth_R by auto. rewrite L.
  replace (S n - 1)%nat with n by lia.
  rewrite uniform_linspace by auto. unfold Spec_Template.uniform_edges.
  rewrite (nth_indep _ 0 (lo + INR 0 * ((hi - lo) / INR n))) by (rewrite map_length, seq_length; lia).
  rewrite (map_nth (fun i => lo + INR i * ((hi - lo) / INR n))), seq_nth by lia.
  replace (0 + n)%nat with n by lia. cbn [seq map]. f_equal. f_equal.
  - simpl; lra.
  - assert (INR n <> 0) by (apply not_0_INR; lia). field. auto.
Qed.

Lemma hist1_empty_ok b r h : hist1_empty b r = Ok h -> hist_ok h.
Proof.
  unfold hist1_empty. destruct (hist1_init_bin_edges b r) as [[[n e] r']|] eqn:E; [|discriminate].
  cbn. intros H; injection H as <-.
  assert (X : n = (length (e_vals e) - 1)%nat /\ e_vals e <> [] /\ ((1 <= n)%nat -> get_bin_range e = Ok r')).
  { assert (EQ : forall z, rbind (linspace_edges r z) (fun e => match r with Some r => Ok (Z.to_nat z, e, r) | None => Err TypeError end) = Ok (n, e, r') ->
       n = (length (e_vals e) - 1)%nat /\ e_vals e <> [] /\ ((1 <= n)%nat -> get_bin_range e = Ok r')).
    { intros z. unfold linspace_edges. destruct r as [[lo hi]|]; [|discriminate].
      destruct (Z.ltb z 0) eqn:Z0; [discriminate|]. cbn [rbind]. intros H; injection H as <- <- <-. cbn [e_vals].
      pose proof (linspace_length lo hi (Z.to_nat z)) as L. repeat split.
      - lia. - intros K. rewrite K in L. discriminate. - apply linspace_range. }
    destruct b as [z|[|z l]|e0]; simpl in E; try discriminate; eauto.
    unfold get_bin_range in E. destruct (e_vals e0) as [|a l] eqn:V; [discriminate|]. cbn in E. injection E as <- <- <-.
    rewrite V. repeat split. - discriminate. - intros _. unfold get_bin_range. rewrite V. reflexivity. }
  destruct X as (X1 & X2 & X3). constructor; simpl; auto.
  - rewrite <- X1; reflexivity.
  - intros e' [<-|[]]; auto.
  - intros K. rewrite X3 by (apply K; auto). reflexivity.
Qed.

Lemma hist1_new_ok b r d w h : hist1_new b r d w = Ok h -> hist_ok h.
Proof.
  unfold hist1_new. destruct (hist1_empty b r) as [h0|] eqn:E; [|discriminate]. cbn [rbind]. apply hist1_empty_ok in E.
  destruct d as [d|]; [|congruence]. pose proof (fill1_geometry h0 d w) as G.
  destruct (hist1_fill h0 d w) as [h' [[]|]]; [|discriminate]. intros H; injection H as <-. eapply hist_ok_geometry; eauto.
Qed.

Lemma get_bin_range_ne e r : get_bin_range e = Ok r -> e_vals e <> [].
Proof. unfold get_bin_range. destruct (e_vals e); [discriminate|]. intros _; discriminate. Qed.

Lemma hist2_empty_ok b r h : hist2_empty b r = Ok h -> hist_ok h.
Proof.
  unfold hist2_empty. destruct b as [nx ny|ex ey].
  - destruct r as [[[lx hx] [ly hy]]|]; [|discriminate]. unfold linspace_edges.
    destruct (Z.ltb nx 0); [discriminate|]. destruct (Z.ltb ny 0); [discriminate|]. cbn [rbind].
    intros H; injection H as <-. constructor; cbn [h_num_bins h_shape h_edges h_range h_kind map e_vals]; auto.
    + rewrite !linspace_length. f_equal; [lia|]. f_equal; lia.
    + intros e [<-|[<-|[]]]; cbn [e_vals]; intros K.
      * pose proof (linspace_length lx hx (Z.to_nat nx)) as L. rewrite K in L. discriminate.
      * pose proof (linspace_length ly hy (Z.to_nat ny)) as L. rewrite K in L. discriminate.
    + intros K. rewrite !linspace_range by (apply K; simpl; auto). reflexivity.
  - destruct (get_bin_range ex) as [rx|] eqn:Ex; [|discriminate]. destruct (get_bin_range ey) as [ry|] eqn:Ey; [|discriminate].
    cbn [rbind]. intros H; injection H as <-. constructor; cbn [h_num_bins h_shape h_edges h_range h_kind map]; auto.
    + intros e [<-|[<-|[]]]; eapply get_bin_range_ne; eauto.
    + intros _. rewrite Ex, Ey. reflexivity.
Qed.
Lemma hist2_new_ok b r d w h : hist2_new b r d w = Ok h -> hist_ok h.
Proof.
  unfold hist2_new. destruct (hist2_empty b r) as [h0|] eqn:E; [|discriminate]. cbn [rbind]. apply hist2_empty_ok in E.
  destruct d as [[d d']|]; [|congruence]. pose proof (fill2_geometry h0 d d' w) as G.
  destruct (hist2_fill h0 d d' w) as [h' [[]|]]; [|discriminate]. intros H; injection H as <-. eapply hist_ok_geometry; eauto.
Qed.

Lemma with_binned_geometry h c e : same_geometry h (with_binned h c e). Proof. repeat split. Qed.
Lemma hist1_from_binned_ok c e er h : hist1_from_binned c e er = Ok h -> hist_ok h.
Proof.
  unfold hist1_from_binned. destruct (hist1_empty (B1Edges e) None) as [h0|] eqn:E; [|discriminate].
  intros H; injection H as <-. eapply hist_ok_geometry; [apply with_binned_geometry|]. eapply hist1_empty_ok; eauto.
Qed.
Lemma from_binned_ok k c es er h : from_binned k c es er = Ok h -> hist_ok h /\ h_kind h = k /\ h_edges h = es.
Proof.
  destruct k, es as [|e [|e' [|]]]; simpl; try discriminate.
  - intros H. split; [eapply hist1_from_binned_ok; eauto|]. revert H. unfold hist1_from_binned, hist1_empty, hist1_init_bin_edges.
    destruct (get_bin_range e); [|discriminate]. cbn [rbind]. intros H; injection H as <-. auto.
  - unfold hist2_from_binned. destruct (hist2_empty (B2Edges e e') None) as [h0|] eqn:E; [|discriminate].
    intros H; injection H as <-. split.
    + eapply hist_ok_geometry; [apply with_binned_geometry|]. eapply hist2_empty_ok; eauto.
    + revert E. unfold hist2_empty. destruct (get_bin_range e); [|discriminate]. destruct (get_bin_range e'); [|discriminate].
      cbn [rbind]. intros H; injection H as <-. auto.
Qed.
Lemma projection_ok ax h p : hist2_projection ax h = Ok p -> hist_ok p.
Proof.
  unfold hist2_projection. destruct (nd_shape (h_counts h)) as [|nx [|ny [|]]]; try discriminate.
  destruct (nd_shape (h_errs_sq h)) as [|mx [|my [|]]]; try discriminate.
  destruct (h_edges h) as [|ex [|ey [|]]]; try discriminate. destruct ax; apply hist1_from_binned_ok.
Qed.

(** ** Templates *)
Lemma square_spec n m : square n m = true <-> length m = n /\ forall r, In r m -> length r = n.
Proof.
  unfold square, rows_ok. rewrite andb_true_iff, Nat.eqb_eq, forallb_forall. split; intros [A B]; split; auto; intros r H.
  - apply Nat.eqb_eq. auto. - apply Nat.eqb_eq. auto.
Qed.
Lemma map2_length {A B C} (f : A -> B -> C) a b : length (map2 f a b) = Nat.min (length a) (length b).
Proof. revert b; induction a; destruct b; simpl; auto. Qed.
Lemma map2_in {A B C} (f : A -> B -> C) a b c : In c (map2 f a b) -> exists x y, In x a /\ In y b /\ c = f x y.
Proof.
  revert b; induction a as [|x a IH]; destruct b as [|y b]; simpl; try tauto.
  intros [<-|H]; [exists x, y; auto|]. destruct (IH _ H) as (x' & y' & ? & ? & ?). exists x', y'; auto.
Qed.
Lemma np_diag_square v : square (length v) (np_diag v) = true.
Proof.
  apply square_spec. unfold np_diag. rewrite map_length, seq_length. split; auto.
  intros r H. apply in_map_iff in H as (i & <- & _). rewrite map_length, seq_length; auto.
Qed.
Lemma madd_square n a b : square n a = true -> square n b = true -> square n (np_madd a b) = true.
Proof.
  rewrite !square_spec. intros [A A'] [B B']. unfold np_madd. rewrite map2_length. split; [lia|].
  intros r H. apply map2_in in H as (x & y & Hx & Hy & ->). rewrite map2_length, A', B' by auto. lia.
Qed.
Lemma matmul_square n a b : square n (np_matmul n a b) = true.
Proof.
  apply square_spec. unfold np_matmul. rewrite map_length, seq_length. split; auto.
  intros r H. apply in_map_iff in H as (i & <- & _). rewrite map_length, seq_length; auto.
Qed.
Lemma cov2corr_square n m : square n m = true -> square n (cov2corr m) = true.
Proof. intros H. apply square_spec in H as [H _]. unfold cov2corr. rewrite H. apply matmul_square. Qed.
Lemma relative_errors_length n m c : square n m = true -> length c = n -> length (relative_errors m c) = n.
Proof.
  intros H L. apply square_spec in H as [H _]. unfold relative_errors, np_diagonal.
  rewrite map2_length, map_length, seq_length. lia.
Qed.

Lemma template_new_ok hs k name i h t : nth_error hs i = Some h -> hist_ok h -> template_new k name i h = Ok t -> tmpl_ok hs t.
Proof.
  intros H O. unfold template_new. destruct (kind_eqb_spec k (h_kind h)) as [->|]; [|discriminate]. cbn [negb].
  destruct (Nat.eqb_spec (length (nd_flat (h_counts h))) (nprod (h_num_bins h))) as [E1|]; [|discriminate].
  destruct (Nat.eqb_spec (length (nd_flat (h_errs_sq h))) (nprod (h_num_bins h))) as [E2|]; [|discriminate]. cbn [andb negb].
  intros T; injection T as <-.
  assert (S1 : square (nprod (h_num_bins h)) (stat_cov (nd_flat (h_errs_sq h))) = true).
  { unfold stat_cov. rewrite <- E2. erewrite <- map_length. apply np_diag_square. }
  constructor; cbn [t_hist t_bins t_range t_kind t_nb t_params t_counts t_rel t_cov t_inv].
  - exists h. auto.
  - rewrite (ho_bins h O). reflexivity.
  - simpl. rewrite repeat_length. reflexivity.
  - exact E1.
  - apply relative_errors_length; auto.
  - exact S1.
  - rewrite <- (repeat_length (Fin 1) (nprod (h_num_bins h))) at 1. apply np_diag_square.
Qed.

Lemma set_params_ok hs t p : tmpl_ok hs t -> length p = S (t_nb t) -> same_body t (set_params t p) /\ tmpl_ok hs (set_params t p).
Proof. intros [] H. split; [repeat split|]. constructor; auto. Qed.
Lemma same_ok hs t : tmpl_ok hs t -> same_body t t /\ tmpl_ok hs t. Proof. split; auto using body_refl. Qed.

Lemma params_setter_ok hs t v : tmpl_ok hs t -> same_body t (fst (params_setter t v)) /\ tmpl_ok hs (fst (params_setter t v)).
Proof.
  intros H. destruct v; simpl; auto using same_ok. destruct (Nat.eqb_spec (length l) (length (t_params t))); simpl; auto using same_ok.
  apply set_params_ok; auto. rewrite e. apply (to_params hs t H).
Qed.
Lemma yield_setter_ok hs t v : tmpl_ok hs t -> same_body t (fst (yield_setter t v)) /\ tmpl_ok hs (fst (yield_setter t v)).
Proof.
  intros H. unfold yield_setter.
  assert (X : forall x, let r := match t_params t with _ :: nui => (set_params t (x :: nui), Ok tt) | [] => (t, Err IndexError) end in
     same_body t (fst r) /\ tmpl_ok hs (fst r)).
  { intros x. destruct (t_params t) eqn:E; simpl; auto using same_ok. apply set_params_ok; auto. simpl.
    pose proof (to_params hs t H) as L. rewrite E in L. exact L. }
  destruct v as [x|z|[|x [|]]|]; simpl; auto using same_ok; apply X.
Qed.
Lemma nui_setter_ok hs t v : tmpl_ok hs t -> same_body t (fst (nui_setter t v)) /\ tmpl_ok hs (fst (nui_setter t v)).
Proof.
  intros H. destruct v; simpl; auto using same_ok. destruct (Nat.eqb_spec (length l) (t_nb t)); simpl; auto using same_ok.
  apply set_params_ok; auto. pose proof (to_params hs t H) as L. destruct (t_params t); simpl in *; congruence.
Qed.
Lemma t_reset_ok hs t h : tmpl_ok hs t -> same_body t (t_reset t h) /\ tmpl_ok hs (t_reset t h).
Proof. intros H. apply set_params_ok; auto. simpl. rewrite repeat_length. reflexivity. Qed.

Section Inv.
  Variable inv : mat -> res mat.
  Hypothesis inv_ok : inv_spec inv.
  Lemma add_cov_raw_ok hs t c : tmpl_ok hs t -> square (t_nb t) c = true ->
    same_body t (fst (add_cov_raw inv t c)) /\ tmpl_ok hs (fst (add_cov_raw inv t c)).
  Proof.
    intros H S. destruct inv_ok as (_ & _ & I). unfold add_cov_raw.
    pose proof (madd_square _ _ _ (to_cov hs t H) S) as S1.
    destruct (inv (cov2corr (np_madd (t_cov t) c))) as [m|e] eqn:E; simpl; (split; [repeat split|]); destruct H; constructor; simpl; auto.
    - apply relative_errors_length; auto.
    - eapply I; [apply cov2corr_square; exact S1|exact E].
  Qed.
  Lemma add_cov_mat_ok hs t c : tmpl_ok hs t -> same_body t (fst (t_add_cov_mat inv t c)) /\ tmpl_ok hs (fst (t_add_cov_mat inv t c)).
  Proof.
    intros H. unfold t_add_cov_mat. destruct (t_kind t); simpl; auto using same_ok.
    destruct (square (t_nb t) c) eqn:E; simpl; auto using same_ok, add_cov_raw_ok.
  Qed.
  Lemma map3_length {A B C D} (f : A -> B -> C -> D) a b c : length a = length b -> length b = length c -> length (map3 f a b c) = length a.
  Proof. revert b c; induction a; destruct b, c; simpl; intros; try congruence. f_equal. apply IHa; congruence. Qed.
  Lemma sys_cov_square a b c m : get_systematic_cov_mat a b c = Ok m -> square (length a) m = true.
  Proof.
    unfold get_systematic_cov_mat. destruct (Nat.eqb_spec (length a) (length b)); [|discriminate].
    destruct (Nat.eqb_spec (length b) (length c)); [|discriminate]. simpl. intros H; injection H as <-.
    apply square_spec. unfold np_outer. rewrite map_length, map3_length by congruence. split; auto.
    intros r H. apply in_map_iff in H as (x & <- & _). rewrite map_length, map3_length; congruence.
  Qed.
  Lemma add_variation_ok hs t d u v : tmpl_ok hs t ->
    same_body t (fst (t_add_variation inv t d u v)) /\ tmpl_ok hs (fst (t_add_variation inv t d u v)).
  Proof.
    intros H. unfold t_add_variation. destruct (t_kind t), d; simpl; auto using same_ok.
    - destruct (t_range t) as [|r [|]]; simpl; auto using same_ok.
      match goal with |- context [match ?x with Ok _ => _ | Err _ => _ end] => destruct x as [m|] eqn:E end; simpl; auto using same_ok.
      apply add_cov_raw_ok; auto.
      destruct (hist1_new _ _ _ u); [|discriminate]. destruct (hist1_new _ _ _ v); [|discriminate]. cbn [rbind] in E.
      apply sys_cov_square in E. rewrite (to_counts hs t H) in E. exact E.
    - destruct (t_bins t) as [|nx [|ny [|]]]; simpl; auto using same_ok.
      destruct (t_range t) as [|rx [|ry [|]]]; simpl; auto using same_ok.
      match goal with |- context [match ?x with Ok _ => _ | Err _ => _ end] => destruct x as [m|] eqn:E end; simpl; auto using same_ok.
  Qed.
End Inv.

(** ** Channels *)
Lemma natlist_eqb_eq a b : natlist_eqb a b = true <-> a = b.
Proof. unfold natlist_eqb. destruct (list_eq_dec Nat.eq_dec a b); split; congruence. Qed.
Lemma ranges_eqb_eq a b : ranges_eqb a b = true <-> a = b.
Proof.
  revert b; induction a as [|[x y] a IH]; destruct b as [|[x' y'] b]; simpl; try (split; congruence).
  unfold pairR_eqb; simpl. rewrite !andb_true_iff, IH.
  destruct (Reqb_spec x x'), (Reqb_spec y y'); split; intros H; repeat split; try (destruct H as [[? ?] ?]; discriminate); try congruence.
  destruct H; congruence.
Qed.
Lemma check_template_eq c t : check_template c t = true <-> t_bins t = c_bins c /\ t_range t = c_range c.
Proof. unfold check_template. rewrite andb_true_iff, natlist_eqb_eq, ranges_eqb_eq. intuition congruence. Qed.
Lemma check_hist_eq c h : check_hist c h = true <-> h_shape h = c_bins c /\ h_range h = c_range c.
Proof. unfold check_hist. rewrite andb_true_iff, natlist_eqb_eq, ranges_eqb_eq. intuition congruence. Qed.

Lemma smem_In s l : smem s l = true <-> In s l.
Proof.
  unfold smem. rewrite existsb_exists. split.
  - intros (x & H & E). apply String.eqb_eq in E. congruence.
  - intros H. exists s. split; auto. apply String.eqb_refl.
Qed.
Lemma smem_false s l : smem s l = false <-> ~ In s l.
Proof. rewrite <- smem_In. destruct (smem s l); intuition congruence. Qed.

Lemma dset_new {V} (d : list (string * V)) k v : ~ In k (keys d) -> dset String.eqb d k v = d ++ [(k, v)].
Proof.
  induction d as [|[k' v'] d IH]; simpl; auto. intros H. destruct (String.eqb_spec k k'); [exfalso; auto|].
  f_equal. auto.
Qed.
Lemma dset_keys {V} (d : list (string * V)) k v : In k (keys d) -> keys (dset String.eqb d k v) = keys d.
Proof.
  induction d as [|[k' v'] d IH]; simpl; [tauto|]. destruct (String.eqb_spec k k') as [->|]; simpl; auto.
  intros [H|H]; [congruence|]. f_equal; auto.
Qed.
Lemma dget_dset {V} (d : list (string * V)) k v k' : dget String.eqb (dset String.eqb d k v) k' = if String.eqb k' k then Some v else dget String.eqb d k'.
Proof.
  induction d as [|[k0 v0] d IH]; simpl.
  - destruct (String.eqb_spec k' k); auto.
  - destruct (String.eqb_spec k k0) as [->|]; simpl.
    + destruct (String.eqb_spec k' k0); auto.
    + destruct (String.eqb_spec k' k0) as [->|]; auto. destruct (String.eqb_spec k0 k); congruence.
Qed.
Lemma dget_In {V} (d : list (string * V)) k v : dget String.eqb d k = Some v -> In (k, v) d.
Proof.
  induction d as [|[k0 v0] d IH]; simpl; [discriminate|]. destruct (String.eqb_spec k k0) as [->|]; auto.
  intros H; left; congruence.
Qed.
Lemma In_dget {V} (d : list (string * V)) k v : NoDup (keys d) -> In (k, v) d -> dget String.eqb d k = Some v.
Proof.
  induction d as [|[k0 v0] d IH]; simpl; [tauto|]. intros N H. inversion N; subst.
  destruct (String.eqb_spec k k0) as [->|].
  - destruct H as [H|H]; [congruence|]. exfalso. apply H2. apply (in_map fst) in H. exact H.
  - destruct H as [H|H]; [congruence|]. auto.
Qed.
Lemma dget_None {V} (d : list (string * V)) k : dget String.eqb d k = None <-> ~ In k (keys d).
Proof.
  induction d as [|[k0 v0] d IH]; simpl; [tauto|]. destruct (String.eqb_spec k k0) as [->|].
  - intuition congruence. - rewrite IH. intuition congruence.
Qed.

(** the effect of adding a template to a channel *)
Lemma add_template_cases hs ts ps c p tid t eff : chan_ok hs ts ps c ->
  (exists e, ch_add_template c p tid t eff = (c, Err e)) \/
  (~ In p (c_procs c) /\ t_bins t = c_bins c /\ t_range t = c_range c /\ (c_ttype c = None \/ c_ttype c = Some (t_kind t)) /\
   exists dim, dim = length (c_bins c) /\ ch_add_template c p tid t eff =
    (mk_chan (c_name c) (c_tmpls c ++ [(p, tid)]) (c_effs c ++ [(p, eff)]) (c_procs c ++ [p]) (c_bins c) (c_range c)
       (c_data c) (Some dim) (Some (t_kind t)), Ok tt)).
Proof.
  intros C. unfold ch_add_template. destruct (check_template c t) eqn:E; [|left; eauto].
  apply check_template_eq in E as [E1 E2]. unfold add_template_raw.
  destruct (smem p (keys (c_tmpls c))) eqn:S; [left; eauto|]. apply smem_false in S.
  rewrite (dset_new _ _ _ S). rewrite dset_new by (rewrite (co_ekeys _ _ _ _ C), <- (co_keys _ _ _ _ C); auto).
  rewrite (co_keys _ _ _ _ C) in S.
  destruct (c_ttype c) as [k|] eqn:T.
  - assert (D : c_dim c = Some (length (c_bins c))) by (rewrite (co_dim _ _ _ _ C), T; reflexivity). rewrite D.
    destruct (kind_eqb_spec (t_kind t) k) as [K|K]; simpl.
    + right. subst k. repeat split; auto. eexists. split; reflexivity.
    + left. exists RuntimeError. f_equal. destruct c; simpl in *; subst; reflexivity.
  - assert (D : c_dim c = None) by (rewrite (co_dim _ _ _ _ C), T; reflexivity). rewrite D. destruct (kind_eqb_spec (t_kind t) (t_kind t)) as [K|K]; [|congruence]. simpl.
    right. repeat split; auto. exists (length (t_bins t)). split; [now rewrite E1|reflexivity].
Qed.

Lemma NoDup_snoc {A} (l : list A) a : NoDup l -> ~ In a l -> NoDup (l ++ [a]).
Proof.
  induction l as [|b l IH]; simpl; intros N H; [constructor; auto; constructor|]. inversion N; subst.
  constructor; [|apply IH; auto]. intros I. apply in_app_or in I as [I|[I|[]]]; auto.
Qed.

Lemma keys_app {V} (a b : list (string * V)) : keys (a ++ b) = keys a ++ keys b. Proof. apply map_app. Qed.

Lemma wf_upd_chan w i c c' : WF w -> nth_error (w_chans w) i = Some c -> c_name c' = c_name c ->
  chan_ok (w_hists w) (w_tmpls w) (P ++ w_procs w) c' -> WF (set_chans w (upd i c' (w_chans w))).
Proof.
  intros [] H N O. constructor; simpl; auto.
  - intros j d D. apply upd_some in D as [[-> ->]|[_ D]]; eauto.
  - intros n j Hj. destruct (wfg_dict0 _ _ Hj) as (d & D1 & D2). destruct (Nat.eq_dec i j) as [->|K].
    + exists c'. rewrite upd_same by (apply nth_error_Some; congruence). split; auto. congruence.
    + exists d. rewrite upd_other; auto.
Qed.

Lemma wf_add_template ch p tid eff : pres keepsWF (mct_add_template ch p tid eff).
Proof.
  intros w W. unfold mct_add_template. destruct (dget String.eqb (w_channels w) ch) as [cid|]; [|exact W].
  destruct (smem p (w_procs w)) eqn:PI; [|exact W]. apply smem_In in PI. unfold bind, get_tmpl.
  destruct (nth_error (w_tmpls w) tid) as [t|] eqn:T; [|exact W]. unfold on_chan.
  destruct (nth_error (w_chans w) cid) as [c|] eqn:C; [|exact W].
  pose proof (wfg_chans w W _ _ C) as O.
  destruct (add_template_cases _ _ _ c p tid t eff O) as [[e E]|(N & B & R & K & dim & -> & E)]; rewrite E; simpl.
  - eapply wf_upd_chan; eauto.
  - eapply wf_upd_chan; eauto. destruct O. constructor; simpl; auto.
    + rewrite keys_app, co_keys0. reflexivity.
    + rewrite keys_app, co_ekeys0. reflexivity.
    + now apply NoDup_snoc.
    + apply incl_app; auto. intros x [<-|[]]. apply in_or_app; auto.
    + intros q i I. apply in_app_or in I as [I|[I|[]]].
      * destruct (co_tmpl0 _ _ I) as (t' & T1 & T2 & T3 & T4). exists t'. repeat split; auto.
        destruct K as [K|K]; congruence.
      * injection I as <- <-. exists t. auto.
    + intros H. destruct (c_tmpls c); discriminate.
Qed.

Lemma wf_add_data kw : pres keepsWF (mct_add_data kw).
Proof.
  unfold mct_add_data. apply (pres_forM wf_po). intros [n hid] w W. simpl.
  destruct (dget String.eqb (w_channels w) n) as [cid|]; [|exact W]. unfold bind, get_hist.
  destruct (nth_error (w_hists w) hid) as [h|] eqn:H; [|exact W]. unfold on_chan.
  destruct (nth_error (w_chans w) cid) as [c|] eqn:C; [|exact W]. unfold ch_add_data.
  destruct (check_hist c h) eqn:E; simpl; (eapply wf_upd_chan; eauto); [|eapply wfg_chans; eauto].
  apply check_hist_eq in E as [E1 E2]. destruct (wfg_chans w W _ _ C). constructor; simpl; auto.
  intros i I. injection I as <-. exists h. auto.
Qed.

Lemma dset_In {V} (d : list (string * V)) k v k' v' : NoDup (keys d) -> In (k', v') (dset String.eqb d k v) ->
  (k' = k /\ v' = v) \/ (k' <> k /\ In (k', v') d).
Proof.
  intros N. induction d as [|[k0 v0] d IH]; simpl.
  - intros [H|[]]. left. split; congruence.
  - inversion N; subst. destruct (String.eqb_spec k k0) as [->|K]; simpl.
    + intros [H|H]; [left; split; congruence|]. right. split; auto. intros ->. apply H1. apply (in_map fst) in H. exact H.
    + intros [H|H]; [right; split; [congruence|left; auto]|]. destruct (IH H2 H) as [?|[? ?]]; auto.
Qed.

Lemma dset_snd_in {V} (d : list (string * V)) k v x : In x (map snd (dset String.eqb d k v)) -> x = v \/ In x (map snd d).
Proof.
  induction d as [|[k0 v0] d IH]; simpl.
  - intros [H|[]]; auto.
  - destruct (String.eqb_spec k k0); simpl; intros [H|H]; auto. destruct (IH H); auto.
Qed.
Lemma dset_snd_nodup {V} (d : list (string * V)) k v : NoDup (map snd d) -> ~ In v (map snd d) -> NoDup (map snd (dset String.eqb d k v)).
Proof.
  induction d as [|[k0 v0] d IH]; simpl; intros N H.
  - constructor; auto.
  - inversion N; subst. destruct (String.eqb k k0); simpl; constructor; auto.
    intros I. apply dset_snd_in in I as [I|I]; auto.
Qed.
Lemma dset_keys_nodup {V} (d : list (string * V)) k v : NoDup (keys d) -> NoDup (keys (dset String.eqb d k v)).
Proof.
  intros N. destruct (in_dec string_dec k (keys d)) as [H|H].
  - rewrite dset_keys; auto. - rewrite dset_new by auto. rewrite keys_app. apply NoDup_snoc; auto.
Qed.

Lemma wf_define_channel n b r : pres keepsWF (define_channel n b r).
Proof.
  intros w W. simpl. destruct W.
  assert (L : ~ In (length (w_chans w)) (map snd (w_channels w))).
  { intros I. apply in_map_iff in I as ([m i] & E & I). simpl in E. subst. destruct (wfg_dict0 _ _ I) as (c & C & _).
    assert (nth_error (w_chans w) (length (w_chans w)) <> None) by congruence. apply nth_error_Some in H. lia. }
  constructor; simpl; auto using dset_keys_nodup, dset_snd_nodup.
  - intros i c C. apply nth_snoc in C as [[C _]|[-> ->]]; eauto. constructor; simpl; auto; try constructor; try discriminate.
    + intros x []. + intros p tid [].
  - intros m i I. apply dset_In in I as [[-> ->]|[N I]]; auto.
    + exists (chan_new n b r). rewrite nth_error_app2, Nat.sub_diag by lia. auto.
    + destruct (wfg_dict0 _ _ I) as (c & C1 & C2). exists c. split; auto. now apply nth_app_some.
Qed.

Lemma wf_define_process n : pres keepsWF (define_process n).
Proof.
  intros w W. unfold define_process. destruct (smem n (w_procs w)) eqn:E; [exact W|]. apply smem_false in E. simpl.
  destruct W. constructor; simpl; auto using NoDup_snoc.
  - intros i c C. eapply chan_ok_ext; eauto using hext_refl, text_refl. rewrite app_assoc. apply incl_appl, incl_refl.
  - intros p I. destruct (wfg_cons0 _ I) as (A & B & C). repeat split; auto. apply in_or_app; auto.
Qed.

Lemma wf_constraint p v e : pres keepsWF (add_gaussian_constraint p v e).
Proof.
  intros w W. unfold add_gaussian_constraint. destruct (smem p (w_procs w)) eqn:E; [|exact W]. apply smem_In in E. simpl.
  destruct W. constructor; simpl; auto. intros q I. rewrite !dget_dset. destruct (String.eqb_spec q p) as [->|N].
  - repeat split; eauto.
  - apply in_app_or in I as [I|[I|[]]]; [auto|congruence].
Qed.

Lemma wf_tmpl_reset i : pres keepsWF (tmpl_reset i).
Proof. unfold tmpl_reset. pres_tac wf_po. apply wf_on_tmpl. intros. now apply t_reset_ok. Qed.
Lemma wf_reset : pres keepsWF reset_parameters.
Proof. unfold reset_parameters, ch_reset. pres_tac wf_po. apply wf_tmpl_reset. Qed.
Lemma wf_set_yield p v : pres keepsWF (set_yield p v).
Proof.
  unfold set_yield. pres_tac wf_po. destruct (smem p a); pres_tac wf_po.
  destruct (dget String.eqb (c_tmpls a2) p); pres_tac wf_po. destruct (dget String.eqb (c_effs a2) p); pres_tac wf_po.
  apply wf_on_tmpl. intros. now apply yield_setter_ok.
Qed.
Lemma wf_update x : pres keepsWF (update_parameters x).
Proof.
  unfold update_parameters, ch_update_parameters. pres_tac wf_po.
  - apply pres_core_wf, core_per_channel.
  - destruct a5 as [[[tid eff] y] n]. pres_tac wf_po; apply wf_on_tmpl; intros; [apply yield_setter_ok|apply nui_setter_ok]; auto.
Qed.

Lemma core_template_sum cid : pres core_eq (ch_template_sum cid).
Proof. unfold ch_template_sum. pres_tac core_po. Qed.
Lemma core_bin_edges cid : pres core_eq (ch_bin_edges cid).
Proof. unfold ch_bin_edges. pres_tac core_po. destruct (c_tmpls a) as [|[? ?] ?]; pres_tac core_po. Qed.
Lemma core_asimov cid b : pres core_eq (ch_asimov cid b).
Proof.
  unfold ch_asimov. pres_tac core_po. apply core_template_sum. destruct (c_ttype _); pres_tac core_po. apply core_bin_edges.
Qed.
Lemma core_toy cid d : pres core_eq (ch_toy cid d).
Proof.
  unfold ch_toy. pres_tac core_po. apply core_template_sum. destruct (c_ttype _); pres_tac core_po. apply core_bin_edges.
Qed.
Lemma asimov_hist_ok cid b w h : snd (ch_asimov cid b w) = Ok h -> hist_ok h.
Proof.
  unfold ch_asimov, bind at 1. destruct (ch_template_sum cid w) as [w1 [s|]]; [|discriminate].
  unfold bind at 1. destruct (get_chan cid w1) as [w2 [c|]]; [|discriminate].
  destruct (c_ttype c) as [k|]; [|discriminate]. unfold bind. destruct (ch_bin_edges cid w2) as [w3 [es|]]; [|discriminate].
  simpl. intros H. apply from_binned_ok in H. tauto.
Qed.
Lemma toy_hist_ok cid d w h : snd (ch_toy cid d w) = Ok h -> hist_ok h.
Proof.
  unfold ch_toy, bind at 1. destruct (ch_template_sum cid w) as [w1 [s|]]; [|discriminate].
  unfold bind at 1. destruct (get_chan cid w1) as [w2 [c|]]; [|discriminate].
  destruct (c_ttype c) as [k|]; [|discriminate]. unfold bind, lift at 1. destruct (rvs d s); [|discriminate].
  destruct (ch_bin_edges cid w2) as [w3 [es|]]; [|discriminate].
  simpl. intros H. apply from_binned_ok in H. tauto.
Qed.

(** bind where the second part may assume what the first part returned *)
Lemma pres_bind_val {A B} (m : M A) (k : A -> M B) (Q : A -> Prop) : pres keepsWF m ->
  (forall w a, snd (m w) = Ok a -> Q a) -> (forall a, Q a -> pres keepsWF (k a)) -> pres keepsWF (bind m k).
Proof.
  intros Hm HQ Hk w. unfold bind. specialize (Hm w). specialize (HQ w). destruct (m w) as [w' [a|e]]; simpl in *; auto.
  intros W. apply Hk; auto.
Qed.

Lemma wf_asimov b : pres keepsWF (generate_asimov_dataset b).
Proof.
  unfold generate_asimov_dataset. apply (pres_bind wf_po); [apply (pres_gets wf_po)|intros chs]. apply (pres_mapM wf_po). intros nc.
  apply pres_bind_val with (Q := hist_ok).
  - apply pres_core_wf, core_asimov. - intros w h. apply asimov_hist_ok.
  - intros h H. apply (pres_bind wf_po); [now apply wf_alloc_hist|intros; apply (pres_ret wf_po)].
Qed.
Lemma wf_toy d : pres keepsWF (generate_toy_dataset d).
Proof.
  unfold generate_toy_dataset. apply (pres_bind wf_po); [apply (pres_gets wf_po)|intros chs]. apply (pres_mapM wf_po). intros nc.
  apply pres_bind_val with (Q := hist_ok).
  - apply pres_core_wf, core_toy. - intros w h. apply toy_hist_ok.
  - intros h H. apply (pres_bind wf_po); [now apply wf_alloc_hist|intros; apply (pres_ret wf_po)].
Qed.

Lemma wf_lift_alloc (r : res hist) : (forall h, r = Ok h -> hist_ok h) ->
  pres keepsWF (h <- lift r ;;; _ <- alloc_hist h ;;; ret tt).
Proof.
  intros H. apply pres_bind_val with (Q := hist_ok); [apply (pres_lift wf_po)|intros w a; apply H|].
  intros h O. apply (pres_bind wf_po); [now apply wf_alloc_hist|intros; apply (pres_ret wf_po)].
Qed.

Lemma fill_op_geometry k f h : (forall h, same_geometry h (fst (f h))) -> same_geometry h (fst (fill_op k f h)).
Proof. intros H. unfold fill_op. destruct (kind_eqb k (h_kind h)); auto. apply geometry_refl. Qed.

Theorem wf_step inv o : inv_spec inv -> pres keepsWF (step inv o).
Proof.
  intros I. destruct o; simpl.
  - apply wf_lift_alloc. intros h. apply hist1_new_ok.
  - apply wf_lift_alloc. intros h. apply hist2_new_ok.
  - apply wf_lift_alloc. intros h H. apply from_binned_ok in H. tauto.
  - apply wf_on_hist. intros h. apply fill_op_geometry. intros. apply fill1_geometry.
  - apply wf_on_hist. intros h. apply fill_op_geometry. intros. apply fill2_geometry.
  - apply (pres_bind wf_po); [apply (pres_get_hist wf_po)|]. intros h. apply wf_lift_alloc.
    intros p. destruct (kind_eqb (h_kind h) K2); [apply projection_ok|discriminate].
  - intros w W. unfold bind, get_hist. destruct (nth_error (w_hists w) hid) as [h|] eqn:H; [|exact W].
    unfold lift. destruct (template_new k name hid h) as [t|] eqn:T; [|exact W]. simpl.
    apply wf_set_tmpls; auto using text_app. intros i t' T'. apply nth_snoc in T' as [[T' _]|[-> ->]].
    + eapply wfg_tmpls; eauto. + eapply template_new_ok; eauto. eapply wfg_hists; eauto.
  - apply wf_on_tmpl. intros. now apply params_setter_ok.
  - apply wf_on_tmpl. intros. now apply yield_setter_ok.
  - apply wf_on_tmpl. intros. now apply nui_setter_ok.
  - apply wf_tmpl_reset.
  - apply wf_on_tmpl. intros. now apply add_cov_mat_ok.
  - apply wf_on_tmpl. intros. now apply add_variation_ok.
  - apply wf_define_channel.
  - apply wf_define_process.
  - apply wf_add_template.
  - apply wf_add_data.
  - apply wf_constraint.
  - apply wf_set_yield.
  - apply wf_reset.
  - apply wf_update.
  - apply (pres_bind wf_po); [apply pres_core_wf, core_nll|intros; apply (pres_ret wf_po)].
  - apply (pres_bind wf_po); [apply wf_asimov|intros; apply (pres_ret wf_po)].
  - apply (pres_bind wf_po); [apply wf_toy|intros; apply (pres_ret wf_po)].
Qed.

End Keeps.
Notation WF := (WFg []).
Lemma wf_hists w : WF w -> forall i h, nth_error (w_hists w) i = Some h -> hist_ok h. Proof. apply wfg_hists. Qed.
Lemma wf_tmpls w : WF w -> forall i t, nth_error (w_tmpls w) i = Some t -> tmpl_ok (w_hists w) t. Proof. apply wfg_tmpls. Qed.
Lemma wf_names w : WF w -> NoDup (keys (w_channels w)). Proof. apply wfg_names. Qed.
Lemma wf_ids w : WF w -> NoDup (map snd (w_channels w)). Proof. apply wfg_ids. Qed.
Lemma wf_dict w : WF w -> forall n i, In (n, i) (w_channels w) -> exists c, nth_error (w_chans w) i = Some c /\ c_name c = n. Proof. apply wfg_dict. Qed.
Lemma wf_procs w : WF w -> NoDup (w_procs w). Proof. apply wfg_procs. Qed.
Lemma wf_cons w : WF w -> forall p, In p (w_cnames w) -> In p (w_procs w) /\ (exists v, dget String.eqb (w_cvals w) p = Some v)
  /\ (exists v, dget String.eqb (w_cerrs w) p = Some v). Proof. apply wfg_cons. Qed.
Lemma wf_chans w : WF w -> forall i c, nth_error (w_chans w) i = Some c -> chan_ok (w_hists w) (w_tmpls w) (w_procs w) c.
Proof. intros W i c. exact (wfg_chans w W i c). Qed.

Lemma wf_init : WF world_init.
Proof.
  constructor; simpl; try constructor; try tauto; intros; try (destruct i; discriminate).
Qed.
Theorem wf_run inv l : inv_spec inv -> WF (run inv l world_init).
Proof.
  intros I. assert (X : forall w, WF w -> WF (run inv l w)); [|apply X, wf_init].
  induction l as [|o l IH]; intros w W; [exact W|]. apply IH. now apply (wf_step inv o I).
Qed.
