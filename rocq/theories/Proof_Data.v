(** Data sets: add_data, Asimov and toy data. *)
From Coq Require Import Reals String ZArith Bool Arith List Lra Lia.
From Verif Require Import Model_Num Model_Hist Model_Utility Model_Template Model_World Model_Ops
  Spec_Matrix Spec_Template Spec_World Spec_Data Proof_Hist Proof_Matrix Proof_Template Proof_HistHeap Proof_Monad Proof_World Proof_Eval Proof_Route Proof_Names Proof_Update.
Import ListNotations.
Local Open Scope R_scope.

Lemma bcast_same {A B C} (f : A -> B -> C) a b : length a = length b -> bcast f a b = Ok (map2 f a b).
Proof. intros H. unfold bcast. rewrite H, Nat.eqb_refl. reflexivity. Qed.

Lemma values_ok hs t : tmpl_ok hs t -> exists v, t_values t = Ok v /\ length v = t_nb t.
Proof.
  intros O. unfold t_values, t_fractions, bin_fractions.
  assert (L : length (t_nui t) = t_nb t). { pose proof (to_params _ _ O). unfold t_nui. destruct (t_params t); simpl in *; lia. }
  rewrite bcast_same by (rewrite L, (to_rel _ _ O); auto). cbn [rbind].
  rewrite bcast_same by (rewrite map2_length, L, (to_rel _ _ O), (to_counts _ _ O); lia). cbn [rbind].
  match goal with |- context[map ?f ?p] => set (F := map f p) end.
  assert (LF : length F = t_nb t). { unfold F. rewrite map_length, !map2_length, L, (to_rel _ _ O), (to_counts _ _ O). lia. }
  rewrite LF, (to_nb _ _ O), Nat.eqb_refl. eexists. split; [reflexivity|]. rewrite map_length, LF. apply (to_nb _ _ O).
Qed.

(** ** Sum of the template values *)
Definition val_of (ts : list tmpl) (p : string * nat) (v : list xr) : Prop := exists t, nth_error ts (snd p) = Some t /\ t_values t = Ok v.

Lemma template_sum_spec w cid c : WF w -> nth_error (w_chans w) cid = Some c -> exists vs,
  Forall2 (val_of (w_tmpls w)) (c_tmpls c) vs /\ Forall (fun v => length v = bins_of c) vs /\
  forall hs, ch_template_sum cid (set_hists w hs) = (set_hists w hs, Ok (vec_sum vs)).
Proof.
  intros W H. pose proof (wf_chans w W _ _ H) as O.
  assert (X : forall l, incl l (c_tmpls c) -> exists vs, Forall2 (val_of (w_tmpls w)) l vs /\ Forall (fun v => length v = bins_of c) vs /\
     forall hs, mapM (fun p => t <- get_tmpl (snd p) ;;; lift (t_values t)) l (set_hists w hs) = (set_hists w hs, Ok vs)).
  { induction l as [|[p tid] l IH]; intros I; [exists []; repeat split; constructor|].
    destruct IH as (vs & F & FL & E); [intros a A; apply I; now right|].
    destruct (co_tmpl _ _ _ _ O p tid) as (t & T & TB & _); [apply I; left; auto|].
    destruct (values_ok _ t (wf_tmpls w W _ _ T)) as (v & V & LV).
    exists (v :: vs). split; [constructor; auto; exists t; auto|]. split.
    - constructor; auto. rewrite LV, (to_nb _ _ (wf_tmpls w W _ _ T)), TB. reflexivity.
    - intros hs. cbn [mapM]. unfold bind at 1 2. unfold get_tmpl. simpl snd. cbn [w_tmpls set_hists]. rewrite T. unfold lift at 1. rewrite V.
      unfold bind. rewrite E. reflexivity. }
  destruct (X (c_tmpls c) (incl_refl _)) as (vs & F & FL & E). exists vs. split; auto. split; auto. intros hs.
  unfold ch_template_sum, bind, get_chan. cbn [w_chans set_hists]. rewrite H. rewrite E. reflexivity.
Qed.

Lemma vec_sum_nth n vs b : Forall (fun v => length v = n) vs -> vs <> [] -> (b < n)%nat ->
  nth_error (vec_sum vs) b = Some (fold_left xadd (map (fun v => nth b v NaN) vs) (Fin 0)) /\ length (vec_sum vs) = n.
Proof.
  intros F NE Hb. destruct vs as [|v0 vs]; [congruence|]. inversion F as [|? ? F1 F2]; subst. simpl. clear NE F.
  assert (K : forall a, length a = length v0 -> nth_error (fold_left (map2 xadd) vs a) b = Some (fold_left xadd (map (fun v => nth b v NaN) vs) (nth b a NaN))
     /\ length (fold_left (map2 xadd) vs a) = length v0).
  { induction F2 as [|v vs FV _ IH]; intros a La; simpl.
    - split; auto. apply nth_error_nth'. lia.
    - assert (LM : length (map2 xadd a v) = length v0) by (rewrite map2_length; lia).
      destruct (IH (map2 xadd a v) LM) as (E & L). split; auto. rewrite E. f_equal. f_equal.
      clear -La FV Hb. rewrite <- La in Hb. assert (L2 : (b < length v)%nat) by lia. clear La FV. revert v b Hb L2.
      induction a as [|x a IH]; intros [|y v] [|b]; simpl; intros; try lia; auto. apply IH; lia. }
  destruct (K (map (xadd (Fin 0)) v0)) as (E & L); [now rewrite map_length|]. split; auto. rewrite E. f_equal. f_equal.
  rewrite (nth_indep _ NaN (xadd (Fin 0) NaN)) by (now rewrite map_length). now rewrite map_nth.
Qed.
Lemma vec_sum_length n vs : Forall (fun v => length v = n) vs -> vs <> [] -> length (vec_sum vs) = n.
Proof.
  intros F NE. destruct vs as [|v0 vs]; [congruence|]. inversion F as [|? ? F1 F2]; subst. simpl. clear F NE.
  assert (K : forall a, length a = length v0 -> length (fold_left (map2 xadd) vs a) = length v0).
  { revert F2. generalize (length v0) as n. intros n F2. induction F2 as [|v vs FV _ IH]; intros a La; simpl; auto. apply IH. rewrite map2_length. lia. }
  apply K. now rewrite map_length.
Qed.

(** ** Histograms with the geometry of a channel *)
Lemma binned_like w cid c counts : WF w -> nth_error (w_chans w) cid = Some c -> c_tmpls c <> [] ->
  (forall n, In n (c_bins c) -> (1 <= n)%nat) ->
  exists k h es, c_ttype c = Some k /\ first_edges w c es /\
    from_binned k (mk_nd (c_bins c) counts) es (Some (mk_nd (c_bins c) (map xsqrt counts))) = Ok h /\
    h_kind h = k /\ h_edges h = es /\ h_shape h = c_bins c /\ h_range h = c_range c /\ h_counts h = mk_nd (c_bins c) counts /\
    h_errs_sq h = mk_nd (c_bins c) (map (fun x => xsq (xsqrt x)) counts) /\ h_empty h = false.
Proof.
  intros W H NE B1. pose proof (wf_chans w W _ _ H) as O. destruct (c_tmpls c) as [|[p tid] r] eqn:CT; [congruence|].
  destruct (co_tmpl _ _ _ _ O p tid) as (t & T & TB & TR & TK); [rewrite CT; left; auto|].
  destruct (to_hist _ _ (wf_tmpls w W _ _ T)) as (h & HH & HB & HR & HK). pose proof (wf_hists w W _ _ HH) as HO.
  assert (G : exists h0, from_binned (t_kind t) (mk_nd (c_bins c) counts) (h_edges h) (Some (mk_nd (c_bins c) (map xsqrt counts))) = Ok h0 /\
     h_kind h0 = t_kind t /\ h_edges h0 = h_edges h /\ h_shape h0 = h_shape h /\ h_range h0 = h_range h /\ h_counts h0 = mk_nd (c_bins c) counts /\
     h_errs_sq h0 = mk_nd (c_bins c) (map (fun x => xsq (xsqrt x)) counts) /\ h_empty h0 = false).
  { pose proof (ho_edges_shape h HO) as ES. pose proof (ho_edges_ne h HO) as EN. pose proof (ho_kdim h HO) as KD.
    assert (RG : map get_bin_range (h_edges h) = map Ok (h_range h)) by (apply (ho_ranges h HO); intros n N; apply B1; rewrite <- TB, HB; auto).
    rewrite HK. destruct (h_kind h); simpl in KD.
    - destruct (h_edges h) as [|e [|]]; try discriminate. simpl in RG. unfold from_binned, hist1_from_binned, hist1_empty, hist1_init_bin_edges.
      destruct (h_range h) as [|r0 [|]]; try discriminate. injection RG as RG. rewrite RG. cbn [rbind]. eexists. split; [reflexivity|]. simpl in *.
      rewrite ES. repeat split; auto. unfold nd_map; simpl. now rewrite map_map.
    - destruct (h_edges h) as [|e [|e' [|]]]; try discriminate. simpl in RG. unfold from_binned, hist2_from_binned, hist2_empty.
      destruct (h_range h) as [|r0 [|r1 [|]]]; try discriminate. injection RG as RG1 RG2. rewrite RG1, RG2. cbn [rbind]. eexists. split; [reflexivity|]. simpl in *.
      rewrite ES. repeat split; auto. unfold nd_map; simpl. now rewrite map_map. }
  destruct G as (h0 & G0 & G1 & G2 & G3 & G4 & G5 & G6 & G7). exists (t_kind t), h0, (h_edges h).
  split; auto. split; [exists p, tid, t, h; rewrite CT; auto|]. split; auto. repeat split; congruence.
Qed.

(** ** The data sets *)
Lemma mapM_cons {A B} (f : A -> M B) a l w : mapM f (a :: l) w = (b <- f a ;;; bs <- mapM f l ;;; ret (b :: bs)) w.
Proof. reflexivity. Qed.
Lemma set_hists_set w a b : set_hists (set_hists w a) b = set_hists w b. Proof. reflexivity. Qed.
Lemma set_hists_id w : set_hists w (w_hists w) = w. Proof. now destruct w. Qed.

Lemma edges_at w cid c es hs : nth_error (w_chans w) cid = Some c -> first_edges w c es ->
  ch_bin_edges cid (set_hists w (w_hists w ++ hs)) = (set_hists w (w_hists w ++ hs), Ok es).
Proof.
  intros H (p & tid & t & h & P & T & HH & E). unfold ch_bin_edges, bind, get_chan. cbn [w_chans set_hists]. rewrite H.
  destruct (c_tmpls c) as [|q r]; [discriminate|]. simpl in P. injection P as ->. unfold get_tmpl, get_hist. cbn [w_tmpls set_hists w_hists]. rewrite T.
  rewrite (nth_app_some _ hs _ _ HH). unfold ret. now rewrite E.
Qed.

(** the data set of one channel: [f] turns the sum of the templates into counts *)
Section DataSet.
  Variables (w : world) (f : nat -> list xr -> res (list xr)) (gen : nat -> M hist).
  Hypothesis W : WF w.
  Hypothesis AT : all_have_templates w.
  Hypothesis AB : all_have_bins w.
  Hypothesis GEN : forall i n c cid s es k counts hs, channel_at w i n c -> nth_error (w_channels w) i = Some (n, cid) ->
    sum_of_templates w c s -> first_edges w c es -> c_ttype c = Some k -> f cid s = Ok counts ->
    (forall hs, ch_template_sum cid (set_hists w hs) = (set_hists w hs, Ok s)) ->
    gen cid (set_hists w (w_hists w ++ hs)) = (set_hists w (w_hists w ++ hs), from_binned k (mk_nd (c_bins c) counts) es (Some (mk_nd (c_bins c) (map xsqrt counts)))).
  Hypothesis FOK : forall i n c cid s, channel_at w i n c -> nth_error (w_channels w) i = Some (n, cid) -> sum_of_templates w c s -> exists counts, f cid s = Ok counts.

  Definition entry (hs : list hist) (nc : string * nat) (na : string * nat) : Prop :=
    fst na = fst nc /\ exists c s counts h, nth_error (w_chans w) (snd nc) = Some c /\ sum_of_templates w c s /\ f (snd nc) s = Ok counts /\
      nth_error (w_hists w ++ hs) (snd na) = Some h /\ data_hist w c counts h.
  Lemma entry_app hs hs' nc na : entry hs nc na -> entry (hs ++ hs') nc na.
  Proof.
    intros (E & c & s & counts & h & C & S & F & H & D). split; auto. exists c, s, counts, h. repeat (split; auto). rewrite app_assoc. now apply nth_app_some.
  Qed.

  Lemma dataset_spec : exists hs ds, 
    mapM (fun nc => h <- gen (snd nc) ;;; a <- alloc_hist h ;;; ret (fst nc, a)) (w_channels w) w = (set_hists w (w_hists w ++ hs), Ok ds) /\
    Forall2 (entry hs) (w_channels w) ds.
  Proof.
    assert (X : forall m l hs, skipn m (w_channels w) = l -> exists hs' ds,
      mapM (fun nc => h <- gen (snd nc) ;;; a <- alloc_hist h ;;; ret (fst nc, a)) l (set_hists w (w_hists w ++ hs)) = (set_hists w (w_hists w ++ hs ++ hs'), Ok ds) /\
      Forall2 (entry (hs ++ hs')) l ds).
    { intros m l. revert m. induction l as [|[n cid] l IH]; intros m hs SK.
      - exists [], []. rewrite app_nil_r. split; [reflexivity|constructor].
      - assert (NM : nth_error (w_channels w) m = Some (n, cid)).
        { rewrite <- (Nat.add_0_r m), <- nth_skipn, SK. reflexivity. }
        destruct (wf_dict w W n cid (nth_error_In _ _ NM)) as (c & C & _). assert (CA : channel_at w m n c) by (exists cid; auto).
        pose proof (AT _ _ _ CA) as NT. destruct (template_sum_spec w cid c W C) as (vs & F & FL & TS).
        assert (VN : vs <> []) by (intros ->; inversion F; congruence).
        assert (ST : sum_of_templates w c (vec_sum vs)).
        { exists vs. split; auto. split; [eapply vec_sum_length; eauto|]. intros b Hb. now apply (vec_sum_nth (bins_of c)). }
        destruct (FOK m n c cid _ CA NM ST) as (counts & FE).
        destruct (binned_like w cid c counts W C NT) as (k & h & es & K & FED & FB & H1 & H2 & H3 & H4 & H5 & H6 & H7); [apply (AB _ _ _ CA)|].
        rewrite mapM_cons. cbn [snd]. unfold bind at 1 2. rewrite (GEN m n c cid (vec_sum vs) es k counts hs); auto. rewrite FB.
        unfold bind at 1. unfold alloc_hist at 1. cbn [w_hists set_hists]. unfold ret at 1. rewrite set_hists_set. cbn [fst].
        destruct (IH (S m) (hs ++ [h])) as (hs' & ds & E & FF).
        { replace (S m) with (m + 1)%nat by lia. rewrite <- skipn_skipn, SK. reflexivity. }
        exists (h :: hs'). eexists. split.
        + unfold bind at 1. replace ((w_hists w ++ hs) ++ [h]) with (w_hists w ++ hs ++ [h]) by (now rewrite app_assoc). rewrite E.
          unfold ret. f_equal. f_equal. rewrite <- !app_assoc. reflexivity.
        + constructor.
          * split; [reflexivity|]. exists c, (vec_sum vs), counts, h. cbn [snd]. split; auto. split; auto. split; auto. split.
            -- rewrite app_assoc, nth_error_app2 by lia. rewrite Nat.sub_diag. reflexivity.
            -- split; [exact H3|]. split; [exact H4|]. split; [exists es; auto|]. split; [congruence|]. auto.
          * rewrite <- app_assoc in FF. exact FF. }
    destruct (X 0%nat (w_channels w) [] eq_refl) as (hs & ds & E & F). rewrite app_nil_r, set_hists_id in E. simpl in E. exists hs, ds. auto.
  Qed.
End DataSet.

(** ** add_data *)
Lemma upd_self_ {A} i (l : list A) a : nth_error l i = Some a -> upd i a l = l.
Proof. revert i; induction l; intros [|i]; simpl; try discriminate; auto. - congruence. - intros; f_equal; auto. Qed.
Definition one_data (kv : string * nat) : M unit :=
  fun w => match dget String.eqb (w_channels w) (fst kv) with
           | None => (w, Err RuntimeError)
           | Some cid => (h <- get_hist (snd kv) ;;; on_chan cid (fun c => ch_add_data c (snd kv) h)) w
           end.
Lemma add_data_fold kw : mct_add_data kw = forM one_data kw. Proof. reflexivity. Qed.

Lemma one_data_spec w kv : WF w ->
  (fits w kv /\ exists cid c, dget String.eqb (w_channels w) (fst kv) = Some cid /\ nth_error (w_chans w) cid = Some c /\
     one_data kv w = (set_chans w (upd cid (with_data c (Some (snd kv))) (w_chans w)), Ok tt)) \/
  (~ fits w kv /\ exists e, one_data kv w = (w, Err e)).
Proof.
  intros W. unfold one_data. destruct (dget String.eqb (w_channels w) (fst kv)) as [cid|] eqn:D.
  2:{ right. split; [|eauto]. intros (cid & c & h & D' & _). congruence. }
  destruct (wf_dict w W (fst kv) cid (dget_In _ _ _ D)) as (c & C & _).
  unfold bind, get_hist. destruct (nth_error (w_hists w) (snd kv)) as [h|] eqn:H.
  2:{ right. split; [|eauto]. intros (cid' & c' & h & D' & C' & H' & _). congruence. }
  unfold on_chan. rewrite C. unfold ch_add_data. destruct (check_hist c h) eqn:K.
  - left. apply check_hist_eq in K as (K1 & K2). split; [exists cid, c, h; auto|]. exists cid, c. split; auto.
  - right. split.
    + intros (cid' & c' & h' & D' & C' & H' & K1 & K2). assert (cid' = cid) by congruence. subst. assert (c' = c) by congruence. subst. assert (h' = h) by congruence. subst.
      assert (check_hist c h = true) by (apply check_hist_eq; auto). congruence.
    + exists RuntimeError. rewrite (upd_self_ cid (w_chans w) c C). now destruct w.
Qed.

Lemma fits_set w cid c d kv : nth_error (w_chans w) cid = Some c ->
  (fits (set_chans w (upd cid (with_data c d) (w_chans w))) kv <-> fits w kv).
Proof.
  intros C. assert (L : (cid < length (w_chans w))%nat) by (apply nth_error_Some; congruence). split.
  - intros (i & c1 & h & D & C1 & R). cbn [w_channels set_chans w_chans w_hists] in *. destruct (Nat.eq_dec i cid) as [->|N].
    + rewrite upd_same in C1 by auto. injection C1 as <-. exists cid, c, h. auto.
    + rewrite upd_other in C1 by auto. exists i, c1, h. auto.
  - intros (i & c1 & h & D & C1 & R). destruct (Nat.eq_dec i cid) as [->|N].
    + assert (c1 = c) by congruence. subst. exists cid, (with_data c d), h. cbn [w_channels set_chans w_chans w_hists]. rewrite upd_same by auto. auto.
    + exists i, c1, h. cbn [w_channels set_chans w_chans w_hists]. rewrite upd_other by auto. auto.
Qed.

Lemma add_data_ok kw : forall w, WF w -> NoDup (map fst kw) -> Forall (fits w) kw -> exists w', mct_add_data kw w = (w', Ok tt) /\ data_of w kw w'.
Proof.
  induction kw as [|[n hid] kw IH]; intros w W ND F.
  - exists w. split; [reflexivity|]. split; [now destruct w|]. split; auto. split; [intros ? ? ? ? []|auto].
  - inversion F as [|? ? F1 F2]; subst. inversion ND as [|? ? NI ND']; subst.
    destruct (one_data_spec w (n, hid) W) as [(_ & cid & c & D & C & E)|(NF & _)]; [|contradiction].
    set (w1 := set_chans w (upd cid (with_data c (Some hid)) (w_chans w))) in *.
    assert (W1 : WF w1). { pose proof (wf_add_data [(n, hid)] w W) as Z. rewrite add_data_fold in Z. cbn [forM] in Z. unfold bind in Z. rewrite E in Z. exact Z. }
    destruct (IH w1 W1 ND') as (w' & E' & (S & L & A & B)).
    { rewrite Forall_forall in *. intros kv K. apply fits_set; auto. }
    assert (LC : (cid < length (w_chans w))%nat) by (apply nth_error_Some; congruence).
    exists w'. split; [rewrite add_data_fold in *; cbn [forM]; unfold bind; rewrite E; exact E'|]. split; [rewrite S; reflexivity|].
    split; [rewrite L; apply upd_length|]. split.
    + intros n' hid' cid' c' [K|K] D' C'.
      * injection K as <- <-. simpl in D. assert (cid' = cid) by congruence. subst. assert (c' = c) by congruence. subst.
        rewrite B; [unfold w1; cbn [w_chans set_chans]; apply upd_same; auto|]. intros n1 h1 K1 D1. apply NI. apply dget_In in D, D1.
        pose proof (wf_ids w W) as NDI. assert (n1 = n).
        { apply In_nth_error in D as (i & D), D1 as (j & D1). unfold w1 in D1; cbn [w_channels set_chans] in D1.
          assert (i = j). { apply (proj1 (NoDup_nth_error _) NDI); [rewrite map_length; apply nth_error_Some; congruence|].
            rewrite (map_nth_error snd _ _ D), (map_nth_error snd _ _ D1). reflexivity. } subst. congruence. }
        subst. now apply (in_map fst) in K1.
      * apply (A n' hid' cid' c' K D'). unfold w1; cbn [w_chans set_chans]. rewrite upd_other; auto. intros <-. apply NI. simpl in D.
        apply dget_In in D, D'. pose proof (wf_ids w W) as NDI. assert (n' = n).
        { apply In_nth_error in D as (i & D), D' as (j & D').
          assert (i = j). { apply (proj1 (NoDup_nth_error _) NDI); [rewrite map_length; apply nth_error_Some; congruence|].
            rewrite (map_nth_error snd _ _ D), (map_nth_error snd _ _ D'). reflexivity. } subst. congruence. }
        subst. now apply (in_map fst) in K.
    + intros cid' N. rewrite B; [unfold w1; cbn [w_chans set_chans]; apply upd_other|].
      * intros <-. apply (N n hid); [left; auto|exact D].
      * intros n1 h1 K1. apply (N n1 h1). now right.
Qed.
