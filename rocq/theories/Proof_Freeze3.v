(** What the frozen matrices mean for later evaluations. *)
From Coq Require Import Reals String ZArith Bool Arith List Lra Lia.
From Verif Require Import Model_Num Model_Hist Model_Utility Model_Template Model_World Model_Ops
  Spec_Matrix Spec_Template Spec_World Spec_Nll Spec_Stale Proof_Hist Proof_Matrix Proof_Linear Proof_Utility Proof_Template Proof_HistHeap Proof_Monad Proof_World Proof_Eval
  Proof_Route Proof_Names Proof_Update Proof_Yield Proof_Nll Proof_Valid Proof_Freeze Proof_Freeze2.
Import ListNotations.
Local Open Scope R_scope.

Lemma vecmat_rows v m r : np_vecmat v m = Ok r -> length v = length m.
Proof. unfold np_vecmat. destruct m as [|row m]; [discriminate|]. destruct (negb _); [discriminate|]. destruct (Nat.eqb_spec (length v) (length (row :: m))); [auto|discriminate]. Qed.

(** the nuisance parameters of channel number i are one block of the right length *)
Lemma block_lengths w x yn : WF w -> length x = num_params w -> per_channel_now w x = Ok yn ->
  length (fst yn) = length (w_channels w) /\
  forall i n c, channel_at w i n c -> exists nu, nth_error (snd yn) i = Some nu /\ length nu = (length (c_tmpls c) * bins_of c)%nat.
Proof.
  intros W L E. unfold per_channel_now in E. destruct (mapr _ (map snd (w_channels w))) as [ys|] eqn:EY; [|discriminate]. cbn [rbind] in E. injection E as <-.
  cbn [fst snd]. split.
  - apply mapr_ok in EY. rewrite <- (forall2_len _ _ _ EY). apply map_length.
  - intros i n c CA. assert (NE : w_channels w <> []). { destruct CA as (cid & E & _). destruct (w_channels w); [destruct i; discriminate|discriminate]. }
    assert (SL : slice (length (w_procs w)) (mct_num_nui w + length (w_procs w)) x = skipn (length (w_procs w)) x).
    { unfold slice. apply firstn_all2. rewrite skipn_length, L, (nui_total w W). unfold num_params. lia. }
    rewrite SL, split_blocks.
    + rewrite (channel_block w i n c _ W CA). eexists. split; [reflexivity|]. rewrite firstn_length, !skipn_length, L.
      pose proof (nui_offset_le w i n c W CA) as LE. rewrite (num_nui_spec _ _ _ _ (chan_ok_at w i n c W CA)) in *. rewrite (nui_total w W) in LE. unfold num_params. lia.
    + intros K. apply map_eq_nil in K. apply (f_equal (@length _)) in K. rewrite chans_length in K by auto. destruct (w_channels w); [congruence|discriminate].
    + rewrite skipn_length, L. unfold num_params. rewrite <- (nui_total w W). unfold mct_num_nui. lia.
Qed.
Lemma nth_combine3 {A B C} (a : list A) (b : list B) (c : list C) i x z : nth_error a i = Some x -> nth_error c i = Some z -> length b = length a ->
  exists y, nth_error b i = Some y /\ nth_error (combine a (combine b c)) i = Some (x, (y, z)).
Proof.
  intros A1 C1 L. destruct (nth_error b i) as [y|] eqn:E.
  - exists y. split; auto. apply nth_combine; auto. now apply nth_combine.
  - apply nth_error_None in E. assert (i < length a)%nat by (apply nth_error_Some; congruence). lia.
Qed.
(** the matrix cached by a successful evaluation *)
Lemma cached_matrix w x w' r i n cid c : WF w -> small w -> CI w -> length x = num_params w -> nll x w = (w', Ok r) ->
  nth_error (w_channels w) i = Some (n, cid) -> nth_error (w_chans w) cid = Some c ->
  exists m, dget Nat.eqb (w_cache_inv w') cid = Some m /\ length m = (length (c_tmpls c) * bins_of c)%nat.
Proof.
  intros W S I L E CH CC. destruct (nll_cached w x w' r S I E) as (yn & EY & Q). destruct (block_lengths w x yn W L EY) as (LY & NB).
  destruct (NB i n c) as (nu & NU & LN); [exists cid; auto|].
  destruct (nth_combine3 (map snd (w_channels w)) (fst yn) (snd yn) i cid nu) as (y & _ & Z); auto; [now apply (map_nth_error snd) in CH|rewrite map_length; auto|].
  apply nth_error_In in Z. destruct (Q _ Z) as (m & D & (v & V)). cbn [fst snd] in *. exists m. split; auto. rewrite <- LN. symmetry. now apply vecmat_rows in V.
Qed.
(** an evaluation with a cached matrix of another size raises *)
Lemma wrong_matrix w x i n cid c m : WF w -> length x = num_params w -> nth_error (w_channels w) i = Some (n, cid) -> nth_error (w_chans w) cid = Some c ->
  dget Nat.eqb (w_cache_inv w) cid = Some m -> length m <> (length (c_tmpls c) * bins_of c)%nat -> exists e, nll_now w x = Err e.
Proof.
  intros W L CH CC D NE. destruct (nll_now w x) as [r|e] eqn:E; [exfalso|eauto]. unfold nll_now in E.
  destruct (per_channel_now w x) as [yn|] eqn:EY; [|discriminate]. cbn [rbind] in E. destruct (mapr _ (combine _ _)) as [cs|] eqn:EC; [|discriminate]. clear E.
  destruct (block_lengths w x yn W L EY) as (LY & NB). destruct (NB i n c) as (nu & NU & LN); [exists cid; auto|].
  destruct (nth_combine3 (map snd (w_channels w)) (fst yn) (snd yn) i cid nu) as (y & _ & Z); auto; [now apply (map_nth_error snd) in CH|rewrite map_length; auto|].
  apply mapr_ok in EC. destruct (forall2_nth _ _ _ _ _ EC Z) as (b & _ & B). cbn [fst snd] in B. unfold contribution_now in B. unfold oget at 1 in B. rewrite CC in B. cbn [rbind] in B.
  destruct (c_data c) as [hid|]; [|discriminate]. destruct (oget (w_hists w) hid) as [h|]; [|discriminate]. cbn [rbind] in B.
  destruct (expected_now w cid y nu) as [e|]; [|discriminate]. cbn [rbind] in B. destruct (bcast xsub e _) as [d|]; [|discriminate]. cbn [rbind] in B.
  destruct (bcast xlogyx _ e) as [l|]; [|discriminate]. cbn [rbind] in B. destruct (bcast xsub d l) as [p|]; [|discriminate]. cbn [rbind] in B.
  destruct (gauss_now w cid nu) as [g|] eqn:G; [|discriminate]. unfold gauss_now, inv_now in G. unfold oget at 1 in G. rewrite CC in G. cbn [rbind] in G.
  destruct (mapr _ (c_tmpls c)) as [ts|]; [|discriminate]. cbn [rbind] in G. unfold hit in G. rewrite D in G. cbn [rbind] in G.
  destruct (np_vecmat nu m) as [v|] eqn:V; [|discriminate]. apply vecmat_rows in V. congruence.
Qed.

Lemma dset_in {V} (d : list (string * V)) k v q : In q (dset String.eqb d k v) -> In q d \/ snd q = v.
Proof.
  induction d as [|[k' v'] d IH]; simpl; [intros [<-|[]]; auto|]. destruct (String.eqb k k'); simpl; [intros [<-|H]; auto|]. intros [<-|H]; auto. destruct (IH H); auto.
Qed.
(** ** Without add_template *)
Record SH (w w' : world) : Prop := {
  sh_chans : forall i c', nth_error (w_chans w') i = Some c' ->
     (exists c, nth_error (w_chans w) i = Some c /\ c_tmpls c' = c_tmpls c) \/ (length (w_chans w) <= i /\ c_tmpls c' = [])%nat;
  sh_len : (length (w_chans w) <= length (w_chans w'))%nat;
  sh_dict : forall n cid, In (n, cid) (w_channels w') -> In (n, cid) (w_channels w) \/ (length (w_chans w) <= cid)%nat }.
Lemma sh_po : preorder SH.
Proof.
  split; [intros w; constructor; eauto|]. intros a b c [A1 A2 A3] [B1 B2 B3]. constructor; [|lia|].
  - intros i c' H. destruct (B1 i c' H) as [(c1 & H1 & E1)|(H1 & E1)]; [|right; split; auto; lia].
    destruct (A1 i c1 H1) as [(c2 & H2 & E2)|(H2 & E2)]; [left; exists c2; split; auto; congruence|right; split; auto; congruence].
  - intros n cid H. destruct (B3 n cid H) as [H1|H1]; [auto|right; lia].
Qed.
Lemma sh_same w w' : w_chans w' = w_chans w -> w_channels w' = w_channels w -> SH w w'.
Proof. intros E F. constructor; rewrite ?E, ?F; eauto. Qed.
Lemma sh_on_hist {A} i (f : hist -> hist * res A) : pres SH (on_hist i f).
Proof. intros w. unfold on_hist. destruct (nth_error (w_hists w) i); [|apply sh_po]. destruct (f h). now apply sh_same. Qed.
Lemma sh_on_tmpl {A} i (f : tmpl -> tmpl * res A) : pres SH (on_tmpl i f).
Proof. intros w. unfold on_tmpl. destruct (nth_error (w_tmpls w) i); [|apply sh_po]. destruct (f t). now apply sh_same. Qed.
Lemma sh_on_chan {A} i (f : chan -> chan * res A) : (forall c, c_tmpls (fst (f c)) = c_tmpls c) -> pres SH (on_chan i f).
Proof.
  intros H w. unfold on_chan. destruct (nth_error (w_chans w) i) as [c0|] eqn:E; [|apply sh_po]. specialize (H c0). destruct (f c0) as [c1 r]. simpl in *.
  constructor; simpl; [|rewrite upd_length; auto|auto]. intros j c J. left. destruct (Nat.eq_dec i j) as [<-|N].
  - rewrite upd_same in J by (apply nth_error_Some; congruence). injection J as <-. eauto.
  - rewrite upd_other in J by auto. eauto.
Qed.
Lemma sh_alloc h : pres SH (alloc_hist h). Proof. intros w. now apply sh_same. Qed.
Lemma sh_core {A} (m : M A) : pres core_eq m -> pres SH m.
Proof. intros H w. apply sh_same; [apply (ce_chans _ _ (H w))|apply (ce_channels _ _ (H w))]. Qed.
Lemma sh_tmpl_reset i : pres SH (tmpl_reset i). Proof. unfold tmpl_reset. pres_tac sh_po. apply sh_on_tmpl. Qed.
Lemma sh_step inv o : adds_t o = false -> pres SH (step inv o).
Proof.
  intros NA. destruct o; simpl in NA; try discriminate; simpl; pres_tac sh_po; try apply sh_alloc; try apply sh_on_hist; try apply sh_on_tmpl; try apply sh_tmpl_reset.
  - intros w. now apply sh_same.
  - intros w. constructor; simpl.
    + intros i c' H. destruct (lt_dec i (length (w_chans w))) as [LT|GE].
      * rewrite nth_error_app1 in H by auto. eauto.
      * rewrite nth_error_app2 in H by lia. right. split; [lia|]. destruct (i - length (w_chans w))%nat as [|j]; [injection H as <-; reflexivity|destruct j; discriminate].
    + rewrite app_length. lia.
    + intros n cid H. apply dset_in in H. destruct H as [H|H]; auto. simpl in H. subst. auto.
  - intros w. unfold define_process. destruct (smem _ _); now apply sh_same.
  - unfold mct_add_data. pres_tac sh_po. intros w. destruct (dget _ _ _); [|now apply sh_same].
    apply (pres_bind sh_po); [apply (pres_get_hist sh_po)|intros h; apply sh_on_chan]. intros c. unfold ch_add_data. destruct (check_hist c h); auto.
  - intros w. unfold add_gaussian_constraint. destruct (smem _ _); now apply sh_same.
  - unfold set_yield. pres_tac sh_po. destruct (smem p a); pres_tac sh_po.
    destruct (dget String.eqb (c_tmpls a2) p); pres_tac sh_po. destruct (dget String.eqb (c_effs a2) p); pres_tac sh_po. apply sh_on_tmpl.
  - unfold reset_parameters, ch_reset. pres_tac sh_po. apply sh_tmpl_reset.
  - unfold update_parameters. pres_tac sh_po; [apply sh_core, core_per_channel|]. unfold ch_update_parameters. pres_tac sh_po.
    match goal with a : (_ * R * list xr * list xr)%type |- _ => destruct a as [[[tid eff] yy] nn] end. pres_tac sh_po; apply sh_on_tmpl.
  - apply sh_core, core_nll.
  - unfold generate_asimov_dataset, ch_asimov, ch_template_sum. pres_tac sh_po; try apply sh_alloc.
    destruct (c_ttype _); pres_tac sh_po. unfold ch_bin_edges. pres_tac sh_po. destruct (c_tmpls _) as [|[? ?] ?]; pres_tac sh_po.
  - unfold generate_toy_dataset, ch_toy, ch_template_sum. pres_tac sh_po; try apply sh_alloc.
    destruct (c_ttype _); pres_tac sh_po. unfold ch_bin_edges. pres_tac sh_po. destruct (c_tmpls _) as [|[? ?] ?]; pres_tac sh_po.
Qed.
Lemma sh_run inv l w : Forall (fun o => adds_t o = false) l -> SH w (run inv l w).
Proof.
  intros F. revert w. induction F as [|o l H F IH]; intros w; [apply sh_po|]. eapply (po_trans _ sh_po); [apply (sh_step inv o H)|apply IH].
Qed.

(** ** The likelihood with precision matrices of an earlier state *)
Definition gauss_since (ts : list tmpl) (c : chan) (nui : list xr) : res xr :=
  m <- inv_res ts c ;; v <- np_vecmat nui m ;; s <- np_dot v nui ;; Ok (xmul (Fin (1/2)) s).
Definition contribution_since (ts : list tmpl) (w : world) (c : chan) (y nui : list xr) : res xr :=
  match c_data c with
  | None => Err AttributeError
  | Some hid =>
      h <- oget (w_hists w) hid ;;
      e <- expected_res w c y nui ;;
      d <- bcast xsub e (nd_flat (h_counts h)) ;;
      l <- bcast xlogyx (nd_flat (h_counts h)) e ;;
      p <- bcast xsub d l ;;
      g <- gauss_since ts c nui ;;
      Ok (xadd (np_sum p) g)
  end.

Lemma inv_since ts c nt nb prec : length (c_tmpls c) = nt -> (0 < nt)%nat ->
  (forall k p tid, nth_error (c_tmpls c) k = Some (p, tid) -> exists t1, nth_error ts tid = Some t1 /\ t_inv t1 = mat_of nb (prec k)) ->
  inv_res ts c = Ok (mat_of (nt * nb) (bd nb (map prec (seq 0 nt)))).
Proof.
  intros NT T0 T. unfold inv_res.
  set (f := fun k => match nth_error ts (snd (nth k (c_tmpls c) (EmptyString, O))) with Some t => t | None => mk_tmpl K1 "" 0 [] [] [] 0 [] [] [] [] [] [] [] end).
  assert (X : mapr (fun p => oget ts (snd p)) (c_tmpls c) = Ok (map f (seq 0 (length (c_tmpls c))))).
  { apply mapr_nth. intros k [p tid] K. destruct (T k p tid K) as (t & TA & _). simpl. unfold f. rewrite (nth_error_nth _ _ _ K). simpl. unfold oget. rewrite TA. reflexivity. }
  rewrite X, NT. cbn [rbind]. destruct (map f (seq 0 nt)) as [|t0 l] eqn:E; [destruct nt; [lia|discriminate]|]. rewrite <- E. clear E t0 l. f_equal.
  transitivity (block_diag (map (mat_of nb) (map prec (seq 0 nt)))).
  - f_equal. rewrite !map_map. apply map_ext_in. intros k Hk. apply in_seq in Hk.
    destruct (nth_error (c_tmpls c) k) as [[p tid]|] eqn:E; [|apply nth_error_None in E; lia]. destruct (T k p tid E) as (t & TA & TI).
    unfold f. rewrite (nth_error_nth _ _ _ E). simpl. rewrite TA. exact TI.
  - rewrite block_diag_mat, map_length, seq_length. reflexivity.
Qed.

Section Since.
  Variables (w1 w : world) (x : nat -> R) (i : nat) (v : cview).
  Hypothesis W : WF w.
  Lemma contribution_since_real n c : channel_at w i n c -> reads_since w1 w x i v -> in_domain v ->
    contribution_since (w_tmpls w1) w c (vec_of (v_nt v) (v_yield v)) (vec_of (v_nt v * v_nb v) (nui_fun w x i)) = Ok (Fin (channel_nll v)).
  Proof.
    intros CA0 (n' & c' & CA & NB & NT & T & (hid & h & CD & HH & HC)) D.
    assert (c' = c). { destruct CA as (a & A1 & A2), CA0 as (b & B1 & B2). assert (a = b) by congruence. subst. congruence. } subst c'. clear CA0 n. rename n' into n.
    assert (PR : exists prec, forall k, (k < v_nt v)%nat -> inverse_of (v_nb v) (correlation (v_cov v k)) (prec k)).
    { apply (fin_choice (fun _ _ => 0) (v_nt v) (fun k P => inverse_of (v_nb v) (correlation (v_cov v k)) P)). intros k K.
      destruct (tmpl_k w i n c v W CA NB NT k K) as (p & tid & t & E & TA). destruct (T k p tid t TA) as (_ & _ & (e & covs & ES & CV) & _).
      destruct ES as (_ & _ & _ & _ & _ & _ & _ & _ & (P & EP & IP) & _). exists P.
      intros a b Ha Hb. destruct (IP a b Ha Hb) as [I1 I2]. split; [rewrite <- I1|rewrite <- I2]; apply sumn_ext; intros; f_equal; unfold correlation; rewrite !CV; reflexivity. }
    destruct PR as (prec & PR).
    set (v' := mk_cview (v_nb v) (v_nt v) (v_yield v) (v_eff v) (v_cnt v) (v_cov v) (v_th v) prec (v_data v)).
    assert (T' : forall k p tid t, template_at w c k p tid t ->
       (exists q, nth_error (w_procs w) q = Some p /\ v_yield v' k = x (yield_pos q)) /\
       nth_error (c_effs c) k = Some (p, v_eff v' k) /\
       (exists e covs, error_state t (v_nb v') (v_cnt v' k) e covs /\
          forall a b, v_cov v' k a b = msum (stat_cov_of e :: covs) a b) /\
       inverse_of (v_nb v') (correlation (v_cov v' k)) (v_prec v' k) /\
       (forall b, (b < v_nb v')%nat -> v_th v' k b = x (nui_pos w i c k b))).
    { intros k p tid t TA. destruct (T k p tid t TA) as (A & B & C & _ & E). repeat (split; [assumption|]). split; [|exact E]. apply PR.
      destruct TA as (TA & _). rewrite NT. apply nth_error_Some. congruence. }
    pose proof (expected_real w x i n c v' W CA NB NT T' D) as ER.
    change (vec_of (v_nb v') (expected v')) with (vec_of (v_nb v) (expected v)) in ER.
    change (vec_of (v_nt v' * v_nb v') (nui_fun w x i)) with (vec_of (v_nt v * v_nb v) (nui_fun w x i)) in ER.
    change (vec_of (v_nt v') (v_yield v')) with (vec_of (v_nt v) (v_yield v)) in ER.
    unfold contribution_since. rewrite CD. unfold oget. rewrite HH. cbn [rbind]. rewrite ER, HC. cbn [rbind].
    rewrite (bcast_vec (v_nb v) _ _ _ (fun b => expected v b - v_data v b)) by reflexivity. cbn [rbind].
    rewrite (bcast_vec (v_nb v) _ _ _ (fun b => if Req_EM_T (v_data v b) 0 then 0 else v_data v b * ln (expected v b / v_data v b))).
    2:{ intros b Hb. pose proof c1e_100_pos as CP. destruct D as (_ & _ & _ & D). destruct (D b Hb) as [D0|[D1 D2]].
        - rewrite D0. destruct (Req_EM_T 0 0); [|congruence]. apply xlogyx_small. left. unfold xltb. destruct (Rltb_spec 0 c1e_100); auto; lra.
        - fold c1e_100 in D1. destruct (Req_EM_T (v_data v b) 0); [lra|]. now apply xlogyx_value. }
    cbn [rbind]. rewrite (bcast_vec (v_nb v) _ _ _ (fun b => poisson_term (v_data v b) (expected v b))) by reflexivity. cbn [rbind].
    destruct D as (B0 & T0 & _). unfold gauss_since. rewrite (inv_since (w_tmpls w1) c (v_nt v) (v_nb v) (v_prec v)); auto.
    2:{ intros k p tid K. destruct (template_at_ok w i n c k p tid W CA K) as (t & TA & _). destruct (T k p tid t TA) as (_ & _ & _ & (t1 & cnt1 & e1 & covs1 & T1 & ES & IV) & _).
        exists t1. split; auto. destruct ES as (_ & _ & _ & _ & _ & _ & _ & _ & (P & EP & IP) & _). rewrite EP. apply mat_of_ext. eapply inverse_unique; eauto. }
    cbn [rbind]. rewrite vecmat_mat by nia. cbn [rbind]. rewrite dot_vec. cbn [rbind]. rewrite np_sum_vec. cbn [xmul xadd]. do 2 f_equal. unfold channel_nll. f_equal.
    replace (1 / 2) with (/ 2) by lra. f_equal.
    set (Ps := map (v_prec v) (seq 0 (v_nt v))). assert (LP : length Ps = v_nt v) by (unfold Ps; now rewrite map_length, seq_length).
    transitivity (quad (v_nt v * v_nb v) (bd (v_nb v) Ps) (nui_fun w x i)).
    - unfold quad. rewrite sumn_swap. apply sumn_ext. intros j _. now rewrite sumn_scal_r.
    - rewrite <- LP at 1. rewrite quad_bd, LP. apply sumn_ext. intros k Hk. apply quad_ext.
      + intros a b _ _. unfold Ps. rewrite (nth_indep _ _ (v_prec v 0%nat)) by (now rewrite map_length, seq_length). rewrite map_nth, seq_nth by auto. reflexivity.
      + intros b Hb. exact (nui_fun_th w x i n c v' W CA NB NT T' k b Hk Hb).
  Qed.
End Since.

(** what is used now, if process indices and efficiencies are current *)
Lemma pi_now_coh w cid : cohG false w -> pi_now w cid = (c <- oget (w_chans w) cid ;; pi_res (w_procs w) c).
Proof.
  intros [A _ _]. unfold pi_now. destruct (oget (w_chans w) cid) as [c|] eqn:E; auto. cbn [rbind]. unfold hit.
  destruct (dget pi_key_eqb (w_cache_pi w) (cid, w_procs w)) as [u|] eqn:D; auto. apply (dget_in pi_key_eqb pi_key_eqb_eq) in D.
  destruct (A _ _ _ D) as (c' & C & P). apply oget_ok in E. congruence.
Qed.
Lemma eff_now_coh w cid : cohG false w -> eff_now w cid = (c <- oget (w_chans w) cid ;; Ok (eff_vec c)).
Proof.
  intros [_ A _]. unfold eff_now. destruct (oget (w_chans w) cid) as [c|] eqn:E; auto. cbn [rbind]. unfold hit.
  destruct (dget Nat.eqb (w_cache_eff w) cid) as [u|] eqn:D; auto. apply (dget_in Nat.eqb Nat.eqb_eq) in D.
  destruct (A _ _ D) as (c' & C & P). apply oget_ok in E. congruence.
Qed.
Lemma nll_now_since ts w x : cohG false w ->
  (forall n cid c, In (n, cid) (w_channels w) -> nth_error (w_chans w) cid = Some c -> inv_now w cid = inv_res ts c) ->
  nll_now w x = nll_with (contribution_since ts w) w x.
Proof.
  intros K IV. unfold nll_now, nll_with.
  assert (P : per_channel_now w x = per_channel_res w x).
  { unfold per_channel_now, per_channel_res. rewrite (mapr_ext _ (fun cid => idx <- (c <- oget (w_chans w) cid ;; pi_res (w_procs w) c) ;; np_take (firstn (length (w_procs w)) x) idx)); [reflexivity|].
    intros cid _. now rewrite pi_now_coh. }
  rewrite P. destruct (per_channel_res w x) as [yn|]; auto. cbn [rbind].
  rewrite (mapr_ext _ (fun q => c <- oget (w_chans w) (fst q) ;; contribution_since ts w c (fst (snd q)) (snd (snd q)))); [reflexivity|].
  intros [cid [y nu]] H. cbn [fst snd]. apply in_combine_l in H. apply in_map_iff in H as ([n cid'] & E & H). simpl in E. subst cid'.
  unfold contribution_now. destruct (oget (w_chans w) cid) as [c|] eqn:C; auto. cbn [rbind]. unfold contribution_since. destruct (c_data c); auto.
  destruct (oget (w_hists w) n0); auto. cbn [rbind]. unfold expected_now. rewrite (eff_now_coh w cid K), C. cbn [rbind].
  unfold expected_res. unfold gauss_now, gauss_since. rewrite (IV n cid c H (oget_ok _ _ _ C)).
  destruct (bcast xmul y (eff_vec c)); auto.
Qed.
