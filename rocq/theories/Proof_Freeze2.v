(** Cached values survive all later calls, as long as there are at most 128 channel objects. *)
From Coq Require Import Reals String ZArith Bool Arith List Lra Lia.
From Verif Require Import Model_Num Model_Hist Model_Utility Model_Template Model_World Model_Ops
  Spec_Matrix Spec_World Proof_Hist Proof_Matrix Proof_Template Proof_HistHeap Proof_Monad Proof_World Proof_Eval Proof_Route Proof_Freeze.
Import ListNotations.
Local Open Scope R_scope.

(** the list of processes is the same or longer *)
Definition PM (w w' : world) : Prop := w_procs w' = w_procs w \/ (length (w_procs w) < length (w_procs w'))%nat.
Lemma pm_po : preorder PM.
Proof. split; [left; auto|]. intros a b c [E|E] [F|F]; [left; congruence|right; rewrite <- E; exact F|right; rewrite F; exact E|right; lia]. Qed.
Lemma pm_on_hist {A} i (f : hist -> hist * res A) : pres PM (on_hist i f).
Proof. intros w. unfold on_hist. destruct (nth_error (w_hists w) i); [|apply pm_po]. destruct (f h). now left. Qed.
Lemma pm_on_tmpl {A} i (f : tmpl -> tmpl * res A) : pres PM (on_tmpl i f).
Proof. intros w. unfold on_tmpl. destruct (nth_error (w_tmpls w) i); [|apply pm_po]. destruct (f t). now left. Qed.
Lemma pm_on_chan {A} i (f : chan -> chan * res A) : pres PM (on_chan i f).
Proof. intros w. unfold on_chan. destruct (nth_error (w_chans w) i); [|apply pm_po]. destruct (f c). now left. Qed.
Lemma pm_alloc h : pres PM (alloc_hist h). Proof. intros w. now left. Qed.
Lemma pm_core {A} (m : M A) : pres core_eq m -> pres PM m.
Proof. intros H w. left. apply (ce_procs _ _ (H w)). Qed.
Lemma pm_tmpl_reset i : pres PM (tmpl_reset i). Proof. unfold tmpl_reset. pres_tac pm_po. apply pm_on_tmpl. Qed.
Lemma pm_step inv o : pres PM (step inv o).
Proof.
  destruct o; simpl; pres_tac pm_po; try apply pm_alloc; try apply pm_on_hist; try apply pm_on_tmpl; try apply pm_tmpl_reset.
  - intros w. now left.
  - intros w. now left.
  - intros w. unfold define_process. destruct (smem _ _); [now left|]. right. simpl. rewrite app_length. simpl. lia.
  - intros w. unfold mct_add_template. destruct (dget _ _ _); [|now left]. destruct (smem _ _); [|now left].
    apply (pres_bind pm_po); [apply (pres_get_tmpl pm_po)|intros; apply pm_on_chan].
  - unfold mct_add_data. pres_tac pm_po. intros w. destruct (dget _ _ _); [|now left].
    apply (pres_bind pm_po); [apply (pres_get_hist pm_po)|intros; apply pm_on_chan].
  - intros w. unfold add_gaussian_constraint. destruct (smem _ _); now left.
  - unfold set_yield. pres_tac pm_po. destruct (smem p a); pres_tac pm_po.
    destruct (dget String.eqb (c_tmpls a2) p); pres_tac pm_po. destruct (dget String.eqb (c_effs a2) p); pres_tac pm_po. apply pm_on_tmpl.
  - unfold reset_parameters, ch_reset. pres_tac pm_po. apply pm_tmpl_reset.
  - unfold update_parameters. pres_tac pm_po; [apply pm_core, core_per_channel|]. unfold ch_update_parameters. pres_tac pm_po.
    match goal with a : (_ * R * list xr * list xr)%type |- _ => destruct a as [[[tid eff] yy] nn] end. pres_tac pm_po; apply pm_on_tmpl.
  - apply pm_core, core_nll.
  - unfold generate_asimov_dataset, ch_asimov, ch_template_sum. pres_tac pm_po; try apply pm_alloc.
    destruct (c_ttype _); pres_tac pm_po. unfold ch_bin_edges. pres_tac pm_po. destruct (c_tmpls _) as [|[? ?] ?]; pres_tac pm_po.
  - unfold generate_toy_dataset, ch_toy, ch_template_sum. pres_tac pm_po; try apply pm_alloc.
    destruct (c_ttype _); pres_tac pm_po. unfold ch_bin_edges. pres_tac pm_po. destruct (c_tmpls _) as [|[? ?] ?]; pres_tac pm_po.
Qed.

(** the channel objects: same number of bins, and at least the templates they had *)
Definition CM (w w' : world) : Prop := forall i c, nth_error (w_chans w) i = Some c ->
  exists c' l, nth_error (w_chans w') i = Some c' /\ bins_of c' = bins_of c /\ c_tmpls c' = c_tmpls c ++ l.
Lemma cm_po : preorder CM.
Proof.
  split; [intros w i c H; exists c, []; rewrite app_nil_r; auto|]. intros a b c AB BC i x H. destruct (AB i x H) as (y & l & Y1 & Y2 & Y3).
  destruct (BC i y Y1) as (z & l' & Z1 & Z2 & Z3). exists z, (l ++ l'). rewrite app_assoc, Z3, Y3. repeat split; congruence.
Qed.
Lemma cm_same w w' : w_chans w' = w_chans w -> CM w w'.
Proof. intros E i c H. exists c, []. rewrite E, app_nil_r. auto. Qed.
Lemma cm_on_hist {A} i (f : hist -> hist * res A) : pres CM (on_hist i f).
Proof. intros w. unfold on_hist. destruct (nth_error (w_hists w) i); [|apply cm_po]. destruct (f h). now apply cm_same. Qed.
Lemma cm_on_tmpl {A} i (f : tmpl -> tmpl * res A) : pres CM (on_tmpl i f).
Proof. intros w. unfold on_tmpl. destruct (nth_error (w_tmpls w) i); [|apply cm_po]. destruct (f t). now apply cm_same. Qed.
Lemma cm_on_chan {A} i (f : chan -> chan * res A) :
  (forall c, exists l, bins_of (fst (f c)) = bins_of c /\ c_tmpls (fst (f c)) = c_tmpls c ++ l) -> pres CM (on_chan i f).
Proof.
  intros H w. unfold on_chan. destruct (nth_error (w_chans w) i) as [c0|] eqn:E; [|apply cm_po]. destruct (H c0) as (l & H1 & H2). destruct (f c0) as [c1 r]. simpl in *.
  intros j c J. simpl. destruct (Nat.eq_dec i j) as [<-|N].
  - exists c1, l. rewrite upd_same by (apply nth_error_Some; congruence). assert (c0 = c) by congruence. subst. auto.
  - exists c, []. rewrite upd_other, app_nil_r by auto. auto.
Qed.
Lemma cm_alloc h : pres CM (alloc_hist h). Proof. intros w. now apply cm_same. Qed.
Lemma cm_core {A} (m : M A) : pres core_eq m -> pres CM m.
Proof. intros H w. apply cm_same, (ce_chans _ _ (H w)). Qed.
Lemma cm_tmpl_reset i : pres CM (tmpl_reset i). Proof. unfold tmpl_reset. pres_tac cm_po. apply cm_on_tmpl. Qed.
Lemma dset_new {K V} (eqb : K -> K -> bool) (d : list (K * V)) k v : existsb (eqb k) (map fst d) = false -> dset eqb d k v = d ++ [(k, v)].
Proof. induction d as [|[k' v'] d IH]; simpl; auto. destruct (eqb k k'); [discriminate|]. intros H. now rewrite IH. Qed.
Lemma cm_step inv o : pres CM (step inv o).
Proof.
  destruct o; simpl; pres_tac cm_po; try apply cm_alloc; try apply cm_on_hist; try apply cm_on_tmpl; try apply cm_tmpl_reset.
  - intros w. now apply cm_same.
  - intros w i c H. exists c, []. simpl. rewrite app_nil_r. split; [now apply nth_app_some|auto].
  - intros w. unfold define_process. destruct (smem _ _); now apply cm_same.
  - intros w. unfold mct_add_template. destruct (dget _ _ _); [|now apply cm_same]. destruct (smem _ _); [|now apply cm_same].
    apply (pres_bind cm_po); [apply (pres_get_tmpl cm_po)|intros t; apply cm_on_chan]. intros c. unfold ch_add_template, add_template_raw.
    destruct (check_template c t); [|exists []; now rewrite app_nil_r]. destruct (smem process (keys (c_tmpls c))) eqn:SM; [exists []; now rewrite app_nil_r|].
    destruct (negb _); [exists []; cbn; rewrite app_nil_r; auto|]. exists [(process, tid)]. cbn. split; [reflexivity|]. now apply dset_new.
  - unfold mct_add_data. pres_tac cm_po. intros w. destruct (dget _ _ _); [|now apply cm_same].
    apply (pres_bind cm_po); [apply (pres_get_hist cm_po)|intros h; apply cm_on_chan]. intros c. unfold ch_add_data. exists []. rewrite app_nil_r. destruct (check_hist c h); auto.
  - intros w. unfold add_gaussian_constraint. destruct (smem _ _); now apply cm_same.
  - unfold set_yield. pres_tac cm_po. destruct (smem p a); pres_tac cm_po.
    destruct (dget String.eqb (c_tmpls a2) p); pres_tac cm_po. destruct (dget String.eqb (c_effs a2) p); pres_tac cm_po. apply cm_on_tmpl.
  - unfold reset_parameters, ch_reset. pres_tac cm_po. apply cm_tmpl_reset.
  - unfold update_parameters. pres_tac cm_po; [apply cm_core, core_per_channel|]. unfold ch_update_parameters. pres_tac cm_po.
    match goal with a : (_ * R * list xr * list xr)%type |- _ => destruct a as [[[tid eff] yy] nn] end. pres_tac cm_po; apply cm_on_tmpl.
  - apply cm_core, core_nll.
  - unfold generate_asimov_dataset, ch_asimov, ch_template_sum. pres_tac cm_po; try apply cm_alloc.
    destruct (c_ttype _); pres_tac cm_po. unfold ch_bin_edges. pres_tac cm_po. destruct (c_tmpls _) as [|[? ?] ?]; pres_tac cm_po.
  - unfold generate_toy_dataset, ch_toy, ch_template_sum. pres_tac cm_po; try apply cm_alloc.
    destruct (c_ttype _); pres_tac cm_po. unfold ch_bin_edges. pres_tac cm_po. destruct (c_tmpls _) as [|[? ?] ?]; pres_tac cm_po.
Qed.
Lemma cm_length w w' : CM w w' -> (length (w_chans w) <= length (w_chans w'))%nat.
Proof.
  intros H. destruct (le_lt_dec (length (w_chans w)) (length (w_chans w'))) as [L|L]; auto.
  destruct (nth_error (w_chans w) (length (w_chans w'))) as [c|] eqn:E; [|apply nth_error_None in E; lia].
  destruct (H _ _ E) as (c' & l & C & _). assert (length (w_chans w') < length (w_chans w'))%nat by (apply nth_error_Some; congruence). lia.
Qed.

(** ** Cached values survive *)
Definition FZ (w w' : world) : Prop := small w' -> CI w -> CI w' /\ KEEP w w'.
Lemma same_cache_FZ w w' : same_cache w w' -> PM w w' -> (length (w_chans w) <= length (w_chans w'))%nat -> FZ w w'.
Proof.
  intros (A & B & C) P L S [I1 I2 I3]. split.
  - constructor.
    + rewrite B. destruct I1 as (N & I). split; auto. intros k H. specialize (I k H). lia.
    + rewrite C. destruct I2 as (N & I). split; auto. intros k H. specialize (I k H). lia.
    + rewrite A. destruct I3 as (a & b & E & N & IA & IB). destruct P as [P|P].
      * exists a, b. rewrite P. repeat split; auto. apply IA; auto. destruct (IA k H). lia.
      * exists [], (a ++ b). split; auto. split; [constructor|]. split; [intros k []|]. intros k. rewrite map_app, in_app_iff. intros [H|H].
        { destruct (IA k H) as (-> & _). exact P. } { specialize (IB k H). lia. }
  - split; intros cid m; rewrite ?B, ?C; auto.
Qed.
Lemma small_core w w' : core_eq w w' -> small w' -> small w.
Proof. unfold small. intros C. now rewrite (ce_chans _ _ C). Qed.
Lemma FZ_step inv o w : FZ w (fst (step inv o w)).
Proof.
  destruct (evaluates o) eqn:EV.
  2:{ apply same_cache_FZ; [now apply same_cache_step|apply pm_step|apply cm_length, cm_step]. }
  destruct o; simpl in EV; try discriminate; simpl.
  - intros S I.
    assert (S0 : small w) by (unfold small in *; pose proof (cm_length _ _ (cm_step inv (OUpdate x) w)) as L; simpl in L; lia).
    destruct (pn_per_channel w S0 x w (po_refl _ core_po w) I (NOW_refl w)) as (w1 & E & C1 & I1 & _ & K1).
    set (rs := update_parameters x w) in *.
    set (mm := fun yn : list (list xr) * list (list xr) => chs <- gets (fun w => map snd (w_channels w)) ;;;
       forM (fun q => ch_update_parameters (fst q) (fst (snd q)) (snd (snd q))) (combine chs (combine (fst yn) (snd yn)))).
    assert (ER : rs = match per_channel_now w x with Ok yn => mm yn w1 | Err e => (w1, Err e) end).
    { unfold rs, update_parameters. unfold bind at 1. rewrite E. destruct (per_channel_now w x); reflexivity. }
    rewrite ER in *. clear ER rs. destruct (per_channel_now w x) as [yn|e]; [|exact (conj I1 K1)].
    assert (Q : pres quiet (mm yn)). { unfold mm. pres_tac quiet_po. apply quiet_ch_update. }
    assert (P : pres PM (mm yn)). { unfold mm. pres_tac pm_po. unfold ch_update_parameters. pres_tac pm_po. match goal with a : (_ * R * list xr * list xr)%type |- _ => destruct a as [[[tid eff] yy] nn] end. pres_tac pm_po; apply pm_on_tmpl. }
    assert (CMm : pres CM (mm yn)). { unfold mm. pres_tac cm_po. unfold ch_update_parameters. pres_tac cm_po. match goal with a : (_ * R * list xr * list xr)%type |- _ => destruct a as [[[tid eff] yy] nn] end. pres_tac cm_po; apply cm_on_tmpl. }
    destruct (same_cache_FZ w1 (fst (mm yn w1)) (quiet_same_cache _ _ (Q w1)) (P w1) (cm_length _ _ (CMm w1)) S I1) as (I2 & K2).
    split; [exact I2|exact (KEEP_trans _ _ _ K1 K2)].
  - unfold bind. intros S I.
    assert (S0 : small w).
    { eapply small_core; [apply (core_nll x w)|]. destruct (nll x w) as [w' [|]]; exact S. }
    destruct (pn_nll w S0 x w (po_refl _ core_po w) I (NOW_refl w)) as (w1 & E & C1 & I1 & _ & K1). rewrite E in *. destruct (nll_now w x); simpl; auto.
Qed.
Lemma run_CM inv l w : CM w (run inv l w).
Proof. revert w. induction l as [|o l IH]; intros w; [apply cm_po|]. eapply (po_trans _ cm_po); [apply (cm_step inv o)|apply IH]. Qed.
Lemma FZ_run inv l w : FZ w (run inv l w).
Proof.
  revert w. induction l as [|o l IH]; intros w S I; [auto|]. change (run inv (o :: l) w) with (run inv l (fst (step inv o w))) in *.
  assert (S1 : small (fst (step inv o w))). { unfold small in *. pose proof (cm_length _ _ (run_CM inv l (fst (step inv o w)))). lia. }
  destruct (FZ_step inv o w S1 I) as (I1 & K1). destruct (IH _ S I1) as (I2 & K2). split; auto. eapply KEEP_trans; eauto.
Qed.
Lemma CI_init : CI world_init.
Proof.
  constructor.
  - split; [constructor|intros k []].
  - split; [constructor|intros k []].
  - exists [], []. split; auto. split; [constructor|]. split; intros k [].
Qed.
Lemma CI_reached inv l : small (reached inv l) -> CI (reached inv l).
Proof. intros S. apply (FZ_run inv l world_init S CI_init). Qed.

(** after a successful evaluation the matrices of all its channels are cached *)
Lemma lru_front {K V} (eqb : K -> K -> bool) (c : list (K * V)) k cmp c' v : eqb k k = true -> lru_call eqb c k cmp = (c', Ok v) -> dget eqb c' k = Some v.
Proof.
  intros R. unfold lru_call. destruct (dget eqb c k) as [u|].
  - intros H. injection H as <- <-. simpl. now rewrite R.
  - destruct cmp as [u|]; [|discriminate]. intros H. injection H as <- <-. simpl. now rewrite R.
Qed.
Lemma inv_cached cid w w' m : block_diag_inv_corr_mat cid w = (w', Ok m) -> dget Nat.eqb (w_cache_inv w') cid = Some m.
Proof.
  unfold block_diag_inv_corr_mat. unfold bind at 1. destruct (get_chan cid w) as [w1 [c|]]; [|discriminate]. unfold bind.
  destruct (mapM _ (c_tmpls c) w1) as [w2 [ts|]]; [|discriminate]. destruct (lru_call _ _ _ _) as [cache r] eqn:E. intros H. injection H as <- ->.
  simpl. eapply lru_front; eauto. apply Nat.eqb_refl.
Qed.
Lemma gauss_cached cid nui w w' g : gauss_term cid nui w = (w', Ok g) ->
  exists m, dget Nat.eqb (w_cache_inv w') cid = Some m /\ exists v, np_vecmat nui m = Ok v.
Proof.
  unfold gauss_term. unfold bind at 1. destruct (block_diag_inv_corr_mat cid w) as [w1 [m|]] eqn:E; [|discriminate]. apply inv_cached in E.
  unfold bind at 1, lift. destruct (np_vecmat nui m) as [v|] eqn:EV; [|discriminate]. unfold bind. destruct (np_dot v nui); [|discriminate].
  intros H. injection H as <- _. exists m. eauto.
Qed.
Lemma contribution_cached cid y nui w w' g : nll_contribution cid y nui w = (w', Ok g) ->
  exists m, dget Nat.eqb (w_cache_inv w') cid = Some m /\ exists v, np_vecmat nui m = Ok v.
Proof.
  unfold nll_contribution. unfold bind at 1. destruct (get_chan cid w) as [w1 [c|]]; [|discriminate].
  destruct (c_data c); [|discriminate]. unfold bind at 1. destruct (get_hist n w1) as [w2 [h|]]; [|discriminate].
  unfold bind at 1. destruct (expected_evts_per_bin cid y nui w2) as [w3 [e|]]; [|discriminate].
  unfold bind at 1, lift at 1. destruct (bcast xsub e _) as [d|]; [|discriminate]. unfold bind at 1, lift at 1. destruct (bcast xlogyx _ e) as [l|]; [|discriminate].
  unfold bind at 1, lift at 1. destruct (bcast xsub d l) as [p|]; [|discriminate]. unfold bind. destruct (gauss_term cid nui w3) as [w4 [g'|]] eqn:E; [|discriminate].
  intros H. injection H as <- _. now apply gauss_cached in E.
Qed.
Lemma contributions_cached w qs : small w -> forall w1 w2 cs, core_eq w w1 -> CI w1 -> NOW w w1 ->
  mapM (fun q => nll_contribution (fst q) (fst (snd q)) (snd (snd q))) qs w1 = (w2, Ok cs) ->
  forall q, In q qs -> exists m, dget Nat.eqb (w_cache_inv w2) (fst q) = Some m /\ exists v, np_vecmat (snd (snd q)) m = Ok v.
Proof.
  intros S. induction qs as [|[cid [y nu]] qs IH]; [intros w1 w2 cs _ _ _ _ q []|]. intros w1 w2 cs C I N E q Q. simpl mapM in E. unfold bind at 1 in E.
  destruct (pn_contribution w S cid y nu w1 C I N) as (w3 & E3 & C3 & I3 & N3 & K3). rewrite E3 in E. destruct (contribution_now w cid y nu) as [g|]; [|discriminate].
  unfold bind in E. destruct (mapM _ qs w3) as [w4 [gs|]] eqn:E4; [|discriminate]. injection E as <- _.
  destruct Q as [<-|Q]; [|eapply IH; eauto]. apply contribution_cached in E3 as (m & M & V). exists m. split; auto.
  destruct (pn_mapM w (fun q => nll_contribution (fst q) (fst (snd q)) (snd (snd q))) (fun q => contribution_now w (fst q) (fst (snd q)) (snd (snd q))) qs (fun a _ => pn_contribution w S _ _ _) w3 C3 I3 N3) as (w5 & E5 & _ & _ & _ & K5).
  rewrite E4 in E5. injection E5 as <- _. now apply K5.
Qed.
Lemma nll_cached w x w' r : small w -> CI w -> nll x w = (w', Ok r) -> exists yn, per_channel_now w x = Ok yn /\
  forall q, In q (combine (map snd (w_channels w)) (combine (fst yn) (snd yn))) ->
    exists m, dget Nat.eqb (w_cache_inv w') (fst q) = Some m /\ exists v, np_vecmat (snd (snd q)) m = Ok v.
Proof.
  intros S I. unfold nll. unfold bind at 1. destruct (pn_per_channel w S x w (po_refl _ core_po w) I (NOW_refl w)) as (w1 & E1 & C1 & I1 & N1 & K1). rewrite E1.
  destruct (per_channel_now w x) as [yn|]; [|discriminate]. unfold bind at 1, gets at 1. rewrite (ce_channels _ _ C1). unfold bind at 1.
  destruct (mapM _ _ w1) as [w2 [cs|]] eqn:E2; [|discriminate]. intros E. exists yn. split; auto. intros q Q.
  destruct (contributions_cached w _ S w1 w2 cs C1 I1 N1 E2 q Q) as (m & M & V). exists m. split; auto.
  unfold bind at 1, gets at 1 in E. unfold bind in E. destruct (mapM _ (w_cnames w2) w2) as [w3 [ts|]] eqn:E3; [|discriminate]. injection E as <- _.
  assert (X : fst (mapM (fun p => (fun w => (w, constraint_term w x p))) (w_cnames w2) w2) = w2).
  { clear. generalize (w_cnames w2). intros l. induction l as [|p l IH]; auto. simpl. unfold bind at 1. destruct (constraint_term w2 x p); auto. unfold bind. destruct (mapM _ l w2) as [w3 [ts|]]; simpl in *; auto. }
  rewrite E3 in X. simpl in X. now subst.
Qed.
