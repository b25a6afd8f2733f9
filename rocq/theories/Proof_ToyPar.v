(** Two processes in which a model has the same templates, and data sets of the same contents in possibly different
    histogram objects: its toy studies agree. *)
From Coq Require Import Reals String ZArith Bool Arith List Lra Lia.
From Verif Require Import Model_Num Model_Hist Model_Utility Model_Template Model_World Model_Ops Model_Multi Model_Minimizer Model_Fitter Model_MultiFit Model_Toy Model_MultiToy Model_MultiToyAsk
  Spec_Matrix Spec_Min Spec_Multi Spec_MultiFit Spec_Data Spec_Toy Spec_MultiToy Spec_MultiToyAsk Proof_Hist Proof_Matrix Proof_Template Proof_HistHeap Proof_Monad Proof_World Proof_Eval Proof_Route
  Proof_Min Proof_Fit Proof_Multi Proof_Multi2 Proof_Multi3 Proof_Multi4 Proof_MultiFit Proof_MultiFit2 Proof_Toy Proof_Toy2 Proof_Toy3 Proof_MultiToy Proof_MultiToy2.
Import ListNotations.
Local Open Scope R_scope.

(** ** Worlds *)
Definition same_data (w w' : world) (d d' : option nat) : Prop :=
  match d, d' with
  | None, None => True
  | Some a, Some b => exists h, nth_error (w_hists w) a = Some h /\ nth_error (w_hists w') b = Some h
  | _, _ => False
  end.
Definition vchan (b : Prop) (w w' : world) (cid : nat) : Prop :=
  exists c d, nth_error (w_chans w) cid = Some c /\ nth_error (w_chans w') cid = Some (with_data c d) /\
    (forall p tid, In (p, tid) (c_tmpls c) -> same_tmpl w w' tid) /\ (b -> same_data w w' (c_data c) d).
(** ... for the channels with the names P; the other ones may have any data *)
Definition vp (P : string -> Prop) (m : model) (w w' : world) : Prop := forall n cid, In (n, cid) (m_channels m) -> vchan (P n) w w' cid.
Definition V0 (P : string -> Prop) (m : model) (w w' : world) : Prop := store w = m /\ store w' = m /\ vp P m w w'.
Definition V (P : string -> Prop) (m : model) (w w' : world) : Prop := V0 P m w w' /\ coh w /\ coh w'.
Lemma vp_sub (P Q : string -> Prop) m w w' : (forall n, Q n -> P n) -> vp P m w w' -> vp Q m w w'.
Proof. intros S F n cid I. destruct (F n cid I) as (c & d & A & B & T & D). exists c, d. split; [exact A|]. split; [exact B|]. split; [exact T|auto]. Qed.
Lemma V0_sub (P Q : string -> Prop) m w w' : (forall n, Q n -> P n) -> V0 P m w w' -> V0 Q m w w'.
Proof. intros S (A & B & F). split; [exact A|]. split; [exact B|]. now apply (vp_sub P). Qed.
Lemma V_sub (P Q : string -> Prop) m w w' : (forall n, Q n -> P n) -> V P m w w' -> V Q m w w'.
Proof. intros S (H & C). split; [now apply (V0_sub P)|exact C]. Qed.
Lemma fp_vp P m w w' : fp m w w' -> vp P m w w'.
Proof.
  intros F n cid I. destruct (F n cid I) as (c & A & B & T & D). exists c, (c_data c). rewrite <- with_data_self. repeat split; auto.
  intros _. destruct (c_data c) as [hid|]; [exact (D hid eq_refl)|exact Logic.I].
Qed.
Lemma vp_same P m w w' w1 w1' : w_hists w1 = w_hists w -> w_tmpls w1 = w_tmpls w -> w_chans w1 = w_chans w ->
  w_hists w1' = w_hists w' -> w_tmpls w1' = w_tmpls w' -> w_chans w1' = w_chans w' -> vp P m w w' -> vp P m w1 w1'.
Proof.
  intros H T C H' T' C' F n cid I. destruct (F n cid I) as (c & d & A & B & X & Y). exists c, d. rewrite C, C'. repeat split; auto.
  - intros p tid J. destruct (X p tid J) as (t & A1 & B1 & h & A2 & B2). exists t. rewrite T, T'. repeat split; auto. exists h. rewrite H, H'. auto.
  - unfold same_data in *. rewrite H, H'. exact Y.
Qed.
Lemma V0_core P m w w' w1 w1' : V0 P m w w' -> core_eq w w1 -> core_eq w' w1' -> V0 P m w1 w1'.
Proof.
  intros (A & B & F) C C'. split; [|split].
  - rewrite <- A. apply core_store, C. - rewrite <- B. apply core_store, C'.
  - eapply vp_same; [..|exact F]; [destruct C|destruct C|destruct C|destruct C'|destruct C'|destruct C']; assumption.
Qed.

(** the channels without their data *)
Definition strip (w : world) : world := set_chans w (map (fun c => with_data c None) (w_chans w)).
Lemma strip_R0 P m w w' : V0 P m w w' -> R0 m (strip w) (strip w').
Proof.
  intros (A & B & F). split; [exact A|]. split; [exact B|]. intros n cid I. destruct (F n cid I) as (c & d & X & Y & T & _). exists (with_data c None).
  cbn [strip set_chans w_chans]. rewrite !nth_error_map, X, Y. split; [reflexivity|]. split; [reflexivity|]. split; [exact T|discriminate].
Qed.
Lemma strip_chans w : mct_chans (strip w) = map (fun c => with_data c None) (mct_chans w).
Proof.
  unfold mct_chans. cbn [strip set_chans w_chans w_channels]. induction (w_channels w) as [|[n cid] l IH]; [reflexivity|]. cbn [flat_map snd]. rewrite IH, map_app. f_equal.
  rewrite nth_error_map. destruct (nth_error (w_chans w) cid); reflexivity.
Qed.
Lemma strip_num w : mct_num_nui (strip w) = mct_num_nui w.
Proof. unfold mct_num_nui. rewrite strip_chans, map_map. reflexivity. Qed.
Lemma strip_yields w : process_yields (strip w) = process_yields w.
Proof.
  unfold process_yields. apply map_ext. intros p. unfold process_yield. rewrite strip_chans. generalize (Fin 0). induction (mct_chans w) as [|c l IH]; intros a; [reflexivity|].
  cbn [map fold_left]. apply IH.
Qed.
Lemma strip_x0 w : nll_x0 (strip w) = nll_x0 w.
Proof.
  unfold nll_x0. rewrite strip_yields. unfold nui_params. replace (nui_blocks (strip w)) with (nui_blocks w); [reflexivity|]. unfold nui_blocks. rewrite strip_chans.
  induction (mct_chans w) as [|c l IH]; [reflexivity|]. cbn [map flat_map]. now rewrite IH.
Qed.
Lemma strip_names w : param_names (strip w) = param_names w.
Proof.
  unfold param_names. cbn [strip set_chans w_procs w_channels w_chans w_tmpls]. f_equal. apply flat_map_ext_in. intros [n cid] _. cbn [fst snd]. rewrite nth_error_map.
  destruct (nth_error (w_chans w) cid); reflexivity.
Qed.
Lemma strip_per_channel w x : per_channel_res (strip w) x = per_channel_res w x.
Proof.
  unfold per_channel_res. rewrite strip_num, strip_chans, map_map. cbn [strip set_chans w_procs w_channels w_chans]. f_equal. apply mapr_ext. intros cid _. unfold oget.
  rewrite nth_error_map. destruct (nth_error (w_chans w) cid); reflexivity.
Qed.
Lemma V0_names P m w w' : V0 P m w w' -> param_names w' = param_names w /\ nui_ids w' = nui_ids w /\ nll_x0 w' = nll_x0 w /\ process_yields w' = process_yields w.
Proof.
  intros H. destruct (R0_names m _ _ (strip_R0 P m w w' H)) as (A & B & C & D). rewrite !strip_names in A. rewrite !strip_x0 in C. rewrite !strip_yields in D.
  unfold nui_ids in *. rewrite !strip_num in B. auto.
Qed.
Lemma V0_per_channel P m w w' x : V0 P m w w' -> per_channel_res w' x = per_channel_res w x.
Proof.
  intros H. pose proof (strip_R0 P m w w' H) as R. rewrite <- (strip_per_channel w), <- (strip_per_channel w'). destruct (R0_load m _ _ R) as [A B]. rewrite A, B. apply fp_per_channel, R.
Qed.
Lemma V0_fields P m w w' : V0 P m w w' -> w_channels w' = w_channels w /\ w_procs w' = w_procs w /\ w_cnames w' = w_cnames w /\ w_cvals w' = w_cvals w /\ w_cerrs w' = w_cerrs w /\ w_channels w = m_channels m.
Proof. intros (A & B & _). subst m. unfold store in *. injection B as -> -> -> -> ->. repeat split. Qed.
Lemma V0_nll (P : string -> Prop) m w w' x : (forall n, P n) -> V0 P m w w' -> nll_res w' x = nll_res w x.
Proof.
  intros AP H. destruct (V0_fields P m w w' H) as (E1 & E2 & E3 & E4 & E5 & E6). unfold nll_res. rewrite (V0_per_channel P m w w' x H). apply rbind_ext. intros yn _. rewrite E1, E3, E6.
  replace (mapr (constraint_term w' x) (w_cnames w)) with (mapr (constraint_term w x) (w_cnames w)) by (apply mapr_ext; intros p _; unfold constraint_term; now rewrite E2, E4, E5).
  f_equal. apply mapr_ext. intros [cid [y nu]] I. cbn [fst snd]. apply in_combine_l in I. destruct (ids_of m cid I) as (n & J). destruct H as (_ & _ & F).
  destruct (F n cid J) as (c & d & A & B & T & D). specialize (D (AP n)). unfold oget. rewrite A, B. cbn [rbind].
  change (contribution_res w' (with_data c d) y nu) with (match d with None => Err AttributeError | Some hid => h <- oget (w_hists w') hid ;; e <- expected_res w' c y nu ;;
    a <- bcast xsub e (nd_flat (h_counts h)) ;; l <- bcast xlogyx (nd_flat (h_counts h)) e ;; p <- bcast xsub a l ;; g <- gauss_res w' c nu ;; Ok (xadd (np_sum p) g) end).
  unfold contribution_res. unfold same_data in D. destruct (c_data c) as [a|], d as [b|]; try contradiction; [|reflexivity]. destruct D as (h & D1 & D2). unfold oget. rewrite D1, D2. cbn [rbind].
  rewrite (sc_expected w w' c T). unfold gauss_res. now rewrite (sc_inv w w' c T).
Qed.
Lemma v_nll (P : string -> Prop) m x : (forall n, P n) -> parR (V P m) (nll x).
Proof.
  intros AP w w' (H & C & C'). destruct (pure_nll w x w (po_refl _ core_po w) C) as (w1 & E1 & K1 & H1). destruct (pure_nll w' x w' (po_refl _ core_po w') C') as (w2 & E2 & K2 & H2).
  rewrite E1, E2. cbn [fst snd]. split; [split; [eapply V0_core; eauto|auto]|]. symmetry. now apply (V0_nll P m).
Qed.
Definition V0c (P : string -> Prop) (m : model) (cid : nat) (c : chan) (w w' : world) : Prop :=
  V0 P m w w' /\ nth_error (w_chans w) cid = Some c /\ exists d, nth_error (w_chans w') cid = Some (with_data c d).
Lemma v_chan P m {B} n cid (k : chan -> M B) : In (n, cid) (m_channels m) -> (forall c d, k (with_data c d) = k c) -> (forall c, parR (V0c P m cid c) (k c)) -> parR (V0 P m) (bind (get_chan cid) k).
Proof.
  intros I N K w w' H. pose proof H as (A & B0 & F). destruct (F n cid I) as (c & d & X & Y & _). unfold bind, get_chan. rewrite X, Y, N.
  destruct (K c w w') as [(Z & _) E]; [split; eauto|]. auto.
Qed.
Lemma v_on_tmpl P m {A} n cid c p tid (f : tmpl -> tmpl * res A) : keeps_hist f -> In (n, cid) (m_channels m) -> In (p, tid) (c_tmpls c) -> parR (V0c P m cid c) (on_tmpl tid f).
Proof.
  intros KH I J w w' ((A0 & B0 & F) & C & C'). destruct (F n cid I) as (c' & dd & X & _ & T & _). assert (c' = c) by congruence. subst c'.
  destruct (T p tid J) as (t & E & E' & _). unfold on_tmpl. rewrite E, E'. pose proof (KH t) as KT. destruct (f t) as [t1 r]. cbn [fst snd] in *. split; [|reflexivity].
  split; [|split; [exact C|exact C']]. split; [exact A0|]. split; [exact B0|]. intros n2 cid2 I2. destruct (F n2 cid2 I2) as (c2 & d2 & C1 & C2 & T2 & D2). exists c2, d2. repeat split; auto.
  intros p2 tid2 J2. destruct (T2 p2 tid2 J2) as (t2 & U & U' & h & HH & HH'). unfold same_tmpl, same_hist. cbn [set_tmpls w_tmpls w_hists].
  destruct (Nat.eq_dec tid tid2) as [<-|N].
  - exists t1. rewrite !upd_same by (apply nth_error_Some; congruence). assert (t2 = t) by congruence. subst t2. rewrite KT. repeat split; auto. exists h. auto.
  - exists t2. rewrite !upd_other by auto. repeat split; auto. exists h. auto.
Qed.
Lemma v_read P m {A B} (f : world -> A) v (k : A -> M B) : (forall w, store w = m -> f w = v) -> parR (V0 P m) (k v) -> parR (V0 P m) (bind (gets f) k).
Proof. intros F K w w' H. unfold bind, gets. rewrite (F w) by apply H. rewrite (F w') by apply H. now apply K. Qed.
Lemma v0_set_yield P m p v : parR (V0 P m) (set_yield p v).
Proof.
  unfold set_yield. apply (v_read P m w_procs (m_procs m)); [now intros w <-|]. destruct (smem p (m_procs m)); [|apply par_raise].
  apply (v_read P m _ (map snd (m_channels m))); [now intros w <-|]. apply par_forM. intros cid I. destruct (ids_of m cid I) as (n & J).
  apply (v_chan P m n cid); [exact J|reflexivity|]. intros c. destruct (dget String.eqb (c_tmpls c) p) as [tid|] eqn:D; [|apply par_ret].
  destruct (dget String.eqb (c_effs c) p); [|apply par_ret]. apply dict_in in D. apply (v_on_tmpl P m n cid c p tid); auto. apply kh_yield.
Qed.
Lemma v0_reset P m : parR (V0 P m) reset_parameters.
Proof.
  unfold reset_parameters. apply (v_read P m _ (map snd (m_channels m))); [now intros w <-|]. apply par_forM. intros cid I. destruct (ids_of m cid I) as (n & J).
  unfold ch_reset. apply (v_chan P m n cid); [exact J|reflexivity|]. intros c. apply par_forM. intros [p tid] T. cbn [snd]. intros w w' X. pose proof X as ((_ & _ & F) & C & _).
  destruct (F n cid J) as (c' & d & C' & _ & TT & _). assert (c' = c) by congruence. subst c'. destruct (TT p tid T) as (t & A & B & h & A' & B').
  unfold tmpl_reset, bind, get_tmpl, get_hist. rewrite A, B, A', B'. apply (v_on_tmpl P m n cid c p tid); auto. intros t'. reflexivity.
Qed.
Lemma v0_update P m cid n y nu : In (n, cid) (m_channels m) -> parR (V0 P m) (ch_update_parameters cid y nu).
Proof.
  intros J. unfold ch_update_parameters. apply (v_chan P m n cid); [exact J|reflexivity|]. intros c. apply par_lift_bind. intros ys _. apply par_lift_bind. intros ns _.
  apply par_forM. intros [[[tid eff] yy] nn] Q. do 3 apply in_combine_l in Q. apply in_map_iff in Q as ([p t'] & <- & T). cbn [snd].
  apply par_bind; [|intros _]; apply (v_on_tmpl P m n cid c p t'); auto; [apply kh_yield|apply kh_nui].
Qed.
Lemma v_coh P m {A} (f : M A) o : modifies o = false -> (forall w, fst (step (fun m => Ok m) o w) = fst (f w)) -> parR (V0 P m) f -> parR (V P m) f.
Proof.
  intros MO E PR w w' (H & C & C'). destruct (PR w w' H) as [X Y]. split; [|exact Y]. split; [exact X|]. rewrite <- !E. split; now apply coh_step.
Qed.
Lemma v_set_yield P m p v : parR (V P m) (set_yield p v). Proof. apply (v_coh P m _ (OSetYield p v)); [reflexivity|reflexivity|apply v0_set_yield]. Qed.
Lemma v_reset P m : parR (V P m) reset_parameters. Proof. apply (v_coh P m _ OReset); [reflexivity|reflexivity|apply v0_reset]. Qed.
Lemma v_update P m x : parR (V P m) (update_parameters x).
Proof.
  intros w w' (H & C & C'). enough (X : V0 P m (fst (update_parameters x w)) (fst (update_parameters x w')) /\ snd (update_parameters x w) = snd (update_parameters x w')).
  { destruct X as [X Y]. split; [split; [exact X|]|exact Y].
    split; [exact (coh_step (fun m => Ok m) (OUpdate x) eq_refl w C)|exact (coh_step (fun m => Ok m) (OUpdate x) eq_refl w' C')]. }
  destruct (@pure_per_channel true w x w (po_refl _ core_po w) C) as (w1 & E1 & K1 & _). destruct (@pure_per_channel true w' x w' (po_refl _ core_po w') C') as (w2 & E2 & K2 & _).
  pose proof (V0_per_channel P m w w' x H) as E.
  unfold update_parameters. unfold bind at 1. unfold bind at 2. unfold bind at 3. unfold bind at 4. rewrite E1, E2, E.
  pose proof (V0_core P m w w' w1 w2 H K1 K2) as H1. destruct (per_channel_res w x) as [yn|e]; [|split; [exact H1|reflexivity]].
  revert w1 w2 H1 E1 E2 K1 K2. intros w1 w2 H1 _ _ _ _. revert w1 w2 H1. apply (v_read P m _ (map snd (m_channels m))); [now intros v <-|].
  apply par_forM. intros [cid [y nu]] I. apply in_combine_l in I. destruct (ids_of m cid I) as (n & J). apply (v0_update P m cid n); exact J.
Qed.
Lemma v_get_yield P m p : parR (V P m) (get_yield p).
Proof.
  intros w w' H. assert (E : forall w, fst (get_yield p w) = w). { intros v. unfold get_yield, bind, gets, lift. destruct (index_of p (w_procs v)); reflexivity. }
  rewrite !E. split; [exact H|]. destruct (V0_names P m w w' (proj1 H)) as (_ & _ & _ & Y). destruct (V0_fields P m w w' (proj1 H)) as (_ & PP & _).
  unfold get_yield, bind, gets, lift. rewrite PP. destruct (index_of p (w_procs w)); [|reflexivity]. cbn [snd]. now rewrite Y.
Qed.
(** toy data sets: the histograms have the same contents *)
Definition drel (w w' : world) (l l' : list (string * nat)) : Prop :=
  Forall2 (fun a b => fst a = fst b /\ exists h, nth_error (w_hists w) (snd a) = Some h /\ nth_error (w_hists w') (snd b) = Some h) l l'.
Lemma nth_more {A} (l : list A) more i x : nth_error l i = Some x -> nth_error (l ++ more) i = Some x.
Proof. intros H. rewrite nth_error_app1; [exact H|]. apply nth_error_Some. congruence. Qed.
Lemma V0_more P m w w' h h' : V0 P m w w' -> V0 P m (set_hists w (w_hists w ++ h)) (set_hists w' (w_hists w' ++ h')).
Proof.
  intros (A & B & F). split; [exact A|]. split; [exact B|]. intros n cid I. destruct (F n cid I) as (c & d & C & C' & T & D). exists c, d. repeat split; auto.
  - intros p tid J. destruct (T p tid J) as (t & X & Y & g & Z & U). exists t. repeat split; auto. exists g. split; now apply nth_more.
  - intros p. specialize (D p). unfold same_data in *. destruct (c_data c), d; auto. destruct D as (g & X & Y). exists g. split; now apply nth_more.
Qed.
Lemma v0_toy P m dr : forall w w', V0 P m w w' -> V0 P m (fst (generate_toy_dataset dr w)) (fst (generate_toy_dataset dr w')) /\
  rrel2 (drel (fst (generate_toy_dataset dr w)) (fst (generate_toy_dataset dr w'))) (snd (generate_toy_dataset dr w)) (snd (generate_toy_dataset dr w')).
Proof.
  intros w w' H. set (f := fun nc : string * nat => h <- ch_toy (snd nc) (dr (snd nc)) ;;; a <- alloc_hist h ;;; ret (fst nc, a)).
  change (generate_toy_dataset dr w) with (mapM f (w_channels w) w). change (generate_toy_dataset dr w') with (mapM f (w_channels w') w').
  destruct (V0_fields P m w w' H) as (E1 & _ & _ & _ & _ & E6). rewrite E1, E6. clear E1 E6.
  enough (X : forall l, (forall a, In a l -> In a (m_channels m)) -> forall w w', V0 P m w w' -> V0 P m (fst (mapM f l w)) (fst (mapM f l w')) /\
     (exists more, w_hists (fst (mapM f l w)) = w_hists w ++ more) /\ (exists more, w_hists (fst (mapM f l w')) = w_hists w' ++ more) /\
     rrel2 (drel (fst (mapM f l w)) (fst (mapM f l w'))) (snd (mapM f l w)) (snd (mapM f l w'))).
  { destruct (X (m_channels m) (fun _ H => H) w w' H) as (A & _ & _ & B). auto. }
  clear H. induction l as [|[n cid] l IH]; intros SUB v v' X.
  - cbn. split; [exact X|]. split; [exists []; now rewrite app_nil_r|]. split; [exists []; now rewrite app_nil_r|constructor].
  - pose proof X as (_ & _ & F). destruct (F n cid (SUB _ (or_introl eq_refl))) as (c & d & C & C' & T & _).
    assert (Z : exists r, ch_toy cid (dr cid) v = (v, r) /\ ch_toy cid (dr cid) v' = (v', r)).
    { exists (toy_res v c (dr cid)). split; [now apply toy_is|]. rewrite (toy_is v' cid _ _ C'). f_equal. exact (sc_toy v v' c T (dr cid)). }
    destruct Z as (r & Z1 & Z2). destruct r as [h|e].
    2: { assert (Q : forall u, ch_toy cid (dr cid) u = (u, Err e) -> mapM f ((n, cid) :: l) u = (u, Err e)) by (intros u Qu; unfold f; cbn [mapM]; unfold bind; cbn [snd]; now rewrite Qu).
         rewrite (Q v Z1), (Q v' Z2). split; [exact X|]. split; [exists []; now rewrite app_nil_r|]. split; [exists []; now rewrite app_nil_r|reflexivity]. }
    assert (Q : forall u, ch_toy cid (dr cid) u = (u, Ok h) -> mapM f ((n, cid) :: l) u =
       match mapM f l (set_hists u (w_hists u ++ [h])) with (u', Ok bs) => (u', Ok ((n, length (w_hists u)) :: bs)) | (u', Err e) => (u', Err e) end).
    { intros u Qu. cbn [mapM]. unfold bind at 1. replace (f (n, cid) u) with (set_hists u (w_hists u ++ [h]), Ok (n, length (w_hists u))) by (unfold f, bind; cbn [snd fst]; rewrite Qu; reflexivity). reflexivity. }
    rewrite (Q v Z1), (Q v' Z2). clear Q. set (v1 := set_hists v (w_hists v ++ [h])). set (v1' := set_hists v' (w_hists v' ++ [h])).
    assert (X1 : V0 P m v1 v1') by now apply V0_more. destruct (IH (fun a I => SUB a (or_intror I)) v1 v1' X1) as (Y1 & (m1 & Y2) & (m2 & Y3) & Y4).
    destruct (mapM f l v1) as [v2 r2], (mapM f l v1') as [v2' r2']. cbn [fst snd] in *.
    assert (O1 : exists more, w_hists v2 = w_hists v ++ more) by (exists ([h] ++ m1); rewrite Y2; unfold v1; cbn [set_hists w_hists]; now rewrite <- app_assoc).
    assert (O2 : exists more, w_hists v2' = w_hists v' ++ more) by (exists ([h] ++ m2); rewrite Y3; unfold v1'; cbn [set_hists w_hists]; now rewrite <- app_assoc).
    destruct r2 as [bs|e], r2' as [bs'|e']; cbn [rrel2] in Y4; try contradiction; cbn [fst snd ret rrel2]; [|auto]. split; [exact Y1|]. split; [exact O1|]. split; [exact O2|].
    constructor; [|exact Y4]. cbn [fst snd]. split; [reflexivity|]. exists h. rewrite Y2, Y3. unfold v1, v1'. cbn [set_hists w_hists].
    split; apply nth_more; now rewrite nth_error_app2, Nat.sub_diag by lia.
Qed.
Lemma nodup_fst {B} (l : list (string * B)) n a b : NoDup (keys l) -> In (n, a) l -> In (n, b) l -> a = b.
Proof.
  induction l as [|[k v] l IH]; [intros _ []|]. cbn [keys map fst]. intros ND. inversion ND as [|x y NI ND']; subst. intros [E|I] [E'|I']; [congruence| | |now apply IH].
  - injection E as -> ->. exfalso. apply NI. apply (in_map fst) in I'. exact I'.
  - injection E' as -> ->. exfalso. apply NI. apply (in_map fst) in I. exact I.
Qed.
Lemma add_cons kv l u : mct_add_data (kv :: l) u =
  match dget String.eqb (w_channels u) (fst kv) with
  | None => (u, Err RuntimeError)
  | Some cid =>
      match nth_error (w_hists u) (snd kv), nth_error (w_chans u) cid with
      | Some h, Some c => if check_hist c h then mct_add_data l (set_chans u (upd cid (with_data c (Some (snd kv))) (w_chans u))) else (set_chans u (upd cid c (w_chans u)), Err RuntimeError)
      | _, _ => (u, Err OutOfModel)
      end
  end.
Proof.
  unfold mct_add_data. cbn [forM]. unfold bind at 1. destruct (dget _ _ _) as [cid|]; [|reflexivity]. unfold bind at 1, get_hist. destruct (nth_error (w_hists u) (snd kv)) as [h|]; [|reflexivity].
  unfold on_chan. destruct (nth_error (w_chans u) cid) as [c|]; [|reflexivity]. unfold ch_add_data. destruct (check_hist c h); reflexivity.
Qed.
Lemma v0_add m l l' w w' P : NoDup (keys (m_channels m)) -> drel w w' l l' -> V0 P m w w' ->
  V0 P m (fst (mct_add_data l w)) (fst (mct_add_data l' w')) /\ snd (mct_add_data l w) = snd (mct_add_data l' w') /\
  (snd (mct_add_data l w) = Ok tt -> V0 (fun n => P n \/ In n (keys l)) m (fst (mct_add_data l w)) (fst (mct_add_data l' w'))).
Proof.
  intros ND. enough (G : forall w0 w0' l l', drel w0 w0' l l' -> forall P w w', w_hists w0 = w_hists w -> w_hists w0' = w_hists w' -> V0 P m w w' ->
     V0 P m (fst (mct_add_data l w)) (fst (mct_add_data l' w')) /\ snd (mct_add_data l w) = snd (mct_add_data l' w') /\
     (snd (mct_add_data l w) = Ok tt -> V0 (fun n => P n \/ In n (keys l)) m (fst (mct_add_data l w)) (fst (mct_add_data l' w')))).
  { intros D. now apply (G w w' l l' D). }
  clear w w' l l' P. intros w0 w0' l l' D. induction D as [|[n a] [n' b] l l' (E & h & A & B) D IH]; intros P w w' H0 H0' X.
  { split; [exact X|]. split; [reflexivity|]. intros _. revert X. apply V0_sub. intros n [N|[]]. exact N. }
  cbn [fst snd] in *. subst n'. rewrite !add_cons. cbn [fst snd]. destruct (V0_fields P m w w' X) as (E1 & _ & _ & _ & _ & E6). rewrite E1, E6.
  destruct (dget String.eqb (m_channels m) n) as [cid|] eqn:DG; [|split; [exact X|split; [reflexivity|discriminate]]].
  apply dget_In in DG. pose proof X as (S1 & S2 & F). destruct (F n cid DG) as (c & d & C & C' & T & DD).
  rewrite <- H0, <- H0', A, B, C, C'. change (check_hist (with_data c d) h) with (check_hist c h). destruct (check_hist c h); cbn [fst snd].
  - set (w1 := set_chans w _). set (w1' := set_chans w' _). assert (X1 : V0 (fun x => P x \/ x = n) m w1 w1').
    { split; [exact S1|]. split; [exact S2|]. intros n2 cid2 I2. unfold w1, w1', vchan. cbn [set_chans w_chans]. destruct (Nat.eq_dec cid cid2) as [<-|N].
      + rewrite !upd_same by (apply nth_error_Some; congruence). exists (with_data c (Some a)), (Some b). split; [reflexivity|]. split; [reflexivity|]. split; [exact T|].
        intros _. exists h. cbn [set_chans w_hists]. rewrite <- H0, <- H0'. auto.
      + rewrite !upd_other by auto. destruct (F n2 cid2 I2) as (c2 & d2 & C2 & C2' & T2 & D2). exists c2, d2. split; [exact C2|]. split; [exact C2'|]. split; [exact T2|].
        intros [Q|Q]; [exact (D2 Q)|]. subst n2. exfalso. apply N. eapply nodup_fst; eauto. }
    destruct (IH _ w1 w1' H0 H0' X1) as (I1 & I2 & I3). split; [revert I1; apply V0_sub; auto|]. split; [exact I2|].
    intros Q. generalize (I3 Q). apply V0_sub. intros x [Y|[Y|Y]]; auto.
  - split; [|split; [reflexivity|discriminate]]. split; [exact S1|]. split; [exact S2|]. apply (vp_same P m w w'); try reflexivity; try exact F; cbn [set_chans w_chans]; now apply upd_self.
Qed.
Lemma v_toy P m dr : forall w w', V P m w w' -> V P m (fst (generate_toy_dataset dr w)) (fst (generate_toy_dataset dr w')) /\
  rrel2 (drel (fst (generate_toy_dataset dr w)) (fst (generate_toy_dataset dr w'))) (snd (generate_toy_dataset dr w)) (snd (generate_toy_dataset dr w')).
Proof.
  intros w w' (H & C & C'). destruct (v0_toy P m dr w w' H) as [A B]. split; [|exact B]. split; [exact A|].
  assert (E : forall w, fst (generate_toy_dataset dr w) = fst (step (fun m => Ok m) (OToy dr) w)) by (intros v; simpl; unfold bind; destruct (generate_toy_dataset dr v) as (v' & [|]); reflexivity).
  rewrite !E. split; now apply coh_step.
Qed.
Lemma v_add P m l l' w w' : NoDup (keys (m_channels m)) -> drel w w' l l' -> V P m w w' ->
  V P m (fst (mct_add_data l w)) (fst (mct_add_data l' w')) /\ snd (mct_add_data l w) = snd (mct_add_data l' w') /\
  (snd (mct_add_data l w) = Ok tt -> V (fun n => P n \/ In n (keys l)) m (fst (mct_add_data l w)) (fst (mct_add_data l' w'))).
Proof.
  intros ND D (H & C & C'). destruct (v0_add m l l' w w' P ND D H) as (A & B & E).
  assert (K : coh (fst (mct_add_data l w)) /\ coh (fst (mct_add_data l' w'))) by (split; [exact (coh_step (fun m => Ok m) (OAddData l) eq_refl w C)|exact (coh_step (fun m => Ok m) (OAddData l') eq_refl w' C')]).
  split; [split; [exact A|exact K]|]. split; [exact B|]. intros Q. split; [exact (E Q)|exact K].
Qed.
(** ** Fits.  All the data agree. *)
Lemma v_play (P : string -> Prop) m {A B} (R : A -> B -> Prop) p p' : (forall n, P n) -> prel R p p' -> forall w w', V P m w w' ->
  V P m (fst (play nll p w)) (fst (play nll p' w')) /\ R (snd (play nll p w)) (snd (play nll p' w')).
Proof.
  intros AP. induction 1 as [a b H|x k k' _ IH]; intros w w' X; simpl; [auto|]. destruct (v_nll P m x AP w w' X) as [Y E]. rewrite E. now apply IH.
Qed.
Section Fit.
  Variables (P : string -> Prop) (AP : forall n, P n) (m : model) (i1 i2 n1 n2 : nat).
  Local Notation adr := (adr n1 n2).
  Local Notation mz := (mz n1 n2).
  Local Notation mres := (mres n1 n2).
  Record VF (s t : fstate) : Prop := {
    vf_w : V P m (fs_w s) (fs_w t);
    vf_f : nth_error (fs_fitters s) i1 = nth_error (fs_fitters t) i2;
    vf_d : exists d, length (fs_pars s) = (n1 + d)%nat /\ length (fs_pars t) = (n2 + d)%nat;
    vf_p : forall j, nth_error (fs_pars s) (n1 + j) = nth_error (fs_pars t) (n2 + j) }.
  Definition vparF {A B} (R : A -> B -> Prop) (f : F A) (g : F B) : Prop := forall s t, VF s t -> VF (fst (f s)) (fst (g t)) /\ rrel2 R (snd (f s)) (snd (g t)).

  Lemma vf_bind {A B C D} (R : A -> B -> Prop) (Q : C -> D -> Prop) f g k k' : vparF R f g -> (forall a b, R a b -> vparF Q (k a) (k' b)) -> vparF Q (fbind f k) (fbind g k').
  Proof.
    intros H K s t X. unfold fbind. destruct (H s t X) as [Y Z]. destruct (f s) as [s1 [a|e]], (g t) as [t1 [b|e']]; cbn [fst snd rrel2] in *; try contradiction; [now apply K|]. auto.
  Qed.
  Lemma vf_lift {A B} (R : A -> B -> Prop) r r' : rrel2 R r r' -> vparF R (flift r) (flift r').
  Proof. intros H s t X. split; [exact X|exact H]. Qed.
  Lemma vf_ret {A B} (R : A -> B -> Prop) a b : R a b -> vparF R (fret a) (fret b).
  Proof. intros H s t X. split; [exact X|exact H]. Qed.
  Lemma vf_get {A B} (R : A -> B -> Prop) f g : (forall s t, VF s t -> R (f s) (g t)) -> vparF R (fget f) (fget g).
  Proof. intros H s t X. split; [exact X|]. now apply H. Qed.
  Lemma vf_fitter : vparF eq (get_fitter i1) (get_fitter i2).
  Proof. intros s t X. split; [exact X|]. unfold get_fitter. cbn. rewrite (vf_f s t X). destruct (nth_error _ _); reflexivity. Qed.
  Lemma vf_getp a b : adr a b -> vparF eq (get_pars a) (get_pars b).
  Proof. intros (j & -> & ->) s t X. split; [exact X|]. unfold get_pars. cbn. rewrite (vf_p s t X). destruct (nth_error _ _); reflexivity. Qed.
  Lemma vf_world {A} (f : M A) : parR (V P m) f -> vparF eq (on_world f) (on_world f).
  Proof.
    intros H s t X. unfold on_world. destruct (H _ _ (vf_w s t X)) as [Y Z]. destruct (f (fs_w s)) as [w1 r], (f (fs_w t)) as [w2 r']. cbn [fst snd] in *. subst r'.
    split; [|destruct r; reflexivity]. destruct X. constructor; auto.
  Qed.
  Lemma vf_x0 : vparF eq x0 x0.
  Proof.
    intros s t X. unfold x0. split; [exact X|]. cbn. destruct (V0_names P m _ _ (proj1 (vf_w s t X))) as (_ & _ & -> & _). destruct (nll_x0 _); reflexivity.
  Qed.
  Lemma vf_new id : vparF mz (new_minimizer id) (new_minimizer id).
  Proof.
    intros s t X. unfold new_minimizer. destruct (V0_names P m _ _ (proj1 (vf_w s t X))) as (N & _). rewrite N. destruct (minimizer_class id) as [k|e]; [|split; [exact X|reflexivity]].
    destruct X as [X1 X2 (d & D1 & D2) X4]. cbn. split.
    - constructor; cbn; auto.
      + exists (S d). rewrite !app_length. cbn. lia.
      + intros j. destruct (lt_dec j d) as [L|L]; [rewrite !nth_error_app1 by lia; apply X4|]. rewrite !nth_error_app2 by lia. f_equal. lia.
    - split; [exists d; auto|reflexivity].
  Qed.
  Lemma vf_min E a b x g : mz a b -> vparF (fun q q' => mz (fst q) (fst q') /\ mres (snd q) (snd q')) (minimize_from E a x g) (minimize_from E b x g).
  Proof.
    intros ((j & A & B) & N) s t X. unfold minimize_from. rewrite A, B, (vf_p s t X j). destruct (nth_error (fs_pars t) (n2 + j)) as [p|] eqn:NP; [|split; [exact X|reflexivity]].
    assert (Y : ma (mk_mstate p a) (mk_mstate p b)) by (split; [reflexivity|exact N]).
    destruct (v_play P m _ _ _ AP (mr_minimize E x g _ _ Y) _ _ (vf_w s t X)) as [Z1 Z2].
    pose proof (fun w' s' r => minimize_result nll E x g (mk_mstate p a) (fs_w s) w' s' r) as Q1. pose proof (fun w' s' r => minimize_result nll E x g (mk_mstate p b) (fs_w t) w' s' r) as Q2.
    pose proof (fun w' s' r => minimize_keep E x g world nll (mk_mstate p a) (fs_w s) w' s' r) as K1. pose proof (fun w' s' r => minimize_keep E x g world nll (mk_mstate p b) (fs_w t) w' s' r) as K2.
    destruct (play nll (minimize E x g (mk_mstate p a)) (fs_w s)) as (w1 & s1 & r1), (play nll (minimize E x g (mk_mstate p b)) (fs_w t)) as (w2 & t2 & r2).
    cbn [fst snd ms_m] in *. destruct Z2 as [(M1 & M2) R].
    assert (P1 : (n1 + j < length (fs_pars s))%nat) by (apply nth_error_Some; rewrite (vf_p s t X); congruence). assert (P2 : (n2 + j < length (fs_pars t))%nat) by (apply nth_error_Some; congruence).
    split.
    - destruct X as [X1 X2 (d & D1 & D2) X4]. constructor; cbn [fs_w fs_fitters fs_pars]; auto.
      + exists d. rewrite !upd_length. auto.
      + intros j'. destruct (Nat.eq_dec j j') as [<-|NE]; [rewrite !upd_same by assumption; now rewrite M1|]. rewrite !upd_other by lia. apply X4.
    - destruct r1 as [r1|e], r2 as [r2|e']; cbn [rrel2 rmap] in *; try contradiction; [|exact R].
      destruct (K1 w1 s1 (Ok r1) eq_refl) as (_ & G1 & _). destruct (K2 w2 t2 (Ok r2) eq_refl) as (_ & G2 & _). cbn [ms_m] in G1, G2.
      split; [split; [exists j; cbn [fst]; split; congruence|exact M2]|]. split; [exact R|]. exists j. cbn [snd]. rewrite (Q1 _ _ _ eq_refl), (Q2 _ _ _ eq_refl). auto.
  Qed.
  Ltac vf_names := first [apply vf_get; let X := fresh in intros ? ? X; destruct (V0_names P m _ _ (proj1 (vf_w _ _ X))) as (? & ? & _); cbv beta; first [assumption|symmetry; assumption]].
  Lemma vf_nuis (fn : bool) names nuis a b : mz a b -> vparF mz (flift (if fn then fix_all names a nuis else Ok a)) (flift (if fn then fix_all names b nuis else Ok b)).
  Proof. intros H. apply vf_lift. destruct fn; [now apply mz_fix_all|exact H]. Qed.

  Lemma vf_do_fit E u g n l : vparF mres (do_fit E i1 u g n l) (do_fit E i2 u g n l).
  Proof.
    unfold do_fit. eapply (vf_bind eq); [apply vf_fitter|]. intros f ? <-. eapply (vf_bind eq); [vf_names|]. intros names ? <-. eapply (vf_bind eq); [vf_names|]. intros nuis ? <-.
    eapply vf_bind; [apply vf_new|]. intros a b H. eapply vf_bind; [apply vf_nuis; exact H|]. clear a b H. intros a b H.
    eapply (vf_bind mz); [apply vf_lift; destruct l; [now apply mz_bound_all|exact H]|]. clear a b H. intros a b H.
    eapply (vf_bind mz); [apply vf_lift; now apply mz_fix_all|]. clear a b H. intros a b H.
    eapply (vf_bind mz); [apply vf_lift; now apply mz_bound_all|]. clear a b H. intros a b H.
    eapply (vf_bind eq); [apply vf_x0|]. intros x ? <-. eapply vf_bind; [apply vf_min; exact H|]. intros q q' [Q1 Q2].
    eapply (vf_bind eq); [apply vf_getp, Q2|]. intros p ? <-. eapply (vf_bind eq); [destruct u; [apply vf_world, v_update|apply vf_ret; reflexivity]|]. intros _ _ _.
    apply vf_ret. exact Q2.
  Qed.
End Fit.

(** ** Studies.  Study i is the same in both processes. *)
Section Studies.
  Variables (P : string -> Prop) (m : model) (i n1 n2 : nat).
  Record VT (s t : tstate) : Prop := {
    vt_world : V P m (fs_w (ts_f s)) (fs_w (ts_f t));
    vt_dom : exists d, length (fs_pars (ts_f s)) = (n1 + d)%nat /\ length (fs_pars (ts_f t)) = (n2 + d)%nat;
    vt_par : forall j, nth_error (fs_pars (ts_f s)) (n1 + j) = nth_error (fs_pars (ts_f t)) (n2 + j);
    vt_st : nth_error (ts_studies s) i = nth_error (ts_studies t) i }.
  Definition vparT {A B} (R : A -> B -> Prop) (f : T A) (g : T B) : Prop := forall s t, VT s t -> VT (fst (f s)) (fst (g t)) /\ rrel2 R (snd (f s)) (snd (g t)).
  Lemma vt_bind {A B C D} (R : A -> B -> Prop) (Q : C -> D -> Prop) f g k k' : vparT R f g -> (forall a b, R a b -> vparT Q (k a) (k' b)) -> vparT Q (tbind f k) (tbind g k').
  Proof.
    intros H K s t X. unfold tbind. destruct (H s t X) as [Y Z]. destruct (f s) as [s1 [a|e]], (g t) as [t1 [b|e']]; cbn [fst snd rrel2] in *; try contradiction; [now apply K|]. auto.
  Qed.
  Lemma vt_bind_eq {A C D} (Q : C -> D -> Prop) (f g : T A) k k' : vparT eq f g -> (forall a, vparT Q (k a) (k' a)) -> vparT Q (tbind f k) (tbind g k').
  Proof. intros H K. eapply vt_bind; [exact H|]. intros a ? <-. apply K. Qed.
  Lemma vt_ret {A} (a : A) : vparT eq (tret a) (tret a). Proof. intros s t X. split; [exact X|reflexivity]. Qed.
  Lemma vt_lift {A} (a : res A) : vparT eq (tlift a) (tlift a). Proof. intros s t X. split; [exact X|]. destruct a; reflexivity. Qed.
  Lemma vt_get : vparT eq (get_study i) (get_study i).
  Proof. intros s t X. split; [exact X|]. unfold get_study. cbn [snd]. rewrite (vt_st _ _ X). destruct (nth_error _ _); reflexivity. Qed.
  Lemma vt_study g : vparT eq (on_study i g) (on_study i g).
  Proof.
    intros s t X. unfold on_study. pose proof (vt_st _ _ X) as ST. destruct (nth_error (ts_studies s) i) as [x|] eqn:N; rewrite <- ST; [|split; [exact X|reflexivity]]. cbn [fst snd]. split; [|reflexivity].
    destruct X. constructor; auto. cbn [ts_studies]. rewrite !upd_same by (apply nth_error_Some; congruence). reflexivity.
  Qed.
  Lemma vt_procs : vparT eq (fun s => (s, Ok (w_procs (fs_w (ts_f s))))) (fun s => (s, Ok (w_procs (fs_w (ts_f s))))).
  Proof. intros s t X. split; [exact X|]. cbn. symmetry. apply (V0_fields P m _ _ (proj1 (vt_world _ _ X))). Qed.
  Lemma vt_w {A} (f : M A) : parR (V P m) f -> vparT eq (on_w f) (on_w f).
  Proof.
    intros H s t X. unfold on_w, on_f, on_world. destruct (H _ _ (vt_world _ _ X)) as [Y Z]. destruct (f (fs_w (ts_f s))) as [w1 r], (f (fs_w (ts_f t))) as [w2 r']. cbn [fst snd] in *. subst r'.
    split; [|destruct r; reflexivity]. destruct X. constructor; auto.
  Qed.
  Lemma vt_getp a b : adr n1 n2 a b -> vparT eq (on_f (get_pars a)) (on_f (get_pars b)).
  Proof. intros (j & -> & ->) s t X. unfold on_f, get_pars. cbn [fst snd]. split; [destruct X; constructor; auto|]. rewrite (vt_par _ _ X). destruct (nth_error _ _); reflexivity. Qed.
End Studies.
(** generating a data set and adding it *)
Definition fresh_data (d : nat -> list nat) : T unit := ds <:- on_w (generate_toy_dataset d) ;; on_w (mct_add_data ds).
(** fitting with a new TemplateFitter *)
Definition fresh_fit (id : string) (E : ext) (gh : bool) : T mresult := fi <:- on_f (fitter_new id) ;; on_f (do_fit E fi false gh true None).
  Lemma vt_fit (P : string -> Prop) m i n1 n2 id E gh : (forall n, P n) -> vparT P m i n1 n2 (mres n1 n2) (fresh_fit id E gh) (fresh_fit id E gh).
  Proof.
    intros AP s t X. unfold fresh_fit, tbind, on_f, fitter_new. cbn [ts_f ts_studies].
    set (s0 := mk_fstate (fs_w (ts_f s)) (fs_pars (ts_f s)) (fs_fitters (ts_f s) ++ [mk_fitter id [] [] false])).
    set (t0 := mk_fstate (fs_w (ts_f t)) (fs_pars (ts_f t)) (fs_fitters (ts_f t) ++ [mk_fitter id [] [] false])).
    assert (Y : VF P m (length (fs_fitters (ts_f s))) (length (fs_fitters (ts_f t))) n1 n2 s0 t0).
    { destruct X as [X1 X2 X3 X4]. constructor; auto. cbn. now rewrite !nth_error_app2, !Nat.sub_diag by lia. }
    destruct (vf_do_fit P AP m _ _ n1 n2 E false gh true None _ _ Y) as [[Z1 Z2 Z3 Z4] Q].
    destruct (do_fit E (length (fs_fitters (ts_f s))) false gh true None s0) as [s1 r1], (do_fit E (length (fs_fitters (ts_f t))) false gh true None t0) as [t1 r2]. cbn [fst snd] in *.
    split; [|exact Q]. destruct X. constructor; auto.
  Qed.
Definition rest_of (i : nat) (v : env) (gh : bool) : T unit :=
  st <:- get_study i ;; r <:- fresh_fit (st_id st) (en_ext v) gh ;; p <:- on_f (get_pars (r_params r)) ;;
  _ <:- on_study i (fun st => mk_study (st_id st) (st_params st ++ [p_values p]) (st_errors st) (st_fitted st)) ;;
  on_study i (fun st => mk_study (st_id st) (st_params st) (st_errors st ++ [p_errors p]) (st_fitted st)).
Lemma attempt_eq i v gh s : attempt i v gh s = tbind (fresh_data (en_draws v)) (fun _ => rest_of i v gh) s.
Proof.
  unfold attempt, fresh_data, rest_of, fresh_fit, tbind. destruct (on_w (generate_toy_dataset (en_draws v)) s) as [s1 [l|e]]; [|reflexivity]. destruct (on_w (mct_add_data l) s1) as [s2 [[]|e]]; [|reflexivity].
  destruct (get_study i s2) as [s3 [st|e]]; [|reflexivity]. destruct (on_f (fitter_new (st_id st)) s3) as [s4 [fi|e]]; reflexivity.
Qed.
Lemma vt_rest (P : string -> Prop) m i n1 n2 v gh : (forall n, P n) -> vparT P m i n1 n2 eq (rest_of i v gh) (rest_of i v gh).
Proof.
  intros AP. unfold rest_of. apply vt_bind_eq; [apply vt_get|intros st]. eapply vt_bind; [now apply vt_fit|]. intros r r' [_ A].
  apply vt_bind_eq; [now apply vt_getp|intros p]. apply vt_bind_eq; [apply vt_study|intros _]. apply vt_study.
Qed.
Lemma toy_keys d : forall w l, snd (generate_toy_dataset d w) = Ok l -> keys l = keys (w_channels w).
Proof.
  intros w. set (f := fun nc : string * nat => h <- ch_toy (snd nc) (d (snd nc)) ;;; a <- alloc_hist h ;;; ret (fst nc, a)).
  change (generate_toy_dataset d w) with (mapM f (w_channels w) w). generalize (w_channels w). intros cs. revert w. induction cs as [|[n cid] cs IH]; intros w l; cbn [mapM].
  - cbn. intros E. injection E as <-. reflexivity.
  - unfold bind at 1. unfold f at 1. unfold bind at 1 2. cbn [fst snd]. destruct (ch_toy cid (d cid) w) as [w1 [h|e]]; [|discriminate]. cbn [alloc_hist ret]. unfold bind.
    specialize (IH (set_hists w1 (w_hists w1 ++ [h]))). destruct (mapM f cs _) as [w2 [bs|e]]; [|discriminate]. cbn [snd ret] in *. intros E. injection E as <-. cbn [keys map fst].
    f_equal. now apply IH.
Qed.
Definition all_names (n : string) : Prop := True.
Lemma V_all (Q : string -> Prop) m w w' : (forall n, In n (keys (m_channels m)) -> Q n) -> V Q m w w' -> V all_names m w w'.
Proof.
  intros H ((A & B & F) & C). split; [|exact C]. split; [exact A|]. split; [exact B|]. intros n cid I. destruct (F n cid I) as (c & d & X & Y & T & D). exists c, d.
  split; [exact X|]. split; [exact Y|]. split; [exact T|]. intros _. apply D, H. apply (in_map fst) in I. exact I.
Qed.
Lemma VT_sub (P Q : string -> Prop) m i n1 n2 s t : (forall n, Q n -> P n) -> VT P m i n1 n2 s t -> VT Q m i n1 n2 s t.
Proof. intros H []. constructor; auto. eapply V_sub; eauto. Qed.
Lemma vt_data P m i n1 n2 d : NoDup (keys (m_channels m)) -> forall s t, VT P m i n1 n2 s t ->
  VT P m i n1 n2 (fst (fresh_data d s)) (fst (fresh_data d t)) /\ snd (fresh_data d s) = snd (fresh_data d t) /\
  (snd (fresh_data d s) = Ok tt -> VT all_names m i n1 n2 (fst (fresh_data d s)) (fst (fresh_data d t))).
Proof.
  intros ND s t X. unfold fresh_data, tbind, on_w, on_f, on_world. destruct (v_toy P m d _ _ (vt_world _ _ _ _ _ _ _ X)) as [Y Z].
  pose proof (toy_keys d (fs_w (ts_f s))) as K. destruct (V0_fields P m _ _ (proj1 (vt_world _ _ _ _ _ _ _ X))) as (_ & _ & _ & _ & _ & KC).
  destruct (generate_toy_dataset d (fs_w (ts_f s))) as [w1 r], (generate_toy_dataset d (fs_w (ts_f t))) as [w1' r']. cbn [fst snd] in *.
  destruct r as [l|e], r' as [l'|e']; cbn [rrel2] in Z; try contradiction.
  2: { split; [destruct X; constructor; auto|]. cbn [snd]. split; [congruence|discriminate]. }
  cbn [ts_f fs_w fs_pars fs_fitters ts_studies]. specialize (K l eq_refl). rewrite KC in K.
  destruct (v_add P m l l' w1 w1' ND Z Y) as (A & B & C). destruct (mct_add_data l w1) as [w2 r2], (mct_add_data l' w1') as [w2' r2']. cbn [fst snd] in *. subst r2'.
  split; [destruct X; constructor; auto|]. split; [destruct r2; reflexivity|]. intros Q. assert (Q' : r2 = Ok tt) by (destruct r2; congruence). specialize (C Q').
  destruct X; constructor; auto. cbn [ts_f fs_w]. revert C. apply V_all. intros n N. right. now rewrite K.
Qed.
Definition no_nll (q : squestion) : Prop := match q with SNll _ => False | _ => True end.
Section Studies2.
  Variables (P : string -> Prop) (m : model) (ND : NoDup (keys (m_channels m))) (i n1 n2 : nat).
  Local Notation vparT' := (vparT P m i n1 n2).
  Lemma vt_attempt v gh : vparT' eq (attempt i v gh) (attempt i v gh).
  Proof.
    intros s t X. rewrite !attempt_eq. unfold tbind. destruct (vt_data P m i n1 n2 (en_draws v) ND s t X) as (A & B & C).
    destruct (fresh_data (en_draws v) s) as [s1 [[]|e]], (fresh_data (en_draws v) t) as [t1 [[]|e']]; cbn [fst snd] in *; try discriminate; [|split; [exact A|congruence]].
    destruct (vt_rest all_names m i n1 n2 v gh (fun _ => Logic.I) s1 t1 (C eq_refl)) as [Y Z]. split; [|exact Z]. revert Y. apply VT_sub. intros n _. exact Logic.I.
  Qed.
  Lemma vt_experiment envs gh mt : forall k, vparT' eq (experiment envs i gh mt k) (experiment envs i gh mt k).
  Proof.
    induction mt as [|mt IH]; intros k s t X; cbn [experiment]; [split; [exact X|reflexivity]|]. destruct (vt_attempt (envs k) gh s t X) as [Y Z].
    destruct (attempt i (envs k) gh s) as [s1 [a|e]], (attempt i (envs k) gh t) as [t1 [b|e']]; cbn [fst snd rrel2] in *; try contradiction; [split; [exact Y|reflexivity]|]. subst e'.
    destruct e; try (split; [exact Y|reflexivity]); now apply IH.
  Qed.
  Lemma vt_experiments envs gh mt n : forall k, vparT' eq (experiments envs i gh mt n k) (experiments envs i gh mt n k).
  Proof. induction n as [|n IH]; intros k; cbn [experiments]; [apply vt_ret|]. apply vt_bind_eq; [apply vt_experiment|exact IH]. Qed.
  Lemma vt_check : vparT' eq (check_state i) (check_state i).
  Proof. apply vt_bind_eq; [apply vt_get|intros st]. destruct (st_fitted st); [apply vt_ret|apply vt_lift]. Qed.
  Lemma vt_rp : vparT' eq (result_parameters i) (result_parameters i).
  Proof. apply vt_bind_eq; [apply vt_check|intros _]. apply vt_bind_eq; [apply vt_get|intros st; apply vt_ret]. Qed.
  Lemma vt_ru : vparT' eq (result_uncertainties i) (result_uncertainties i).
  Proof. apply vt_bind_eq; [apply vt_check|intros _]. apply vt_bind_eq; [apply vt_get|intros st; apply vt_ret]. Qed.
  Lemma vt_results p : vparT' eq (get_toy_results i p) (get_toy_results i p).
  Proof.
    unfold get_toy_results. apply vt_bind_eq; [apply vt_check|intros _]. apply vt_bind_eq; [apply vt_procs|intros ps]. apply vt_bind_eq; [apply vt_lift|intros k].
    apply vt_bind_eq; [apply vt_rp|intros rp]. apply vt_bind_eq; [apply vt_lift|intros c1]. apply vt_bind_eq; [apply vt_ru|intros ru]. apply vt_bind_eq; [apply vt_lift|intros c2]. apply vt_ret.
  Qed.
  Lemma vt_do envs n mt : vparT' eq (do_experiments envs i n mt) (do_experiments envs i n mt).
  Proof. unfold do_experiments. apply vt_bind_eq; [apply vt_study|intros _]. apply vt_bind_eq; [apply vt_experiments|intros _; apply vt_study]. Qed.
  Lemma vt_lin envs p lo hi np ne : vparT' eq (do_linearity_test envs i p lo hi np ne) (do_linearity_test envs i p lo hi np ne).
  Proof.
    unfold do_linearity_test. apply vt_bind_eq; [|intros r; apply vt_ret]. generalize 0%nat. induction (np_linspace lo hi np) as [|v l IH]; intros k; cbn [linearity_points]; [apply vt_ret|].
    apply vt_bind_eq; [|intros r; apply vt_bind_eq; [apply IH|intros; apply vt_ret]]. unfold linearity_point. apply vt_bind_eq; [apply vt_study|intros _]. apply vt_bind_eq; [apply vt_w, (v_reset P m)|intros _].
    apply vt_bind_eq; [apply vt_w, (v_set_yield P m _ _)|intros _]. apply vt_bind_eq; [apply vt_experiments|intros k']. apply vt_bind_eq; [apply vt_study|intros _]. apply vt_bind_eq; [apply vt_results|intros r; apply vt_ret].
  Qed.
  Lemma vt_answer q : no_nll q \/ (forall n, P n) -> vparT' eq (study_answer i q) (study_answer i q).
  Proof.
    intros NQ. destruct q; unfold study_answer.
    - apply vt_bind_eq; [apply vt_do|intros; apply vt_ret]. - apply vt_bind_eq; [apply vt_lin|intros; apply vt_ret].
    - apply vt_bind_eq; [apply vt_rp|intros]. apply vt_bind_eq; [apply vt_ru|intros; apply vt_ret]. - apply vt_bind_eq; [apply vt_results|intros; apply vt_ret].
    - apply vt_bind_eq; [|intros; apply vt_ret]. unfold get_toy_result_pulls. apply vt_bind_eq; [apply vt_check|intros]. apply vt_bind_eq; [apply vt_results|intros]. apply vt_bind_eq; [apply vt_w, (v_get_yield P m _)|intros; apply vt_ret].
    - apply vt_bind_eq; [apply vt_w, (v_get_yield P m _)|intros; apply vt_ret]. - apply vt_bind_eq; [apply vt_w, (v_set_yield P m _ _)|intros; apply vt_ret].
    - apply vt_bind_eq; [apply vt_w, (v_reset P m)|intros; apply vt_ret]. - destruct NQ as [[]|AP]. apply vt_bind_eq; [apply vt_w, (v_nll P m _ AP)|intros; apply vt_ret].
  Qed.
End Studies2.

(** ** Sessions *)
Definition VZ (P : string -> Prop) (i k : nat) (s t : zstate) : Prop :=
  nth_error (z_owner s) i = Some k /\ nth_error (z_owner t) i = Some k /\ nth_error (z_studies s) i = nth_error (z_studies t) i /\
  exists m, nth_error (mw_models (xs_m (z_x s))) k = Some m /\ nth_error (mw_models (xs_m (z_x t))) k = Some m /\
    NoDup (keys (m_channels m)) /\ V P m (load m (mw_heap (xs_m (z_x s)))) (load m (mw_heap (xs_m (z_x t)))).
Lemma of_study_vrel (P : string -> Prop) i k q s t : no_nll q \/ (forall n, P n) -> VZ P i k s t -> VZ P i k (fst (of_study i (study_answer i q) s)) (fst (of_study i (study_answer i q) t)) /\
  snd (of_study i (study_answer i q) s) = snd (of_study i (study_answer i q) t).
Proof.
  intros NQ (O1 & O2 & ST & m & M1 & M2 & ND & R). unfold of_study. rewrite O1, O2. unfold on_zmodel. rewrite M1, M2.
  set (s0 := mk_tstate (mk_fstate (load m (mw_heap (xs_m (z_x s)))) (xs_pars (z_x s)) (xs_fitters (z_x s))) (z_studies s)).
  set (t0 := mk_tstate (mk_fstate (load m (mw_heap (xs_m (z_x t)))) (xs_pars (z_x t)) (xs_fitters (z_x t))) (z_studies t)).
  assert (X : VT P m i (length (xs_pars (z_x s))) (length (xs_pars (z_x t))) s0 t0).
  { constructor; cbn; auto; [exists 0%nat; lia|]. intros j. rewrite !(proj2 (nth_error_None _ _)) by lia. reflexivity. }
  destruct (vt_answer P m ND i _ _ q NQ s0 t0 X) as [Y Z]. destruct (study_answer i q s0) as [s1 r1], (study_answer i q t0) as [t1 r2]. cbn [fst snd] in *.
  split; [|destruct r1, r2; cbn in Z; try contradiction; congruence].
  destruct Y as [Y1 _ _ Y4]. split; [exact O1|]. split; [exact O2|]. split; [exact Y4|]. pose proof Y1 as ((S1 & S2 & _) & _).
  exists m. cbn [z_x xs_m mw_models mw_heap]. rewrite S1, S2, !upd_same by (apply nth_error_Some; congruence). split; [reflexivity|]. split; [reflexivity|]. split; [exact ND|].
  rewrite !load_load. rewrite <- S1 at 2. rewrite load_self. rewrite <- S2 at 2. rewrite load_self. exact Y1.
Qed.
Lemma study_answers_vrel (P : string -> Prop) i k l : Forall (fun q => no_nll q \/ (forall n, P n)) l -> forall s t, VZ P i k s t -> study_answers i l s = study_answers i l t.
Proof.
  induction 1 as [|q l NQ _ IH]; intros s t X; [reflexivity|]. cbn [study_answers]. destruct (of_study_vrel P i k q s t NQ X) as [Y Z].
  destruct (of_study i (study_answer i q) s) as [s1 r1], (of_study i (study_answer i q) t) as [t1 r2]. cbn [fst snd] in *. rewrite Z. f_equal. now apply IH.
Qed.

(** ** Calls that change nothing of model k *)
Definition kept (k : nat) (m : model) (s s' : xstate) : Prop := nth_error (mw_models (xs_m s')) k = Some m /\ fp m (mw_heap (xs_m s)) (mw_heap (xs_m s')).
Lemma xstep_kept inv o s k m : inv_spec inv -> mwf (xs_m s) -> canonical (xs_m s) -> nth_error (mw_models (xs_m s)) k = Some m ->
  ~ xtouches s o k -> kept k m s (fst (xstep inv o s)).
Proof.
  intros IS W C M T. unfold kept. pose proof (fun l => fp_run inv l IS (xs_m s) k m W C M) as FP.
  assert (D : (exists c, o = XCall c) \/ xquiet o \/ exists i, fits_with o i) by (destruct o; simpl; eauto).
  destruct D as [(c & ->)|[Q|(j & Q)]].
  - destruct (FP [c] (conj T Logic.I)) as [A B]. unfold mrun in A, B. cbn [fold_left] in A, B. cbn [xstep]. destruct (mstep inv c (xs_m s)). cbn [fst xs_m] in *. auto.
  - rewrite quiet_ops by assumption. exact (FP [] Logic.I).
  - destruct (fit_ops inv o j s Q C) as [(-> & _)|(kj & l & OJ & F & NU & E & E1 & E2)]; [exact (FP [] Logic.I)|]. rewrite E.
    apply FP. destruct (nth_error (mw_models (xs_m s)) kj) as [mj|] eqn:MJ.
    + apply (fit_leaves inv k kj m mj); auto.
      assert (U : fit_updates o j \/ ~ fit_updates o j) by (destruct o as [ | | | | |? ? [] ? ? ?| | ]; simpl in *; auto). destruct U as [U|U]; [right|left; auto].
      intros tid A B. apply T. destruct o; try contradiction; exists j, kj, tid; auto.
    + clear - MJ F. induction F as [|o l O _ IH]; [exact Logic.I|]. cbn [map leaves mstep]. rewrite MJ. split; [|exact IH].
      intros [X|[(cid & _ & X)|[(tid & X & Y)|(hid & _ & X)]]].
      * exact (fitop_own kj o O k X).
      * destruct O as [(y & ->)|[(y & ->)|(q & v & ->)]]; exact X.
      * assert (N : ~ model_template (xs_m s) kj tid) by (intros (cid & (m' & n & M' & _) & _); congruence). destruct O as [(y & ->)|[(y & ->)|(q & v & ->)]]; [exact Y|exact (N Y)|exact (N Y)].
      * destruct O as [(y & ->)|[(y & ->)|(q & v & ->)]]; exact X.
Qed.
Lemma zstep_kept inv o s k m : inv_spec inv -> zinv s -> nth_error (mw_models (xs_m (z_x s))) k = Some m -> ~ ztouches s o k -> kept k m (z_x s) (z_x (fst (zstep inv o s))).
Proof.
  intros IS [W C L A] M T. pose proof (fun l => fp_run inv l IS (xs_m (z_x s)) k m W C M) as FP. destruct (zcases o) as [(x & ->)|[(k' & id & ->)|(j & Z)]].
  - destruct (zx_step inv x s) as [-> _]. now apply xstep_kept.
  - rewrite zstudy_step by exact C. exact (FP [] Logic.I).
  - destruct (study_ops inv o j s Z C L) as [(-> & _)|(kj & l & more & OJ & F & NL & E & E1 & E2 & _)]; [exact (FP [] Logic.I)|]. unfold kept. rewrite E.
    assert (NE : kj <> k) by (intros ->; apply T; destruct o; try contradiction; cbn [zstudies] in Z; subst; cbn; unfold study_of; auto).
    apply FP. apply lin_leaves; auto. assert (U : zlinear o \/ ~ zlinear o) by (destruct o; simpl; auto). destruct U as [U|U]; [right|left; auto].
    intros tid T1 T2. apply T. destruct o; try contradiction. cbn [zstudies] in Z. subst. right. exists kj, tid. auto.
Qed.
Lemma zowner_step inv o s i k : zinv s -> nth_error (z_owner s) i = Some k -> nth_error (z_owner (fst (zstep inv o s))) i = Some k.
Proof.
  intros [W C L A] O. destruct (zcases o) as [(x & ->)|[(k' & id & ->)|(j & Z)]].
  - destruct (zx_step inv x s) as [_ ->]. exact O.
  - cbn [zstep]. destruct (nth_error (mw_models (xs_m (z_x s))) k') as [m|] eqn:M; [|exact O]. unfold on_zmodel. rewrite M. cbn. now apply nth_more.
  - destruct (study_ops inv o j s Z C L) as [(-> & _)|(kj & l & more & _ & _ & _ & _ & _ & _ & ->)]; exact O.
Qed.
Lemma zrun_kept inv l i k m : inv_spec inv -> forall s, zinv s -> nth_error (mw_models (xs_m (z_x s))) k = Some m -> nth_error (z_owner s) i = Some k -> zkeeps inv k s l ->
  kept k m (z_x s) (z_x (zrun inv l s)) /\ nth_error (z_owner (zrun inv l s)) i = Some k /\ Forall (fun o => ~ zstudies o i) l.
Proof.
  intros IS. unfold zrun. induction l as [|o l IH]; intros s Z M O X; cbn [fold_left].
  - destruct Z as [W C L A]. destruct (fp_run inv [] IS (xs_m (z_x s)) k m W C M Logic.I). repeat split; auto.
  - destruct X as (X1 & X2). destruct (zstep_kept inv o s k m IS Z M X1) as (A1 & A2).
    destruct (IH (fst (zstep inv o s)) (zinv_step inv o s IS Z) A1 (zowner_step inv o s i k Z O) X2) as ((B1 & B2) & B3 & B4). split; [split; [exact B1|eapply fp_trans; eauto]|]. split; [exact B3|].
    constructor; [|exact B4]. intros Q. apply X1. destruct o; try contradiction; cbn [zstudies] in Q; subst; cbn; unfold study_of; auto.
Qed.

(** every study has an owner *)
Definition zlens (s : zstate) : Prop := length (z_studies s) = length (z_owner s).
Definition tlen (s s' : tstate) : Prop := length (ts_studies s') = length (ts_studies s).
Lemma tlen_f {A} (f : F A) : trel tlen (on_f f). Proof. intros s. unfold tlen. now rewrite on_f_studies. Qed.
Lemma tlen_study i g : trel tlen (on_study i g).
Proof. intros s. unfold tlen, on_study. destruct (nth_error (ts_studies s) i); [|reflexivity]. cbn. apply upd_length. Qed.
Lemma zlens_zmodel {A} (f : T A) k s : trel tlen f -> zlens s -> zlens (fst (on_zmodel k f s)).
Proof.
  intros H L. unfold on_zmodel, zlens. destruct (nth_error (mw_models (xs_m (z_x s))) k) as [m|]; [|exact L].
  specialize (H (mk_tstate (mk_fstate (load m (mw_heap (xs_m (z_x s)))) (xs_pars (z_x s)) (xs_fitters (z_x s))) (z_studies s))). destruct (f _) as [t r].
  unfold tlen in H. cbn [fst ts_studies z_studies z_owner] in *. rewrite H. exact L.
Qed.
Lemma zlens_step inv o s : zlens s -> zlens (fst (zstep inv o s)).
Proof.
  assert (R0 : forall t, tlen t t) by reflexivity. assert (RT : forall a b c, tlen a b -> tlen b c -> tlen a c) by (unfold tlen; congruence).
  intros L. destruct o as [x|k id|j envs n mt|j envs p lo hi np ne]; cbn [zstep].
  - destruct (xstep inv x (z_x s)). exact L.
  - destruct (nth_error (mw_models (xs_m (z_x s))) k) as [m|] eqn:M; [|exact L]. unfold on_zmodel. rewrite M. unfold zlens in *. cbn. rewrite !app_length. cbn. lia.
  - unfold of_study. destruct (nth_error (z_owner s) j) as [k|]; [|exact L]. apply zlens_zmodel; [|exact L].
    apply (trel_do_experiments tlen); auto; intros; first [apply tlen_study|apply tlen_f].
  - unfold zdrop, of_study. cbn [fst]. destruct (nth_error (z_owner s) j) as [k|]; [|exact L]. apply zlens_zmodel; [|exact L].
    apply (trel_linearity tlen); auto; intros; first [apply tlen_study|apply tlen_f].
Qed.
Lemma zlens_reached inv l : zlens (zreached inv l).
Proof. unfold zreached, zrun. assert (H : zlens zstate_init) by reflexivity. revert H. generalize zstate_init. induction l as [|o l IH]; intros s H; [exact H|]. cbn [fold_left]. apply IH. now apply zlens_step. Qed.
