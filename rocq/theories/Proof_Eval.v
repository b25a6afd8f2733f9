(** Evaluation with coherent caches: every cached value is the one that would be computed now *)
From Coq Require Import Reals String ZArith Bool Arith List Lra Lia.
From Verif Require Import Model_Num Model_Hist Model_Utility Model_Template Model_World Model_Ops
  Spec_Matrix Proof_Hist Proof_Matrix Proof_Template Proof_HistHeap Proof_Monad Proof_World.
Import ListNotations.
Local Open Scope R_scope.

(** the values of the cached functions *)
Definition pi_res (outer : list string) (c : chan) : res (list nat) :=
  mapr (fun p => match index_of p outer with Some i => Ok i | None => Err ValueError end) (keys (c_tmpls c)).
Definition eff_vec (c : chan) : list xr := map (fun p => Fin (snd p)) (c_effs c).
Definition oget {A} (l : list A) (i : nat) : res A := match nth_error l i with Some a => Ok a | None => Err OutOfModel end.
Definition inv_res (ts : list tmpl) (c : chan) : res mat :=
  l <- mapr (fun p => oget ts (snd p)) (c_tmpls c) ;;
  match l with [] => Err OutOfModel | _ => Ok (block_diag (map t_inv l)) end.

(** the cached process indices and efficiencies are current; with [b] also the cached matrices *)
Record cohG (b : bool) (w : world) : Prop := {
  coh_pi : forall cid o v, In ((cid, o), v) (w_cache_pi w) -> exists c, nth_error (w_chans w) cid = Some c /\ pi_res o c = Ok v;
  coh_eff : forall cid v, In (cid, v) (w_cache_eff w) -> exists c, nth_error (w_chans w) cid = Some c /\ eff_vec c = v;
  coh_inv : b = true -> forall cid v, In (cid, v) (w_cache_inv w) -> exists c, nth_error (w_chans w) cid = Some c /\ inv_res (w_tmpls w) c = Ok v }.
Notation coh := (cohG true).
Lemma coh_weaken w : coh w -> cohG false w. Proof. intros [A B C]. constructor; auto. Qed.

Section Lru.
  Context {K V : Type} (eqb : K -> K -> bool) (eqb_eq : forall a b, eqb a b = true <-> a = b).
  Lemma lru_del_in c k x : In x (lru_del eqb c k) -> In x (c : list (K * V)).
  Proof. induction c as [|[k' v] c IH]; simpl; auto. destruct (eqb k k'); simpl; intuition. Qed.
  Lemma dget_in (c : list (K * V)) k v : dget eqb c k = Some v -> In (k, v) c.
  Proof.
    induction c as [|[k' v'] c IH]; simpl; [discriminate|]. destruct (eqb k k') eqn:E; auto.
    apply eqb_eq in E as ->. intros H; left; congruence.
  Qed.
  Lemma firstn_in {A} n (l : list A) x : In x (firstn n l) -> In x l.
  Proof. revert l; induction n; destruct l; simpl; auto; try tauto. intros [H|H]; auto. Qed.

  (** a call on a coherent cache returns what would be computed and leaves the cache coherent *)
  Lemma lru_call_coherent (Q : K -> V -> Prop) c k compute :
    (forall k' v, In (k', v) c -> Q k' v) -> (forall v, Q k v <-> compute = Ok v) ->
    exists c', lru_call eqb c k compute = (c', compute) /\ forall k' v, In (k', v) c' -> Q k' v.
  Proof.
    intros H E. unfold lru_call. destruct (dget eqb c k) as [v|] eqn:D.
    - apply dget_in in D. pose proof (H _ _ D) as Qv. apply E in Qv as C. rewrite C. eexists. split; [reflexivity|].
      intros k' v' [I|I]; [injection I as <- <-; auto|]. apply H. eapply lru_del_in; eauto.
    - destruct compute as [v|e]; eexists; (split; [reflexivity|]); auto.
      intros k' v' I. apply firstn_in in I as [I|I]; auto. injection I as <- <-. now apply E.
  Qed.
End Lru.

Lemma pi_key_eqb_eq a b : pi_key_eqb a b = true <-> a = b.
Proof.
  destruct a as [i o], b as [j q]. unfold pi_key_eqb, strlist_eqb; simpl. rewrite andb_true_iff, Nat.eqb_eq.
  destruct (list_eq_dec string_dec o q); intuition congruence.
Qed.

(** m run in any state that differs from w in the caches only, these being coherent, returns r and
    changes the caches only, keeping them coherent *)
Definition pureG (b : bool) {A} (w : world) (m : M A) (r : res A) : Prop :=
  forall w', core_eq w w' -> cohG b w' -> exists w'', m w' = (w'', r) /\ core_eq w w'' /\ cohG b w''.
Notation pureM := (pureG true).

Lemma pure_ret {b} {A} w (a : A) : pureG b w (ret a) (Ok a).
Proof. intros w' C H. exists w'. auto. Qed.
Lemma pure_raise {b} {A} w e : pureG b w (@raise A e) (Err e).
Proof. intros w' C H. exists w'. auto. Qed.
Lemma pure_lift {b} {A} w (r : res A) : pureG b w (lift r) r.
Proof. intros w' C H. exists w'. auto. Qed.
Lemma pure_gets {b} {A} w (f : world -> A) : (forall w', core_eq w w' -> f w' = f w) -> pureG b w (gets f) (Ok (f w)).
Proof. intros E w' C H. exists w'. unfold gets. rewrite E; auto. Qed.
Lemma pure_read {b} {A} w (f : world -> res A) : (forall w', core_eq w w' -> f w' = f w) -> pureG b w (fun w => (w, f w)) (f w).
Proof. intros E w' C H. exists w'. rewrite E; auto. Qed.
Lemma pure_get_hist {b} w i : pureG b w (get_hist i) (oget (w_hists w) i).
Proof. intros w' C H. exists w'. unfold get_hist. rewrite (ce_hists _ _ C). auto. Qed.
Lemma pure_get_tmpl {b} w i : pureG b w (get_tmpl i) (oget (w_tmpls w) i).
Proof. intros w' C H. exists w'. unfold get_tmpl. rewrite (ce_tmpls _ _ C). auto. Qed.
Lemma pure_get_chan {b} w i : pureG b w (get_chan i) (oget (w_chans w) i).
Proof. intros w' C H. exists w'. unfold get_chan. rewrite (ce_chans _ _ C). auto. Qed.
Lemma pure_bind {b} {A B} w (m : M A) (k : A -> M B) r rk :
  pureG b w m r -> (forall a, r = Ok a -> pureG b w (k a) (rk a)) -> pureG b w (bind m k) (rbind r rk).
Proof.
  intros Hm Hk w' C H. destruct (Hm w' C H) as (w1 & E & C1 & H1). unfold bind. rewrite E.
  destruct r as [a|e]; simpl; eauto. now apply Hk.
Qed.
Lemma pure_mapM {b} {A B} w (f : A -> M B) g l : (forall a, In a l -> pureG b w (f a) (g a)) -> pureG b w (mapM f l) (mapr g l).
Proof.
  intros H. induction l as [|a l IH]; simpl; [apply pure_ret|].
  apply pure_bind; [apply H; left; auto|]. intros b0 _. apply pure_bind; [apply IH; intros; apply H; right; auto|].
  intros bs _. apply pure_ret.
Qed.
Lemma pure_ext {b} {A} w (m : M A) r r' : r = r' -> pureG b w m r -> pureG b w m r'. Proof. intros ->; auto. Qed.

Ltac pure_step :=
  match goal with
  | |- pureG _ _ (ret _) _ => apply pure_ret
  | |- pureG _ _ (raise _) _ => apply pure_raise
  | |- pureG _ _ (lift _) _ => apply pure_lift
  | |- pureG _ _ (get_hist _) _ => apply pure_get_hist
  | |- pureG _ _ (get_tmpl _) _ => apply pure_get_tmpl
  | |- pureG _ _ (get_chan _) _ => apply pure_get_chan
  | |- pureG _ _ (bind _ _) _ => eapply pure_bind; [|intros ? ?]
  | |- pureG _ _ (mapM _ _) _ => eapply pure_mapM; intros ? ?
  end.

Lemma core_trans a b c : core_eq a b -> core_eq b c -> core_eq a c. Proof. apply (po_trans _ core_po). Qed.

Lemma oget_ok {A} (l : list A) i a : oget l i = Ok a -> nth_error l i = Some a.
Proof. unfold oget. destruct (nth_error l i); congruence. Qed.

Lemma pure_process_indices {b} w cid o :
  pureG b w (process_indices cid o) (c <- oget (w_chans w) cid ;; pi_res o c).
Proof.
  unfold process_indices. apply pure_bind; [apply pure_get_chan|]. intros c Hc. apply oget_ok in Hc.
  intros w' C H.
  destruct (lru_call_coherent pi_key_eqb pi_key_eqb_eq (fun k v => exists c, nth_error (w_chans w') (fst k) = Some c /\ pi_res (snd k) c = Ok v)
     (w_cache_pi w') (cid, o) (pi_res o c)) as (cache & E & Q).
  - intros [i q] v I. apply (coh_pi b w' H) in I. exact I.
  - simpl. rewrite (ce_chans _ _ C). intros v. split; [intros (c' & E1 & E2); congruence|eauto].
  - fold (pi_res o c). rewrite E. eexists. split; [reflexivity|]. split.
    + eapply core_trans; eauto. constructor; auto.
    + destruct H. constructor; simpl; auto. intros i q v I. apply (Q (i, q)) in I. exact I.
Qed.

Lemma pure_effs {b} w cid : pureG b w (efficiencies_as_array cid) (c <- oget (w_chans w) cid ;; Ok (eff_vec c)).
Proof.
  unfold efficiencies_as_array. apply pure_bind; [apply pure_get_chan|]. intros c Hc. apply oget_ok in Hc.
  intros w' C H.
  destruct (lru_call_coherent Nat.eqb Nat.eqb_eq (fun k v => exists c, nth_error (w_chans w') k = Some c /\ eff_vec c = v)
     (w_cache_eff w') cid (Ok (eff_vec c))) as (cache & E & Q).
  - intros i v I. apply (coh_eff b w' H) in I. exact I.
  - rewrite (ce_chans _ _ C). intros v. split; [intros (c' & E1 & E2)|intros E1]; [|exists c; split; auto; congruence].
    rewrite Hc in E1. congruence.
  - fold (eff_vec c). rewrite E. eexists. split; [reflexivity|]. split.
    + eapply core_trans; eauto. constructor; auto.
    + destruct H. constructor; simpl; auto.
Qed.

Lemma pure_inv w cid : pureM w (block_diag_inv_corr_mat cid) (c <- oget (w_chans w) cid ;; inv_res (w_tmpls w) c).
Proof.
  unfold block_diag_inv_corr_mat. apply pure_bind; [apply pure_get_chan|]. intros c Hc. apply oget_ok in Hc.
  unfold inv_res. apply pure_bind; [apply pure_mapM; intros; apply pure_get_tmpl|]. intros ts Hts.
  intros w' C H.
  set (r := match ts with [] => Err OutOfModel | _ => Ok (block_diag (map t_inv ts)) end).
  destruct (lru_call_coherent Nat.eqb Nat.eqb_eq (fun k v => exists c, nth_error (w_chans w') k = Some c /\ inv_res (w_tmpls w') c = Ok v)
     (w_cache_inv w') cid r) as (cache & E & Q).
  - intros i v I. apply (coh_inv true w' H eq_refl) in I. exact I.
  - rewrite (ce_chans _ _ C), (ce_tmpls _ _ C). intros v. split.
    + intros (c' & E1 & E2). assert (c' = c) by congruence. subst. unfold inv_res in E2. rewrite Hts in E2. exact E2.
    + intros Er. exists c. split; auto. unfold inv_res. rewrite Hts. exact Er.
  - fold r. rewrite E. eexists. split; [reflexivity|]. split.
    + eapply core_trans; eauto. constructor; auto.
    + destruct H. constructor; simpl; auto.
Qed.

(** ** The values of the methods in a state with coherent caches *)
Definition per_channel_res (w : world) (x : list xr) : res (list (list xr) * list (list xr)) :=
  ys <- mapr (fun cid => idx <- (c <- oget (w_chans w) cid ;; pi_res (w_procs w) c) ;; np_take (firstn (length (w_procs w)) x) idx)
             (map snd (w_channels w)) ;;
  Ok (ys, np_split_at (slice (length (w_procs w)) (mct_num_nui w + length (w_procs w)) x)
            (removelast (np_cumsum (map ch_num_nui (mct_chans w))))).

Lemma core_mct_chans w w' : core_eq w w' -> mct_chans w' = mct_chans w.
Proof. intros C. unfold mct_chans. rewrite (ce_channels _ _ C), (ce_chans _ _ C). reflexivity. Qed.

Lemma pure_per_channel {b} w x : pureG b w (generate_per_channel_parameters x) (per_channel_res w x).
Proof.
  unfold generate_per_channel_parameters, per_channel_res.
  eapply pure_ext; [|eapply pure_bind; [apply (pure_gets w (fun w => length (w_procs w))); intros w' C; now rewrite (ce_procs _ _ C)|intros np Hnp]].
  2:{ eapply pure_bind; [apply (pure_gets w mct_num_nui); intros w' C; unfold mct_num_nui; now rewrite (core_mct_chans _ _ C)|intros nn Hnn].
      eapply pure_bind; [apply (pure_gets w w_procs); intros w' C; now rewrite (ce_procs _ _ C)|intros procs Hp].
      eapply pure_bind; [apply (pure_gets w (fun w => map snd (w_channels w))); intros w' C; now rewrite (ce_channels _ _ C)|intros chs Hchs].
      eapply pure_bind; [apply pure_mapM; intros cid _; eapply pure_bind; [apply pure_process_indices|intros; apply pure_lift]|intros ys Hys].
      eapply pure_bind; [apply (pure_gets w (fun w => map ch_num_nui (mct_chans w))); intros w' C; now rewrite (core_mct_chans _ _ C)|intros sizes Hs].
      apply pure_ret. }
  reflexivity.
Qed.

Definition fractions_res (w : world) (c : chan) (nui : list xr) : res (list (list xr)) :=
  ns <- np_split_n nui (num_templates c) ;;
  mapr (fun q => t <- oget (w_tmpls w) (fst q) ;; t_fractions t (snd q)) (combine (map snd (c_tmpls c)) ns).
Lemma pure_fractions {b} w cid nui : pureG b w (ch_fractions cid nui) (c <- oget (w_chans w) cid ;; fractions_res w c nui).
Proof.
  unfold ch_fractions, fractions_res. eapply pure_bind; [apply pure_get_chan|intros c Hc].
  eapply pure_bind; [apply pure_lift|intros ns Hns]. apply pure_mapM. intros q _. eapply pure_bind; [apply pure_get_tmpl|intros; apply pure_lift].
Qed.

Definition expected_res (w : world) (c : chan) (yields nui : list xr) : res (list xr) :=
  ye <- bcast xmul yields (eff_vec c) ;; fr <- fractions_res w c nui ;; np_vecmat ye fr.
Lemma pure_expected {b} w cid y nui : pureG b w (expected_evts_per_bin cid y nui) (c <- oget (w_chans w) cid ;; expected_res w c y nui).
Proof.
  unfold expected_evts_per_bin, expected_res.
  eapply pure_ext; [|eapply pure_bind; [apply pure_effs|intros effs He];
    eapply pure_bind; [apply pure_lift|intros ye Hy]; eapply pure_bind; [apply pure_fractions|intros fr Hf]; apply pure_lift].
  destruct (oget (w_chans w) cid); reflexivity.
Qed.

Definition gauss_res (w : world) (c : chan) (nui : list xr) : res xr :=
  m <- inv_res (w_tmpls w) c ;; v <- np_vecmat nui m ;; s <- np_dot v nui ;; Ok (xmul (Fin (1/2)) s).
Lemma pure_gauss w cid nui : pureM w (gauss_term cid nui) (c <- oget (w_chans w) cid ;; gauss_res w c nui).
Proof.
  unfold gauss_term, gauss_res.
  eapply pure_ext; [|eapply pure_bind; [apply pure_inv|intros m Hm]; eapply pure_bind; [apply pure_lift|intros v Hv];
    eapply pure_bind; [apply pure_lift|intros s Hs]; apply pure_ret].
  destruct (oget (w_chans w) cid); reflexivity.
Qed.

Definition contribution_res (w : world) (c : chan) (y nui : list xr) : res xr :=
  match c_data c with
  | None => Err AttributeError
  | Some hid =>
      h <- oget (w_hists w) hid ;;
      e <- expected_res w c y nui ;;
      d <- bcast xsub e (nd_flat (h_counts h)) ;;
      l <- bcast xlogyx (nd_flat (h_counts h)) e ;;
      p <- bcast xsub d l ;;
      g <- gauss_res w c nui ;;
      Ok (xadd (np_sum p) g)
  end.
Lemma pure_contribution w cid y nui : pureM w (nll_contribution cid y nui) (c <- oget (w_chans w) cid ;; contribution_res w c y nui).
Proof.
  unfold nll_contribution, contribution_res. eapply pure_bind; [apply pure_get_chan|intros c Hc].
  destruct (c_data c); [|apply pure_raise]. eapply pure_bind; [apply pure_get_hist|intros h Hh].
  eapply pure_ext; [|eapply pure_bind; [apply pure_expected|intros e He]; eapply pure_bind; [apply pure_lift|intros d Hd];
    eapply pure_bind; [apply pure_lift|intros l Hl]; eapply pure_bind; [apply pure_lift|intros p Hp];
    eapply pure_bind; [apply pure_gauss|intros g Hg]; apply pure_ret].
  simpl. rewrite Hc. simpl. reflexivity.
Qed.

Definition nll_res (w : world) (x : list xr) : res xr :=
  yn <- per_channel_res w x ;;
  contribs <- mapr (fun q => c <- oget (w_chans w) (fst q) ;; contribution_res w c (fst (snd q)) (snd (snd q)))
                   (combine (map snd (w_channels w)) (combine (fst yn) (snd yn))) ;;
  terms <- mapr (constraint_term w x) (w_cnames w) ;;
  Ok (fold_left xadd (contribs ++ terms) (Fin 0)).

Lemma core_constraint w w' x p : core_eq w w' -> constraint_term w' x p = constraint_term w x p.
Proof. intros C. unfold constraint_term. rewrite (ce_procs _ _ C), (ce_cvals _ _ C), (ce_cerrs _ _ C). reflexivity. Qed.

Theorem pure_nll w x : pureM w (nll x) (nll_res w x).
Proof.
  unfold nll, nll_res. eapply pure_bind; [apply pure_per_channel|intros yn Hyn].
  eapply pure_ext; [|eapply pure_bind; [apply (pure_gets w (fun w => map snd (w_channels w))); intros w' C; now rewrite (ce_channels _ _ C)|intros chs Hchs];
     eapply pure_bind; [apply pure_mapM; intros q _; apply pure_contribution|intros contribs Hc];
     eapply pure_bind; [apply (pure_gets w w_cnames); intros w' C; now rewrite (ce_cnames _ _ C)|intros names Hn];
     eapply pure_bind; [apply pure_mapM; intros p _; apply (pure_read w (fun w => constraint_term w x p)); intros w' C; now apply core_constraint|intros terms Ht];
     apply pure_ret].
  reflexivity.
Qed.

(** ** Coherence is kept by everything but add_template, add_cov_mat and add_variation *)
Record quiet (w w' : world) : Prop := {
  q_pi : w_cache_pi w' = w_cache_pi w; q_eff : w_cache_eff w' = w_cache_eff w; q_inv : w_cache_inv w' = w_cache_inv w;
  q_chans : forall i c, nth_error (w_chans w) i = Some c -> exists c', nth_error (w_chans w') i = Some c' /\ c_tmpls c' = c_tmpls c /\ c_effs c' = c_effs c;
  q_tmpls : forall i t, nth_error (w_tmpls w) i = Some t -> exists t', nth_error (w_tmpls w') i = Some t' /\ t_inv t' = t_inv t }.

Lemma quiet_po : preorder quiet.
Proof.
  split.
  - intros w. constructor; eauto.
  - intros a b c [] []. constructor; try congruence.
    + intros i x H. destruct (q_chans0 _ _ H) as (y & H1 & H2 & H3). destruct (q_chans1 _ _ H1) as (z & ? & ? & ?). exists z. repeat split; congruence.
    + intros i x H. destruct (q_tmpls0 _ _ H) as (y & H1 & H2). destruct (q_tmpls1 _ _ H1) as (z & ? & ?). exists z. split; congruence.
Qed.

Lemma mapr_ext {A B} (f g : A -> res B) l : (forall a, In a l -> f a = g a) -> mapr f l = mapr g l.
Proof. intros H. induction l as [|a l IH]; simpl; auto. rewrite H by (left; auto). rewrite IH; auto. intros; apply H; right; auto. Qed.

Lemma mapr_ok {A B} (f : A -> res B) l r : mapr f l = Ok r <-> Forall2 (fun a b => f a = Ok b) l r.
Proof.
  revert r. induction l as [|a l IH]; simpl; intros r.
  - split; [intros [= <-]; constructor|inversion 1; auto].
  - destruct (f a) as [b|e] eqn:E; simpl.
    + destruct (mapr f l) as [bs|e] eqn:F; simpl; split.
      * intros [= <-]. constructor; auto. now apply IH.
      * inversion 1; subst. apply IH in H4. congruence.
      * discriminate.
      * inversion 1; subst. apply IH in H4. discriminate.
    + split; [discriminate|]. inversion 1; subst. congruence.
Qed.

Lemma quiet_inv_res ts ts' c v : (forall i t, nth_error ts i = Some t -> exists t', nth_error ts' i = Some t' /\ t_inv t' = t_inv t) ->
  inv_res ts c = Ok v -> inv_res ts' c = Ok v.
Proof.
  intros H. unfold inv_res. destruct (mapr (fun p => oget ts (snd p)) (c_tmpls c)) as [l|] eqn:E; [|discriminate].
  apply mapr_ok in E.
  assert (X : exists l', mapr (fun p => oget ts' (snd p)) (c_tmpls c) = Ok l' /\ map t_inv l' = map t_inv l).
  { induction E as [|p t ps l E1 E2 IH]; simpl; [exists []; auto|]. apply oget_ok in E1. destruct (H _ _ E1) as (t' & T1 & T2).
    destruct IH as (l' & L1 & L2). unfold oget at 1. rewrite T1. simpl. rewrite L1. simpl. exists (t' :: l'). split; auto. simpl. congruence. }
  destruct X as (l' & -> & X). cbn [rbind]. destruct l as [|t l]; [discriminate|]. destruct l' as [|t' l']; [discriminate|]. rewrite X. auto.
Qed.

Lemma quiet_coh b w w' : quiet w w' -> cohG b w -> cohG b w'.
Proof.
  intros [Q1 Q2 Q3 Q4 Q5] [A B C]. constructor.
  - intros cid o v. rewrite Q1. intros I. destruct (A _ _ _ I) as (c & H1 & H2). destruct (Q4 _ _ H1) as (c' & H3 & H4 & H5).
    exists c'. split; auto. unfold pi_res. rewrite H4. exact H2.
  - intros cid v. rewrite Q2. intros I. destruct (B _ _ I) as (c & H1 & H2). destruct (Q4 _ _ H1) as (c' & H3 & H4 & H5).
    exists c'. split; auto. unfold eff_vec. rewrite H5. exact H2.
  - intros Eb cid v. rewrite Q3. intros I. destruct (C Eb _ _ I) as (c & H1 & H2). destruct (Q4 _ _ H1) as (c' & H3 & H4 & H5).
    exists c'. split; auto. unfold inv_res in *. rewrite H4. eapply quiet_inv_res in H2; eauto.
Qed.

Definition keepsCoh (b : bool) (w w' : world) : Prop := cohG b w -> cohG b w'.
Lemma coh_po {b} : preorder (keepsCoh b). Proof. split; unfold keepsCoh; auto. Qed.
Lemma pres_quiet_coh {b A} (m : M A) : pres quiet m -> pres (keepsCoh b) m.
Proof. intros H w C. eapply quiet_coh; eauto. Qed.
Lemma pres_pure_coh {b A} (m : M A) (r : world -> res A) : (forall w, pureG b w m (r w)) -> pres (keepsCoh b) m.
Proof. intros H w C. destruct (H w w (po_refl _ core_po w) C) as (w'' & -> & _ & C'). exact C'. Qed.

Lemma quiet_hists w hs : quiet w (set_hists w hs). Proof. constructor; simpl; eauto. Qed.
Lemma quiet_on_hist {A} i (f : hist -> hist * res A) : pres quiet (on_hist i f).
Proof. intros w. unfold on_hist. destruct (nth_error (w_hists w) i); [|apply quiet_po]. destruct (f h). apply quiet_hists. Qed.
Lemma quiet_alloc h : pres quiet (alloc_hist h). Proof. intros w. apply quiet_hists. Qed.
Lemma quiet_on_tmpl {A} i (f : tmpl -> tmpl * res A) : (forall t, t_inv (fst (f t)) = t_inv t) -> pres quiet (on_tmpl i f).
Proof.
  intros H w. unfold on_tmpl. destruct (nth_error (w_tmpls w) i) as [t|] eqn:E; [|apply quiet_po]. specialize (H t).
  destruct (f t) as [t' r]. simpl in *. constructor; simpl; eauto. intros j u U. destruct (Nat.eq_dec i j) as [->|N].
  - exists t'. rewrite upd_same by (apply nth_error_Some; congruence). split; congruence.
  - exists u. rewrite upd_other; auto.
Qed.

Lemma params_inv t v : t_inv (fst (params_setter t v)) = t_inv t.
Proof. destruct v; simpl; auto. destruct (Nat.eqb _ _); auto. Qed.
Lemma yield_inv t v : t_inv (fst (yield_setter t v)) = t_inv t.
Proof. destruct v as [x|z|[|x [|]]|]; simpl; auto; destruct (t_params t); auto. Qed.
Lemma nui_inv t v : t_inv (fst (nui_setter t v)) = t_inv t.
Proof. destruct v; simpl; auto. destruct (Nat.eqb _ _); auto. Qed.

Lemma quiet_tmpl_reset i : pres quiet (tmpl_reset i).
Proof. unfold tmpl_reset. pres_tac quiet_po. apply quiet_on_tmpl. reflexivity. Qed.
Lemma quiet_reset : pres quiet reset_parameters.
Proof. unfold reset_parameters, ch_reset. pres_tac quiet_po. apply quiet_tmpl_reset. Qed.
Lemma quiet_set_yield p v : pres quiet (set_yield p v).
Proof.
  unfold set_yield. pres_tac quiet_po. destruct (smem p a); pres_tac quiet_po.
  destruct (dget String.eqb (c_tmpls a2) p); pres_tac quiet_po. destruct (dget String.eqb (c_effs a2) p); pres_tac quiet_po.
  apply quiet_on_tmpl. intros. apply yield_inv.
Qed.
Lemma quiet_ch_update cid y n : pres quiet (ch_update_parameters cid y n).
Proof.
  unfold ch_update_parameters. pres_tac quiet_po. destruct a2 as [[[tid eff] yy] nn].
  pres_tac quiet_po; apply quiet_on_tmpl; intros; [apply yield_inv|apply nui_inv].
Qed.
Lemma quiet_add_data kw : pres quiet (mct_add_data kw).
Proof.
  unfold mct_add_data. apply (pres_forM quiet_po). intros [n hid] w. simpl.
  destruct (dget String.eqb (w_channels w) n) as [cid|]; [|apply quiet_po]. unfold bind, get_hist.
  destruct (nth_error (w_hists w) hid) as [h|] eqn:H; [|apply quiet_po]. unfold on_chan.
  destruct (nth_error (w_chans w) cid) as [c|] eqn:C; [|apply quiet_po]. unfold ch_add_data.
  assert (X : forall c', c_tmpls c' = c_tmpls c -> c_effs c' = c_effs c -> quiet w (set_chans w (upd cid c' (w_chans w)))).
  { intros c' E1 E2. constructor; simpl; eauto. intros j d D. destruct (Nat.eq_dec cid j) as [->|N].
    - exists c'. rewrite upd_same by (apply nth_error_Some; congruence). repeat split; congruence.
    - exists d. rewrite upd_other; auto. }
  destruct (check_hist c h); simpl; apply X; reflexivity.
Qed.
Lemma quiet_define_channel n b r : pres quiet (define_channel n b r).
Proof. intros w. constructor; simpl; eauto. intros i c H. exists c. split; auto. now apply nth_app_some. Qed.
Lemma quiet_define_process n : pres quiet (define_process n).
Proof. intros w. unfold define_process. destruct (smem _ _); [apply quiet_po|]. constructor; simpl; eauto. Qed.
Lemma quiet_constraint p v e : pres quiet (add_gaussian_constraint p v e).
Proof. intros w. unfold add_gaussian_constraint. destruct (smem _ _); [|apply quiet_po]. constructor; simpl; eauto. Qed.
Lemma quiet_template_sum cid : pres quiet (ch_template_sum cid).
Proof. unfold ch_template_sum. pres_tac quiet_po. Qed.
Lemma quiet_bin_edges cid : pres quiet (ch_bin_edges cid).
Proof. unfold ch_bin_edges. pres_tac quiet_po. destruct (c_tmpls a) as [|[? ?] ?]; pres_tac quiet_po. Qed.
Lemma quiet_asimov b : pres quiet (generate_asimov_dataset b).
Proof.
  unfold generate_asimov_dataset, ch_asimov. pres_tac quiet_po; try apply quiet_alloc; try apply quiet_template_sum.
  destruct (c_ttype _); pres_tac quiet_po. apply quiet_bin_edges.
Qed.
Lemma quiet_toy d : pres quiet (generate_toy_dataset d).
Proof.
  unfold generate_toy_dataset, ch_toy. pres_tac quiet_po; try apply quiet_alloc; try apply quiet_template_sum.
  destruct (c_ttype _); pres_tac quiet_po. apply quiet_bin_edges.
Qed.

(** operations that change a template list or a covariance; operations that use the caches *)
Definition modifies (o : op) : bool := match o with OAddTemplate _ _ _ _ | OAddCov _ _ | OAddVar _ _ _ _ => true | _ => false end.
Definition evaluates (o : op) : bool := match o with OUpdate _ | ONll _ => true | _ => false end.

Lemma quiet_step inv o : modifies o = false -> evaluates o = false -> pres quiet (step inv o).
Proof.
  intros Hm He. destruct o; simpl in *; try discriminate; pres_tac quiet_po;
    try apply quiet_alloc; try apply quiet_on_hist; try apply quiet_define_channel; try apply quiet_define_process;
    try apply quiet_add_data; try apply quiet_constraint; try apply quiet_set_yield; try apply quiet_reset; try apply quiet_asimov; try apply quiet_toy;
    try apply quiet_tmpl_reset; try (apply quiet_on_tmpl; intros; first [apply params_inv|apply yield_inv|apply nui_inv]).
  intros w. constructor; simpl; eauto. intros i t H. exists t. split; auto. now apply nth_app_some.
Qed.

Lemma coh_step inv o : modifies o = false -> pres (keepsCoh true) (step inv o).
Proof.
  intros Hm. destruct (evaluates o) eqn:He; [|now apply pres_quiet_coh, quiet_step].
  destruct o; simpl in He; try discriminate; simpl.
  - unfold update_parameters. apply (pres_bind coh_po); [apply (pres_pure_coh _ (fun w => per_channel_res w x)); intros; apply pure_per_channel|].
    intros yn. apply (pres_bind coh_po); [apply (pres_gets coh_po)|]. intros chs. apply (pres_forM coh_po). intros q.
    apply pres_quiet_coh, quiet_ch_update.
  - apply (pres_bind coh_po); [apply (pres_pure_coh _ (fun w => nll_res w x)); intros; apply pure_nll|intros; apply (pres_ret coh_po)].
Qed.

(** before the first evaluation the caches are empty *)
Definition no_cache (w : world) : Prop := w_cache_pi w = [] /\ w_cache_eff w = [] /\ w_cache_inv w = [].
Definition same_cache (w w' : world) : Prop :=
  w_cache_pi w' = w_cache_pi w /\ w_cache_eff w' = w_cache_eff w /\ w_cache_inv w' = w_cache_inv w.
Lemma same_cache_po : preorder same_cache.
Proof. split; [intros; repeat split|]. intros a b c (A & B & C) (D & E & F). repeat split; congruence. Qed.
Lemma quiet_same_cache w w' : quiet w w' -> same_cache w w'. Proof. intros []. repeat split; auto. Qed.
Lemma same_cache_on_tmpl {A} i (f : tmpl -> tmpl * res A) : pres same_cache (on_tmpl i f).
Proof. intros w. unfold on_tmpl. destruct (nth_error (w_tmpls w) i); [|apply same_cache_po]. destruct (f t). repeat split. Qed.
Lemma same_cache_step inv o : evaluates o = false -> pres same_cache (step inv o).
Proof.
  intros He. destruct (modifies o) eqn:Hm; [|intros w; apply quiet_same_cache, quiet_step; auto].
  destruct o; simpl in *; try discriminate; try apply same_cache_on_tmpl.
  intros w. unfold mct_add_template. destruct (dget _ _ _); [|apply same_cache_po]. destruct (smem _ _); [|apply same_cache_po].
  unfold bind, get_tmpl. destruct (nth_error (w_tmpls w) tid); [|apply same_cache_po]. unfold on_chan.
  destruct (nth_error (w_chans w) n); [|apply same_cache_po]. destruct (ch_add_template _ _ _ _ _). repeat split.
Qed.
Lemma no_cache_coh w : no_cache w -> coh w.
Proof. intros (A & B & C). constructor; rewrite ?A, ?B, ?C; simpl; tauto. Qed.

Lemma run_app inv l1 l2 w : run inv (l1 ++ l2) w = run inv l2 (run inv l1 w).
Proof. apply fold_left_app. Qed.

Theorem coh_run inv l1 l2 : Forall (fun o => evaluates o = false) l1 -> Forall (fun o => modifies o = false) l2 ->
  coh (run inv (l1 ++ l2) world_init).
Proof.
  intros H1 H2. rewrite run_app.
  assert (A : forall w, no_cache w -> no_cache (run inv l1 w)).
  { induction H1 as [|o l Ho Hl IH]; intros w N; [exact N|]. apply IH. destruct (same_cache_step inv o Ho w) as (A & B & C), N as (D & E & F).
    repeat split; congruence. }
  assert (B : forall w, coh w -> coh (run inv l2 w)).
  { clear A. induction H2 as [|o l Ho Hl IH]; intros w N; [exact N|]. apply IH. now apply (coh_step inv o Ho). }
  apply B, no_cache_coh, A. repeat split.
Qed.

(** ** Process indices and efficiencies stay current if no template is added *)
Lemma pe_on_tmpl {A} i (f : tmpl -> tmpl * res A) : pres (keepsCoh false) (on_tmpl i f).
Proof. intros w [P E V]. unfold on_tmpl. destruct (nth_error (w_tmpls w) i); [|constructor; auto]. destruct (f t). constructor; simpl; auto. discriminate. Qed.
Lemma pe_inv cid : pres (keepsCoh false) (block_diag_inv_corr_mat cid).
Proof. unfold block_diag_inv_corr_mat. pres_tac (@coh_po false). intros w [P E V]. destruct (lru_call _ _ _ _). constructor; simpl; auto. discriminate. Qed.
Lemma pe_per_channel x : pres (keepsCoh false) (generate_per_channel_parameters x).
Proof. apply (pres_pure_coh _ (fun w => per_channel_res w x)). intros; apply pure_per_channel. Qed.
Lemma pe_expected cid y nui : pres (keepsCoh false) (expected_evts_per_bin cid y nui).
Proof. apply (pres_pure_coh _ (fun w => c <- oget (w_chans w) cid ;; expected_res w c y nui)). intros; apply pure_expected. Qed.
Lemma pe_nll x : pres (keepsCoh false) (nll x).
Proof.
  unfold nll. pres_tac (@coh_po false); [apply pe_per_channel| |apply (pres_read coh_po)].
  unfold nll_contribution. pres_tac (@coh_po false). destruct (c_data _); [|apply (pres_raise coh_po)].
  pres_tac (@coh_po false); [apply pe_expected|]. unfold gauss_term. pres_tac (@coh_po false). apply pe_inv.
Qed.
Definition adds_t (o : op) : bool := match o with OAddTemplate _ _ _ _ => true | _ => false end.
Lemma pe_step inv o : adds_t o = false -> pres (keepsCoh false) (step inv o).
Proof.
  intros Hm. destruct (evaluates o) eqn:He.
  - destruct o; simpl in He; try discriminate; simpl.
    + unfold update_parameters. pres_tac (@coh_po false); [apply pe_per_channel|apply pres_quiet_coh, quiet_ch_update].
    + pres_tac (@coh_po false). apply pe_nll.
  - destruct (modifies o) eqn:M; [|now apply pres_quiet_coh, quiet_step].
    destruct o; simpl in *; try discriminate; apply pe_on_tmpl.
Qed.
Theorem pe_run inv l1 l2 : Forall (fun o => evaluates o = false) l1 -> Forall (fun o => adds_t o = false) l2 ->
  cohG false (run inv (l1 ++ l2) world_init).
Proof.
  intros H1 H2. rewrite run_app.
  assert (A : cohG false (run inv l1 world_init)). { apply coh_weaken. rewrite <- (app_nil_r l1). apply coh_run; auto. }
  revert A. generalize (run inv l1 world_init). induction H2 as [|o l Ho Hl IH]; intros w N; [exact N|]. apply IH. now apply (pe_step inv o Ho).
Qed.
