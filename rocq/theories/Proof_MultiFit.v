(** Two processes with the same objects of one model: runs of the methods of the model and of its fitters agree. *)
From Coq Require Import Reals String ZArith Bool Arith List Lra Lia.
From Verif Require Import Model_Num Model_Hist Model_Utility Model_Template Model_World Model_Ops Model_Multi Model_Minimizer Model_Fitter Model_MultiFit
  Spec_Matrix Spec_Min Spec_Multi Spec_MultiFit Proof_Hist Proof_Matrix Proof_Template Proof_HistHeap Proof_Monad Proof_World Proof_Eval Proof_Route
  Proof_Min Proof_Fit Proof_Multi Proof_Multi2 Proof_Multi3 Proof_Multi4.
Import ListNotations.
Local Open Scope R_scope.

(** ** Worlds *)
Definition rrel2 {A B} (R : A -> B -> Prop) (r1 : res A) (r2 : res B) : Prop :=
  match r1, r2 with Ok a, Ok b => R a b | Err e, Err e' => e = e' | _, _ => False end.
(** the objects of the model are the same *)
Definition R0 (m : model) (w w' : world) : Prop := store w = m /\ store w' = m /\ fp m w w'.
Definition Rw (m : model) (w w' : world) : Prop := R0 m w w' /\ coh w /\ coh w'.
Definition parR (R : world -> world -> Prop) {A} (f : M A) : Prop := forall w w', R w w' -> R (fst (f w)) (fst (f w')) /\ snd (f w) = snd (f w').
Notation par0 m := (parR (R0 m)).
Notation par m := (parR (Rw m)).

Lemma fp_same m w w' w1 w1' : w_hists w1 = w_hists w -> w_tmpls w1 = w_tmpls w -> w_chans w1 = w_chans w ->
  w_hists w1' = w_hists w' -> w_tmpls w1' = w_tmpls w' -> w_chans w1' = w_chans w' -> fp m w w' -> fp m w1 w1'.
Proof.
  intros H T C H' T' C' F n cid I. destruct (F n cid I) as (c & A & B & X & Y). exists c. rewrite C, C'. repeat split; auto.
  - intros p tid J. destruct (X p tid J) as (t & A1 & B1 & h & A2 & B2). exists t. rewrite T, T'. repeat split; auto. exists h. rewrite H, H'. auto.
  - intros hid D. destruct (Y hid D) as (h & A2 & B2). exists h. rewrite H, H'. auto.
Qed.
Lemma R0_core m w w' w1 w1' : R0 m w w' -> core_eq w w1 -> core_eq w' w1' -> R0 m w1 w1'.
Proof.
  intros (A & B & F) C C'. split; [|split].
  - rewrite <- A. unfold store. destruct C. congruence.
  - rewrite <- B. unfold store. destruct C'. congruence.
  - eapply fp_same; [..|exact F]; [destruct C|destruct C|destruct C|destruct C'|destruct C'|destruct C']; assumption.
Qed.
Lemma R0_load m w w' : R0 m w w' -> w = load m w /\ w' = load m w'.
Proof. intros (A & B & _). split; [rewrite <- A|rewrite <- B]; symmetry; apply load_self. Qed.
Lemma load_heap m w w' : fp m w w' -> fp m (load m w) (load m w').
Proof. intros F. now apply (fp_same m w w'). Qed.
Lemma R0_names m w w' : R0 m w w' -> param_names w' = param_names w /\ nui_ids w' = nui_ids w /\ nll_x0 w' = nll_x0 w /\ process_yields w' = process_yields w.
Proof.
  intros H. destruct (R0_load m w w' H) as [E E']. destruct H as (_ & _ & F). rewrite E, E'. split; [now apply fp_names|].
  split; [|split; [now apply fp_x0|now apply fp_yields]]. unfold nui_ids, mct_num_nui. now rewrite (fp_chans m w w' F).
Qed.
Lemma par_nll m x : par m (nll x).
Proof.
  intros w w' (H & C & C'). destruct (pure_nll w x w (po_refl _ core_po w) C) as (w1 & E1 & K1 & H1). destruct (pure_nll w' x w' (po_refl _ core_po w') C') as (w2 & E2 & K2 & H2).
  rewrite E1, E2. cbn [fst snd]. split; [split; [eapply R0_core; eauto|auto]|]. destruct (R0_load m w w' H) as [E E']. rewrite E, E'. symmetry. apply fp_nll. apply H.
Qed.

Section Par.
  Variable R : world -> world -> Prop.
  Lemma par_ret {A} (a : A) : parR R (ret a). Proof. intros w w' H. split; [exact H|reflexivity]. Qed.
  Lemma par_lift {A} (r : res A) : parR R (lift r). Proof. intros w w' H. split; [exact H|reflexivity]. Qed.
  Lemma par_raise {A} e : parR R (@raise A e). Proof. intros w w' H. split; [exact H|reflexivity]. Qed.
  Lemma par_bind {A B} (f : M A) (k : A -> M B) : parR R f -> (forall a, parR R (k a)) -> parR R (bind f k).
  Proof.
    intros H K w w' X. unfold bind. destruct (H w w' X) as [Y E]. destruct (f w) as [w1 r], (f w') as [w2 r']. cbn [fst snd] in *. subst r'.
    destruct r as [a|e]; [apply (K a w1 w2 Y)|split; [exact Y|reflexivity]].
  Qed.
  Lemma par_lift_bind {A B} (r : res A) (k : A -> M B) : (forall a, r = Ok a -> parR R (k a)) -> parR R (bind (lift r) k).
  Proof. intros K w w' X. unfold bind, lift. destruct r as [a|e]; [now apply K|]. split; [exact X|reflexivity]. Qed.
  Lemma par_forM {A} (f : A -> M unit) l : (forall a, In a l -> parR R (f a)) -> parR R (forM f l).
  Proof.
    intros H. induction l as [|a l IH]; simpl; [apply par_ret|]. apply par_bind; [apply H; left; auto|]. intros _. apply IH. intros b Hb. apply H. right. auto.
  Qed.
End Par.
(** the channel is known *)
Definition R0c (m : model) (cid : nat) (c : chan) (w w' : world) : Prop := R0 m w w' /\ nth_error (w_chans w) cid = Some c /\ nth_error (w_chans w') cid = Some c.
(** reading a channel of the model: the continuation is run on a channel that both processes have *)
Lemma par0_chan m {B} n cid (k : chan -> M B) : In (n, cid) (m_channels m) -> (forall c, parR (R0c m cid c) (k c)) -> par0 m (bind (get_chan cid) k).
Proof.
  intros I K w w' H. pose proof H as (A & B0 & F). destruct (F n cid I) as (c & X & Y & _). unfold bind, get_chan. rewrite X, Y.
  destruct (K c w w' (conj H (conj X Y))) as [(Z & _) E]. auto.
Qed.
Definition keeps_hist {A} (f : tmpl -> tmpl * res A) : Prop := forall t, t_hist (fst (f t)) = t_hist t.
(** changing a template of the channel *)
Lemma par0_on_tmpl m {A} n cid c p tid (f : tmpl -> tmpl * res A) : keeps_hist f -> In (n, cid) (m_channels m) -> In (p, tid) (c_tmpls c) -> parR (R0c m cid c) (on_tmpl tid f).
Proof.
  intros KH I J w w' ((A0 & B0 & F) & C & C'). destruct (F n cid I) as (c' & X & _ & T & _). assert (c' = c) by congruence. subst c'.
  destruct (T p tid J) as (t & E & E' & _). unfold on_tmpl. rewrite E, E'. pose proof (KH t) as KT. destruct (f t) as [t1 r]. cbn [fst snd] in *. split; [|reflexivity].
  split; [|split; [exact C|exact C']]. split; [exact A0|]. split; [exact B0|]. intros n2 cid2 I2. destruct (F n2 cid2 I2) as (c2 & C1 & C2 & T2 & D2). exists c2. repeat split; auto.
  intros p2 tid2 J2. destruct (T2 p2 tid2 J2) as (t2 & U & U' & h & HH & HH'). unfold same_tmpl, same_hist. cbn [set_tmpls w_tmpls w_hists].
  destruct (Nat.eq_dec tid tid2) as [<-|N].
  - exists t1. rewrite !upd_same by (apply nth_error_Some; congruence). assert (t2 = t) by congruence. subst t2. rewrite KT. repeat split; auto. exists h. auto.
  - exists t2. rewrite !upd_other by auto. repeat split; auto. exists h. auto.
Qed.
Lemma kh_yield v : keeps_hist (fun t => yield_setter t v).
Proof. intros t. unfold yield_setter, set_params. destruct v; simpl; repeat match goal with |- context [match ?x with _ => _ end] => destruct x end; reflexivity. Qed.
Lemma kh_nui v : keeps_hist (fun t => nui_setter t v).
Proof. intros t. unfold nui_setter, set_params. destruct v; simpl; repeat match goal with |- context [match ?x with _ => _ end] => destruct x end; reflexivity. Qed.

Lemma ids_of m cid : In cid (map snd (m_channels m)) -> exists n, In (n, cid) (m_channels m).
Proof. intros H. apply in_map_iff in H as ([n i] & <- & H). eauto. Qed.
(** attributes of the model *)
Lemma par0_read m {A B} (f : world -> A) v (k : A -> M B) : (forall w, store w = m -> f w = v) -> par0 m (k v) -> par0 m (bind (gets f) k).
Proof. intros F K w w' H. unfold bind, gets. rewrite (F w) by apply H. rewrite (F w') by apply H. now apply K. Qed.
Lemma par0_set_yield m p v : par0 m (set_yield p v).
Proof.
  unfold set_yield. apply (par0_read m w_procs (m_procs m)); [now intros w <-|]. destruct (smem p (m_procs m)); [|apply par_raise].
  apply (par0_read m _ (map snd (m_channels m))); [now intros w <-|]. apply par_forM. intros cid I. destruct (ids_of m cid I) as (n & J).
  apply (par0_chan m n cid); [exact J|]. intros c. destruct (dget String.eqb (c_tmpls c) p) as [tid|] eqn:D; [|apply par_ret].
  destruct (dget String.eqb (c_effs c) p); [|apply par_ret]. apply dict_in in D. apply (par0_on_tmpl m n cid c p tid); auto. apply kh_yield.
Qed.
Lemma par0_update m cid n y nu : In (n, cid) (m_channels m) -> par0 m (ch_update_parameters cid y nu).
Proof.
  intros J. unfold ch_update_parameters. apply (par0_chan m n cid); [exact J|]. intros c. apply par_lift_bind. intros ys _. apply par_lift_bind. intros ns _.
  apply par_forM. intros [[[tid eff] yy] nn] Q. do 3 apply in_combine_l in Q. apply in_map_iff in Q as ([p t'] & <- & T). cbn [snd].
  apply par_bind; [|intros _]; apply (par0_on_tmpl m n cid c p t'); auto; [apply kh_yield|apply kh_nui].
Qed.
Lemma par_set_yield m p v : par m (set_yield p v).
Proof.
  intros w w' (H & C & C'). destruct (par0_set_yield m p v w w' H) as [X Y]. split; [split; [exact X|]|exact Y].
  split; [exact (coh_step (fun m => Ok m) (OSetYield p v) eq_refl w C)|exact (coh_step (fun m => Ok m) (OSetYield p v) eq_refl w' C')].
Qed.
Lemma par_update m x : par m (update_parameters x).
Proof.
  intros w w' (H & C & C'). enough (X : R0 m (fst (update_parameters x w)) (fst (update_parameters x w')) /\ snd (update_parameters x w) = snd (update_parameters x w')).
  { destruct X as [X Y]. split; [split; [exact X|]|exact Y].
    split; [exact (coh_step (fun m => Ok m) (OUpdate x) eq_refl w C)|exact (coh_step (fun m => Ok m) (OUpdate x) eq_refl w' C')]. }
  destruct (@pure_per_channel true w x w (po_refl _ core_po w) C) as (w1 & E1 & K1 & _). destruct (@pure_per_channel true w' x w' (po_refl _ core_po w') C') as (w2 & E2 & K2 & _).
  assert (E : per_channel_res w' x = per_channel_res w x). { destruct (R0_load m w w' H) as [A B]. rewrite A, B. apply fp_per_channel, H. }
  unfold update_parameters. unfold bind at 1. unfold bind at 2. unfold bind at 3. unfold bind at 4. rewrite E1, E2, E.
  pose proof (R0_core m w w' w1 w2 H K1 K2) as H1. destruct (per_channel_res w x) as [yn|e]; [|split; [exact H1|reflexivity]].
  revert w1 w2 H1 E1 E2 K1 K2. intros w1 w2 H1 _ _ _ _. revert w1 w2 H1. apply (par0_read m _ (map snd (m_channels m))); [now intros v <-|].
  apply par_forM. intros [cid [y nu]] I. apply in_combine_l in I. destruct (ids_of m cid I) as (n & J). apply (par0_update m cid n); exact J.
Qed.
Lemma par_get_yield m p : par m (get_yield p).
Proof.
  intros w w' (H & C & C'). assert (E : forall w, fst (get_yield p w) = w). { intros v. unfold get_yield, bind, gets, lift. destruct (index_of p (w_procs v)); reflexivity. }
  rewrite !E. split; [split; auto|]. destruct (R0_load m w w' H) as [A B]. rewrite A, B. symmetry. apply fp_get_yield, H.
Qed.

(** ** Programs that ask the same questions *)
Inductive prel {A B} (R : A -> B -> Prop) : prog A -> prog B -> Prop :=
  | prel_stop a b : R a b -> prel R (Stop a) (Stop b)
  | prel_ask x k k' : (forall v, prel R (k v) (k' v)) -> prel R (Ask x k) (Ask x k').
Lemma prel_bind {A B C D} (R : A -> B -> Prop) (Q : C -> D -> Prop) p p' f f' :
  prel R p p' -> (forall a b, R a b -> prel Q (f a) (f' b)) -> prel Q (pbind p f) (pbind p' f').
Proof. intros H K. induction H as [a b H|x k k' _ IH]; simpl; [now apply K|]. constructor. exact IH. Qed.
Lemma prel_refl {A} (p : prog A) : prel eq p p.
Proof. induction p; constructor; auto. Qed.
Lemma prel_play m {A B} (R : A -> B -> Prop) p p' : prel R p p' -> forall w w', Rw m w w' ->
  Rw m (fst (play nll p w)) (fst (play nll p' w')) /\ R (snd (play nll p w)) (snd (play nll p' w')).
Proof.
  induction 1 as [a b H|x k k' _ IH]; intros w w' X; simpl; [auto|]. destruct (par_nll m x w w' X) as [Y E]. rewrite E. now apply IH.
Qed.
(** minimizers that differ in the address of their Parameters object *)
Definition noaddr (m : minimizer) : minimizer := mk_min 0 (m_fixed m) (m_bounds m) (m_fcn_min m) (m_success m).
Definition ma (s t : mstate) : Prop := ms_p s = ms_p t /\ noaddr (ms_m s) = noaddr (ms_m t).
Definition mr {A B} (R : A -> B -> Prop) (f : MM A) (g : MM B) : Prop :=
  forall s t, ma s t -> prel (fun q q' => ma (fst q) (fst q') /\ rrel2 R (snd q) (snd q')) (f s) (g t).
Lemma mr_bind {A B C D} (R : A -> B -> Prop) (Q : C -> D -> Prop) f g k k' : mr R f g -> (forall a b, R a b -> mr Q (k a) (k' b)) -> mr Q (mbind f k) (mbind g k').
Proof.
  intros H K s t X. unfold mbind. eapply prel_bind; [exact (H s t X)|]. intros [s1 r] [t1 r'] [Y Z]. cbn [fst snd] in *.
  destruct r as [a|e], r' as [b|e']; cbn [rrel2] in Z; try contradiction; [now apply K|]. subst e'. constructor. split; [exact Y|reflexivity].
Qed.
Lemma mr_play {A} (p : prog (res A)) : mr eq (mplay p) (mplay p).
Proof.
  intros s t X. unfold mplay. eapply prel_bind; [apply prel_refl|]. intros r r' <-. constructor. split; [exact X|]. destruct r; reflexivity.
Qed.
Lemma mr_lift {A B} (R : A -> B -> Prop) r r' : rrel2 R r r' -> mr R (mlift r) (mlift r').
Proof. intros H s t X. constructor. split; [exact X|exact H]. Qed.
Lemma mr_get {A B} (R : A -> B -> Prop) f g : (forall s t, ma s t -> R (f s) (g t)) -> mr R (mget f) (mget g).
Proof. intros H s t X. constructor. split; [exact X|]. now apply H. Qed.
Lemma mr_pars f : mr eq (mpars f) (mpars f).
Proof. intros s t [X Y]. unfold mpars. rewrite X. destruct (f (ms_p t)) as [p r]. constructor. split; [split; [reflexivity|exact Y]|]. destruct r; reflexivity. Qed.
Lemma mr_min v : mr eq (mset_fcn_min v) (mset_fcn_min v).
Proof. intros s t [X Y]. unfold mset_fcn_min. constructor. injection Y as Y1 Y2 Y3 Y4. split; [split; [exact X|]|reflexivity]. unfold noaddr. cbn. congruence. Qed.
Lemma mr_succ v : mr eq (mset_success v) (mset_success v).
Proof. intros s t [X Y]. unfold mset_success. constructor. injection Y as Y1 Y2 Y3 Y4. split; [split; [exact X|]|reflexivity]. unfold noaddr. cbn. congruence. Qed.
Lemma mr_res {A} (r : res A) : mr eq (mlift r) (mlift r). Proof. apply mr_lift. destruct r; reflexivity. Qed.
Definition na (m m' : minimizer) : Prop := noaddr m = noaddr m'.
Definition nr (r r' : mresult) : Prop := r_fcn_min r = r_fcn_min r' /\ r_success r = r_success r'.
Ltac mr_tac := repeat first [apply mr_play | apply mr_min | apply mr_succ | apply mr_pars | apply mr_res | apply (mr_bind eq); [|let a := fresh "a" in intros a ? <-]].
Lemma mr_minimize E x g : mr nr (minimize E x g) (minimize E x g).
Proof.
  unfold minimize. eapply (mr_bind na); [apply mr_get; intros s t [_ X]; exact X|]. intros m1 m2 X. injection X as X1 X2 X3 X4. rewrite <- X1. destruct (m_fixed m1).
  - unfold minimize_iminuit. eapply (mr_bind na); [apply mr_get; intros s t [_ Y]; exact Y|]. intros n1 n2 Y. injection Y as Y1 Y2 Y3 Y4. 
    eapply (mr_bind eq); [apply mr_get; intros s t [-> _]; reflexivity|]. intros names ? <-. rewrite <- Y2. mr_tac. apply mr_lift. split; reflexivity.
  - unfold minimize_scipy. eapply (mr_bind na); [apply mr_get; intros s t [_ Y]; exact Y|]. intros n1 n2 Y. injection Y as Y1 Y2 Y3 Y4. rewrite <- Y2.
    eapply (mr_bind eq); [apply mr_play|]. intros o ? <-. eapply (mr_bind eq); [apply mr_succ|]. intros _ _ _. destruct (oo_success o); [|apply mr_lift; reflexivity].
    eapply (mr_bind eq); [mr_tac|]. intros _ _ _. eapply (mr_bind eq); [mr_tac|]. intros _ _ _. eapply (mr_bind eq).
    + destruct g; [|apply mr_lift; reflexivity]. mr_tac.
    + intros _ _ _. apply mr_lift. split; reflexivity.
Qed.

(** ** The process pool, in lockstep *)
Lemma prel_helper E t t' : ma (tk_st t) (tk_st t') -> tk_point t = tk_point t' -> tk_id t = tk_id t' -> prel eq (profile_helper E t) (profile_helper E t').
Proof.
  intros [P N] PT ID. injection N as N1 N2 N3 N4. unfold profile_helper. rewrite P, PT, ID. destruct (id_to_index (p_names (ms_p (tk_st t'))) (tk_id t')) as [k|e] eqn:K; [|now constructor].
  destruct (Nat.ltb k _); [|now constructor]. unfold set_param_fixed. rewrite K. eapply prel_bind.
  - apply mr_minimize. split; [reflexivity|]. cbn. unfold noaddr, release_params. cbn. rewrite ?N1, ?N2, ?N3, ?N4. reflexivity.
  - intros [s r] [s' r'] [_ X]. cbn [fst snd] in *. constructor. destruct r as [r|e], r' as [r'|e']; cbn in X; try contradiction; [destruct X as (-> & _); reflexivity|subst; reflexivity].
Qed.
Lemma Rw_unpickled m w w' : Rw m w w' -> Rw m (unpickled w) (unpickled w').
Proof.
  intros ((A & B & F) & _). split; [split; [exact A|split; [exact B|]]|split; apply no_cache_coh; repeat split]. now apply (fp_same m w w').
Qed.
Section Lockstep.
  Variables (m : model) (E : ext) (ts ts' : list task).
  Definition tk_rel (t t' : task) : Prop := Rw m (tk_w t) (tk_w t') /\ ma (tk_st t) (tk_st t') /\ tk_point t = tk_point t' /\ tk_id t = tk_id t'.
  Hypothesis TS : Forall2 tk_rel ts ts'.
  Definition wk_rel (v v' : worker) : Prop :=
    match v, v' with Idle, Idle => True | Busy j w p, Busy j' w' p' => j = j' /\ Rw m w w' /\ prel eq p p' | _, _ => False end.
  Definition pl_rel (q q' : pool) : Prop := pl_next q = pl_next q' /\ Forall2 wk_rel (pl_workers q) (pl_workers q') /\ pl_done q = pl_done q'.
  Lemma f2_nth {A} (R : A -> A -> Prop) l l' : Forall2 R l l' -> forall j, match nth_error l j, nth_error l' j with Some a, Some b => R a b | None, None => True | _, _ => False end.
  Proof. induction 1 as [|a b l l' H _ IH]; intros [|j]; simpl; auto. apply IH. Qed.
  Lemma f2_upd {A} (R : A -> A -> Prop) l l' a b j : Forall2 R l l' -> R a b -> Forall2 R (upd j a l) (upd j b l').
  Proof. intros H X. revert j. induction H as [|c d l l' H F IH]; intros [|j]; simpl; constructor; auto. Qed.
  Lemma pl_step e q q' : pl_rel q q' -> pl_rel (pool_step E ts e q) (pool_step E ts' e q').
  Proof.
    intros (N & W & D). destruct e as [j|j]; simpl; pose proof (f2_nth wk_rel _ _ W j) as J.
    - rewrite <- N. pose proof (f2_nth tk_rel _ _ TS (pl_next q)) as T.
      destruct (nth_error (pl_workers q) j) as [[|a w p]|], (nth_error (pl_workers q') j) as [[|a' w' p']|]; cbn [wk_rel] in J; try contradiction; try (split; auto; fail).
      destruct (nth_error ts (pl_next q)) as [t|], (nth_error ts' (pl_next q)) as [t'|]; try contradiction; [|split; auto].
      destruct T as (T1 & T2 & T3 & T4). split; [reflexivity|]. split; [|exact D]. apply f2_upd; [exact W|]. split; [reflexivity|]. split; [now apply Rw_unpickled|now apply prel_helper].
    - destruct (nth_error (pl_workers q) j) as [[|a w p]|], (nth_error (pl_workers q') j) as [[|a' w' p']|]; cbn [wk_rel] in J; try contradiction; try (split; auto; fail).
      destruct J as (<- & RW & PR). destruct PR as [r r' <-|x k k' K].
      + split; [exact N|]. split; [now apply f2_upd|]. cbn. now rewrite D.
      + split; [exact N|]. split; [|exact D]. destruct (par_nll m x w w' RW) as [Y Z]. apply f2_upd; [exact W|]. split; [reflexivity|]. split; [exact Y|]. rewrite Z. apply K.
  Qed.
  Lemma pl_run sch : forall q q', pl_rel q q' -> pl_done (pool_run E ts sch q) = pl_done (pool_run E ts' sch q').
  Proof. unfold pool_run. induction sch as [|e sch IH]; intros q q' X; simpl; [apply X|]. apply IH. now apply pl_step. Qed.
  Lemma pl_new n : pl_rel (pool_new ts n) (pool_new ts' n).
  Proof.
    split; [reflexivity|]. split; [cbn; induction n; simpl; constructor; auto; exact Logic.I|]. cbn. clear n. induction TS as [|a b l l' _ TS' IH]; simpl; [reflexivity|]. f_equal. exact (IH TS').
  Qed.
End Lockstep.

(** ** Fitters.  n1 and n2 Parameters objects existed before; the new ones correspond to each other. *)
Section Fit.
  Variables (m : model) (i n1 n2 : nat).
  Record RF (s t : fstate) : Prop := {
    rf_w : Rw m (fs_w s) (fs_w t);
    rf_f : nth_error (fs_fitters s) i = nth_error (fs_fitters t) i;
    rf_d : exists d, length (fs_pars s) = (n1 + d)%nat /\ length (fs_pars t) = (n2 + d)%nat;
    rf_p : forall j, nth_error (fs_pars s) (n1 + j) = nth_error (fs_pars t) (n2 + j) }.
  Definition adr (a b : nat) : Prop := exists j, a = (n1 + j)%nat /\ b = (n2 + j)%nat.
  Definition mz (a b : minimizer) : Prop := adr (m_params a) (m_params b) /\ noaddr a = noaddr b.
  Definition mres (a b : mresult) : Prop := nr a b /\ adr (r_params a) (r_params b).
  Definition parF {A B} (R : A -> B -> Prop) (f : F A) (g : F B) : Prop := forall s t, RF s t -> RF (fst (f s)) (fst (g t)) /\ rrel2 R (snd (f s)) (snd (g t)).

  Lemma pf_bind {A B C D} (R : A -> B -> Prop) (Q : C -> D -> Prop) f g k k' : parF R f g -> (forall a b, R a b -> parF Q (k a) (k' b)) -> parF Q (fbind f k) (fbind g k').
  Proof.
    intros H K s t X. unfold fbind. destruct (H s t X) as [Y Z]. destruct (f s) as [s1 [a|e]], (g t) as [t1 [b|e']]; cbn [fst snd rrel2] in *; try contradiction; [now apply K|]. auto.
  Qed.
  Lemma pf_lift {A B} (R : A -> B -> Prop) r r' : rrel2 R r r' -> parF R (flift r) (flift r').
  Proof. intros H s t X. split; [exact X|exact H]. Qed.
  Lemma pf_ret {A B} (R : A -> B -> Prop) a b : R a b -> parF R (fret a) (fret b).
  Proof. intros H s t X. split; [exact X|exact H]. Qed.
  Lemma pf_get {A B} (R : A -> B -> Prop) f g : (forall s t, RF s t -> R (f s) (g t)) -> parF R (fget f) (fget g).
  Proof. intros H s t X. split; [exact X|]. now apply H. Qed.
  Lemma pf_fitter : parF eq (get_fitter i) (get_fitter i).
  Proof. intros s t X. split; [exact X|]. unfold get_fitter. cbn. rewrite (rf_f s t X). destruct (nth_error _ _); reflexivity. Qed.
  Lemma pf_pars a b : adr a b -> parF eq (get_pars a) (get_pars b).
  Proof. intros (j & -> & ->) s t X. split; [exact X|]. unfold get_pars. cbn. rewrite (rf_p s t X). destruct (nth_error _ _); reflexivity. Qed.
  Lemma pf_world {A} (f : M A) : par m f -> parF eq (on_world f) (on_world f).
  Proof.
    intros H s t X. unfold on_world. destruct (H _ _ (rf_w s t X)) as [Y Z]. destruct (f (fs_w s)) as [w1 r], (f (fs_w t)) as [w2 r']. cbn [fst snd] in *. subst r'.
    split; [|destruct r; reflexivity]. destruct X. constructor; auto.
  Qed.
  Lemma pf_x0 : parF eq x0 x0.
  Proof.
    intros s t X. unfold x0. split; [exact X|]. cbn. destruct (R0_names m _ _ (proj1 (rf_w s t X))) as (_ & _ & -> & _). destruct (nll_x0 _); reflexivity.
  Qed.
  Lemma pf_new id : parF mz (new_minimizer id) (new_minimizer id).
  Proof.
    intros s t X. unfold new_minimizer. destruct (R0_names m _ _ (proj1 (rf_w s t X))) as (N & _). rewrite N. destruct (minimizer_class id) as [k|e]; [|split; [exact X|reflexivity]].
    destruct X as [X1 X2 (d & D1 & D2) X4]. cbn. split.
    - constructor; cbn; auto.
      + exists (S d). rewrite !app_length. cbn. lia.
      + intros j. destruct (lt_dec j d) as [L|L]; [rewrite !nth_error_app1 by lia; apply X4|]. rewrite !nth_error_app2 by lia. f_equal. lia.
    - split; [exists d; auto|reflexivity].
  Qed.
  Lemma mz_fix names a b j : mz a b -> rrel2 mz (match set_param_fixed names a j with (m', Ok _) => Ok m' | (_, Err e) => Err e end) (match set_param_fixed names b j with (m', Ok _) => Ok m' | (_, Err e) => Err e end).
  Proof.
    intros (A & N). injection N as N1 N2 N3 N4. unfold set_param_fixed. destruct (id_to_index names j); [|reflexivity]. cbn. split; [exact A|]. unfold noaddr. cbn. rewrite ?N1, ?N2, ?N3, ?N4. reflexivity.
  Qed.
  Lemma mz_bound names a b j v : mz a b -> rrel2 mz (match set_param_bounds names a j v with (m', Ok _) => Ok m' | (_, Err e) => Err e end) (match set_param_bounds names b j v with (m', Ok _) => Ok m' | (_, Err e) => Err e end).
  Proof.
    intros (A & N). injection N as N1 N2 N3 N4. unfold set_param_bounds. destruct (id_to_index names j); [|reflexivity]. cbn. split; [exact A|]. unfold noaddr. cbn. rewrite ?N1, ?N2, ?N3, ?N4. reflexivity.
  Qed.
  Lemma fold_rel {A} (f g : minimizer -> A -> res minimizer) l : (forall a b j, mz a b -> rrel2 mz (f a j) (g b j)) -> forall r r', rrel2 mz r r' ->
    rrel2 mz (fold_left (fun r j => a <- r ;; f a j) l r) (fold_left (fun r j => a <- r ;; g a j) l r').
  Proof.
    intros H. induction l as [|j l IH]; intros r r' X; simpl; [exact X|]. apply IH. destruct r as [a|e], r' as [b|e']; simpl in *; try contradiction; auto.
  Qed.
  Lemma mz_fix_all names ids a b : mz a b -> rrel2 mz (fix_all names a ids) (fix_all names b ids).
  Proof.
    intros H. unfold fix_all. apply (fold_rel (fun m j => match set_param_fixed names m j with (m', Ok _) => Ok m' | (_, Err e) => Err e end)); [|exact H]. intros; now apply mz_fix.
  Qed.
  Lemma mz_bound_all names ids a b : mz a b -> rrel2 mz (bound_all names a ids) (bound_all names b ids).
  Proof.
    intros H. unfold bound_all. apply (fold_rel (fun m ib => match set_param_bounds names m (fst ib) (snd ib) with (m', Ok _) => Ok m' | (_, Err e) => Err e end)); [|exact H]. intros; now apply mz_bound.
  Qed.
  Lemma pf_min E a b x g : mz a b -> parF (fun q q' => mz (fst q) (fst q') /\ mres (snd q) (snd q')) (minimize_from E a x g) (minimize_from E b x g).
  Proof.
    intros ((j & A & B) & N) s t X. unfold minimize_from. rewrite A, B, (rf_p s t X j). destruct (nth_error (fs_pars t) (n2 + j)) as [p|] eqn:P; [|split; [exact X|reflexivity]].
    assert (Y : ma (mk_mstate p a) (mk_mstate p b)) by (split; [reflexivity|exact N]).
    destruct (prel_play m _ _ _ (mr_minimize E x g _ _ Y) _ _ (rf_w s t X)) as [Z1 Z2].
    pose proof (fun w' s' r => minimize_result nll E x g (mk_mstate p a) (fs_w s) w' s' r) as Q1. pose proof (fun w' s' r => minimize_result nll E x g (mk_mstate p b) (fs_w t) w' s' r) as Q2.
    pose proof (fun w' s' r => minimize_keep E x g world nll (mk_mstate p a) (fs_w s) w' s' r) as K1. pose proof (fun w' s' r => minimize_keep E x g world nll (mk_mstate p b) (fs_w t) w' s' r) as K2.
    destruct (play nll (minimize E x g (mk_mstate p a)) (fs_w s)) as (w1 & s1 & r1), (play nll (minimize E x g (mk_mstate p b)) (fs_w t)) as (w2 & t2 & r2).
    cbn [fst snd ms_m] in *. destruct Z2 as [(M1 & M2) R].
    assert (P1 : (n1 + j < length (fs_pars s))%nat) by (apply nth_error_Some; rewrite (rf_p s t X); congruence). assert (P2 : (n2 + j < length (fs_pars t))%nat) by (apply nth_error_Some; congruence).
    split.
    - destruct X as [X1 X2 (d & D1 & D2) X4]. constructor; cbn [fs_w fs_fitters fs_pars]; auto.
      + exists d. rewrite !upd_length. auto.
      + intros j'. destruct (Nat.eq_dec j j') as [<-|NE]; [rewrite !upd_same by assumption; now rewrite M1|]. rewrite !upd_other by lia. apply X4.
    - destruct r1 as [r1|e], r2 as [r2|e']; cbn [rrel2 rmap] in *; try contradiction; [|exact R].
      destruct (K1 w1 s1 (Ok r1) eq_refl) as (_ & G1 & _). destruct (K2 w2 t2 (Ok r2) eq_refl) as (_ & G2 & _). cbn [ms_m] in G1, G2.
      split; [split; [exists j; cbn [fst]; split; congruence|exact M2]|]. split; [exact R|]. exists j. cbn [snd]. rewrite (Q1 _ _ _ eq_refl), (Q2 _ _ _ eq_refl). auto.
  Qed.
  Ltac pf_names := first [apply pf_get; let X := fresh in intros ? ? X; destruct (R0_names m _ _ (proj1 (rf_w _ _ X))) as (? & ? & _); cbv beta; first [assumption|symmetry; assumption]].
  Lemma pf_nuis (fn : bool) names nuis a b : mz a b -> parF mz (flift (if fn then fix_all names a nuis else Ok a)) (flift (if fn then fix_all names b nuis else Ok b)).
  Proof. intros H. apply pf_lift. destruct fn; [now apply mz_fix_all|exact H]. Qed.

  Definition fit_rel (a b : mresult) : Prop := mres a b.
  Lemma pf_do_fit E u g n l : parF mres (do_fit E i u g n l) (do_fit E i u g n l).
  Proof.
    unfold do_fit. eapply (pf_bind eq); [apply pf_fitter|]. intros f ? <-. eapply (pf_bind eq); [pf_names|]. intros names ? <-. eapply (pf_bind eq); [pf_names|]. intros nuis ? <-.
    eapply pf_bind; [apply pf_new|]. intros a b H. eapply pf_bind; [apply pf_nuis; exact H|]. clear a b H. intros a b H.
    eapply (pf_bind mz); [apply pf_lift; destruct l; [now apply mz_bound_all|exact H]|]. clear a b H. intros a b H.
    eapply (pf_bind mz); [apply pf_lift; now apply mz_fix_all|]. clear a b H. intros a b H.
    eapply (pf_bind mz); [apply pf_lift; now apply mz_bound_all|]. clear a b H. intros a b H.
    eapply (pf_bind eq); [apply pf_x0|]. intros x ? <-. eapply pf_bind; [apply pf_min; exact H|]. intros q q' [Q1 Q2].
    eapply (pf_bind eq); [apply pf_pars, Q2|]. intros p ? <-. eapply (pf_bind eq); [destruct u; [apply pf_world, par_update|apply pf_ret; reflexivity]|]. intros _ _ _.
    apply pf_ret. exact Q2.
  Qed.
  Lemma pf_significance E p n : parF eq (get_significance E i p n) (get_significance E i p n).
  Proof.
    unfold get_significance. eapply (pf_bind eq); [apply pf_fitter|]. intros f ? <-. eapply (pf_bind eq); [pf_names|]. intros names ? <-. eapply (pf_bind eq); [pf_names|]. intros nuis ? <-.
    eapply pf_bind; [apply pf_new|]. intros a b H. eapply pf_bind; [apply pf_nuis; exact H|]. clear a b H. intros a b H.
    eapply (pf_bind mz); [apply pf_lift; now apply mz_fix_all|]. clear a b H. intros a b H.
    eapply (pf_bind mz); [apply pf_lift; now apply mz_bound_all|]. clear a b H. intros a b H.
    eapply (pf_bind eq); [apply pf_x0|]. intros x ? <-. eapply pf_bind; [apply pf_min; exact H|]. intros q q' [_ Q2]. clear a b H.
    eapply (pf_bind eq); [apply pf_pars, Q2|]. intros pr ? <-. eapply (pf_bind eq); [apply pf_lift; destruct (getitem _ _); reflexivity|]. intros ve ? <-.
    destruct (xltb (fst ve) (Fin 0)); [apply pf_ret; reflexivity|]. eapply (pf_bind eq); [apply pf_world, par_set_yield|]. intros _ _ _.
    eapply pf_bind; [apply pf_new|]. intros a b H. eapply pf_bind; [apply pf_nuis; exact H|]. clear a b H. intros a b H.
    eapply (pf_bind mz); [apply pf_lift; now apply mz_fix_all|]. clear a b H. intros a b H.
    eapply (pf_bind mz); [apply pf_lift; now apply mz_bound_all|]. clear a b H. intros a b H.
    eapply (pf_bind mz); [apply pf_lift; now apply mz_fix_all|]. clear a b H. intros a b H.
    eapply (pf_bind eq); [apply pf_x0|]. intros x' ? <-. eapply pf_bind; [apply pf_min; exact H|]. intros r r' [_ Q3].
    apply pf_ret. destruct Q2 as [(-> & _) _], Q3 as [(-> & _) _]. reflexivity.
  Qed.
  Lemma pf_profile E p c n sg sm fn sch : parF eq (profile E i p c n sg sm fn sch) (profile E i p c n sg sm fn sch).
  Proof.
    unfold profile. eapply (pf_bind eq); [apply pf_fitter|]. intros f ? <-. eapply (pf_bind eq); [pf_names|]. intros names ? <-. eapply (pf_bind eq); [pf_names|]. intros nuis ? <-.
    eapply pf_bind; [apply pf_new|]. intros a b H. eapply pf_bind; [apply pf_nuis; exact H|]. clear a b H. intros a b H.
    eapply (pf_bind eq); [apply pf_x0|]. intros x ? <-. eapply pf_bind; [apply pf_min; exact H|]. intros q q' [Q1 Q2]. cbv zeta.
    eapply (pf_bind eq); [apply pf_pars, Q1|]. intros pr ? <-. eapply (pf_bind eq); [apply pf_lift; destruct (getitem _ _); reflexivity|]. intros ve ? <-.
    eapply (pf_bind eq); [apply pf_lift; destruct (xlinspace _ _ _); reflexivity|]. intros pts ? <-.
    eapply (pf_bind eq); [apply pf_pars, Q2|]. intros pp ? <-. destruct Q2 as [(F1 & _) _]. rewrite F1.
    eapply (pf_bind eq); [apply pf_lift; destruct (get_hesse_approx _ _ _ _); reflexivity|]. intros hs ? <-.
    eapply (pf_bind (Rw m)); [apply pf_get; intros s t X; apply X|]. intros w w' RW.
    set (ts := map _ pts). set (ts' := map _ pts). assert (T : Forall2 (tk_rel m) ts ts').
    { unfold ts, ts'. clear - RW Q1. induction pts as [|pt l IH]; simpl; constructor; auto. split; [exact RW|]. split; [split; [reflexivity|apply Q1]|auto]. }
    eapply (pf_bind eq).
    - apply pf_lift. destruct (Nat.eqb c 0); [reflexivity|]. rewrite (pl_run m E ts ts' T sch _ _ (pl_new m ts ts' T c)). destruct (imap_results _) as [[vs|e]|]; reflexivity.
    - intros vs ? <-. destruct sm; apply pf_ret; reflexivity.
  Qed.
  Lemma pf_answer q : parF eq (answer_of i q) (answer_of i q).
  Proof.
    destruct q; unfold answer_of.
    - eapply pf_bind; [apply pf_do_fit|]. intros a b [(X & Y) Z]. eapply (pf_bind eq); [apply pf_pars, Z|]. intros p ? <-. apply pf_ret. now rewrite X, Y.
    - eapply (pf_bind eq); [apply pf_profile|]. intros r ? <-. apply pf_ret. reflexivity.
    - eapply (pf_bind eq); [apply pf_significance|]. intros r ? <-. apply pf_ret. reflexivity.
    - eapply (pf_bind eq); [apply pf_world, par_nll|]. intros r ? <-. apply pf_ret. reflexivity.
    - eapply (pf_bind eq); [apply pf_x0|]. intros r ? <-. apply pf_ret. reflexivity.
    - eapply (pf_bind eq); [apply pf_world, par_get_yield|]. intros r ? <-. apply pf_ret. reflexivity.
    - eapply (pf_bind eq); [apply pf_world, par_set_yield|]. intros r ? <-. apply pf_ret. reflexivity.
    - eapply (pf_bind eq); [apply pf_world, par_update|]. intros r ? <-. apply pf_ret. reflexivity.
  Qed.
End Fit.

(** ** Sessions *)
Definition RX (i k : nat) (s t : xstate) : Prop :=
  nth_error (xs_owner s) i = Some k /\ nth_error (xs_owner t) i = Some k /\ nth_error (xs_fitters s) i = nth_error (xs_fitters t) i /\
  exists m, nth_error (mw_models (xs_m s)) k = Some m /\ nth_error (mw_models (xs_m t)) k = Some m /\
    fp m (mw_heap (xs_m s)) (mw_heap (xs_m t)) /\ coh (mw_heap (xs_m s)) /\ coh (mw_heap (xs_m t)).
Lemma coh_unload m w : coh w -> coh (load m w). Proof. apply coh_load. Qed.
Lemma of_fitter_rel i k q s t : RX i k s t -> RX i k (fst (of_fitter i (answer_of i q) s)) (fst (of_fitter i (answer_of i q) t)) /\
  snd (of_fitter i (answer_of i q) s) = snd (of_fitter i (answer_of i q) t).
Proof.
  intros (O1 & O2 & FF & m & M1 & M2 & F & C1 & C2). unfold of_fitter. rewrite O1, O2. unfold on_model. rewrite M1, M2.
  set (s0 := mk_fstate (load m (mw_heap (xs_m s))) (xs_pars s) (xs_fitters s)). set (t0 := mk_fstate (load m (mw_heap (xs_m t))) (xs_pars t) (xs_fitters t)).
  assert (X : RF m i (length (xs_pars s)) (length (xs_pars t)) s0 t0).
  { constructor; cbn.
    - split; [split; [now destruct m|split; [now destruct m|now apply load_heap]]|split; now apply coh_load].
    - exact FF.
    - exists 0%nat. lia.
    - intros j. rewrite !(proj2 (nth_error_None _ _)) by lia. reflexivity. }
  destruct (pf_answer m i _ _ q s0 t0 X) as [Y Z]. destruct (answer_of i q s0) as [s1 r1], (answer_of i q t0) as [t1 r2]. cbn [fst snd] in *.
  split; [|destruct r1, r2; cbn in Z; try contradiction; congruence].
  destruct (rf_w _ _ _ _ _ _ Y) as ((S1 & S2 & G) & D1 & D2). split; [exact O1|]. split; [exact O2|]. split; [exact (rf_f _ _ _ _ _ _ Y)|].
  exists m. cbn [xs_m mw_models mw_heap]. split; [rewrite upd_same by (apply nth_error_Some; congruence); congruence|]. split; [rewrite upd_same by (apply nth_error_Some; congruence); congruence|].
  split; [now apply (fp_same m (fs_w s1) (fs_w t1))|]. split; now apply coh_load.
Qed.
Lemma answers_rel i k l : forall s t, RX i k s t -> answers i l s = answers i l t.
Proof.
  induction l as [|q l IH]; intros s t X; [reflexivity|]. cbn [answers]. destruct (of_fitter_rel i k q s t X) as [Y Z].
  destruct (of_fitter i (answer_of i q) s) as [s1 r1], (of_fitter i (answer_of i q) t) as [t1 r2]. cbn [fst snd] in *. rewrite Z. f_equal. now apply IH.
Qed.
