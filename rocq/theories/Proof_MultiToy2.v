(** Two processes with the same objects: toy studies agree. *)
From Coq Require Import Reals String ZArith Bool Arith List Lra Lia.
From Verif Require Import Model_Num Model_Hist Model_Utility Model_Template Model_World Model_Ops Model_Multi Model_Minimizer Model_Fitter Model_MultiFit Model_Toy Model_MultiToy Model_MultiToyAsk
  Spec_Matrix Spec_Min Spec_Multi Spec_MultiFit Spec_Toy Spec_MultiToy Spec_MultiToyAsk Proof_Hist Proof_Matrix Proof_Template Proof_HistHeap Proof_Monad Proof_World Proof_Eval Proof_Route
  Proof_Min Proof_Fit Proof_Multi Proof_Multi2 Proof_Multi3 Proof_Multi4 Proof_MultiFit Proof_MultiFit2 Proof_Toy Proof_Toy2 Proof_Toy3 Proof_MultiToy.
Import ListNotations.
Local Open Scope R_scope.

(** ** Methods that do not read the caches *)
Definition detm {A} (m : M A) : Prop := forall w w', core_eq w w' -> core_eq (fst (m w)) (fst (m w')) /\ snd (m w') = snd (m w).
Lemma dm_lift {A} (r : res A) : detm (lift r). Proof. intros w w' C. simpl. auto. Qed.
Lemma dm_ret {A} (a : A) : detm (ret a). Proof. intros w w' C. simpl. auto. Qed.
Lemma dm_raise {A} e : detm (@raise A e). Proof. intros w w' C. simpl. auto. Qed.
Lemma dm_gets {A} (f : world -> A) : (forall w w', core_eq w w' -> f w' = f w) -> detm (gets f).
Proof. intros H w w' C. unfold gets. cbn [fst snd]. rewrite (H w w' C). auto. Qed.
Lemma dm_chan i : detm (get_chan i). Proof. intros w w' C. unfold get_chan. cbn [fst snd]. rewrite (ce_chans _ _ C). auto. Qed.
Lemma dm_tmpl i : detm (get_tmpl i). Proof. intros w w' C. unfold get_tmpl. cbn [fst snd]. rewrite (ce_tmpls _ _ C). auto. Qed.
Lemma dm_hist i : detm (get_hist i). Proof. intros w w' C. unfold get_hist. cbn [fst snd]. rewrite (ce_hists _ _ C). auto. Qed.
Lemma dm_bind {A B} (m : M A) (k : A -> M B) : detm m -> (forall a, detm (k a)) -> detm (bind m k).
Proof.
  intros Hm Hk w w' C. unfold bind. destruct (Hm w w' C) as (C1 & E1). destruct (m w) as (w1 & r1), (m w') as (w1' & r1'). simpl in C1, E1. subst r1'.
  destruct r1 as [a|e]; [now apply Hk|auto].
Qed.
Lemma dm_forM {A} (f : A -> M unit) l : (forall a, detm (f a)) -> detm (forM f l).
Proof. intros H. induction l as [|a l IH]; simpl; [apply dm_ret|apply dm_bind; auto]. Qed.
Lemma dm_mapM {A B} (f : A -> M B) l : (forall a, detm (f a)) -> detm (mapM f l).
Proof. intros H. induction l as [|a l IH]; simpl; [apply dm_ret|]. apply dm_bind; auto. intros b. apply dm_bind; auto. intros bs. apply dm_ret. Qed.
Lemma dm_on_tmpl {A} i (f : tmpl -> tmpl * res A) : detm (on_tmpl i f).
Proof.
  intros w w' C. unfold on_tmpl. rewrite (ce_tmpls _ _ C). destruct (nth_error (w_tmpls w) i) as [t|]; [|auto]. destruct (f t) as (t' & r). cbn [fst snd]. split; [|reflexivity].
  destruct C. constructor; simpl; congruence.
Qed.
Lemma dm_on_chan {A} i (f : chan -> chan * res A) : detm (on_chan i f).
Proof.
  intros w w' C. unfold on_chan. rewrite (ce_chans _ _ C). destruct (nth_error (w_chans w) i) as [t|]; [|auto]. destruct (f t) as (t' & r). cbn [fst snd]. split; [|reflexivity].
  destruct C. constructor; simpl; congruence.
Qed.
Lemma dm_alloc h : detm (alloc_hist h).
Proof. intros w w' C. unfold alloc_hist. cbn [fst snd]. rewrite (ce_hists _ _ C). split; [|reflexivity]. destruct C. constructor; simpl; congruence. Qed.
Lemma dm_sum cid : detm (ch_template_sum cid).
Proof. apply dm_bind; [apply dm_chan|intros c]. apply dm_bind; [|intros; apply dm_ret]. apply dm_mapM. intros p. apply dm_bind; [apply dm_tmpl|intros; apply dm_lift]. Qed.
Lemma dm_edges cid : detm (ch_bin_edges cid).
Proof. apply dm_bind; [apply dm_chan|intros c]. destruct (c_tmpls c) as [|[p tid] l]; [apply dm_raise|]. apply dm_bind; [apply dm_tmpl|intros t]. apply dm_bind; [apply dm_hist|intros h; apply dm_ret]. Qed.
Lemma dm_toy d : detm (generate_toy_dataset d).
Proof.
  apply dm_bind; [apply dm_gets; intros w w' C; apply (ce_channels _ _ C)|intros chs]. apply dm_mapM. intros nc. apply dm_bind; [|intros h; apply dm_bind; [apply dm_alloc|intros; apply dm_ret]].
  apply dm_bind; [apply dm_sum|intros s]. apply dm_bind; [apply dm_chan|intros c]. destruct (c_ttype c); [|apply dm_raise].
  apply dm_bind; [apply dm_lift|intros n]. apply dm_bind; [apply dm_edges|intros; apply dm_lift].
Qed.
Lemma dm_add kw : detm (mct_add_data kw).
Proof.
  apply dm_forM. intros kv w w' C. rewrite (ce_channels _ _ C). destruct (dget String.eqb (w_channels w) (fst kv)) as [cid|]; [|auto].
  revert w w' C. apply dm_bind; [apply dm_hist|intros; apply dm_on_chan].
Qed.
Lemma dm_set_yield p v : detm (set_yield p v).
Proof.
  apply dm_bind; [apply dm_gets; intros w w' C; apply (ce_procs _ _ C)|intros ps]. destruct (smem p ps); [|apply dm_raise].
  apply dm_bind; [apply dm_gets; intros w w' C; now rewrite (ce_channels _ _ C)|intros chs]. apply dm_forM. intros cid. apply dm_bind; [apply dm_chan|intros c].
  destruct (dget _ _ _); [|apply dm_ret]. destruct (dget _ _ _); [apply dm_on_tmpl|apply dm_ret].
Qed.
Lemma core_yields w w' : core_eq w w' -> process_yields w' = process_yields w.
Proof. intros C. unfold process_yields, process_yield. rewrite (core_mct_chans w w' C), (ce_procs _ _ C), (ce_tmpls _ _ C). reflexivity. Qed.
Lemma dm_get_yield p : detm (get_yield p).
Proof.
  apply dm_bind; [apply dm_gets; intros w w' C; apply (ce_procs _ _ C)|intros ps]. destruct (index_of p ps); [|apply dm_raise].
  apply dm_bind; [apply dm_gets; apply core_yields|intros; apply dm_lift].
Qed.
Lemma dm_reset : detm reset_parameters.
Proof.
  apply dm_bind; [apply dm_gets; intros w w' C; now rewrite (ce_channels _ _ C)|intros chs]. apply dm_forM. intros cid. apply dm_bind; [apply dm_chan|intros c].
  apply dm_forM. intros p. apply dm_bind; [apply dm_tmpl|intros t]. apply dm_bind; [apply dm_hist|intros h]. apply dm_on_tmpl.
Qed.

(** ** Worlds of two processes *)
Section Pair.
  Variables (inv : mat -> res mat) (P : list string).
  Hypothesis IS : inv_spec inv.
  Record RC (w w' : world) : Prop := { rc_core : core_eq w w'; rc_wf : WFg P w; rc_coh : coh w; rc_coh' : coh w' }.
  Lemma rc_fp w w' : RC w w' -> fp (store w) w w'.
  Proof.
    intros [C W _ _] n cid I. destruct (wfg_dict _ W n cid I) as (c & E & _). pose proof (wfg_chans _ W _ _ E) as CO. exists c. split; [exact E|]. split; [now rewrite (ce_chans _ _ C)|]. split.
    - intros p tid TI. destruct (co_tmpl _ _ _ _ CO _ _ TI) as (t & T & _). destruct (to_hist _ _ (wfg_tmpls _ W tid t T)) as (h & H & _).
      exists t. split; [exact T|]. split; [now rewrite (ce_tmpls _ _ C)|]. exists h. split; [exact H|]. now rewrite (ce_hists _ _ C).
    - intros hid D. destruct (co_data _ _ _ _ CO _ D) as (h & H & _). exists h. split; [exact H|]. now rewrite (ce_hists _ _ C).
  Qed.
  Lemma core_store w w' : core_eq w w' -> store w' = store w.
  Proof. intros []. unfold store. congruence. Qed.
  Lemma rc_rw w w' : RC w w' -> Rw (store w) w w'.
  Proof. intros R. split; [split; [reflexivity|split; [apply core_store, R|now apply rc_fp]]|split; apply R]. Qed.
  Definition parC {A} (f : M A) : Prop := forall w w', RC w w' -> RC (fst (f w)) (fst (f w')) /\ snd (f w) = snd (f w').
  Lemma par_op {A} (f : M A) o : modifies o = false -> (forall w, fst (step inv o w) = fst (f w)) -> detm f -> parC f.
  Proof.
    intros MO E D w w' [C W H H']. destruct (D w w' C) as [D1 D2]. split; [|congruence]. rewrite <- !E in *. constructor; [exact D1| | |].
    - exact (wf_step inv o IS w W). - exact (coh_step inv o MO w H). - exact (coh_step inv o MO w' H').
  Qed.
  Lemma parC_toy d : parC (generate_toy_dataset d).
  Proof. apply (par_op _ (OToy d)); [reflexivity| |apply dm_toy]. intros w. simpl. unfold bind. destruct (generate_toy_dataset d w) as (w' & [|]); reflexivity. Qed.
  Lemma parC_add d : parC (mct_add_data d). Proof. apply (par_op _ (OAddData d)); [reflexivity|reflexivity|apply dm_add]. Qed.
  Lemma parC_set p v : parC (set_yield p v). Proof. apply (par_op _ (OSetYield p v)); [reflexivity|reflexivity|apply dm_set_yield]. Qed.
  Lemma parC_reset : parC reset_parameters. Proof. apply (par_op _ OReset); [reflexivity|reflexivity|apply dm_reset]. Qed.
  Lemma parC_get p : parC (get_yield p).
  Proof.
    assert (E : forall w, fst (get_yield p w) = w). { intros v. unfold get_yield, bind, gets, lift. destruct (index_of p (w_procs v)); reflexivity. }
    intros w w' R. destruct (dm_get_yield p w w' (rc_core _ _ R)) as [_ D]. rewrite !E. auto.
  Qed.
  Lemma core_two a b a' b' : core_eq a b -> core_eq a a' -> core_eq b b' -> core_eq a' b'.
  Proof. intros [] [] []. constructor; congruence. Qed.
  Lemma parC_nll x : parC (nll x).
  Proof.
    intros w w' R. destruct (par_nll (store w) x w w' (rc_rw _ _ R)) as [(_ & C1 & C2) E]. split; [|exact E].
    constructor; auto; [|eapply wf_core; [apply core_nll|apply R]]. eapply core_two; [apply R|apply core_nll|apply core_nll].
  Qed.

  (** ** Studies *)
  Variables (n1 n2 : nat).
  Record RT (s t : tstate) : Prop := {
    rt_w : RC (fs_w (ts_f s)) (fs_w (ts_f t));
    rt_f : fs_fitters (ts_f s) = fs_fitters (ts_f t);
    rt_d : exists d, length (fs_pars (ts_f s)) = (n1 + d)%nat /\ length (fs_pars (ts_f t)) = (n2 + d)%nat;
    rt_p : forall j, nth_error (fs_pars (ts_f s)) (n1 + j) = nth_error (fs_pars (ts_f t)) (n2 + j);
    rt_s : ts_studies s = ts_studies t }.
  Definition parT {A B} (R : A -> B -> Prop) (f : T A) (g : T B) : Prop := forall s t, RT s t -> RT (fst (f s)) (fst (g t)) /\ rrel2 R (snd (f s)) (snd (g t)).
  Lemma pt_bind {A B C D} (R : A -> B -> Prop) (Q : C -> D -> Prop) f g k k' : parT R f g -> (forall a b, R a b -> parT Q (k a) (k' b)) -> parT Q (tbind f k) (tbind g k').
  Proof.
    intros H K s t X. unfold tbind. destruct (H s t X) as [Y Z]. destruct (f s) as [s1 [a|e]], (g t) as [t1 [b|e']]; cbn [fst snd rrel2] in *; try contradiction; [now apply K|]. auto.
  Qed.
  Lemma pt_bind_eq {A C D} (Q : C -> D -> Prop) (f g : T A) k k' : parT eq f g -> (forall a, parT Q (k a) (k' a)) -> parT Q (tbind f k) (tbind g k').
  Proof. intros H K. eapply pt_bind; [exact H|]. intros a ? <-. apply K. Qed.
  Lemma pt_ret {A} (a : A) : parT eq (tret a) (tret a). Proof. intros s t X. split; [exact X|reflexivity]. Qed.
  Lemma pt_lift {A} (a : res A) : parT eq (tlift a) (tlift a). Proof. intros s t X. split; [exact X|]. destruct a; reflexivity. Qed.
  Lemma pt_get i : parT eq (get_study i) (get_study i).
  Proof. intros s t X. split; [exact X|]. unfold get_study. cbn [snd]. rewrite (rt_s _ _ X). destruct (nth_error _ _); reflexivity. Qed.
  Lemma pt_study i g : parT eq (on_study i g) (on_study i g).
  Proof.
    intros s t X. unfold on_study. rewrite (rt_s _ _ X). destruct (nth_error (ts_studies t) i); [|split; [exact X|reflexivity]]. cbn [fst snd]. split; [|reflexivity]. destruct X. constructor; auto.
  Qed.
  Lemma pt_procs : parT eq (fun s => (s, Ok (w_procs (fs_w (ts_f s))))) (fun s => (s, Ok (w_procs (fs_w (ts_f s))))).
  Proof. intros s t X. split; [exact X|]. cbn. symmetry. apply (ce_procs _ _ (rc_core _ _ (rt_w _ _ X))). Qed.
  Lemma pt_w {A} (f : M A) : parC f -> parT eq (on_w f) (on_w f).
  Proof.
    intros H s t X. unfold on_w, on_f, on_world. destruct (H _ _ (rt_w _ _ X)) as [Y Z]. destruct (f (fs_w (ts_f s))) as [w1 r], (f (fs_w (ts_f t))) as [w2 r']. cbn [fst snd] in *. subst r'.
    split; [|destruct r; reflexivity]. destruct X. constructor; auto.
  Qed.
  Lemma pt_new id : parT eq (on_f (fitter_new id)) (on_f (fitter_new id)).
  Proof.
    intros s t X. unfold on_f, fitter_new. cbn [fst snd]. split; [|cbn; now rewrite (rt_f _ _ X)]. destruct X as [X1 X2 X3 X4 X5]. constructor; cbn [ts_f ts_studies fs_w fs_fitters fs_pars]; auto. now rewrite X2.
  Qed.
  Lemma run_nll l : Forall nllop l -> forall w, core_eq w (run inv l w).
  Proof.
    induction 1 as [|o l (x & ->) _ IH]; intros w; [constructor; reflexivity|]. unfold run in *. cbn [fold_left step]. eapply core_trans; [|apply IH].
    unfold bind. pose proof (core_nll x w) as C. destruct (nll x w) as [w1 [v|e]]; exact C.
  Qed.
  Lemma pt_fit E fi gh : parT (mres n1 n2) (on_f (do_fit E fi false gh true None)) (on_f (do_fit E fi false gh true None)).
  Proof.
    intros s t X. unfold on_f. assert (Y : RF (store (fs_w (ts_f s))) fi n1 n2 (ts_f s) (ts_f t)).
    { destruct X as [X1 X2 X3 X4 X5]. constructor; auto; [now apply rc_rw|now rewrite X2]. }
    destruct (pf_do_fit _ fi n1 n2 E false gh true None _ _ Y) as [[Z1 Z2 Z3 Z4] Q].
    assert (An : forall x, nllop (ONll x)) by (intros x; exists x; reflexivity).
    destruct (do_fit_frame inv nllop (ts_f s) An E fi false gh true None ltac:(discriminate) (ts_f s) (frame_refl' _ nllop (ts_f s))) as (F1 & _ & _ & l1 & L1 & W1).
    destruct (do_fit_frame inv nllop (ts_f t) An E fi false gh true None ltac:(discriminate) (ts_f t) (frame_refl' _ nllop (ts_f t))) as (F2 & _ & _ & l2 & L2 & W2).
    destruct (do_fit E fi false gh true None (ts_f s)) as [s1 r1], (do_fit E fi false gh true None (ts_f t)) as [t1 r2]. cbn [fst snd] in *. split; [|exact Q].
    destruct X as [X1 X2 X3 X4 X5]. constructor; cbn [ts_f ts_studies]; auto; [|congruence]. destruct Z1 as (_ & C1 & C2).
    pose proof (run_nll l1 L1 (fs_w (ts_f s))) as K1. pose proof (run_nll l2 L2 (fs_w (ts_f t))) as K2. rewrite <- W1 in K1. rewrite <- W2 in K2.
    constructor; auto; [eapply core_two; [apply X1|exact K1|exact K2]|eapply wf_core; [exact K1|apply X1]].
  Qed.
  Lemma pt_pars a b : adr n1 n2 a b -> parT eq (on_f (get_pars a)) (on_f (get_pars b)).
  Proof. intros (j & -> & ->) s t X. unfold on_f, get_pars. cbn [fst snd]. split; [destruct X; constructor; auto|]. rewrite (rt_p _ _ X). destruct (nth_error _ _); reflexivity. Qed.
  Lemma pt_attempt i v gh : parT eq (attempt i v gh) (attempt i v gh).
  Proof.
    unfold attempt. apply pt_bind_eq; [apply pt_w, parC_toy|intros ds]. apply pt_bind_eq; [apply pt_w, parC_add|intros _]. apply pt_bind_eq; [apply pt_get|intros st].
    apply pt_bind_eq; [apply pt_new|intros fi]. eapply pt_bind; [apply pt_fit|]. intros r r' [_ A]. apply pt_bind_eq; [now apply pt_pars|intros p].
    apply pt_bind_eq; [apply pt_study|intros _]. apply pt_study.
  Qed.
  Lemma pt_experiment envs i gh mt : forall k, parT eq (experiment envs i gh mt k) (experiment envs i gh mt k).
  Proof.
    induction mt as [|mt IH]; intros k s t X; cbn [experiment]; [split; [exact X|reflexivity]|]. destruct (pt_attempt i (envs k) gh s t X) as [Y Z].
    destruct (attempt i (envs k) gh s) as [s1 [a|e]], (attempt i (envs k) gh t) as [t1 [b|e']]; cbn [fst snd rrel2] in *; try contradiction; [split; [exact Y|reflexivity]|]. subst e'.
    destruct e; try (split; [exact Y|reflexivity]); now apply IH.
  Qed.
  Lemma pt_experiments envs i gh mt n : forall k, parT eq (experiments envs i gh mt n k) (experiments envs i gh mt n k).
  Proof. induction n as [|n IH]; intros k; cbn [experiments]; [apply pt_ret|]. apply pt_bind_eq; [apply pt_experiment|exact IH]. Qed.
  Lemma pt_check i : parT eq (check_state i) (check_state i).
  Proof. apply pt_bind_eq; [apply pt_get|intros st]. destruct (st_fitted st); [apply pt_ret|apply pt_lift]. Qed.
  Lemma pt_rp i : parT eq (result_parameters i) (result_parameters i).
  Proof. apply pt_bind_eq; [apply pt_check|intros _]. apply pt_bind_eq; [apply pt_get|intros st; apply pt_ret]. Qed.
  Lemma pt_ru i : parT eq (result_uncertainties i) (result_uncertainties i).
  Proof. apply pt_bind_eq; [apply pt_check|intros _]. apply pt_bind_eq; [apply pt_get|intros st; apply pt_ret]. Qed.
  Lemma pt_results i p : parT eq (get_toy_results i p) (get_toy_results i p).
  Proof.
    unfold get_toy_results. apply pt_bind_eq; [apply pt_check|intros _]. apply pt_bind_eq; [apply pt_procs|intros ps]. apply pt_bind_eq; [apply pt_lift|intros k].
    apply pt_bind_eq; [apply pt_rp|intros rp]. apply pt_bind_eq; [apply pt_lift|intros c1]. apply pt_bind_eq; [apply pt_ru|intros ru]. apply pt_bind_eq; [apply pt_lift|intros c2]. apply pt_ret.
  Qed.
  Lemma pt_do i envs n mt : parT eq (do_experiments envs i n mt) (do_experiments envs i n mt).
  Proof. unfold do_experiments. apply pt_bind_eq; [apply pt_study|intros _]. apply pt_bind_eq; [apply pt_experiments|intros _; apply pt_study]. Qed.
  Lemma pt_lin i envs p lo hi np ne : parT eq (do_linearity_test envs i p lo hi np ne) (do_linearity_test envs i p lo hi np ne).
  Proof.
    unfold do_linearity_test. apply pt_bind_eq; [|intros r; apply pt_ret]. generalize 0%nat. induction (np_linspace lo hi np) as [|v l IH]; intros k; cbn [linearity_points]; [apply pt_ret|].
    apply pt_bind_eq; [|intros r; apply pt_bind_eq; [apply IH|intros; apply pt_ret]]. unfold linearity_point. apply pt_bind_eq; [apply pt_study|intros _]. apply pt_bind_eq; [apply pt_w, parC_reset|intros _].
    apply pt_bind_eq; [apply pt_w, parC_set|intros _]. apply pt_bind_eq; [apply pt_experiments|intros k']. apply pt_bind_eq; [apply pt_study|intros _]. apply pt_bind_eq; [apply pt_results|intros r; apply pt_ret].
  Qed.
  Lemma pt_answer i q : parT eq (study_answer i q) (study_answer i q).
  Proof.
    destruct q; unfold study_answer.
    - apply pt_bind_eq; [apply pt_do|intros; apply pt_ret]. - apply pt_bind_eq; [apply pt_lin|intros; apply pt_ret].
    - apply pt_bind_eq; [apply pt_rp|intros]. apply pt_bind_eq; [apply pt_ru|intros; apply pt_ret]. - apply pt_bind_eq; [apply pt_results|intros; apply pt_ret].
    - apply pt_bind_eq; [|intros; apply pt_ret]. unfold get_toy_result_pulls. apply pt_bind_eq; [apply pt_check|intros]. apply pt_bind_eq; [apply pt_results|intros]. apply pt_bind_eq; [apply pt_w, parC_get|intros; apply pt_ret].
    - apply pt_bind_eq; [apply pt_w, parC_get|intros; apply pt_ret]. - apply pt_bind_eq; [apply pt_w, parC_set|intros; apply pt_ret].
    - apply pt_bind_eq; [apply pt_w, parC_reset|intros; apply pt_ret]. - apply pt_bind_eq; [apply pt_w, parC_nll|intros; apply pt_ret].
  Qed.
End Pair.

(** ** Sessions *)
Definition RZ (P : list string) (i k : nat) (s t : zstate) : Prop :=
  nth_error (z_owner s) i = Some k /\ nth_error (z_owner t) i = Some k /\ z_studies s = z_studies t /\ xs_fitters (z_x s) = xs_fitters (z_x t) /\
  exists m, nth_error (mw_models (xs_m (z_x s))) k = Some m /\ nth_error (mw_models (xs_m (z_x t))) k = Some m /\
    RC P (load m (mw_heap (xs_m (z_x s)))) (load m (mw_heap (xs_m (z_x t)))).
Lemma of_study_rel inv P i k q s t : inv_spec inv -> RZ P i k s t -> RZ P i k (fst (of_study i (study_answer i q) s)) (fst (of_study i (study_answer i q) t)) /\
  snd (of_study i (study_answer i q) s) = snd (of_study i (study_answer i q) t).
Proof.
  intros IS (O1 & O2 & ST & FT & m & M1 & M2 & R). unfold of_study. rewrite O1, O2. unfold on_zmodel. rewrite M1, M2.
  set (s0 := mk_tstate (mk_fstate (load m (mw_heap (xs_m (z_x s)))) (xs_pars (z_x s)) (xs_fitters (z_x s))) (z_studies s)).
  set (t0 := mk_tstate (mk_fstate (load m (mw_heap (xs_m (z_x t)))) (xs_pars (z_x t)) (xs_fitters (z_x t))) (z_studies t)).
  assert (X : RT P (length (xs_pars (z_x s))) (length (xs_pars (z_x t))) s0 t0).
  { constructor; cbn; auto; [exists 0%nat; lia|]. intros j. rewrite !(proj2 (nth_error_None _ _)) by lia. reflexivity. }
  destruct (pt_answer inv P IS _ _ i q s0 t0 X) as [Y Z]. destruct (study_answer i q s0) as [s1 r1], (study_answer i q t0) as [t1 r2]. cbn [fst snd] in *.
  split; [|destruct r1, r2; cbn in Z; try contradiction; congruence].
  destruct Y as [Y1 Y2 _ _ Y5]. split; [exact O1|]. split; [exact O2|]. split; [exact Y5|]. split; [exact Y2|].
  pose proof (core_store _ _ (rc_core _ _ _ Y1)) as SE.
  exists (store (fs_w (ts_f s1))). cbn [z_x xs_m mw_models mw_heap]. split; [now rewrite upd_same by (apply nth_error_Some; congruence)|]. split; [rewrite upd_same by (apply nth_error_Some; congruence); congruence|].
  rewrite !load_load, load_self. replace (load (store (fs_w (ts_f s1))) (fs_w (ts_f t1))) with (fs_w (ts_f t1)) by (rewrite <- SE; symmetry; apply load_self). exact Y1.
Qed.
Lemma study_answers_rel inv P i k l : inv_spec inv -> forall s t, RZ P i k s t -> study_answers i l s = study_answers i l t.
Proof.
  intros IS. induction l as [|q l IH]; intros s t X; [reflexivity|]. cbn [study_answers]. destruct (of_study_rel inv P i k q s t IS X) as [Y Z].
  destruct (of_study i (study_answer i q) s) as [s1 r1], (of_study i (study_answer i q) t) as [t1 r2]. cbn [fst snd] in *. rewrite Z. f_equal. now apply IH.
Qed.
