(** Proofs about TemplateFitter: what calls can change. *)
From Coq Require Import Reals String ZArith Bool Arith List Lra Lia.
From Verif Require Import Model_Num Model_Hist Model_Utility Model_Template Model_World Model_Ops Model_Minimizer Model_Fitter
  Spec_Min Spec_World Spec_Fit Proof_HistHeap Proof_Eval Proof_Route Proof_Min.
Import ListNotations.
Local Open Scope R_scope.

(** ** what minimize changes *)
Definition mpost {A} (m : MM A) (P : mstate -> mstate -> res A -> Prop) : Prop :=
  forall S (fcn : list xr -> S -> S * res xr) s w w' s' r, play fcn (m s) w = (w', (s', r)) -> P s s' r.
Definition mkeep (s s' : mstate) : Prop :=
  p_names (ms_p s') = p_names (ms_p s) /\ m_params (ms_m s') = m_params (ms_m s) /\ m_bounds (ms_m s') = m_bounds (ms_m s) /\
  m_fixed (ms_m s') = m_fixed (ms_m s) /\
  (length (p_values (ms_p s)) = length (p_names (ms_p s)) -> length (p_values (ms_p s')) = length (p_names (ms_p s))) /\
  (length (p_errors (ms_p s)) = length (p_names (ms_p s)) -> length (p_errors (ms_p s')) = length (p_names (ms_p s))).
Lemma mkeep_refl s : mkeep s s. Proof. repeat split; auto. Qed.
Lemma mkeep_trans a b c : mkeep a b -> mkeep b c -> mkeep a c.
Proof.
  intros (A1 & A2 & A3 & A4 & A5 & A6) (B1 & B2 & B3 & B4 & B5 & B6). repeat split; try congruence.
  - intros H. rewrite <- A1. apply B5. rewrite A1. auto.
  - intros H. rewrite <- A1. apply B6. rewrite A1. auto.
Qed.
Lemma mpost_bind {A B} (m : MM A) (k : A -> MM B) : mpost m (fun s s' _ => mkeep s s') -> (forall a, mpost (k a) (fun s s' _ => mkeep s s')) ->
  mpost (mbind m k) (fun s s' _ => mkeep s s').
Proof.
  intros H K S fcn s w w' s' r E. unfold mbind in E. rewrite play_pbind in E. destruct (play fcn (m s) w) as (w1 & s1 & r1) eqn:P. apply H in P.
  destruct r1 as [a|e]; simpl in E; [|injection E as <- <- <-; exact P]. eapply mkeep_trans; [exact P|]. eapply K; exact E.
Qed.
Lemma mpost_play {A} (p : prog (res A)) : mpost (mplay p) (fun s s' _ => mkeep s s').
Proof. intros S fcn s w w' s' r E. unfold mplay in E. rewrite play_pbind in E. destruct (play fcn p w). simpl in E. injection E as <- <- <-. apply mkeep_refl. Qed.
Lemma mpost_lift {A} (p : res A) : mpost (mlift p) (fun s s' _ => mkeep s s').
Proof. intros S fcn s w w' s' r E. injection E as <- <- <-. apply mkeep_refl. Qed.
Lemma mpost_get {A} (f : mstate -> A) : mpost (mget f) (fun s s' _ => mkeep s s').
Proof. intros S fcn s w w' s' r E. injection E as <- <- <-. apply mkeep_refl. Qed.
Lemma mpost_min v : mpost (mset_fcn_min v) (fun s s' _ => mkeep s s').
Proof. intros S fcn s w w' s' r E. injection E as <- <- <-. repeat split; auto. Qed.
Lemma mpost_succ v : mpost (mset_success v) (fun s s' _ => mkeep s s').
Proof. intros S fcn s w w' s' r E. injection E as <- <- <-. repeat split; auto. Qed.
Lemma mpost_pars f : (forall p, p_names (fst (f p)) = p_names p /\
  (length (p_values p) = length (p_names p) -> length (p_values (fst (f p))) = length (p_names p)) /\
  (length (p_errors p) = length (p_names p) -> length (p_errors (fst (f p))) = length (p_names p))) -> mpost (mpars f) (fun s s' _ => mkeep s s').
Proof.
  intros H S fcn s w w' s' r E. unfold mpars in E. specialize (H (ms_p s)). destruct (f (ms_p s)) as (p' & r'). simpl in *. injection E as <- <- <-.
  destruct H as (H1 & H2 & H3). repeat split; auto.
Qed.
Ltac mpost_tac :=
  repeat (apply mpost_bind; [|intros]); try apply mpost_play; try apply mpost_lift; try apply mpost_get; try apply mpost_min; try apply mpost_succ;
  try (apply mpost_pars; intros; unfold set_values, set_errors, set_cov, set_corr, num_pars;
       try (match goal with |- context [Nat.eqb ?a ?b] => destruct (Nat.eqb_spec a b) as [?|?]; simpl end); repeat split; simpl; auto; fail).
Lemma minimize_keep E x0 gh : mpost (minimize E x0 gh) (fun s s' _ => mkeep s s').
Proof.
  unfold minimize. apply mpost_bind; [apply mpost_get|]. intros m. destruct (m_fixed m).
  - unfold minimize_iminuit. mpost_tac.
  - unfold minimize_scipy. apply mpost_bind; [mpost_tac|intros]. apply mpost_bind; [mpost_tac|intros]. apply mpost_bind; [mpost_tac|intros].
    destruct (oo_success a0); [|mpost_tac]. apply mpost_bind; [mpost_tac|intros]. apply mpost_bind; [mpost_tac|intros]. apply mpost_bind; [|intros; mpost_tac].
    destruct gh; mpost_tac.
Qed.
(** the result refers to the Parameters object of the minimizer *)
Lemma minimize_result {S} (fcn : list xr -> S -> S * res xr) E x0 gh s w w' s' r : play fcn (minimize E x0 gh s) w = (w', (s', Ok r)) -> r_params r = m_params (ms_m s).
Proof.
  assert (Q : forall A (m : MM A) B (k : A -> MM B) s w w' s' b, play fcn (mbind m k s) w = (w', (s', Ok b)) ->
     exists w1 s1 a, play fcn (m s) w = (w1, (s1, Ok a)) /\ play fcn (k a s1) w1 = (w', (s', Ok b))).
  { clear. intros A m B k s w w' s' b E. unfold mbind in E. rewrite play_pbind in E. destruct (play fcn (m s) w) as (w1 & s1 & [a|e]); [eauto|discriminate]. }
  intros H. unfold minimize in H. apply Q in H as (w1 & s1 & m & G & H). unfold mget in G. simpl in G. injection G as <- <- <-.
  destruct (m_fixed (ms_m s)).
  - unfold minimize_iminuit in H. apply Q in H as (w1 & s1 & m1 & G & H). unfold mget in G. simpl in G. injection G as <- <- <-.
    repeat (apply Q in H as (? & ? & ? & _ & H)). unfold mlift in H. simpl in H. injection H as _ _ <-. reflexivity.
  - unfold minimize_scipy in H. apply Q in H as (w1 & s1 & m1 & G & H). unfold mget in G. simpl in G. injection G as <- <- <-.
    apply Q in H as (? & ? & o & _ & H). apply Q in H as (? & ? & ? & _ & H). destruct (oo_success o); [|discriminate].
    repeat (apply Q in H as (? & ? & ? & _ & H)). unfold mlift in H. simpl in H. injection H as _ _ <-. reflexivity.
Qed.

(** ** evaluations as histories *)
Lemma play_run inv {A} (p : prog A) : forall w, exists xs, fst (play nll p w) = run inv (map ONll xs) w.
Proof.
  induction p as [a|x k IH]; intros w; simpl; [exists []; reflexivity|].
  destruct (IH (snd (nll x w)) (fst (nll x w))) as (xs & E). exists (x :: xs). rewrite E. unfold run. simpl.
  f_equal. unfold step. unfold bind. destruct (nll x w) as (w' & [v|e]); reflexivity.
Qed.

(** ** a small Hoare logic *)
Definition fpost {A} (P : fstate -> Prop) (m : F A) (Q : res A -> fstate -> Prop) : Prop := forall s, P s -> Q (snd (m s)) (fst (m s)).
Lemma fpost_bind {A B} P (m : F A) (k : A -> F B) (Q : A -> fstate -> Prop) (R : res B -> fstate -> Prop) :
  fpost P m (fun r s => match r with Ok a => Q a s | Err e => R (Err e) s end) -> (forall a, fpost (Q a) (k a) R) -> fpost P (fbind m k) R.
Proof.
  intros H K s HP. specialize (H s HP). unfold fbind. destruct (m s) as (s1 & [a|e]); simpl in *; auto. apply (K a s1 H).
Qed.
Lemma fpost_weaken {A} P (m : F A) Q (Q' : res A -> fstate -> Prop) : fpost P m Q -> (forall r s, Q r s -> Q' r s) -> fpost P m Q'.
Proof. intros H K s HP. apply K. apply H. exact HP. Qed.

Section Frame.
  Variable inv : mat -> res mat.
  Variable allowed : op -> Prop.
  Variable s0 : fstate.
  Definition frame (s : fstate) : Prop :=
    fs_fitters s = fs_fitters s0 /\ (length (fs_pars s0) <= length (fs_pars s))%nat /\
    (forall a, (a < length (fs_pars s0))%nat -> nth_error (fs_pars s) a = nth_error (fs_pars s0) a) /\
    exists l, Forall allowed l /\ fs_w s = run inv l (fs_w s0).
  Hypothesis allowed_nll : forall x, allowed (ONll x).

  Definition fresh_min (m : minimizer) (s : fstate) : Prop := (length (fs_pars s0) <= m_params m)%nat.
  Lemma frame_refl' : frame s0. Proof. split; [reflexivity|]. split; [lia|]. split; [auto|]. exists []. split; [constructor|reflexivity]. Qed.
  Lemma frame_get {A} (f : fstate -> A) : fpost frame (fget f) (fun _ s => frame s). Proof. intros s H. exact H. Qed.
  Lemma frame_flift {A} (r : res A) : fpost frame (flift r) (fun _ s => frame s). Proof. intros s H. exact H. Qed.
  Lemma frame_x0 : fpost frame x0 (fun _ s => frame s). Proof. intros s H. exact H. Qed.
  Lemma frame_pars i : fpost frame (get_pars i) (fun _ s => frame s). Proof. intros s H. exact H. Qed.
  Lemma frame_fitter i : fpost frame (get_fitter i) (fun _ s => frame s). Proof. intros s H. exact H. Qed.
  Lemma frame_ret {A} (a : A) : fpost frame (fret a) (fun _ s => frame s). Proof. intros s H. exact H. Qed.
  Lemma frame_op o : allowed o -> fpost frame (on_world (step inv o)) (fun _ s => frame s).
  Proof.
    intros AO s (H1 & H2 & H3 & l & Al & H4). unfold on_world. destruct (step inv o (fs_w s)) as (w & r) eqn:E. simpl.
    split; [exact H1|]. split; [exact H2|]. split; [exact H3|]. exists (l ++ [o]). split; [apply Forall_app; auto|].
    rewrite run_app. rewrite <- H4. simpl. unfold run. simpl. now rewrite E.
  Qed.
  Lemma frame_new id : fpost frame (new_minimizer id) (fun r s => frame s /\ match r with Ok m => fresh_min m s | Err _ => True end).
  Proof.
    intros s (H1 & H2 & H3 & H4). unfold new_minimizer. destruct (minimizer_class id); simpl; (split; [|auto]).
    - split; [exact H1|]. simpl. rewrite app_length. simpl. split; [lia|]. split; [|exact H4]. intros b Hb. rewrite nth_error_app1 by lia. auto.
    - split; auto.
  Qed.
  Lemma frame_min E m x gh : fpost (fun s => frame s /\ fresh_min m s) (minimize_from E m x gh)
      (fun r s => frame s /\ match r with Ok mr => fresh_min (fst mr) s /\ m_params (fst mr) = m_params m /\ r_params (snd mr) = m_params m | Err _ => True end).
  Proof.
    intros s ((H1 & H2 & H3 & l & Al & H4) & FM). unfold minimize_from. destruct (nth_error (fs_pars s) (m_params m)) as [p|] eqn:Ep.
    2:{ simpl. split; [|trivial]. split; [exact H1|]. split; [exact H2|]. split; [exact H3|]. eauto. }
    destruct (play nll (minimize E x gh (mk_mstate p m)) (fs_w s)) as (w & st & r) eqn:Pl. simpl.
    destruct (play_run inv (minimize E x gh (mk_mstate p m)) (fs_w s)) as (xs & RX). rewrite Pl in RX. simpl in RX.
    split.
    - split; [exact H1|]. simpl. rewrite upd_length. split; [exact H2|]. split. { intros a Ha. unfold fresh_min in FM. rewrite upd_other by lia. auto. }
      exists (l ++ map ONll xs). split. { apply Forall_app. split; [exact Al|]. apply Forall_forall. intros o O. apply in_map_iff in O as (x' & <- & _). apply allowed_nll. }
      rewrite run_app, <- H4. exact RX.
    - destruct r as [r|e]; simpl; [|trivial]. pose proof (minimize_keep E x gh _ _ _ _ _ _ _ Pl) as (K1 & K2 & _). simpl in K2.
      pose proof (minimize_result _ _ _ _ _ _ _ _ _ Pl) as K3. simpl in K3. unfold fresh_min. rewrite K2. auto.
  Qed.
End Frame.
Lemma frame_trans inv al a b c : frame inv al a b -> frame inv al b c -> frame inv al a c.
Proof.
  intros (A1 & A2 & A3 & l & Al & A4) (B1 & B2 & B3 & l' & Bl & B4). split; [congruence|]. split; [lia|]. split.
  - intros k K. rewrite B3 by lia. auto.
  - exists (l ++ l'). split; [apply Forall_app; auto|]. rewrite run_app, <- A4. exact B4.
Qed.
Lemma fix_all_params names ids : forall m m', fix_all names m ids = Ok m' -> m_params m' = m_params m.
Proof.
  unfold fix_all. induction ids as [|i ids IH] using rev_ind; intros m m' E; [injection E as <-; reflexivity|].
  rewrite fold_left_app in E. simpl in E. destruct (fold_left _ ids (Ok m)) as [m1|e] eqn:E1; [|discriminate]. simpl in E.
  unfold set_param_fixed in E. destruct (id_to_index names i); simpl in E; [|discriminate]. injection E as <-. simpl. apply IH. exact E1.
Qed.
Lemma bound_all_params names bs : forall m m', bound_all names m bs = Ok m' -> m_params m' = m_params m.
Proof.
  unfold bound_all. induction bs as [|i ids IH] using rev_ind; intros m m' E; [injection E as <-; reflexivity|].
  rewrite fold_left_app in E. simpl in E. destruct (fold_left _ ids (Ok m)) as [m1|e] eqn:E1; [|discriminate]. simpl in E.
  unfold set_param_bounds in E. destruct (id_to_index names (fst i)); simpl in E; [|discriminate]. injection E as <-. simpl. apply IH. exact E1.
Qed.

(** frame rules with a fresh minimizer at hand *)
Section Calls.
  Variable inv : mat -> res mat.
  Variable allowed : op -> Prop.
  Variable s0 : fstate.
  Hypothesis allowed_nll : forall x, allowed (ONll x).
  Let fr := frame inv allowed s0.
  Let fm := fresh_min s0.
  Lemma fb {A B} (m : F A) (k : A -> F B) : fpost fr m (fun _ s => fr s) -> (forall a, fpost fr (k a) (fun _ s => fr s)) -> fpost fr (fbind m k) (fun _ s => fr s).
  Proof. intros H K. eapply fpost_bind with (Q := fun _ s => fr s); [|exact K]. eapply fpost_weaken; [exact H|]. intros [a|e] s X; exact X. Qed.
  (** binding a fresh minimizer *)
  Lemma fb_new {B} id (k : minimizer -> F B) : (forall m, (length (fs_pars s0) <= m_params m)%nat -> fpost fr (k m) (fun _ s => fr s)) -> fpost fr (fbind (new_minimizer id) k) (fun _ s => fr s).
  Proof.
    intros K. eapply fpost_bind with (Q := fun m s => fr s /\ (length (fs_pars s0) <= m_params m)%nat).
    - eapply fpost_weaken; [apply frame_new|]. intros [m|e] s (X & Y); [split; [exact X|exact Y]|exact X].
    - intros m s (X & Y). apply (K m Y s X).
  Qed.
  Lemma fb_res {B} (m : minimizer) (r : res minimizer) (k : minimizer -> F B) : (forall m', r = Ok m' -> m_params m' = m_params m) -> (length (fs_pars s0) <= m_params m)%nat ->
    (forall m', (length (fs_pars s0) <= m_params m')%nat -> fpost fr (k m') (fun _ s => fr s)) -> fpost fr (fbind (flift r) k) (fun _ s => fr s).
  Proof.
    intros H L K. destruct r as [m'|e]; intros s X; unfold fbind, flift; simpl; [|exact X]. apply (K m'); [rewrite (H m' eq_refl); exact L|exact X].
  Qed.
  Lemma fb_min {B} E m x gh (k : minimizer * mresult -> F B) : (length (fs_pars s0) <= m_params m)%nat ->
    (forall mr, (length (fs_pars s0) <= m_params (fst mr))%nat -> fpost fr (k mr) (fun _ s => fr s)) -> fpost fr (fbind (minimize_from E m x gh) k) (fun _ s => fr s).
  Proof.
    intros L K. eapply fpost_bind with (Q := fun mr s => fr s /\ (length (fs_pars s0) <= m_params (fst mr))%nat).
    - intros s X. pose proof (frame_min inv allowed s0 allowed_nll E m x gh s (conj X L)) as (Y & Z). destruct (snd (minimize_from E m x gh s)) as [mr|e]; [split; [exact Y|]|exact Y]. apply Z.
    - intros mr s (X & Y). apply (K mr Y s X).
  Qed.
  Lemma if_fix_params (b : bool) names m ids m' : (if b then fix_all names m ids else Ok m) = Ok m' -> m_params m' = m_params m.
  Proof. destruct b; [apply fix_all_params|intros [= <-]; reflexivity]. Qed.
  Lemma if_bound_params (b : option bound) names m (f : bound -> list (pid * bound)) m' : (match b with Some v => bound_all names m (f v) | None => Ok m end) = Ok m' -> m_params m' = m_params m.
  Proof. destruct b; [apply bound_all_params|intros [= <-]; reflexivity]. Qed.

  Lemma do_fit_frame E i u g n lim : (u = true -> forall x, allowed (OUpdate x)) -> fpost fr (do_fit E i u g n lim) (fun _ s => fr s).
  Proof.
    intros AU. unfold do_fit. apply fb; [apply frame_fitter|]. intros f. apply fb; [apply frame_get|]. intros names. apply fb; [apply frame_get|]. intros nuis.
    apply fb_new. intros m L. eapply fb_res; [intros m'; apply if_fix_params|exact L|]. clear m L. intros m L.
    eapply fb_res; [intros m'; apply (if_bound_params lim names m (fun b => map (fun j => (j, b)) nuis))|exact L|]. clear m L. intros m L.
    eapply fb_res; [intros m'; apply fix_all_params|exact L|]. clear m L. intros m L.
    eapply fb_res; [intros m'; apply bound_all_params|exact L|]. clear m L. intros m L.
    apply fb; [apply frame_x0|]. intros x. apply fb_min; [exact L|]. intros mr L'. apply fb; [apply frame_pars|]. intros p.
    apply fb; [|intros; apply frame_ret]. destruct u; [|apply frame_ret]. apply (frame_op inv allowed s0 (OUpdate (p_values p))). auto.
  Qed.
  Lemma profile_frame E i p c n sg sm fn sch : fpost fr (profile E i p c n sg sm fn sch) (fun _ s => fr s).
  Proof.
    unfold profile. apply fb; [apply frame_fitter|]. intros f. apply fb; [apply frame_get|]. intros names. apply fb; [apply frame_get|]. intros nuis.
    apply fb_new. intros m L. eapply fb_res; [intros m'; apply if_fix_params|exact L|]. clear m L. intros m L.
    apply fb; [apply frame_x0|]. intros x. apply fb_min; [exact L|]. intros mr L'. apply fb; [apply frame_pars|]. intros pr.
    apply fb; [apply frame_flift|]. intros ve. apply fb; [apply frame_flift|]. intros pts. apply fb; [apply frame_pars|]. intros pp. apply fb; [apply frame_flift|]. intros he.
    apply fb; [apply frame_get|]. intros w. apply fb; [apply frame_flift|]. intros vs. destruct sm; apply frame_ret.
  Qed.
  Lemma significance_frame E i p n : allowed (OSetYield p 0) -> fpost fr (get_significance E i p n) (fun _ s => fr s).
  Proof.
    intros AY. unfold get_significance. apply fb; [apply frame_fitter|]. intros f. apply fb; [apply frame_get|]. intros names. apply fb; [apply frame_get|]. intros nuis.
    apply fb_new. intros m L. eapply fb_res; [intros m'; apply if_fix_params|exact L|]. clear m L. intros m L.
    eapply fb_res; [intros m'; apply fix_all_params|exact L|]. clear m L. intros m L.
    eapply fb_res; [intros m'; apply bound_all_params|exact L|]. clear m L. intros m L.
    apply fb; [apply frame_x0|]. intros x. apply fb_min; [exact L|]. intros mr L'. apply fb; [apply frame_pars|]. intros pr.
    apply fb; [apply frame_flift|]. intros ve. destruct (xltb (fst ve) (Fin 0)); [apply frame_ret|].
    apply fb; [apply (frame_op inv allowed s0 (OSetYield p 0)); auto|]. intros _.
    apply fb_new. clear m L. intros m L. eapply fb_res; [intros m'; apply if_fix_params|exact L|]. clear m L. intros m L.
    eapply fb_res; [intros m'; apply fix_all_params|exact L|]. clear m L. intros m L.
    eapply fb_res; [intros m'; apply bound_all_params|exact L|]. clear m L. intros m L.
    eapply fb_res; [intros m'; apply fix_all_params|exact L|]. clear m L. intros m L.
    apply fb; [apply frame_x0|]. intros x'. apply fb_min; [exact L|]. intros mr2 L2. apply frame_ret.
  Qed.
End Calls.

(** every call keeps the Parameters objects that exist; fits and scans keep the fitters *)
Definition any (o : op) : Prop := True.
Definition is_fit (o : fop) : bool := match o with FDoFit _ _ _ _ _ _ | FProfile _ _ _ _ _ _ _ _ _ | FSignificance _ _ _ _ => true | _ => false end.
Lemma fbind_tt {A} (m : F A) s : fst ((_ <~ m ;; fret tt) s) = fst (m s).
Proof. unfold fbind, fret. destruct (m s) as (s' & [a|e]); reflexivity. Qed.
Lemma fit_frame inv o s : is_fit o = true -> frame inv any s (fst (fstep inv o s)).
Proof.
  assert (R : frame inv any s s) by apply frame_refl'.
  destruct o; simpl; try discriminate; intros _; rewrite fbind_tt.
  - apply (do_fit_frame inv any s); [exact (fun _ => I)|exact (fun _ _ => I)|exact R].
  - apply (profile_frame inv any s); [exact (fun _ => I)|exact R].
  - apply (significance_frame inv any s); [exact (fun _ => I)|exact I|exact R].
Qed.
Lemma fstep_pars inv o s : (length (fs_pars s) <= length (fs_pars (fst (fstep inv o s))))%nat /\
  forall a, (a < length (fs_pars s))%nat -> nth_error (fs_pars (fst (fstep inv o s))) a = nth_error (fs_pars s) a.
Proof.
  destruct (is_fit o) eqn:Fo.
  - destruct (fit_frame inv o s Fo) as (_ & L & H & _). auto.
  - destruct o; simpl in *; try discriminate.
    + unfold on_world. destruct (step inv o (fs_w s)). simpl. auto.
    + auto.
    + unfold fix_nui_params, on_fitter. destruct (nth_error _ _); simpl; auto.
    + unfold set_parameter_fixed, on_fitter. destruct (nth_error _ _); simpl; auto.
    + unfold set_parameter_bounds, on_fitter. destruct (nth_error _ _); simpl; auto.
Qed.
Lemma frun_pars inv l : forall s, (length (fs_pars s) <= length (fs_pars (frun inv l s)))%nat /\
  forall a, (a < length (fs_pars s))%nat -> nth_error (fs_pars (frun inv l s)) a = nth_error (fs_pars s) a.
Proof.
  induction l as [|o l IH]; intros s; simpl; [auto|]. destruct (fstep_pars inv o s) as (L & H). destruct (IH (fst (fstep inv o s))) as (L' & H').
  split; [unfold frun in *; lia|]. intros a Ha. unfold frun in *. simpl. rewrite H' by lia. auto.
Qed.
(** the templates are always those of a history of template calls *)
Lemma fstep_world inv o s : exists l, fs_w (fst (fstep inv o s)) = run inv l (fs_w s).
Proof.
  destruct (is_fit o) eqn:Fo.
  - destruct (fit_frame inv o s Fo) as (_ & _ & _ & l & _ & H). eauto.
  - destruct o; simpl in *; try discriminate.
    + exists [o]. unfold on_world. destruct (step inv o (fs_w s)) as (w & r) eqn:E. simpl. unfold run. simpl. now rewrite E.
    + exists []. reflexivity.
    + exists []. unfold fix_nui_params, on_fitter. destruct (nth_error _ _); reflexivity.
    + exists []. unfold set_parameter_fixed, on_fitter. destruct (nth_error _ _); reflexivity.
    + exists []. unfold set_parameter_bounds, on_fitter. destruct (nth_error _ _); reflexivity.
Qed.
Lemma frun_world inv l : forall s, exists l', fs_w (frun inv l s) = run inv l' (fs_w s).
Proof.
  induction l as [|o l IH]; intros s; [exists []; reflexivity|]. destruct (fstep_world inv o s) as (l1 & E1). destruct (IH (fst (fstep inv o s))) as (l2 & E2).
  exists (l1 ++ l2). rewrite run_app, <- E1. exact E2.
Qed.
Lemma freached_world inv l : exists l', fs_w (freached inv l) = reached inv l'.
Proof. apply (frun_world inv l fstate_init). Qed.
Lemma frun_app inv l1 l2 s : frun inv (l1 ++ l2) s = frun inv l2 (frun inv l1 s). Proof. apply fold_left_app. Qed.

(** ** the fitter objects *)
Lemma fstep_fitters inv o s : fs_fitters (fst (fstep inv o s)) =
  match o with
  | FNew id => fs_fitters s ++ [mk_fitter id [] [] false]
  | FFixNui i => match nth_error (fs_fitters s) i with Some f => upd i (mk_fitter (ft_id f) (ft_fixed f) (ft_bounds f) true) (fs_fitters s) | None => fs_fitters s end
  | FFixed i p => match nth_error (fs_fitters s) i with Some f => upd i (mk_fitter (ft_id f) (ft_fixed f ++ [p]) (ft_bounds f) (ft_fix_nui f)) (fs_fitters s) | None => fs_fitters s end
  | FBounds i p b => match nth_error (fs_fitters s) i with Some f => upd i (mk_fitter (ft_id f) (ft_fixed f) (dset pid_eqb (ft_bounds f) p b) (ft_fix_nui f)) (fs_fitters s) | None => fs_fitters s end
  | _ => fs_fitters s
  end.
Proof.
  destruct (is_fit o) eqn:Fo.
  - destruct (fit_frame inv o s Fo) as (H & _). destruct o; try discriminate; exact H.
  - destruct o; simpl in *; try discriminate.
    + unfold on_world. destruct (step inv o (fs_w s)). reflexivity.
    + reflexivity.
    + unfold fix_nui_params, on_fitter. destruct (nth_error _ _); reflexivity.
    + unfold set_parameter_fixed, on_fitter. destruct (nth_error _ _); reflexivity.
    + unfold set_parameter_bounds, on_fitter. destruct (nth_error _ _); reflexivity.
Qed.
Definition fixed_of (i : nat) (l : list fop) : list pid := flat_map (fun o => match o with FFixed j p => if Nat.eqb j i then [p] else [] | _ => [] end) l.
Definition bounds_calls (i : nat) (l : list fop) : list (pid * bound) := flat_map (fun o => match o with FBounds j p b => if Nat.eqb j i then [(p, b)] else [] | _ => [] end) l.
Definition dict_of (d : list (pid * bound)) (l : list (pid * bound)) : list (pid * bound) := fold_left (fun d pb => dset pid_eqb d (fst pb) (snd pb)) l d.
Lemma fitter_history inv i l : forall s f, nth_error (fs_fitters s) i = Some f ->
  exists f', nth_error (fs_fitters (frun inv l s)) i = Some f' /\ ft_id f' = ft_id f /\ ft_fixed f' = ft_fixed f ++ fixed_of i l /\
    ft_bounds f' = dict_of (ft_bounds f) (bounds_calls i l).
Proof.
  induction l as [|o l IH]; intros s f Hf; simpl.
  - exists f. rewrite app_nil_r. auto.
  - assert (X : exists f1, nth_error (fs_fitters (fst (fstep inv o s))) i = Some f1 /\ ft_id f1 = ft_id f /\
       ft_fixed f1 = ft_fixed f ++ fixed_of i [o] /\ ft_bounds f1 = dict_of (ft_bounds f) (bounds_calls i [o])).
    { assert (LT : (i < length (fs_fitters s))%nat) by (apply nth_error_Some; congruence).
      rewrite fstep_fitters. destruct o; simpl; try (exists f; rewrite app_nil_r; auto; fail).
      - exists f. rewrite nth_error_app1 by exact LT. rewrite app_nil_r. auto.
      - destruct (Nat.eq_dec i0 i) as [->|N].
        + rewrite Hf. rewrite upd_same by exact LT. eexists. split; [reflexivity|]. simpl. rewrite app_nil_r. auto.
        + exists f. rewrite app_nil_r. destruct (nth_error (fs_fitters s) i0); [rewrite upd_other by auto|]; auto.
      - destruct (Nat.eqb_spec i0 i) as [->|N].
        + rewrite Hf. rewrite upd_same by exact LT. eexists. split; [reflexivity|]. simpl. auto.
        + exists f. simpl. rewrite app_nil_r. destruct (nth_error (fs_fitters s) i0); [rewrite upd_other by auto|]; auto.
      - destruct (Nat.eqb_spec i0 i) as [->|N].
        + rewrite Hf. rewrite upd_same by exact LT. eexists. split; [reflexivity|]. simpl. rewrite app_nil_r. auto.
        + exists f. simpl. rewrite app_nil_r. destruct (nth_error (fs_fitters s) i0); [rewrite upd_other by auto|]; auto. }
    destruct X as (f1 & H1 & H2 & H3 & H4). destruct (IH _ _ H1) as (f2 & G1 & G2 & G3 & G4). exists f2. split; [exact G1|]. split; [congruence|]. split.
    + rewrite G3, H3, <- app_assoc. f_equal. unfold fixed_of. simpl. rewrite app_nil_r. reflexivity.
    + rewrite G4, H4. unfold dict_of, bounds_calls. simpl. rewrite app_nil_r, <- fold_left_app. reflexivity.
Qed.
Lemma fitters_count inv l : forall s, length (fs_fitters (frun inv l s)) = (length (fs_fitters s) + num_fitters l)%nat.
Proof.
  induction l as [|o l IH]; intros s; simpl; [unfold num_fitters; simpl; lia|]. change (frun inv (o :: l) s) with (frun inv l (fst (fstep inv o s))). rewrite IH, fstep_fitters.
  unfold num_fitters. destruct o; simpl; try lia.
  - rewrite app_length. simpl. lia.
  - destruct (nth_error _ _); rewrite ?upd_length; reflexivity.
  - destruct (nth_error _ _); rewrite ?upd_length; reflexivity.
  - destruct (nth_error _ _); rewrite ?upd_length; reflexivity.
Qed.
