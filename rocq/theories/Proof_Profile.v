(** Proofs about TemplateFitter.profile. *)
From Coq Require Import Reals String ZArith Bool Arith List Lra Lia.
From Verif Require Import Model_Num Model_Hist Model_Utility Model_Template Model_World Model_Ops Model_Minimizer Model_Fitter
  Spec_Matrix Spec_Min Spec_World Spec_Fit Spec_Stale Proof_HistHeap Proof_Eval Proof_Route Proof_Monad Proof_Names Proof_Min Proof_Fit Proof_Fit2 Proof_Fit3 Proof_Fit4 Proof_Pool Prop_World.
Import ListNotations.
Local Open Scope R_scope.

(** ** minimize depends on names, fixes and bounds only *)
Definition alike (s1 s2 : mstate) : Prop :=
  p_names (ms_p s1) = p_names (ms_p s2) /\ m_fixed (ms_m s1) = m_fixed (ms_m s2) /\ m_bounds (ms_m s1) = m_bounds (ms_m s2).
Definition rrel {A} (R : A -> A -> Prop) (r1 r2 : res A) : Prop :=
  match r1, r2 with Ok a, Ok b => R a b | Err e, Err e' => e = e' | _, _ => False end.
Definition mrel {A} (R : A -> A -> Prop) (m1 m2 : MM A) : Prop :=
  forall S (fcn : list xr -> S -> S * res xr) s1 s2 w, alike s1 s2 ->
    let q1 := play fcn (m1 s1) w in let q2 := play fcn (m2 s2) w in
    fst q1 = fst q2 /\ alike (fst (snd q1)) (fst (snd q2)) /\ rrel R (snd (snd q1)) (snd (snd q2)).
Lemma mrel_bind {A B} (RA : A -> A -> Prop) (RB : B -> B -> Prop) m1 m2 (k1 k2 : A -> MM B) :
  mrel RA m1 m2 -> (forall a b, RA a b -> mrel RB (k1 a) (k2 b)) -> mrel RB (mbind m1 k1) (mbind m2 k2).
Proof.
  intros H K S fcn s1 s2 w AL. specialize (H S fcn s1 s2 w AL). cbv zeta in *. unfold mbind. rewrite !play_pbind.
  destruct (play fcn (m1 s1) w) as (w1 & t1 & r1), (play fcn (m2 s2) w) as (w2 & t2 & r2). cbn [fst snd] in *. destruct H as (<- & A2 & R2).
  destruct r1 as [a|e], r2 as [b|e']; simpl in R2; try contradiction; [apply K; auto|]. subst e'. simpl. auto.
Qed.
Lemma mrel_play {A} (p : prog (res A)) : mrel eq (mplay p) (mplay p).
Proof.
  intros S fcn s1 s2 w AL. cbv zeta. unfold mplay. rewrite !play_pbind. destruct (play fcn p w) as (w1 & r). simpl. split; [reflexivity|]. split; [exact AL|]. destruct r; simpl; auto.
Qed.
Lemma mrel_lift {A} (R : A -> A -> Prop) r1 r2 : rrel R r1 r2 -> mrel R (mlift r1) (mlift r2).
Proof. intros H S fcn s1 s2 w AL. simpl. auto. Qed.
Lemma mrel_get {A} (R : A -> A -> Prop) f : (forall s1 s2, alike s1 s2 -> R (f s1) (f s2)) -> mrel R (mget f) (mget f).
Proof. intros H S fcn s1 s2 w AL. simpl. auto. Qed.
Lemma mrel_min v : mrel eq (mset_fcn_min v) (mset_fcn_min v). Proof. intros S fcn s1 s2 w AL. simpl. split; auto. Qed.
Lemma mrel_succ v : mrel eq (mset_success v) (mset_success v). Proof. intros S fcn s1 s2 w AL. simpl. split; auto. Qed.
Lemma mrel_pars f : (forall p p', p_names p = p_names p' -> p_names (fst (f p)) = p_names (fst (f p')) /\ rrel eq (snd (f p)) (snd (f p'))) -> mrel eq (mpars f) (mpars f).
Proof.
  intros H S fcn s1 s2 w (A1 & A2 & A3). cbv zeta. unfold mpars. destruct (H _ _ A1) as (B1 & B2). destruct (f (ms_p s1)), (f (ms_p s2)). simpl in *. split; [reflexivity|]. split; [|exact B2].
  split; auto.
Qed.
Lemma setv v p p' : p_names p = p_names p' -> p_names (fst (set_values p v)) = p_names (fst (set_values p' v)) /\ rrel eq (snd (set_values p v)) (snd (set_values p' v)).
Proof. intros H. unfold set_values, num_pars. rewrite H. destruct (Nat.eqb _ _); simpl; auto. Qed.
Lemma sete v p p' : p_names p = p_names p' -> p_names (fst (set_errors p v)) = p_names (fst (set_errors p' v)) /\ rrel eq (snd (set_errors p v)) (snd (set_errors p' v)).
Proof. intros H. unfold set_errors, num_pars. rewrite H. destruct (Nat.eqb _ _); simpl; auto. Qed.
Lemma rrel_refl {A} (r : res A) : rrel eq r r. Proof. destruct r; reflexivity. Qed.
Definition same_min (m1 m2 : minimizer) : Prop := m_fixed m1 = m_fixed m2 /\ m_bounds m1 = m_bounds m2.
Definition same_result (r1 r2 : mresult) : Prop := r_fcn_min r1 = r_fcn_min r2 /\ r_success r1 = r_success r2.
Ltac mrel_tac := repeat first [apply mrel_play | apply mrel_min | apply mrel_succ | apply mrel_pars; intros; first [apply setv; assumption|apply sete; assumption|simpl; auto] | (apply mrel_lift; apply rrel_refl)
   | apply (mrel_bind eq); [|let a := fresh "a" in intros a ? <-]].
Lemma minimize_rel E x g : mrel same_result (minimize E x g) (minimize E x g).
Proof.
  unfold minimize. eapply mrel_bind; [apply (mrel_get same_min); intros s1 s2 (_ & A & B); split; assumption|]. intros m1 m2 (F & B). rewrite <- F. destruct (m_fixed m1).
  - unfold minimize_iminuit. eapply mrel_bind; [apply (mrel_get same_min); intros s1 s2 (_ & A' & B'); split; assumption|]. intros m1' m2' (F' & B').
    eapply mrel_bind; [apply (mrel_get eq); intros s1 s2 (A' & _); exact A'|]. intros n1 n2 <-. rewrite <- B'. mrel_tac. apply mrel_lift. split; reflexivity.
  - unfold minimize_scipy. eapply mrel_bind; [apply (mrel_get same_min); intros s1 s2 (_ & A' & B'); split; assumption|]. intros m1' m2' (F' & B'). rewrite <- B'.
    eapply mrel_bind; [apply mrel_play|]. intros o o' <-. eapply mrel_bind; [apply mrel_succ|]. intros _ _ _. destruct (oo_success o); [|apply mrel_lift; reflexivity].
    eapply mrel_bind; [mrel_tac|]. intros _ _ _. eapply mrel_bind; [mrel_tac|]. intros _ _ _. eapply (mrel_bind eq).
    + destruct g; [|apply mrel_lift; reflexivity]. mrel_tac.
    + intros _ _ _. apply mrel_lift. split; reflexivity.
Qed.
Lemma minimize_alike {S} (fcn : list xr -> S -> S * res xr) E x g s1 s2 w : alike s1 s2 ->
  fst (play fcn (minimize E x g s1) w) = fst (play fcn (minimize E x g s2) w) /\
  rmap r_fcn_min (snd (snd (play fcn (minimize E x g s1) w))) = rmap r_fcn_min (snd (snd (play fcn (minimize E x g s2) w))).
Proof.
  intros A. destruct (minimize_rel E x g S fcn s1 s2 w A) as (H1 & _ & H2). split; [exact H1|].
  destruct (snd (snd (play fcn (minimize E x g s1) w))), (snd (snd (play fcn (minimize E x g s2) w))); simpl in *; try contradiction; [destruct H2 as (-> & _); reflexivity|congruence].
Qed.

(** ** one scan point *)
Lemma scan_value E w p m pt i kind k : length (p_values p) = length (p_names p) -> resolves (p_names p) i k ->
  m_bounds m = repeat (None, None) (length (p_names p)) -> released (m_fixed m) (length (p_names p)) = m_fixed (min_new kind (p_names p) 0) ->
  task_value E (mk_task w (mk_mstate p m) pt i) = minimum_found E kind (p_names p) [CFix i] (upd k pt (p_values p)) false (fresh w).
Proof.
  intros L R MB MF. unfold task_value, profile_helper. cbn [tk_w tk_st tk_point tk_id ms_p ms_m]. pose proof (resolves_lt _ _ _ R) as K. apply resolve_iff in R. rewrite R.
  rewrite L. destruct (Nat.ltb_spec k (length (p_names p))); [|lia]. unfold set_param_fixed. rewrite R. rewrite play_pbind.
  change (unpickled w) with (fresh w).
  set (s1 := mk_mstate _ _). unfold minimum_found.
  set (s2 := mk_mstate (pars_new (p_names p)) (calls (p_names p) (min_new kind (p_names p) 0) [CFix i])).
  assert (AL : alike s1 s2).
  { unfold s1, s2, alike. cbn [ms_p ms_m calls fold_left call]. unfold set_param_fixed. rewrite R. simpl. rewrite MF, MB. destruct kind; simpl; auto. }
  destruct (minimize_alike nll E (upd k pt (p_values p)) false s1 s2 (fresh w) AL) as (_ & H2).
  destruct (play nll (minimize E _ false s1) (fresh w)) as (w1 & st & r). cbn [fst snd play] in *. 
  destruct (snd (snd (play nll (minimize E _ false s2) (fresh w)))) as [r'|e']; destruct r as [r|e]; simpl in *; try discriminate; injection H2 as H2; rewrite H2; reflexivity.
Qed.

(** ** the parts of profile *)
Definition profile_pre (E : ext) (i : nat) (param_id : pid) (num_points : nat) (sigma : R) (fix_nui : bool) : F (xr * list xr * list xr * list task) :=
  f <~ get_fitter i ;;
  names <~ fget (fun s => param_names (fs_w s)) ;;
  nuis <~ fget (fun s => nui_ids (fs_w s)) ;;
  m <~ new_minimizer (ft_id f) ;;
  m <~ flift (if fix_nui then fix_all names m nuis else Ok m) ;;
  x <~ x0 ;;
  mr <~ minimize_from E m x true ;;
  let m := fst mr in
  let minimum := r_fcn_min (snd mr) in
  p <~ get_pars (m_params m) ;;
  ve <~ flift (getitem p param_id) ;;
  points <~ flift (xlinspace (xsub (fst ve) (xmul (Fin sigma) (snd ve))) (xadd (fst ve) (xmul (Fin sigma) (snd ve))) num_points) ;;
  pr <~ get_pars (r_params (snd mr)) ;;
  hesse <~ flift (get_hesse_approx pr minimum param_id points) ;;
  w <~ fget fs_w ;;
  fret (minimum, points, hesse, map (fun pt => mk_task w (mk_mstate p m) pt param_id) points).
Definition profile_post (sm : bool) (minimum : xr) (points hesse values : list xr) : list xr * list xr * list xr :=
  if sm then (points, map (fun v => xsub v minimum) values, map (fun v => xsub v minimum) hesse) else (points, values, hesse).
Definition with_pool (E : ext) (c : nat) (sm : bool) (sch : list event) (q : fstate * res (xr * list xr * list xr * list task)) : fstate * res (list xr * list xr * list xr) :=
  match q with
  | (s1, Err e) => (s1, Err e)
  | (s1, Ok (minimum, points, hesse, tasks)) =>
      (s1, if Nat.eqb c 0 then Err ValueError else match imap_results (pl_done (pool_run E tasks sch (pool_new tasks c))) with
           | None => Err OutOfModel
           | Some (Err e) => Err e
           | Some (Ok vs) => Ok (profile_post sm minimum points hesse vs)
           end)
  end.
Lemma with_pool_bind E c sm sch {A} (m : F A) k k' s : (forall a s, k a s = with_pool E c sm sch (k' a s)) -> fbind m k s = with_pool E c sm sch (fbind m k' s).
Proof. intros H. unfold fbind. destruct (m s) as (s1 & [a|e]); [apply H|reflexivity]. Qed.
Lemma profile_eq E i p c n sigma sm fn sch s : profile E i p c n sigma sm fn sch s = with_pool E c sm sch (profile_pre E i p n sigma fn s).
Proof.
  unfold profile, profile_pre. do 13 (apply with_pool_bind; intros; cbv zeta). unfold fret, with_pool, fbind, flift, profile_post.
  destruct (Nat.eqb c 0); [reflexivity|]. destruct (imap_results _) as [[vs|e]|]; try reflexivity.
Qed.

(** ** what profile does if it succeeds *)
Lemma fbind_ok {A B} (m : F A) (k : A -> F B) s s' b : fbind m k s = (s', Ok b) -> exists s1 a, m s = (s1, Ok a) /\ k a s1 = (s', Ok b).
Proof. unfold fbind. destruct (m s) as (s1 & [a|e]); [eauto|discriminate]. Qed.
Ltac fok H := apply fbind_ok in H; let s1 := fresh "t" in let a := fresh "a" in let G := fresh "G" in destruct H as (s1 & a & G & H).
Lemma fix_all_ok names ids m m' : fix_all names m ids = Ok m' -> m' = calls names m (map CFix ids).
Proof.
  intros H. assert (F : Forall (fun p => exists k, resolves names p k) ids).
  { revert m' H. unfold fix_all. induction ids as [|p ids IH] using rev_ind; intros m' H; [constructor|]. rewrite fold_left_app in H. simpl in H.
    destruct (fold_left _ ids (Ok m)) as [m1|e]; [|discriminate]. simpl in H. apply Forall_app. split; [eapply IH; reflexivity|]. constructor; [|constructor].
    unfold set_param_fixed in H. destruct (id_to_index names p) as [k|e] eqn:E; [|discriminate]. exists k. now apply resolve_iff. }
  rewrite Forall_forall in F. rewrite fix_all_calls in H by exact F. congruence.
Qed.
Lemma finite_sub a b v : xsub a b = Fin v -> exists x y, a = Fin x /\ b = Fin y.
Proof. destruct a, b; simpl; try discriminate; eauto. Qed.
Lemma finite_mul a b v : xmul a b = Fin v -> exists x y, a = Fin x /\ b = Fin y.
Proof.
  assert (X : forall n r v, xinf_mul n r <> Fin v). { intros n r v0. unfold xinf_mul, xinf. destruct (Reqb r 0); [discriminate|]. destruct (xorb _ _); discriminate. }
  destruct a, b; simpl; try discriminate; eauto; intros H; apply X in H; destruct H.
Qed.
Lemma xlinspace_ok lo hi n l : xlinspace lo hi n = Ok l -> exists a b, lo = Fin a /\ hi = Fin b /\ l = map Fin (np_linspace a b n).
Proof. unfold xlinspace. destruct lo, hi; try discriminate. intros [= <-]. eauto. Qed.
Lemma profile_pre_ok E i pid n sigma fn s s' minimum points hesse tasks : profile_pre E i pid n sigma fn s = (s', Ok (minimum, points, hesse, tasks)) ->
  let w := fs_w s in let names := param_names w in
  exists f kind x p m r k v e, nth_error (fs_fitters s) i = Some f /\ minimizer_class (ft_id f) = Ok kind /\ nll_x0 w = Ok x /\
    play nll (minimize E x true (mk_mstate (pars_new names) (calls names (min_new kind names (length (fs_pars s))) (if fn then map CFix (nui_ids w) else [])))) w
      = (fs_w s', (mk_mstate p m, Ok r)) /\
    resolves names pid k /\ nth_error (p_values p) k = Some (Fin v) /\ nth_error (p_errors p) k = Some (Fin e) /\
    points = map Fin (np_linspace (v - sigma * e) (v + sigma * e) n) /\
    minimum = r_fcn_min r /\ get_hesse_approx p minimum pid points = Ok hesse /\
    tasks = map (fun pt => mk_task (fs_w s') (mk_mstate p m) pt pid) points /\
    p_names p = names /\ length (p_values p) = length names /\ m_bounds m = repeat (None, None) (length names) /\ released (m_fixed m) (length names) = m_fixed (min_new kind names 0).
Proof.
  intros H w names. destruct s as [w0 ps fs]. cbn [fs_w fs_pars fs_fitters] in *. subst w. unfold profile_pre in H.
  fok H. unfold get_fitter in G. cbn [fs_fitters] in G. destruct (nth_error fs i) as [f|]; [|discriminate]. injection G as <- <-.
  fok H. injection G as <- <-. fok H. injection G as <- <-. cbn [fs_w] in H. fold names in H.
  fok H. unfold new_minimizer in G. cbn [fs_w fs_pars fs_fitters] in G. destruct (minimizer_class (ft_id f)) as [kind|] eqn:MC; [|discriminate]. injection G as <- <-. fold names in H.
  fok H. unfold flift in G. injection G as <- G.
  assert (CL : a = calls names (min_new kind names (length ps)) (if fn then map CFix (nui_ids w0) else [])).
  { destruct fn; [apply fix_all_ok in G; exact G|injection G as <-; reflexivity]. }
  clear G. fok H. unfold x0 in G. cbn [fs_w] in G. injection G as <- NX. rename a0 into x.
  assert (MP : m_params a = length ps) by (rewrite CL, calls_params; reflexivity).
  fok H. rewrite min_from_last in G by exact MP. cbv zeta in G.
  destruct (play nll (minimize E x true (mk_mstate (pars_new names) a)) w0) as (w1 & st & r) eqn:PL. cbn [fst snd] in G.
  pose proof (minimize_keep E x true _ _ _ _ _ _ _ PL) as (K1 & K2 & K3 & K4 & K5 & K6). cbn [ms_p ms_m pars_new p_names p_values p_errors] in K1, K2, K3, K4, K5, K6. rewrite !repeat_length in K5, K6. specialize (K5 eq_refl).
  destruct r as [r|e]; cbn [rmap] in G; [|discriminate]. injection G as <- <-.
  pose proof (minimize_result nll _ _ _ _ _ _ _ _ PL) as RP. cbn [ms_m] in RP. cbn [fst snd] in H. destruct st as [p m]. cbn [ms_p ms_m] in *.
  fok H. unfold get_pars in G. cbn [fs_pars] in G. rewrite K2, MP, nth_error_app2 in G by lia. rewrite Nat.sub_diag in G. cbn [nth_error] in G. injection G as <- <-.
  fok H. unfold flift in G. injection G as <- G. destruct a0 as (vv & ee). cbn [fst snd] in H.
  fok H. unfold flift in G0. pose proof (f_equal snd G0) as XL. apply (f_equal fst) in G0. cbn [fst snd] in XL, G0. rewrite <- G0 in H. clear G0. rename a0 into pts.
  fok H. unfold get_pars in G0. cbn [fs_pars] in G0. rewrite RP, MP, nth_error_app2 in G0 by lia. rewrite Nat.sub_diag in G0. cbn [nth_error] in G0. injection G0 as <- <-.
  fok H. unfold flift in G0. injection G0 as <- HE. fok H. unfold fget in G0. injection G0 as <- <-. unfold fret in H. injection H as <- <- <- <- <-. cbn [fs_w].
  unfold getitem, param_id_to_index in G. destruct (id_to_index (p_names p) pid) as [k|] eqn:IK; [|discriminate]. cbn [rbind] in G. unfold at_ in G.
  destruct (nth_error (p_values p) k) as [v0|] eqn:V; [|discriminate]. cbn [rbind] in G. destruct (nth_error (p_errors p) k) as [e0|] eqn:EE; [|discriminate]. cbn [rbind] in G. injection G as -> ->.
  apply xlinspace_ok in XL as (lo & hi & LO & HI & ->). destruct (finite_sub _ _ _ LO) as (v & y & -> & SY). destruct (finite_mul _ _ _ SY) as (sg & e & [= <-] & ->).
  simpl in LO, HI. injection LO as <-. injection HI as <-.
  assert (IK' : resolves names pid k) by (apply resolve_iff; congruence).
  assert (AG : agrees names ([] ++ (if fn then map CFix (nui_ids w0) else [])) a) by (rewrite CL; apply agrees_calls, agrees_new).
  pose proof (calls_kind names (min_new kind names (length ps)) (if fn then map CFix (nui_ids w0) else [])) as KD. rewrite <- CL in KD.
  rewrite CL in PL.
  exists f, kind, x, p, m, r, k, v, e. split; [reflexivity|]. split; [exact MC|]. split; [exact NX|]. split; [exact PL|]. split; [exact IK'|]. split; [exact V|]. split; [exact EE|].
  split; [do 3 f_equal; lra|]. split; [reflexivity|]. split; [exact HE|]. split; [reflexivity|]. split; [exact K1|]. split; [exact K5|]. split.
  - rewrite K3. destruct AG as (LB & B & _). apply nth_ext with (d := (None, None)) (d' := (None, None)); [now rewrite repeat_length|].
    intros j J. rewrite LB in J. rewrite nth_repeat. assert (Q : nth_error (m_bounds a) j = Some (None, None)).
    { apply B; [exact J|]. right. split; [|reflexivity]. cbn [app]. intros i' b' I'. destruct fn; [apply in_cfix_bounds in I'; contradiction|destruct I']. }
    apply nth_error_nth. exact Q.
  - rewrite K4. destruct kind; simpl in KD |- *; destruct (m_fixed a); try contradiction; reflexivity.
Qed.
