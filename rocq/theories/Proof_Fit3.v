(** Proofs about TemplateFitter: what a fitter configured by a history hands to its minimizer. *)
From Coq Require Import Reals String ZArith Bool Arith List Lra Lia.
From Verif Require Import Model_Num Model_Hist Model_Utility Model_Template Model_World Model_Ops Model_Minimizer Model_Fitter
  Spec_Matrix Spec_Min Spec_World Spec_Fit Proof_HistHeap Proof_Eval Proof_Route Proof_Min Proof_Fit Proof_Fit2 Prop_World.
Import ListNotations.
Local Open Scope R_scope.

Lemma resolves_dec names i k : {resolves names i k} + {~ resolves names i k}.
Proof.
  destruct (id_to_index names i) as [j|e] eqn:E.
  - apply resolve_iff in E. destruct (Nat.eq_dec j k) as [->|N]; [left; exact E|right]. intros H. apply N. eapply resolves_fun; eauto.
  - right. intros H. apply resolve_iff in H. congruence.
Qed.
Lemma bounds_by_const names l k b : (forall i b', In (CBounds i b') l -> b' = b) -> (exists i b', In (CBounds i b') l /\ resolves names i k) -> bounds_by names l k b.
Proof.
  induction l as [|c l IH] using rev_ind; intros H (i & b' & I & R); [destruct I|]. apply bounds_by_snoc.
  assert (X : forall i b', In (CBounds i b') l -> b' = b) by (intros; apply (H i0); apply in_or_app; auto).
  apply in_app_or in I as [I|[I|[]]].
  - destruct c as [j|j b2|]; eauto. destruct (resolves_dec names j k) as [Y|Y]; [left|right; split; eauto].
    split; [exact Y|]. symmetry. apply (H j). apply in_or_app. right. left. reflexivity.
  - subst c. left. split; [exact R|]. symmetry. apply (H i). apply in_or_app. right. left. reflexivity.
Qed.
Lemma in_fixed_of i l p : In p (fixed_of i l) <-> In (FFixed i p) l.
Proof.
  unfold fixed_of. rewrite in_flat_map. split.
  - intros (o & O & H). destruct o; simpl in H; try contradiction. destruct (Nat.eqb_spec i0 i) as [->|]; [|destruct H]. destruct H as [->|[]]. exact O.
  - intros O. exists (FFixed i p). split; [exact O|]. simpl. rewrite Nat.eqb_refl. left. reflexivity.
Qed.
Lemma in_bounds_calls i l p b : In (p, b) (bounds_calls i l) <-> In (FBounds i p b) l.
Proof.
  unfold bounds_calls. rewrite in_flat_map. split.
  - intros (o & O & H). destruct o; simpl in H; try contradiction. destruct (Nat.eqb_spec i0 i) as [->|]; [|destruct H]. destruct H as [[= -> ->]|[]]. exact O.
  - intros O. exists (FBounds i p b). split; [exact O|]. simpl. rewrite Nat.eqb_refl. left. reflexivity.
Qed.
Lemma bounds_calls_app i l1 l2 : bounds_calls i (l1 ++ l2) = bounds_calls i l1 ++ bounds_calls i l2. Proof. apply flat_map_app. Qed.

(** the fitter created by FNew id after l0 *)
Lemma fitter_created inv l0 id l : exists f, nth_error (fs_fitters (freached inv (l0 ++ FNew id :: l))) (num_fitters l0) = Some f /\
  ft_id f = id /\ ft_fixed f = fixed_of (num_fitters l0) l /\ ft_bounds f = dict_of [] (bounds_calls (num_fitters l0) l).
Proof.
  unfold freached. rewrite frun_app. pose proof (fitters_count inv l0 fstate_init) as C. simpl in C. set (s := frun inv l0 fstate_init) in *.
  change (frun inv (FNew id :: l) s) with (frun inv l (fst (fstep inv (FNew id) s))).
  destruct (fitter_history inv (num_fitters l0) l (fst (fstep inv (FNew id) s)) (mk_fitter id [] [] false)) as (f & A & B & D & E0).
  { rewrite fstep_fitters. rewrite nth_error_app2 by lia. rewrite <- C, Nat.sub_diag. reflexivity. }
  exists f. auto.
Qed.
(** facts about the templates *)
Lemma names_length inv l : inv_spec inv -> length (param_names (fs_w (freached inv l))) = (length (w_procs (fs_w (freached inv l))) + mct_num_nui (fs_w (freached inv l)))%nat /\
  length (param_names (fs_w (freached inv l))) = num_params (fs_w (freached inv l)).
Proof. intros I. destruct (freached_world inv l) as (l' & ->). destruct (C30_aligned inv l' I) as (A & B & _). split; [congruence|exact B]. Qed.

Section Requests.
  Variables (names : list string) (l : list fop) (i : nat) (nuis : list pid).
  Let fixed := fixed_of i l.
  Let bs := dict_of [] (bounds_calls i l).
  Lemma requests_fixed n lim k : fixed_by names (fit_calls nuis n lim fixed bs) k <->
    (n = true /\ exists j, In j nuis /\ resolves names j k) \/ exists p, In (FFixed i p) l /\ resolves names p k.
  Proof.
    rewrite fixed_by_norel.
    - unfold fit_calls. split.
      + intros (j & H & R). apply in_app_or in H as [H|H]; [|apply in_app_or in H as [H|H]; [|apply in_app_or in H as [H|H]]].
        * destruct n; [|destruct H]. apply in_map_iff in H as (j' & [= ->] & J). left. split; [reflexivity|eauto].
        * destruct lim; [|destruct H]. apply in_map_iff in H as (? & ? & _). discriminate.
        * apply in_map_iff in H as (j' & [= ->] & J). right. exists j. split; [apply in_fixed_of; exact J|exact R].
        * apply in_map_iff in H as (? & ? & _). discriminate.
      + intros [(-> & j & J & R)|(p & P & R)].
        * exists j. split; [|exact R]. apply in_or_app. left. now apply in_map.
        * exists p. split; [|exact R]. apply in_or_app. right. apply in_or_app. right. apply in_or_app. left. apply in_map. now apply in_fixed_of.
    - unfold fit_calls. intros H. apply in_app_or in H as [H|H]; [|apply in_app_or in H as [H|H]; [|apply in_app_or in H as [H|H]]].
      + destruct n; [|destruct H]. apply in_map_iff in H as (? & ? & _). discriminate.
      + destruct lim; [|destruct H]. apply in_map_iff in H as (? & ? & _). discriminate.
      + apply in_map_iff in H as (? & ? & _). discriminate.
      + apply in_map_iff in H as (? & ? & _). discriminate.
  Qed.
  Lemma bs_keys q v : In (q, v) bs -> exists v', In (FBounds i q v') l.
  Proof. intros H. apply dict_of_keys in H as [(v' & [])|(v' & H)]. exists v'. now apply in_bounds_calls. Qed.
  Lemma requests_last n lim k b : consistent_ids names l i -> last_bounds names l i k b -> bounds_by names (fit_calls nuis n lim fixed bs) k b.
  Proof.
    intros CI (l1 & p & l2 & EL & R & N).
    assert (G : dget pid_eqb bs p = Some b).
    { unfold bs. rewrite EL, bounds_calls_app. unfold dict_of. rewrite fold_left_app. 
      assert (B : bounds_calls i (FBounds i p b :: l2) = (p, b) :: bounds_calls i l2) by (unfold bounds_calls; simpl; rewrite Nat.eqb_refl; reflexivity).
      rewrite B. simpl. fold (dict_of [] (bounds_calls i l1)). fold (dict_of (dset pid_eqb (dict_of [] (bounds_calls i l1)) p b) (bounds_calls i l2)).
      rewrite dict_of_get.
      - rewrite dget_dset_pid, pid_eqb_refl. reflexivity.
      - intros q v Q. apply in_bounds_calls in Q. destruct (pid_eqb p q) eqn:E; [|reflexivity]. exfalso. apply (N q v Q). apply (pid_eqb_resolves names p q k); assumption. }
    apply dget_in in G as (d1 & q & d2 & ED & QE).
    left. exists ((if n then map CFix nuis else []) ++ match lim with Some b => map (fun j => CBounds j b) nuis | None => [] end ++ map CFix fixed ++ map cbounds d1), q, (map cbounds d2).
    split; [unfold fit_calls; rewrite ED, map_app; simpl; rewrite <- ?app_assoc; destruct n, lim; reflexivity|].
    assert (RQ : resolves names q k) by (apply (pid_eqb_resolves names p q k); assumption). split; [exact RQ|].
    intros q2 b2 H R2. apply in_map_iff in H as ((q3 & b3) & E3 & I3). unfold cbounds in E3. simpl in E3. injection E3 as -> ->.
    assert (DK : distinct_keys bs) by (apply dict_of_distinct; constructor). rewrite ED in DK.
    pose proof (distinct_app _ _ _ _ DK I3) as NE. simpl in NE.
    destruct (bs_keys q b) as (v1 & V1); [rewrite ED; apply in_or_app; right; left; reflexivity|].
    destruct (bs_keys q2 b2) as (v2 & V2); [rewrite ED; apply in_or_app; right; right; exact I3|].
    rewrite (CI q v1 q2 v2 k V1 V2 RQ R2) in NE. discriminate.
  Qed.
  Lemma requests_none n lim k : no_bounds names l i k ->
    (forall b, lim = Some b -> (exists j, In j nuis /\ resolves names j k) -> bounds_by names (fit_calls nuis n lim fixed bs) k b) /\
    (lim = None \/ (~ exists j, In j nuis /\ resolves names j k) -> bounds_by names (fit_calls nuis n lim fixed bs) k (None, None)).
  Proof.
    intros NB.
    assert (T : forall j b', In (CBounds j b') (map CFix fixed ++ map cbounds bs) -> ~ resolves names j k).
    { intros j b' H R. apply in_app_or in H as [H|H]; [now apply in_cfix_bounds in H|]. apply in_map_iff in H as ((q & v) & E & Q). unfold cbounds in E. simpl in E. injection E as -> ->.
      apply bs_keys in Q as (v' & Q). exact (NB _ _ Q R). }
    unfold fit_calls. rewrite app_assoc. split.
    - intros b -> (j & J & R). apply bounds_by_app; [exact T|]. apply bounds_by_const.
      + intros q b' H. apply in_app_or in H as [H|H]; [destruct n; [now apply in_cfix_bounds in H|destruct H]|]. apply in_map_iff in H as (? & [= _ ->] & _). reflexivity.
      + exists j, b. split; [|exact R]. apply in_or_app. right. apply (in_map (fun j => CBounds j b)). exact J.
    - intros H. apply bounds_by_app; [exact T|]. right. split; [|reflexivity].
      intros q b' Q. apply in_app_or in Q as [Q|Q]; [destruct n; [now apply in_cfix_bounds in Q|destruct Q]|].
      destruct lim as [b|]; [|destruct Q]. destruct H as [H|H]; [discriminate|]. apply in_map_iff in Q as (j & [= -> _] & J). intros R. apply H. eauto.
  Qed.
End Requests.

(** the minimization started by do_fit *)
Section Starts.
  Variables (inv : mat -> res mat) (l0 : list fop) (id : string) (l : list fop) (x : list xr).
  Hypothesis I : inv_spec inv.
  Let s := freached inv (l0 ++ FNew id :: l).
  Let i := num_fitters l0.
  Let w := fs_w s.
  Let names := param_names w.
  Hypothesis Hr : all_resolve names l i.
  Hypothesis Hx : nll_x0 w = Ok x.
  Definition the_calls n lim := fit_calls (nui_ids w) n lim (fixed_of i l) (dict_of [] (bounds_calls i l)).
  Definition after_min (u : bool) (q : world * (mstate * res mresult)) : fstate * res mresult :=
    let '(w1, (st, r)) := q in
    let s1 := mk_fstate w1 (fs_pars s ++ [ms_p st]) (fs_fitters s) in
    match r with
    | Err e => (s1, Err e)
    | Ok r => (_ <~ (if u then on_world (update_parameters (p_values (ms_p st))) else fret tt) ;; fret r) s1
    end.
  Lemma starts_eq k E u g n lim : minimizer_class id = Ok k ->
    do_fit E i u g n lim s = after_min u (run_min E s k x (the_calls n lim) g).
  Proof.
    intros Hk. destruct (fitter_created inv l0 id l) as (f & F1 & F2 & F3 & F4). fold s in F1. fold i in F1, F3, F4.
    destruct (names_length inv (l0 ++ FNew id :: l) I) as (N1 & _). fold s w names in N1. unfold the_calls. rewrite <- F3, <- F4.
    rewrite (do_fit_eq E i f s k x).
    - reflexivity.
    - exact F1.
    - rewrite F2. exact Hk.
    - exact N1.
    - rewrite F3. intros p P. apply (proj1 Hr). apply in_fixed_of. exact P.
    - rewrite F4. intros (p, b) P. simpl. apply (bs_keys l i) in P as (v & P). apply (proj2 Hr p v). exact P.
    - exact Hx.
  Qed.
  Lemma starts_iminuit u g n lim : lower id = "iminuit"%string ->
    exists args rest, (forall mi sl he iv, do_fit (mk_ext mi sl he iv) i u g n lim s = rest (play nll (mi args) w)) /\
      ma_start args = x /\ ma_name args = names /\ ma_errordef args = 1 / 2 /\ ma_error args = map (xmul (Fin (5 / 100))) x /\
      length (ma_fix args) = length names /\ length (ma_limit args) = length names /\
      (forall k, (k < length names)%nat -> nth_error (ma_fix args) k = Some true <-> fixed_by names (the_calls n lim) k) /\
      (forall k b, (k < length names)%nat -> nth_error (ma_limit args) k = Some b <-> bounds_by names (the_calls n lim) k b).
  Proof.
    intros ID. assert (Hk : minimizer_class id = Ok IMinuit) by (unfold minimizer_class; rewrite ID; reflexivity).
    set (a := length (fs_pars s)). set (m := calls names (min_new IMinuit names a) (the_calls n lim)).
    pose proof (agrees_calls names [] _ (the_calls n lim) (agrees_new IMinuit names a)) as (LB & B & FX). fold m in LB, B, FX. cbn [app] in B, FX.
    pose proof (calls_kind names (min_new IMinuit names a) (the_calls n lim)) as KD. fold m in KD. simpl in KD. destruct (m_fixed m) as [fl|fl] eqn:MF; [|destruct KD].
    destruct FX as (LF & FX). destruct (minimize_iminuit_starts x g (pars_new names) m fl MF) as (rest & RS).
    exists (mk_margs x (map (xmul (Fin (5 / 100))) x) (1 / 2) fl names (m_bounds m)), (fun q => after_min u (play nll (rest (snd q)) (fst q))).
    split.
    - intros mi sl he iv. rewrite (starts_eq _ _ u g n lim Hk). unfold run_min. fold w names a m. rewrite RS, play_pbind. simpl p_names. destruct (play nll _ w); reflexivity.
    - simpl. auto 12.
  Qed.
  Lemma starts_scipy u g n lim : lower id = "scipy"%string ->
    exists limits fl rest, (forall mi sl he iv, do_fit (mk_ext mi sl he iv) i u g n lim s = rest he iv (play nll (sl x limits (create_constraints x fl)) w)) /\
      length limits = length names /\
      (forall k, In k fl <-> fixed_by names (the_calls n lim) k) /\
      (forall k b, (k < length names)%nat -> nth_error limits k = Some b <-> bounds_by names (the_calls n lim) k b) /\
      Indices fl = m_fixed (calls names (min_new Scipy names (length (fs_pars s))) (the_calls n lim)).
  Proof.
    intros ID. assert (Hk : minimizer_class id = Ok Scipy) by (unfold minimizer_class; rewrite ID; reflexivity).
    set (a := length (fs_pars s)). set (m := calls names (min_new Scipy names a) (the_calls n lim)).
    pose proof (agrees_calls names [] _ (the_calls n lim) (agrees_new Scipy names a)) as (LB & B & FX). fold m in LB, B, FX. cbn [app] in B, FX.
    pose proof (calls_kind names (min_new Scipy names a) (the_calls n lim)) as KD. fold m in KD. simpl in KD. destruct (m_fixed m) as [fl|fl] eqn:MF; [destruct KD|].
    destruct (minimize_scipy_starts x g (pars_new names) m fl MF) as (rest & RS).
    exists (m_bounds m), fl, (fun he iv q => after_min u (play nll (rest he iv (snd q)) (fst q))).
    split.
    - intros mi sl he iv. rewrite (starts_eq _ _ u g n lim Hk). unfold run_min. fold w names a m. rewrite RS, play_pbind. destruct (play nll _ w); reflexivity.
    - auto.
  Qed.
End Starts.
