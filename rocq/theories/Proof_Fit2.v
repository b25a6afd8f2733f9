(** Proofs about TemplateFitter: which minimizations are started. *)
From Coq Require Import Reals String ZArith Bool Arith List Lra Lia.
From Verif Require Import Model_Num Model_Hist Model_Utility Model_Template Model_World Model_Ops Model_Minimizer Model_Fitter
  Spec_Min Spec_World Spec_Fit Proof_HistHeap Proof_Eval Proof_Route Proof_Min Proof_Fit.
Import ListNotations.
Local Open Scope R_scope.

(** ** configuration loops as sequences of calls *)
Lemma fix_all_calls names ids : forall m, (forall i, In i ids -> exists k, resolves names i k) -> fix_all names m ids = Ok (calls names m (map CFix ids)).
Proof.
  unfold fix_all. induction ids as [|i ids IH] using rev_ind; intros m H; [reflexivity|]. rewrite fold_left_app, map_app. unfold calls. rewrite fold_left_app.
  rewrite IH by (intros; apply H; apply in_or_app; auto). simpl. destruct (H i) as (k & R); [apply in_or_app; right; left; reflexivity|]. apply resolve_iff in R.
  unfold calls, set_param_fixed. rewrite R. reflexivity.
Qed.
Definition cbounds (ib : pid * bound) : mcall := CBounds (fst ib) (snd ib).
Lemma bound_all_calls names bs : forall m, (forall ib, In ib bs -> exists k, resolves names (fst ib) k) -> bound_all names m bs = Ok (calls names m (map cbounds bs)).
Proof.
  unfold bound_all. induction bs as [|i ids IH] using rev_ind; intros m H; [reflexivity|]. rewrite fold_left_app, map_app. unfold calls. rewrite fold_left_app.
  rewrite IH by (intros; apply H; apply in_or_app; auto). simpl. destruct (H i) as (k & R); [apply in_or_app; right; left; reflexivity|]. apply resolve_iff in R.
  unfold calls, set_param_bounds. rewrite R. reflexivity.
Qed.
Lemma calls_app names m l1 l2 : calls names m (l1 ++ l2) = calls names (calls names m l1) l2. Proof. apply fold_left_app. Qed.

Definition fit_calls (nuis : list pid) (fix_nui : bool) (lim : option bound) (fixed : list pid) (bs : list (pid * bound)) : list mcall :=
  (if fix_nui then map CFix nuis else []) ++ (match lim with Some b => map (fun j => CBounds j b) nuis | None => [] end) ++ map CFix fixed ++ map cbounds bs.

Lemma nui_ids_resolve w j : length (param_names w) = (length (w_procs w) + mct_num_nui w)%nat -> In j (nui_ids w) -> exists k, resolves (param_names w) j k.
Proof. intros L H. unfold nui_ids in H. apply in_map_iff in H as (k & <- & K). apply in_seq in K. exists k. split; [reflexivity|]. lia. Qed.
Lemma nui_ids_iff w k : length (param_names w) = (length (w_procs w) + mct_num_nui w)%nat ->
  (exists j, In j (nui_ids w) /\ resolves (param_names w) j k) <-> (length (w_procs w) <= k < length (param_names w))%nat.
Proof.
  intros L. split.
  - intros (j & H & R). unfold nui_ids in H. apply in_map_iff in H as (q & <- & Q). apply in_seq in Q. destruct R as (R & R'). apply Nat2Z.inj in R. lia.
  - intros K. exists (PInt (Z.of_nat k)). split; [|split; [reflexivity|lia]]. unfold nui_ids. apply (in_map (fun i => PInt (Z.of_nat i))). apply in_seq. lia.
Qed.

(** ** one fit *)
Section OneFit.
  Variables (E : ext) (i : nat) (f : fitter) (s : fstate) (k : min_kind) (x : list xr).
  Let w := fs_w s.
  Let names := param_names w.
  Hypothesis Hf : nth_error (fs_fitters s) i = Some f.
  Hypothesis Hk : minimizer_class (ft_id f) = Ok k.
  Hypothesis Hn : length names = (length (w_procs w) + mct_num_nui w)%nat.
  Hypothesis Hfix : forall p, In p (ft_fixed f) -> exists k, resolves names p k.
  Hypothesis Hb : forall pb, In pb (ft_bounds f) -> exists k, resolves names (fst pb) k.
  Hypothesis Hx : nll_x0 w = Ok x.

  (** running a minimizer with a new Parameters object *)
  Definition run_min (cl : list mcall) (g : bool) : world * (mstate * res mresult) :=
    play nll (minimize E x g (mk_mstate (pars_new names) (calls names (min_new k names (length (fs_pars s))) cl))) w.
  Lemma run_min_from cl g :
    minimize_from E (calls names (min_new k names (length (fs_pars s))) cl) x g (mk_fstate w (fs_pars s ++ [pars_new names]) (fs_fitters s)) =
    (mk_fstate (fst (run_min cl g)) (fs_pars s ++ [ms_p (fst (snd (run_min cl g)))]) (fs_fitters s),
     rmap (fun v => (ms_m (fst (snd (run_min cl g))), v)) (snd (snd (run_min cl g)))).
  Proof.
    unfold minimize_from. rewrite calls_params. simpl m_params. simpl fs_pars.
    rewrite nth_error_app2 by lia. rewrite Nat.sub_diag. simpl nth_error. simpl fs_w. unfold run_min.
    destruct (play nll _ w) as (w1 & st & r). simpl. f_equal. f_equal.
    clear. induction (fs_pars s); simpl; [reflexivity|]. f_equal. exact IHl.
  Qed.
  Lemma run_min_result cl g r : snd (snd (run_min cl g)) = Ok r -> r_params r = length (fs_pars s).
  Proof.
    unfold run_min. destruct (play nll _ w) as (w1 & st & r') eqn:P. simpl. intros ->. apply minimize_result in P. simpl in P. rewrite calls_params in P. exact P.
  Qed.
  Lemma fitcalls_nui (b : bool) : (if b then fix_all names (min_new k names (length (fs_pars s))) (nui_ids w) else Ok (min_new k names (length (fs_pars s)))) =
    Ok (calls names (min_new k names (length (fs_pars s))) (if b then map CFix (nui_ids w) else [])).
  Proof. destruct b; [|reflexivity]. apply fix_all_calls. intros j J. apply nui_ids_resolve; auto. Qed.

  Lemma do_fit_eq u g n lim :
    do_fit E i u g n lim s =
    let '(w1, (st, r)) := run_min (fit_calls (nui_ids w) n lim (ft_fixed f) (ft_bounds f)) g in
    let s1 := mk_fstate w1 (fs_pars s ++ [ms_p st]) (fs_fitters s) in
    match r with
    | Err e => (s1, Err e)
    | Ok r => (_ <~ (if u then on_world (update_parameters (p_values (ms_p st))) else fret tt) ;; fret r) s1
    end.
  Proof.
    unfold do_fit. unfold fbind at 1. unfold get_fitter. rewrite Hf. unfold fbind at 1, fget at 1. unfold fbind at 1, fget at 1.
    unfold fbind at 1, new_minimizer. rewrite Hk. fold w. fold names.
    unfold fbind at 1, flift at 1. rewrite fitcalls_nui.
    set (m0 := min_new k names (length (fs_pars s))).
    assert (B : (match lim with Some b => bound_all names (calls names m0 (if n then map CFix (nui_ids w) else [])) (map (fun j => (j, b)) (nui_ids w)) | None => Ok (calls names m0 (if n then map CFix (nui_ids w) else [])) end)
       = Ok (calls names m0 ((if n then map CFix (nui_ids w) else []) ++ match lim with Some b => map (fun j => CBounds j b) (nui_ids w) | None => [] end))).
    { destruct lim as [b|]; [|now rewrite app_nil_r]. rewrite bound_all_calls.
      - rewrite map_map, calls_app. reflexivity.
      - intros ib H. apply in_map_iff in H as (j & <- & J). apply nui_ids_resolve; auto. }
    unfold fbind at 1, flift at 1. rewrite B. unfold fbind at 1, flift at 1. rewrite fix_all_calls by exact Hfix.
    unfold fbind at 1, flift at 1. rewrite bound_all_calls by exact Hb. rewrite <- !calls_app. 
    match goal with |- context [calls names m0 ?L] => replace L with (fit_calls (nui_ids w) n lim (ft_fixed f) (ft_bounds f)) by (unfold fit_calls; rewrite <- ?app_assoc; reflexivity) end.
    unfold fbind at 1, x0 at 1. cbn [fs_w]. rewrite Hx. unfold m0. unfold fbind at 1. rewrite run_min_from.
    set (cl := fit_calls _ _ _ _ _). pose proof (run_min_result cl g) as RR.
    destruct (run_min cl g) as (w1 & st & r). simpl in *. destruct r as [r|e]; simpl; [|reflexivity].
    unfold fbind at 1, get_pars. cbn [fs_pars]. rewrite (RR r eq_refl). rewrite nth_error_app2 by lia. rewrite Nat.sub_diag. reflexivity.
  Qed.
End OneFit.

(** ** starting Minuit / scipy *)
Lemma minimize_iminuit_starts x g p m fl : m_fixed m = Flags fl ->
  exists rest, forall mi sl he iv, minimize (mk_ext mi sl he iv) x g (mk_mstate p m) =
    pbind (mi (mk_margs x (map (xmul (Fin (5 / 100))) x) (1 / 2) fl (p_names p) (m_bounds m))) rest.
Proof.
  intros MF. eexists. intros mi sl he iv. unfold minimize. unfold mbind at 1. unfold mget at 1. cbn [pbind ms_m]. rewrite MF.
  unfold minimize_iminuit. unfold mbind at 1. unfold mget at 1. cbn [pbind ms_m]. unfold mbind at 1. unfold mget at 1. cbn [pbind ms_p].
  unfold mbind at 1. unfold mplay. cbn [ex_minuit]. rewrite pbind_assoc. cbn [pbind]. reflexivity.
Qed.
Lemma minimize_scipy_starts x g p m fl : m_fixed m = Indices fl ->
  exists rest, forall mi sl he iv, minimize (mk_ext mi sl he iv) x g (mk_mstate p m) = pbind (sl x (m_bounds m) (create_constraints x fl)) (rest he iv).
Proof.
  intros MF. eexists (fun he iv => _). intros mi sl he iv. unfold minimize. unfold mbind at 1. unfold mget at 1. cbn [pbind ms_m]. rewrite MF.
  unfold minimize_scipy. unfold mbind at 1. unfold mget at 1. cbn [pbind ms_m]. 
  unfold mbind at 1. unfold mplay at 1. cbn [ex_slsqp]. rewrite pbind_assoc. cbn [pbind ex_hessian ex_inv]. reflexivity.
Qed.

(** ** calls without release *)
Lemma fixed_by_norel names l k : ~ In CRelease l -> fixed_by names l k <-> exists i, In (CFix i) l /\ resolves names i k.
Proof.
  intros N. split.
  - intros (l1 & i & l2 & -> & R & _). exists i. split; [apply in_or_app; right; left; reflexivity|exact R].
  - intros (i & H & R). apply in_split in H as (l1 & l2 & ->). exists l1, i, l2. repeat split; auto. intros H. apply N. apply in_or_app. right. right. exact H.
Qed.
Lemma bounds_by_app names l l' k b : (forall i b', In (CBounds i b') l' -> ~ resolves names i k) -> bounds_by names (l ++ l') k b <-> bounds_by names l k b.
Proof.
  induction l' as [|c l' IH] using rev_ind; intros H; [now rewrite app_nil_r|]. rewrite app_assoc, bounds_by_snoc.
  assert (X : bounds_by names (l ++ l') k b <-> bounds_by names l k b) by (apply IH; intros; apply (H i b'); apply in_or_app; auto).
  destruct c as [i|i b'|]; auto. assert (~ resolves names i k) by (apply (H i b'); apply in_or_app; right; left; reflexivity). rewrite X. tauto.
Qed.
Lemma in_cfix_bounds ids i b : ~ In (CBounds i b) (map CFix ids).
Proof. intros H. apply in_map_iff in H as (? & ? & _). discriminate. Qed.

(** ** the dictionary of bounds *)
Lemma pid_eqb_refl p : pid_eqb p p = true.
Proof. destruct p as [s|z|[]|]; simpl; auto; [unfold pid_eqb; simpl; apply String.eqb_refl|unfold pid_eqb; simpl; apply Z.eqb_refl]. Qed.
Definition pnum (p : pid) : option Z := match p with PInt z => Some z | PBool true => Some 1%Z | PBool false => Some 0%Z | _ => None end.
Lemma pid_eqb_iff p q : pid_eqb p q = true <-> match pnum p, pnum q with Some a, Some b => a = b | None, None => p = q | _, _ => False end.
Proof.
  destruct p as [s|z|[]|], q as [s'|z'|[]|]; unfold pid_eqb; simpl; try (split; [discriminate|tauto]); try (split; [discriminate|congruence]); try (split; [auto|reflexivity]);
   try (rewrite String.eqb_eq; split; congruence); try (rewrite Z.eqb_eq; split; auto); try (rewrite <- Z.eqb_eq; reflexivity); try tauto.
Qed.
Lemma pid_eqb_sym p q : pid_eqb p q = pid_eqb q p.
Proof.
  destruct (pid_eqb p q) eqn:A, (pid_eqb q p) eqn:B; auto; [apply pid_eqb_iff in A|apply pid_eqb_iff in B]; rewrite <- ?A, <- ?B.
  - assert (X : pid_eqb q p = true); [|congruence]. apply pid_eqb_iff. destruct (pnum p), (pnum q); auto.
  - assert (X : pid_eqb p q = true); [|congruence]. apply pid_eqb_iff. destruct (pnum p), (pnum q); auto.
Qed.
Lemma pid_eqb_trans p q r : pid_eqb p q = true -> pid_eqb q r = true -> pid_eqb p r = true.
Proof. rewrite !pid_eqb_iff. destruct (pnum p), (pnum q), (pnum r); intros; try tauto; congruence. Qed.
Lemma pid_eqb_resolves names p q k : pid_eqb p q = true -> resolves names p k <-> resolves names q k.
Proof.
  rewrite pid_eqb_iff. destruct p as [s|z|[]|], q as [s'|z'|[]|]; simpl; intros H; try tauto; try discriminate; try (injection H as ->); subst; try tauto;
  split; intros (A & B); split; auto; lia.
Qed.

Definition distinct_keys (d : list (pid * bound)) : Prop := ForallOrdPairs (fun a b => pid_eqb (fst a) (fst b) = false) d.
Lemma dset_in (d : list (pid * bound)) p b q v : In (q, v) (dset pid_eqb d p b) -> (q, v) = (p, b) \/ In (q, v) d \/ (v = b /\ exists v', In (q, v') d).
Proof.
  induction d as [|(q0, v0) d IH]; simpl.
  - intros [H|[]]; auto.
  - destruct (pid_eqb p q0); simpl; intros [H|H].
    + injection H as <- <-. right. right. split; [reflexivity|]. exists v0. auto.
    + auto.
    + auto.
    + destruct (IH H) as [X|[X|(X & v' & Y)]]; eauto 6.
Qed.
Lemma dset_distinct d p b : distinct_keys d -> distinct_keys (dset pid_eqb d p b).
Proof.
  unfold distinct_keys. induction d as [|(q0, v0) d IH]; intros H; simpl.
  - constructor; constructor.
  - inversion H as [|? ? F D]; subst. destruct (pid_eqb p q0) eqn:E.
    + constructor; [|exact D]. exact F.
    + constructor; [|apply IH; exact D]. simpl. apply Forall_forall. intros (q, v) Q. simpl. rewrite Forall_forall in F. apply dset_in in Q as [Q|[Q|(_ & v' & Q)]].
      * injection Q as -> _. rewrite pid_eqb_sym. exact E.
      * apply (F _ Q).
      * apply (F _ Q).
Qed.
Lemma dget_dset_pid (d : list (pid * bound)) p b q : dget pid_eqb (dset pid_eqb d p b) q = if pid_eqb q p then Some b else dget pid_eqb d q.
Proof.
  induction d as [|(q0, v0) d IH]; simpl; [reflexivity|]. destruct (pid_eqb p q0) eqn:E; simpl.
  - destruct (pid_eqb q q0) eqn:A; destruct (pid_eqb q p) eqn:B; auto.
    + assert (X : pid_eqb q p = true); [|congruence]. eapply pid_eqb_trans; [exact A|]. rewrite pid_eqb_sym. exact E.
    + assert (X : pid_eqb q q0 = true); [|congruence]. eapply pid_eqb_trans; eauto.
  - rewrite IH. destruct (pid_eqb q q0) eqn:A; destruct (pid_eqb q p) eqn:B; auto.
    assert (X : pid_eqb p q0 = true); [|congruence]. eapply pid_eqb_trans; [|exact A]. rewrite pid_eqb_sym. exact B.
Qed.
Lemma dict_of_keys cs : forall d q v, In (q, v) (dict_of d cs) -> (exists v', In (q, v') d) \/ exists v', In (q, v') cs.
Proof.
  induction cs as [|(p, b) cs IH]; intros d q v H; simpl in *; [eauto|]. apply IH in H as [(v' & H)|(v' & H)]; [|eauto].
  apply dset_in in H as [H|[H|(_ & v'' & H)]]; [injection H as -> ->|..]; eauto.
Qed.
Lemma dict_of_distinct cs : forall d, distinct_keys d -> distinct_keys (dict_of d cs).
Proof. induction cs as [|(p, b) cs IH]; intros d H; simpl; [exact H|]. apply IH. now apply dset_distinct. Qed.
Lemma dict_of_get cs : forall d q, (forall p b, In (p, b) cs -> pid_eqb q p = false) -> dget pid_eqb (dict_of d cs) q = dget pid_eqb d q.
Proof.
  induction cs as [|(p, b) cs IH]; intros d q H; simpl; [reflexivity|]. rewrite IH by (intros; apply (H p0 b0); now right). rewrite dget_dset_pid.
  rewrite (H p b) by now left. reflexivity.
Qed.
Lemma dget_in (d : list (pid * bound)) q b : dget pid_eqb d q = Some b -> exists d1 q' d2, d = d1 ++ (q', b) :: d2 /\ pid_eqb q q' = true.
Proof.
  induction d as [|(q0, v0) d IH]; simpl; [discriminate|]. destruct (pid_eqb q q0) eqn:E.
  - intros [= ->]. exists [], q0, d. auto.
  - intros H. apply IH in H as (d1 & q' & d2 & -> & X). exists ((q0, v0) :: d1), q', d2. auto.
Qed.
Lemma distinct_app d1 a d2 b : distinct_keys (d1 ++ a :: d2) -> In b d2 -> pid_eqb (fst a) (fst b) = false.
Proof.
  unfold distinct_keys. induction d1 as [|c d1 IH]; simpl; intros H I.
  - inversion H as [|? ? F _]; subst. rewrite Forall_forall in F. auto.
  - inversion H; subst. auto.
Qed.
