(** Property theorems C10 and C66: arrays shared between the caller and histograms.  [h_run hs_init l]
    is the state after an arbitrary history of calls; [s_mine] are the arrays the caller holds, [view]
    is what the properties of a histogram return. *)
From Coq Require Import Reals String ZArith Bool Arith List Lra Lia.
From Verif Require Import Model_Num Model_Hist Model_HistHeap Spec_HistHeap Proof_Hist Proof_HistHeap.
Import ListNotations.
Local Open Scope R_scope.

(** C10, for histograms made by a constructor or a projection: fill() changes no array of the caller and
    no other histogram, unless the caller took the histogram's own bin_counts array. *)
Theorem C10_constructed_histograms_partial : forall l1 op l2 f,
  let s0 := h_run hs_init l1 in
  let k := length (s_objs s0) in
  is_ctor op -> snd (h_step s0 op) = Ok tt -> Forall (no_take k) l2 -> is_fill k f ->
  let s := h_run hs_init (l1 ++ op :: l2) in
  let s' := fst (h_step s f) in
  (forall a, In a (s_mine s) -> buf s' a = buf s a) /\
  (forall j o, j <> k -> nth_error (s_objs s) j = Some o ->
     nth_error (s_objs s') j = Some o /\ view s' o = view s o).
Proof.
  intros l1 op l2 f s0 k C OK NT F s s'.
  assert (I0 : HInv s0) by apply run_inv, init_inv.
  destruct (ctor_object s0 op I0 C OK) as (o & O & AC & M).
  assert (I1 : HInv (fst (h_step s0 op))) by (eapply eff_inv; [exact I0|now apply step_eff]).
  destruct (run_object l2 _ k o I1 O) as (o' & O' & SA & _ & P).
  assert (ES : s = h_run (fst (h_step s0 op)) l2) by (unfold s; rewrite run_app; reflexivity).
  rewrite <- ES in *. assert (I2 : HInv s) by apply run_inv, init_inv.
  assert (NP : ~ In (ho_counts o') (s_mine s)).
  { apply P; auto. rewrite M, AC. now apply in_lt_mine. }
  destruct (fill_frame s f k o' I2 F O') as (_ & F2 & F3 & F4). split.
  - intros a H. apply F3; auto. intros ->. auto.
  - intros j oj N OJ. fold s'. split; [unfold s'; rewrite F2; auto|]. apply (F4 j); auto.
    + intros X. apply NP. eapply (hi_addr s I2); eauto.
    + intros X. destruct (hi_priv s I2 k j o' oj O' OJ) as (_ & _ & Z). apply Z; auto.
Qed.
Print Assumptions C10_constructed_histograms_partial.

(** C10, for histograms made by from_binned_data from the array c: fill() changes no array of the
    caller but c, and no histogram that was not given c. *)
Theorem C10_binned_histograms_partial : forall l1 op l2 f c,
  let s0 := h_run hs_init l1 in
  let k := length (s_objs s0) in
  is_from c op -> snd (h_step s0 op) = Ok tt -> is_fill k f ->
  let s := h_run hs_init (l1 ++ op :: l2) in
  let s' := fst (h_step s f) in
  (forall a, In a (s_mine s) -> a <> c -> buf s' a = buf s a) /\
  (forall j o, j <> k -> nth_error (s_objs s) j = Some o ->
     ho_counts o <> c -> ~ In (ERef c) (ho_edges o) ->
     nth_error (s_objs s') j = Some o /\ view s' o = view s o).
Proof.
  intros l1 op l2 f c s0 k C OK F s s'.
  assert (I0 : HInv s0) by apply run_inv, init_inv.
  destruct (from_object s0 op c C OK) as (o & O & AC).
  assert (I1 : HInv (fst (h_step s0 op))) by (eapply eff_inv; [exact I0|now apply step_eff]).
  destruct (run_object l2 _ k o I1 O) as (o' & O' & (_ & SA & _) & _).
  assert (ES : s = h_run (fst (h_step s0 op)) l2) by (unfold s; rewrite run_app; reflexivity).
  rewrite <- ES in *. assert (I2 : HInv s) by apply run_inv, init_inv.
  destruct (fill_frame s f k o' I2 F O') as (_ & F2 & F3 & F4).
  rewrite <- SA, AC in *. split; [exact F3|].
  intros j oj N OJ NC NE. fold s'. split; [unfold s'; rewrite F2; auto|]. apply (F4 j); auto.
Qed.
Print Assumptions C10_binned_histograms_partial.

(** C10 is false: a histogram made by from_binned_data writes into the caller's array, and a second
    histogram made from the same array changes with it.  The arrays: 0 counts, 1 edges, 2 data. *)
Definition ex_shared : list h_op :=
  [HArray (mk_nd [1%nat] [Fin 5]); HArray (mk_nd [2%nat] [Fin 0; Fin 1]); HArray (mk_nd [1%nat] [Fin (1/2)]);
   HFrom1 0 1 None; HFrom1 0 1 None].
Theorem C10_no_write_refuted :
  exists l f, let s := h_run hs_init l in let s' := fst (h_step s f) in
  is_fill 0 f /\ snd (h_step s f) = Ok tt /\ In 0%nat (s_mine s) /\
  buf s 0 = Some (mk_nd [1%nat] [Fin 5]) /\ buf s' 0 = Some (mk_nd [1%nat] [Fin (5 + 1)]) /\
  exists o h h', nth_error (s_objs s) 1 = Some o /\ view s o = Some h /\ view s' o = Some h' /\
    nd_flat (h_counts h) = [Fin 5] /\ nd_flat (h_counts h') = [Fin (5 + 1)].
Proof.
  exists ex_shared, (HFill1 0 2 None).
  assert (B : bin_number (1/2) [0; 1] = 1%nat).
  { unfold bin_number, digitize. simpl. destruct (Rleb_spec 0 (1/2)); [|lra]. destruct (Rleb_spec 1 (1/2)); [lra|].
    simpl. destruct (Reqb_spec (1/2) 1); [lra|reflexivity]. }
  assert (S : strictly_increasing [0; 1] = true) by (simpl; destruct (Rltb_spec 0 1); [reflexivity|lra]).
  assert (Q : binned_statistic [0; 1] [1/2] [1] = Ok [Fin (1 + 0)]).
  { unfold binned_statistic. rewrite S. cbn [length Nat.ltb Nat.leb orb negb Nat.eqb map]. rewrite B. reflexivity. }
  assert (F : forall h, h_edges h = [mk_edges false [0; 1]] -> h_counts h = mk_nd [1%nat] [Fin 5] ->
     (exists e, h_errs_sq h = mk_nd [1%nat] [e]) ->
     exists e, hist1_fill h [1/2] WNone = (set_filled (set_errs (set_counts h (mk_nd [1%nat] [Fin (5 + (1 + 0))])) e), Ok tt)).
  { intros h He Hc (e & Hq). unfold hist1_fill, edges_nth, fill_with. rewrite He. cbn [nth e_vals length resolve_weights repeat].
    change (map (fun x => x * x) [1]) with [1 * 1]. rewrite Rmult_1_r, Q, Hc. unfold set_counts; rewrite Hq.
    cbn. eexists. reflexivity. }
  set (h := mk_hist K1 [mk_edges false [0; 1]] [1%nat] [1%nat] [(0, 1)] (mk_nd [1%nat] [Fin 5]) (mk_nd [1%nat] [xsq (xsqrt (Fin 5))]) false).
  assert (V : view (h_run hs_init ex_shared) (mk_hobj K1 [ERef 1] [1%nat] [1%nat] [(0, 1)] 0 3 false) = Some h) by reflexivity.
  destruct (F h eq_refl eq_refl (ex_intro _ _ eq_refl)) as (e & FE).
  assert (ST : h_step (h_run hs_init ex_shared) (HFill1 0 2 None) =
    (write_back (h_run hs_init ex_shared) 0 (mk_hobj K1 [ERef 1] [1%nat] [1%nat] [(0, 1)] 0 3 false)
       (set_filled (set_errs (set_counts h (mk_nd [1%nat] [Fin (5 + (1 + 0))])) e)), Ok tt)).
  { unfold h_step. change (nth_error (s_objs (h_run hs_init ex_shared)) 0) with (Some (mk_hobj K1 [ERef 1] [1%nat] [1%nat] [(0, 1)] 0 3 false)).
    cbv iota. rewrite V. change (arg (h_run hs_init ex_shared) 2) with (Some [1/2]). cbn [weights_of]. rewrite FE. reflexivity. }
  cbv zeta. rewrite ST. replace (5 + 1) with (5 + (1 + 0)) by lra.
  split; [reflexivity|split; [reflexivity|split; [simpl; auto|split; [reflexivity|split; [reflexivity|]]]]].
  eexists. eexists. eexists. repeat split.
Qed.
Print Assumptions C10_no_write_refuted.

(** C66: a histogram depends on later changes of an array passed to its constructor or to
    from_binned_data only through its edge arrays and the count array of from_binned_data: data,
    weights and errors are copied. *)
Theorem C66_arguments_are_copied_partial : forall l1 op l2 a b,
  let s0 := h_run hs_init l1 in
  let k := length (s_objs s0) in
  creates op -> snd (h_step s0 op) = Ok tt -> Forall (no_take k) l2 -> ~ In a (kept op) ->
  let s := h_run hs_init (l1 ++ op :: l2) in
  let s' := fst (h_step s (HWrite a b)) in
  exists o, nth_error (s_objs s) k = Some o /\ nth_error (s_objs s') k = Some o /\ view s' o = view s o.
Proof.
  intros l1 op l2 a b s0 k C OK NT NK s s'.
  assert (I0 : HInv s0) by apply run_inv, init_inv.
  destruct (created_object s0 op I0 C OK) as (o & O & KE & KC).
  assert (I1 : HInv (fst (h_step s0 op))) by (eapply eff_inv; [exact I0|now apply step_eff]).
  destruct (run_object l2 _ k o I1 O) as (o' & O' & (S1 & S2 & S3) & _ & P).
  assert (ES : s = h_run (fst (h_step s0 op)) l2) by (unfold s; rewrite run_app; reflexivity).
  rewrite <- ES in *. assert (I2 : HInv s) by apply run_inv, init_inv.
  exists o'. split; [exact O'|]. unfold s'. simpl. destruct (held s a) eqn:H; [|auto]. simpl. split; [exact O'|].
  apply held_in in H.
  assert (X : forall a', a' <> a -> buf (set_bufs s (upd a b (s_bufs s))) a' = buf s a') by (intros; unfold buf; simpl; apply upd_other; auto).
  apply view_ext.
  - intros a' IE. apply X. intros ->. rewrite <- S1 in IE. auto.
  - apply X. intros E. destruct KC as [KC|[KC M]].
    + apply NK. rewrite <- E, <- S2. exact KC.
    + apply (P NT); [|now rewrite E]. rewrite M, KC. now apply in_lt_mine.
  - apply X. intros E. destruct (hi_addr s I2 _ _ O') as (_ & _ & N & _). apply N. now rewrite E.
Qed.
Print Assumptions C66_arguments_are_copied_partial.

(** C66 is false for edges: overwriting the edge array changes bin_edges of the existing histogram
    (its range stays the old one). *)
Theorem C66_edges_are_shared_refuted :
  exists l a b o h h', let s := h_run hs_init l in let s' := fst (h_step s (HWrite a b)) in
  nth_error (s_objs s) 0 = Some o /\ nth_error (s_objs s') 0 = Some o /\ view s o = Some h /\ view s' o = Some h' /\
  h_edges h = [mk_edges false [0; 1]] /\ h_edges h' = [mk_edges false [0; 7]] /\ h_range h' = [(0, 1)].
Proof.
  exists [HArray (mk_nd [2%nat] [Fin 0; Fin 1]); HNew1 (HEdges 0) None None], 0%nat, (mk_nd [2%nat] [Fin 0; Fin 7]).
  eexists. eexists. eexists. repeat split.
Qed.
Print Assumptions C66_edges_are_shared_refuted.
(** ... and for the counts of from_binned_data *)
Theorem C66_counts_are_shared_refuted :
  exists l a b o h h', let s := h_run hs_init l in let s' := fst (h_step s (HWrite a b)) in
  nth_error (s_objs s) 0 = Some o /\ nth_error (s_objs s') 0 = Some o /\ view s o = Some h /\ view s' o = Some h' /\
  nd_flat (h_counts h) = [Fin 5] /\ nd_flat (h_counts h') = [Fin 9].
Proof.
  exists [HArray (mk_nd [1%nat] [Fin 5]); HArray (mk_nd [2%nat] [Fin 0; Fin 1]); HFrom1 0 1 None], 0%nat, (mk_nd [1%nat] [Fin 9]).
  eexists. eexists. eexists. repeat split.
Qed.
Print Assumptions C66_counts_are_shared_refuted.

(** The hypotheses of the partial theorems are met: a histogram is constructed, other histograms are
    created and filled from the same arrays, then it is filled. *)
Example C10_hypotheses_met :
  let l1 := [HArray (mk_nd [2%nat] [Fin 0; Fin 1]); HArray (mk_nd [1%nat] [Fin (1/2)])] in
  is_ctor (HNew1 (HEdges 0) None None) /\ snd (h_step (h_run hs_init l1) (HNew1 (HEdges 0) None None)) = Ok tt /\
  Forall (no_take 0) [HNew1 (HEdges 0) None None; HFill1 1 1 None; HCounts 1] /\ is_fill 0 (HFill1 0 1 None) /\
  is_from 1 (HFrom1 1 0 None) /\ snd (h_step (h_run hs_init l1) (HFrom1 1 0 None)) = Ok tt.
Proof. repeat split. repeat constructor. discriminate. Qed.
