(** Property C106: legacy histograms and the arrays they share. *)
From Coq Require Import Reals ZArith Bool Arith List Lra Lia.
From Verif Require Import Model_Num Model_Hist Model_HistHeap Model_LegacyHist Model_LegacyBuf Spec_LegacyHist Spec_LegacyBuf Proof_HistHeap Spec_Hist Proof_Hist Proof_Hist2 Proof_Hist3 Proof_LegacyHist Proof_LegacyBuf.
Import ListNotations.
Local Open Scope R_scope.

Lemma construct_res s es n en d w : snd (lb_construct s (EOwn es) n en d w) = snd (lb_construct lb_init (EOwn es) n en d w).
Proof.
  assert (CZ : forall t t1 o, lb_new t (EOwn es) n en = (t1, o) -> content t1 o = (repeat (Fin 0) n, (if en then Some (repeat (Fin 0) n) else None), repeat (Fin 0) n)).
  { intros t t1 o. unfold lb_new, content, lb_read. destruct en; intros E; injection E as <- <-; cbn [lb_counts lb_entries lb_errs lb_bufs option_map]; rewrite !app_nth2 by lia;
      replace (length (lb_bufs t) - length (lb_bufs t))%nat with 0%nat by lia; replace (length (lb_bufs t) + 1 - length (lb_bufs t))%nat with 1%nat by lia; try replace (length (lb_bufs t) + 2 - length (lb_bufs t))%nat with 2%nat by lia; reflexivity. }
  assert (X : forall t, snd (lb_construct t (EOwn es) n en d w) = match d with None => Ok tt | Some d => snd (c_fill es d w (repeat (Fin 0) n, (if en then Some (repeat (Fin 0) n) else None), repeat (Fin 0) n)) end).
  { intros t. unfold lb_construct. destruct (lb_new_shape t (EOwn es) n en) as (bs & o & E1 & EE & LB & ND & BD & _). specialize (CZ _ _ _ E1). rewrite E1. destruct d as [d|]; [|reflexivity].
    set (s1 := mk_lbst (lb_bufs t ++ bs) (lb_objs t) (lb_arrs t)) in *.
    assert (B1 : forall a, In a (lb_addrs o) -> (a < length (lb_bufs s1))%nat). { intros a Ha. specialize (BD a Ha). unfold s1. cbn [lb_bufs]. rewrite app_length. lia. }
    destruct (fill_content s1 o es d w EE ND B1) as (_ & FR). rewrite <- CZ, <- FR. destruct (lb_fill o d w s1) as (s2 & [[]|x]); reflexivity. }
  now rewrite !X.
Qed.
Lemma run_app' s a b : lb_run s (a ++ b) = lb_run (lb_run s a) b. Proof. apply fold_left_app. Qed.

(** A histogram created with a number of bins, in any program (any number of other histograms and arrays, shared in
    any way): as long as the program does not hand out, overwrite or replace one of its arrays, it is at any time what
    it would be in a process with nothing but this histogram and its own fill and scale calls, and the next fill or
    scale call has the same result (or exception). *)
Theorem C106_isolated : forall l1 c l2, plain_new c = true -> let s0 := lb_run lb_init l1 in let k := length (lb_objs s0) in
  snd (lb_step s0 c) = Ok tt -> Forall (fun o => exposes k o = false) l2 ->
  let s := lb_run lb_init (l1 ++ c :: l2) in let alone := lb_run lb_init (c :: own_calls k l2) in
  (exists v, lb_view s k = Some v /\ lb_view alone 0 = Some v) /\
  (forall d w, snd (lb_step s (BFill k d w)) = snd (lb_step alone (BFill 0 d w))) /\
  (forall f, snd (lb_step s (BScale k f)) = snd (lb_step alone (BScale 0 f))).
Proof.
  intros l1 c l2 PN s0 k OK X. cbv zeta. assert (W : WFb s0) by (apply wf_run, wf_init).
  assert (C : exists es n en d w, forall s, lb_step s c = lb_construct s (EOwn es) n en d w).
  { destruct c; try discriminate; simpl in *; destruct (Z.ltb _ 0); try discriminate; do 5 eexists; reflexivity. }
  destruct C as (es & n & en & d & w & C). rewrite C in OK. pose proof (construct_res s0 es n en d w) as R0. rewrite OK in R0. symmetry in R0.
  destruct (lb_construct s0 (EOwn es) n en d w) as (s1 & r1) eqn:E1. simpl in OK. subst r1. destruct (lb_construct lb_init (EOwn es) n en d w) as (t1 & r2) eqn:E2. simpl in R0. subst r2.
  destruct (construct_priv s0 es n en d w s1 W E1) as (o & P1 & EO & C1). destruct (construct_priv lb_init es n en d w t1 wf_init E2) as (p & P2 & EP & C2). cbn [lb_objs lb_init length] in P2.
  fold k in P1. change (lb_run lb_init (c :: own_calls k l2)) with (lb_run (fst (lb_step lb_init c)) (own_calls k l2)). rewrite run_app'. fold s0. change (lb_run s0 (c :: l2)) with (lb_run (fst (lb_step s0 c)) l2).
  rewrite !C, E1, E2. cbn [fst].
  assert (W1 : WFb s1). { pose proof (wf_step s0 c W) as H. rewrite C, E1 in H. exact H. } assert (W2 : WFb t1). { pose proof (wf_step lb_init c wf_init) as H. rewrite C, E2 in H. exact H. }
  destruct (priv_run k o es l2 EO X s1 W1 P1) as (Q1 & D1).
  assert (X2 : Forall (fun op => exposes 0 op = false) (own_calls k l2) /\ own_calls 0 (own_calls k l2) = own_calls k l2).
  { clear. induction l2 as [|op l2 [IH1 IH2]]; simpl; [split; [constructor|reflexivity]|]. destruct op; simpl; auto; (destruct (Nat.eqb k0 k); [|auto]); split; [constructor; auto|simpl; now rewrite IH2|constructor; auto|simpl; now rewrite IH2]. }
  destruct X2 as (X2 & X3). destruct (priv_run 0 p es (own_calls k l2) EP X2 t1 W2 P2) as (Q2 & D2). rewrite X3 in D2.
  rewrite (view_content _ k o es (pv_obj _ _ _ Q1) EO), (view_content _ 0 p es (pv_obj _ _ _ Q2) EP).
  assert (CC : content (lb_run s1 l2) o = content (lb_run t1 (own_calls k l2)) p) by (rewrite D2, D1, C1, C2; reflexivity).
  split; [|split].
  - eexists. split; [reflexivity|]. now rewrite CC.
  - intros d' w'. destruct (step_fill _ _ _ es d' w' Q1 EO) as (_ & _ & F1). destruct (step_fill _ _ _ es d' w' Q2 EP) as (_ & _ & F2). now rewrite F1, F2, CC.
  - intros f. destruct (step_scale _ _ _ f Q1) as (_ & _ & F1). destruct (step_scale _ _ _ f Q2) as (_ & _ & F2). now rewrite F1, F2, CC.
Qed.
Print Assumptions C106_isolated.

(** ... and that is the histogram described by C63. *)
Definition as_op (c : lcall) : lbop := match c with LFill d w => BFill 0 d w | LScale c => BScale 0 c end.
Definition call_on (h : lhist) (c : lcall) : lhist := match c with LFill d w => fst (lhist_fill h d w) | LScale c => lhist_scale h c end.
Definition cont_of (h : lhist) : cont := (lh_counts h, Some (lh_entries h), lh_errs_sq h).
Definition sized (n : nat) (h : lhist) : Prop := length (lh_edges h) = S n /\ length (lh_counts h) = n /\ length (lh_entries h) = n /\ length (lh_errs_sq h) = n.
Lemma stat_len es d ws s : binned_statistic es d ws = Ok s -> length s = (length es - 1)%nat.
Proof. unfold binned_statistic. destruct (negb _); [discriminate|]. destruct (_ || _)%bool; [discriminate|]. intros H. injection H as <-. now rewrite map_length, seq_length. Qed.
Lemma iadd_same a st n : length a = n -> (forall s, st = Ok s -> length s = n) -> (v <- st ;; np_iadd a v) = (v <- st ;; iadd1 a v) /\ forall c, (v <- st ;; iadd1 a v) = Ok c -> length c = n.
Proof.
  intros L H. destruct st as [s|e]; simpl; [|split; [reflexivity|discriminate]]. specialize (H s eq_refl). unfold np_iadd, iadd1. rewrite L, H, Nat.eqb_refl. split; [reflexivity|]. intros c E. injection E as <-.
  rewrite map2_length. lia.
Qed.
Lemma c_fill_lhist n h d w : sized n h -> c_fill (lh_edges h) d w (cont_of h) = (cont_of (fst (lhist_fill h d w)), snd (lhist_fill h d w)) /\ sized n (fst (lhist_fill h d w)) /\ lh_edges (fst (lhist_fill h d w)) = lh_edges h.
Proof.
  intros (S0 & S1 & S2 & S3). unfold c_fill, lhist_fill, cont_of. destruct (negb (Nat.eqb (length d) _)); [repeat split; auto|].
  assert (SL : forall ws s, binned_statistic (lh_edges h) d ws = Ok s -> length s = n) by (intros ws s H; apply stat_len in H; lia).
  destruct (iadd_same (lh_counts h) (binned_statistic (lh_edges h) d (resolve_weights (length d) w)) n S1 (SL _)) as (-> & A1).
  destruct (v <- binned_statistic _ _ _ ;; iadd1 (lh_counts h) v) as [cc|e]; [|repeat split; auto]. specialize (A1 cc eq_refl). cbn [lh_entries lh_set_counts].
  destruct (iadd_same (lh_entries h) (binned_count (lh_edges h) d (resolve_weights (length d) w)) n S2 (SL _)) as (-> & A2). 
  destruct (v <- binned_count _ _ _ ;; iadd1 (lh_entries h) v) as [ce|e]; cbn [rmap]; [|repeat split; auto]. specialize (A2 ce eq_refl).
  destruct (negb (squareable w)); [repeat split; auto|]. cbn [lh_errs_sq lh_set_entries lh_set_counts].
  destruct (iadd_same (lh_errs_sq h) (binned_statistic (lh_edges h) d (map (fun x => x * x) (resolve_weights (length d) w))) n S3 (SL _)) as (-> & A3).
  destruct (v <- binned_statistic _ _ _ ;; iadd1 (lh_errs_sq h) v) as [q|e]; [|repeat split; auto]. specialize (A3 q eq_refl). repeat split; auto.
Qed.
Lemma c_step_lhist n h c : sized n h -> c_step (lh_edges h) (cont_of h) (as_op c) = cont_of (call_on h c) /\ sized n (call_on h c) /\ lh_edges (call_on h c) = lh_edges h.
Proof.
  intros Sz. destruct c as [d w|c]; cbn [c_step as_op call_on].
  - destruct (c_fill_lhist n h d w Sz) as (-> & H). split; [reflexivity|exact H].
  - destruct Sz as (S0 & S1 & S2 & S3). unfold c_scale, cont_of. cbn. split; [reflexivity|]. unfold sized. cbn. rewrite !map_length. auto.
Qed.
Theorem C106_alone : forall n lim data w h0 l, lhist_new n lim data w = Ok h0 ->
  let h := fold_left call_on l h0 in
  let s := lb_run lb_init (BHistogram n lim data w :: map as_op l) in
  lb_view s 0 = Some (mk_lbview (Some (lh_edges h)) (lh_counts h) (Some (lh_entries h)) (lh_errs_sq h)) /\
  (forall d w', snd (lb_step s (BFill 0 d w')) = snd (lhist_fill h d w')) /\ (forall c, snd (lb_step s (BScale 0 c)) = Ok tt).
Proof.
  intros n lim data w h0 l N h. cbv zeta. unfold lhist_new, lhist_empty in N. destruct (Z.ltb n 0) eqn:Z0; [discriminate|]. cbn [rbind] in N.
  set (m := Z.to_nat n) in *. set (es := np_linspace (fst lim) (snd lim) (m + 1)) in *. set (h1 := mk_lhist m lim es (repeat (Fin 0) m) (repeat (Fin 0) m) (repeat (Fin 0) m)) in *.
  assert (Z1 : sized m h1). { unfold sized, h1, es. cbn. rewrite !repeat_length. repeat split. unfold np_linspace. destruct (m + 1)%nat as [|[|q]] eqn:Q; [lia| |]; rewrite ?map_length, ?seq_length, ?app_length; cbn; try lia; rewrite ?map_length, ?seq_length; lia. }
  assert (ST : forall s, lb_step s (BHistogram n lim data w) = lb_construct s (EOwn es) m true data w) by (intros s; simpl; now rewrite Z0).
  assert (H0 : sized m h0 /\ lh_edges h0 = es /\ (match data with None => cont_of h1 | Some d => fst (c_fill es d w (cont_of h1)) end) = cont_of h0 /\ snd (lb_construct lb_init (EOwn es) m true data w) = Ok tt).
  { destruct data as [d|].
    - destruct (c_fill_lhist m h1 d w Z1) as (F & Z2 & E2). destruct (lhist_fill h1 d w) as (h2 & [[]|e]) eqn:LF; [|discriminate]. injection N as <-. cbn [fst snd] in *. split; [exact Z2|]. split; [exact E2|]. change (lh_edges h1) with es in F. rewrite F. split; [reflexivity|].
      unfold lb_construct. destruct (lb_new_shape lb_init (EOwn es) m true) as (bs & o & E1 & EE & LB & ND & BD & _). rewrite E1. set (s1 := mk_lbst _ _ _) in *.
      assert (B1 : forall a, In a (lb_addrs o) -> (a < length (lb_bufs s1))%nat). { intros a Ha. specialize (BD a Ha). unfold s1. cbn [lb_bufs]. rewrite app_length. lia. }
      destruct (fill_content s1 o es d w EE ND B1) as (_ & FR). assert (CZ : content s1 o = cont_of h1). { revert E1. unfold lb_new. intros E1. injection E1 as <- <-. reflexivity. }
      rewrite CZ, F in FR. destruct (lb_fill o d w s1) as (s2 & r). simpl in FR. subst r. reflexivity.
    - injection N as <-. repeat split; auto; apply Z1. }
  destruct H0 as (Z2 & E2 & C2 & OK). destruct (lb_construct lb_init (EOwn es) m true data w) as (t1 & r) eqn:E1. simpl in OK. subst r.
  destruct (construct_priv lb_init es m true data w t1 wf_init E1) as (p & P & EP & CP). cbn [lb_objs lb_init length] in P. cbv zeta in CP.
  change (lb_run lb_init (BHistogram n lim data w :: map as_op l)) with (lb_run (fst (lb_step lb_init (BHistogram n lim data w))) (map as_op l)). rewrite ST, E1. cbn [fst].
  assert (W : WFb t1). { pose proof (wf_step lb_init (BHistogram n lim data w) wf_init) as H. rewrite ST, E1 in H. exact H. }
  assert (X : Forall (fun op => exposes 0 op = false) (map as_op l) /\ own_calls 0 (map as_op l) = map as_op l).
  { clear. induction l as [|[d w|c] l [IH1 IH2]]; simpl; (split; [constructor; auto|now rewrite ?IH2]). }
  destruct X as (X1 & X2). destruct (priv_run 0 p es (map as_op l) EP X1 t1 W P) as (Q & D). rewrite X2 in D.
  assert (CC : content t1 p = cont_of h0). { rewrite CP, <- C2. destruct data; reflexivity. }
  rewrite CC in D. assert (G : fold_left (c_step es) (map as_op l) (cont_of h0) = cont_of h /\ lh_edges h = es /\ sized m h).
  { subst h. clear - Z2 E2. revert h0 Z2 E2. induction l as [|c l IH]; intros h0 Z2 E2; cbn [map fold_left]; [auto|]. rewrite <- E2 at 1 2. destruct (c_step_lhist m h0 c Z2) as (Y1 & Y2 & Y3). rewrite Y1. rewrite E2. apply IH; congruence. }
  destruct G as (G1 & G2 & G3). split; [|split].
  - rewrite (view_content _ 0 p es (pv_obj _ _ _ Q) EP), D, G1, G2. reflexivity.
  - intros d w'. destruct (step_fill _ _ _ es d w' Q EP) as (_ & _ & F). rewrite F, D, G1, <- G2. now destruct (c_fill_lhist m h d w' G3) as (-> & _).
  - intros c. destruct (step_scale _ _ _ c Q) as (_ & _ & F). rewrite F, D, G1. reflexivity.
Qed.
Print Assumptions C106_alone.

(** Frame, for every program with any sharing: fill and scale change the arrays of their histogram and nothing else, an
    element assignment the array assigned to; every other call (constructors, from_binned_data, the setters) leaves
    every existing array as it was. *)
Theorem C106_frame : forall l op, let s := lb_run lb_init l in let s' := fst (lb_step s op) in
  forall a, (a < length (lb_bufs s))%nat -> ~ In a (write_targets s op) -> lb_read s' a = lb_read s a.
Proof.
  intros l op s s' a L N. subst s'. 
  assert (CON : forall e n en d w, lb_read (fst (lb_construct s e n en d w)) a = lb_read s a).
  { intros e n en d w. unfold lb_construct. destruct (lb_new_shape s e n en) as (bs & o & -> & EE & LB & ND & BD & _).
    assert (NI : ~ In a (lb_addrs o)) by (intros H; specialize (BD a H); lia). destruct d as [d|]; [|now apply read_app].
    pose proof (chg_fill o d w (mk_lbst (lb_bufs s ++ bs) (lb_objs s) (lb_arrs s))) as C. destruct (lb_fill _ _ _ _) as (s2 & [u|x]); [|reflexivity]. cbn [fst] in C.
    change (lb_read s2 a = lb_read s a). rewrite (ch_read _ _ _ C a NI). now apply read_app. }
  destruct op; cbn [lb_step write_targets] in *.
  - now apply read_app.
  - destruct (lb_deref s r) as [b|]; [|reflexivity]. destruct (np_assign _ v); [|reflexivity]. apply read_write_other. intros ->. apply N. now left.
  - destruct (Z.ltb nbins 0); [reflexivity|apply CON].
  - destruct (Z.ltb n 0); [reflexivity|apply CON].
  - destruct (lb_deref s edges) as [b|]; [|reflexivity]. destruct (lb_read s b) as [|x v]; [reflexivity|apply CON].
  - destruct (lb_deref s edges) as [b|]; [|reflexivity]. destruct (lb_deref s counts) as [c|]; [|reflexivity].
    destruct (match errors with None => Some None | Some r => option_map Some (lb_deref s r) end) as [e|]; [|reflexivity]. destruct (lb_read s b); [reflexivity|]. now apply read_app.
  - destruct (nth_error (lb_objs s) k) as [o|]; [|reflexivity]. now apply (ch_read _ _ _ (chg_fill o data w s)).
  - destruct (nth_error (lb_objs s) k) as [o|]; [|reflexivity]. destruct (lb_entries o); [|reflexivity].
    cbn [fst]. rewrite !read_write_other; auto; intros E; apply N; rewrite <- E; [apply in_counts|apply in_errs].
  - destruct (nth_error (lb_objs s) k) as [o|]; [|reflexivity]. destruct (lb_deref s r); [|reflexivity]. destruct (lb_entries o); reflexivity.
  - destruct (nth_error (lb_objs s) k) as [o|]; [|reflexivity]. destruct (lb_deref s r); [|reflexivity]. destruct (lb_entries o); [|reflexivity]. now apply read_app.
Qed.
Print Assumptions C106_frame.

(** The setter of bin_errors copies: afterwards bin_errors are the absolute values of what was assigned, the histogram's
    counts and entries are untouched, and no write of the caller into the array given (or any other array that existed)
    can change them; here: the squared errors lie in a new array. *)
Theorem C106_set_errors_copies : forall l k r a v, let s := lb_run lb_init l in let s' := fst (lb_step s (BSetErrors k r)) in
  lb_deref s r = Some a -> lb_view s k = Some v -> v_entries v <> None ->
  snd (lb_step s (BSetErrors k r)) = Ok tt /\
  lb_view s' k = Some (mk_lbview (v_edges v) (v_counts v) (v_entries v) (map xsq (lb_read s a))) /\
  (forall v', lb_view s' k = Some v' -> v_bin_errors v' = map xabs (lb_read s a)) /\
  (forall b, lb_deref s' (RErrs k) = Some b -> b = length (lb_bufs s)).
Proof.
  intros l k r a v s s' D V EN. subst s'. assert (W : WFb s) by (apply wf_run, wf_init). unfold lb_view in V. cbn [lb_step]. destruct (nth_error (lb_objs s) k) as [o|] eqn:K; [|discriminate]. cbn [option_map] in V. injection V as <-. cbn [v_entries v_edges v_counts] in *.
  rewrite D. destruct (lb_entries o) as [e|] eqn:E; [|now elim EN]. cbn [fst snd]. split; [reflexivity|].
  assert (KL : (k < length (lb_objs s))%nat) by (apply nth_error_Some; congruence).
  assert (LT : forall b, In b (obj_addrs o) -> (b < length (lb_bufs s))%nat) by (intros b; apply (wb_objs s W); eapply nth_error_In; eauto).
  set (s' := lb_set_obj _ _ _). assert (K' : nth_error (lb_objs s') k = Some (mk_lbobj (lb_edges o) (lb_counts o) (Some e) (length (lb_bufs s)))) by (apply upd_same; exact KL).
  assert (RD : forall b, (b < length (lb_bufs s))%nat -> lb_read s' b = lb_read s b) by (intros b Hb; now apply read_app).
  assert (RN : lb_read s' (length (lb_bufs s)) = map xsq (lb_read s a)). { unfold s', lb_read, lb_set_obj, lb_alloc. cbn [lb_bufs]. rewrite app_nth2 by lia. now rewrite Nat.sub_diag. }
  assert (V' : lb_view s' k = Some (mk_lbview (lb_edge_vals s (lb_edges o)) (lb_read s (lb_counts o)) (Some (lb_read s e)) (map xsq (lb_read s a)))).
  { unfold lb_view. rewrite K'. cbn [option_map lb_edges lb_counts lb_entries lb_errs]. rewrite RN, !RD.
    - destruct (lb_edges o) as [q|b] eqn:EE; [reflexivity|]. cbn [lb_edge_vals]. rewrite RD; [reflexivity|]. apply LT. unfold obj_addrs. rewrite EE. now left.
    - apply LT, in_app_iff. right. now apply in_entries.
    - apply LT, in_app_iff. right. apply in_counts. }
  split; [exact V'|]. split.
  - intros v' Hv. rewrite V' in Hv. injection Hv as <-. unfold v_bin_errors. cbn [v_errs]. rewrite map_map. apply map_ext. exact xsqrt_xsq.
  - intros b. cbn [lb_deref]. rewrite K'. cbn. congruence.
Qed.
Print Assumptions C106_set_errors_copies.

(** The setter of bin_counts does not copy: scaling the histogram scales the caller's array, and every histogram the
    same array was assigned to; their squared errors are not scaled with it.  For any counts and any factor. *)
Theorem C106_shared_counts_refuted : forall n lim v c, (0 <= n)%Z ->
  let l := [BArray v; BHistogram n lim None WNone; BHistogram n lim None WNone; BSetCounts 0 (RArr 0); BSetCounts 1 (RCounts 0); BScale 0 c] in
  let s := lb_run lb_init l in
  lb_deref s (RArr 0) = lb_deref s (RCounts 1) /\
  option_map v_counts (lb_view s 1) = Some (map (fun x => xmul x (Fin c)) v) /\
  (forall a, lb_deref s (RArr 0) = Some a -> lb_read s a = map (fun x => xmul x (Fin c)) v) /\
  option_map v_errs (lb_view s 1) = Some (repeat (Fin 0) (Z.to_nat n)).
Proof.
  intros n lim v c H l s. assert (E : Z.ltb n 0 = false) by (apply Z.ltb_ge; exact H).
  subst s l. unfold lb_run. cbn [fold_left lb_step]. rewrite !E. cbn. split; [reflexivity|]. split; [reflexivity|]. split; [|reflexivity]. intros a Ha. injection Ha as <-. reflexivity.
Qed.
Print Assumptions C106_shared_counts_refuted.

Lemma reals_fin es : reals (map Fin es) = Some es.
Proof. induction es as [|e es IH]; [reflexivity|]. cbn. now rewrite IH. Qed.
Lemma iadd_eq a b : length a = length b -> np_iadd a b = Ok (map2 xadd a b).
Proof. intros H. unfold np_iadd. now rewrite H, Nat.eqb_refl. Qed.
Lemma iadd_bad a b : length a <> length b -> (2 <= length b)%nat -> np_iadd a b = Err ValueError.
Proof. intros H L. unfold np_iadd. apply Nat.eqb_neq in H. rewrite H. destruct b as [|x [|y b]]; simpl in L; try lia. reflexivity. Qed.
Lemma three_stats es d w : valid_edges es -> length d = length (weight_list (length d) w) -> exists st en sq,
  binned_statistic es d (weight_list (length d) w) = Ok st /\ binned_count es d (weight_list (length d) w) = Ok en /\
  binned_statistic es d (map (fun x => x * x) (weight_list (length d) w)) = Ok sq /\
  length st = (length es - 1)%nat /\ length en = (length es - 1)%nat /\ length sq = (length es - 1)%nat.
Proof.
  intros V L. destruct (binned_statistic_succeeds es d _ V L) as (st & E1 & L1).
  assert (L' : length d = length (map (fun _ : R => 1) (weight_list (length d) w))) by (now rewrite map_length). destruct (binned_statistic_succeeds es d _ V L') as (en & E2 & L2).
  assert (L'' : length d = length (map (fun x => x * x) (weight_list (length d) w))) by (now rewrite map_length). destruct (binned_statistic_succeeds es d _ V L'') as (sq & E3 & L3).
  exists st, en, sq. auto 10.
Qed.
Lemma squareable_ok w : not_tuple w -> squareable w = true. Proof. destruct w; simpl; tauto || reflexivity. Qed.

(** from_binned_data shares the counts too: a fill of one Hist1d made from an array goes into the caller's array and into
    every other Hist1d made from it; the errors of those do not change.  For all edges, counts, data and weights. *)
Theorem C106_from_binned_data_shares_refuted : forall es cs d w, valid_edges es -> length cs = (length es - 1)%nat -> not_tuple w -> length d = length (weight_list (length d) w) ->
  let s := lb_run lb_init [BArray (map Fin es); BArray cs; BFrom (RArr 0) (RArr 1) None; BFrom (RArr 0) (RArr 1) None] in
  let s' := fst (lb_step s (BFill 0 d w)) in
  exists st, binned_statistic es d (weight_list (length d) w) = Ok st /\ snd (lb_step s (BFill 0 d w)) = Ok tt /\
  option_map (lb_read s') (lb_deref s' (RArr 1)) = Some (map2 xadd cs st) /\
  lb_view s 1 = Some (mk_lbview (Some es) cs None (map xsq (map xsqrt cs))) /\
  lb_view s' 1 = Some (mk_lbview (Some es) (map2 xadd cs st) None (map xsq (map xsqrt cs))).
Proof.
  intros es cs d w V Lc Nt Ld s s'. destruct (three_stats es d w V Ld) as (st & en & sq & E1 & _ & E3 & L1 & _ & L3). exists st. split; [exact E1|].
  destruct es as [|e0 es0] eqn:Ees; [destruct V; simpl in *; lia|]. rewrite <- Ees in *. assert (HM : map Fin es = Fin e0 :: map Fin es0) by (now rewrite Ees).
  set (mes := map Fin es) in *.
  assert (HS : s = mk_lbst [mes; cs; map xsq (map xsqrt cs); map xsq (map xsqrt cs)] [mk_lbobj (ERef 0) 1 None 2; mk_lbobj (ERef 0) 1 None 3] [0%nat; 1%nat]).
  { unfold s, lb_run. cbn [fold_left lb_step fst lb_deref lb_arrs nth_error app length lb_init lb_bufs lb_objs]. unfold lb_read at 1. cbn [nth lb_bufs]. rewrite HM. cbn. rewrite <- HM. reflexivity. }
  assert (F : lb_step s (BFill 0 d w) = (mk_lbst [mes; map2 xadd cs st; map2 xadd (map xsq (map xsqrt cs)) sq; map xsq (map xsqrt cs)] [mk_lbobj (ERef 0) 1 None 2; mk_lbobj (ERef 0) 1 None 3] [0%nat; 1%nat], Ok tt)).
  { rewrite HS. cbn [lb_step nth_error lb_objs]. unfold lb_fill. cbn [lb_edges lb_edge_vals lb_entries lb_counts lb_errs]. unfold lb_read at 1. cbn [nth lb_bufs]. unfold mes at 1. rewrite reals_fin, resolve_weight_list, E1, E3.
    rewrite (squareable_ok w Nt). cbn [negb]. unfold lb_iadd at 1. cbn [rbind]. unfold lb_read at 1. cbn [nth lb_bufs]. rewrite iadd_eq by (rewrite ?map_length; lia || congruence). cbn [lb_seq]. unfold lb_iadd. cbn [rbind]. unfold lb_read. cbn [lb_write lb_bufs upd nth].
    rewrite iadd_eq by (rewrite !map_length; congruence). reflexivity. }
  unfold s'. rewrite F, HS. cbn [fst snd]. split; [reflexivity|]. split; [reflexivity|]. unfold lb_view. cbn. unfold lb_read. cbn. unfold mes. rewrite reals_fin. split; reflexivity.
Qed.
Print Assumptions C106_from_binned_data_shares_refuted.

(** The setters check nothing.  bin_errors of a wrong length (two bins or more): the next fill raises ValueError after the
    counts and the entries have been updated. *)
Theorem C106_half_filled_refuted : forall n lo hi er d w, (2 <= n)%nat -> lo < hi -> length er <> n -> not_tuple w -> length d = length (weight_list (length d) w) ->
  let s := lb_run lb_init [BArray er; BHistogram (Z.of_nat n) (lo, hi) None WNone; BSetErrors 0 (RArr 0)] in
  let p := lb_step s (BFill 0 d w) in
  snd p = Err ValueError /\
  exists good v, lb_view (lb_run lb_init [BHistogram (Z.of_nat n) (lo, hi) None WNone; BFill 0 d w]) 0 = Some good /\
   lb_view (fst p) 0 = Some v /\ v_counts v = v_counts good /\ v_entries v = v_entries good /\ v_errs v = map xsq er.
Proof.
  intros n lo hi er d w Hn Hl Le Nt Ld s p. set (es := np_linspace lo hi (n + 1)). pose proof (linspace_valid lo hi n ltac:(lia) Hl) as V. fold es in V.
  assert (Le' : (length es - 1 = n)%nat) by (unfold es; rewrite linspace_length; lia).
  destruct (three_stats es d w V Ld) as (st & en & sq & E1 & E2 & E3 & L1 & L2 & L3). set (z := repeat (Fin 0) n). assert (Lz : length z = n) by apply repeat_length.
  assert (ZN : Z.ltb (Z.of_nat n) 0 = false) by (apply Z.ltb_ge; lia).
  assert (HS : s = mk_lbst [er; z; z; z; map xsq er] [mk_lbobj (EOwn es) 1 (Some 2%nat) 4] [0%nat]).
  { unfold s, lb_run. cbn [fold_left lb_step]. rewrite ZN, Nat2Z.id. reflexivity. }
  assert (HG : lb_run lb_init [BHistogram (Z.of_nat n) (lo, hi) None WNone; BFill 0 d w] = mk_lbst [map2 xadd z st; map2 xadd z en; map2 xadd z sq] [mk_lbobj (EOwn es) 0 (Some 1%nat) 2] []).
  { assert (H1 : fst (lb_step lb_init (BHistogram (Z.of_nat n) (lo, hi) None WNone)) = mk_lbst [z; z; z] [mk_lbobj (EOwn es) 0 (Some 1%nat) 2] []) by (cbn [lb_step]; rewrite ZN, Nat2Z.id; reflexivity).
    unfold lb_run. cbn [fold_left]. rewrite H1. cbn [lb_step nth_error lb_objs]. unfold lb_fill. cbn [lb_edges lb_edge_vals lb_entries lb_counts lb_errs].
    rewrite resolve_weight_list, <- Ld, Nat.eqb_refl, E1, E2, E3, (squareable_ok w Nt). cbn [negb]. unfold lb_iadd at 1. cbn [rbind]. unfold lb_read at 1. cbn [lb_bufs nth]. rewrite iadd_eq by (rewrite ?map_length; lia || congruence). cbn [lb_seq].
    unfold lb_iadd at 1. cbn [rbind]. unfold lb_read at 1. cbn [lb_write lb_bufs upd nth Nat.add]. rewrite iadd_eq by (rewrite ?map_length; lia || congruence). cbn [lb_seq]. unfold lb_iadd. cbn [rbind]. unfold lb_read. cbn [lb_write lb_bufs upd nth Nat.add]. rewrite iadd_eq by (rewrite ?map_length; lia || congruence). reflexivity. }
  assert (F : p = (mk_lbst [er; map2 xadd z st; map2 xadd z en; z; map xsq er] [mk_lbobj (EOwn es) 1 (Some 2%nat) 4] [0%nat], Err ValueError)).
  { unfold p. rewrite HS. cbn [lb_step nth_error lb_objs]. unfold lb_fill. cbn [lb_edges lb_edge_vals lb_entries lb_counts lb_errs].
    rewrite resolve_weight_list, <- Ld, Nat.eqb_refl, E1, E2, E3, (squareable_ok w Nt). cbn [negb]. unfold lb_iadd at 1. cbn [rbind]. unfold lb_read at 1. cbn [lb_bufs nth]. rewrite iadd_eq by (rewrite ?map_length; lia || congruence). cbn [lb_seq].
    unfold lb_iadd at 1. cbn [rbind]. unfold lb_read at 1. cbn [lb_write lb_bufs upd nth]. rewrite iadd_eq by (rewrite ?map_length; lia || congruence). cbn [lb_seq]. unfold lb_iadd. cbn [rbind]. unfold lb_read. cbn [lb_write lb_bufs upd nth].
    rewrite iadd_bad; [reflexivity|rewrite map_length; lia|lia]. }
  rewrite F, HG. cbn [fst snd]. split; [reflexivity|]. do 2 eexists. repeat split.
Qed.
Print Assumptions C106_half_filled_refuted.

(** bin_counts of a wrong length (two bins or more): every fill raises ValueError and changes nothing. *)
Theorem C106_wrong_counts_length : forall n lo hi cs d w, (2 <= n)%nat -> lo < hi -> length cs <> n -> length d = length (weight_list (length d) w) ->
  let s := lb_run lb_init [BArray cs; BHistogram (Z.of_nat n) (lo, hi) None WNone; BSetCounts 0 (RArr 0)] in
  lb_step s (BFill 0 d w) = (s, Err ValueError).
Proof.
  intros n lo hi er d w Hn Hl Le Ld s. set (es := np_linspace lo hi (n + 1)). pose proof (linspace_valid lo hi n ltac:(lia) Hl) as V. fold es in V.
  assert (Le' : (length es - 1 = n)%nat) by (unfold es; rewrite linspace_length; lia).
  destruct (three_stats es d w V Ld) as (st & en & sq & E1 & E2 & E3 & L1 & L2 & L3). set (z := repeat (Fin 0) n).
  assert (ZN : Z.ltb (Z.of_nat n) 0 = false) by (apply Z.ltb_ge; lia).
  assert (HS : s = mk_lbst [er; z; z; z] [mk_lbobj (EOwn es) 0 (Some 2%nat) 3] [0%nat]).
  { unfold s, lb_run. cbn [fold_left lb_step]. rewrite ZN, Nat2Z.id. reflexivity. }
  rewrite HS. cbn [lb_step nth_error lb_objs]. unfold lb_fill. cbn [lb_edges lb_edge_vals lb_entries lb_counts lb_errs].
  rewrite resolve_weight_list, <- Ld, Nat.eqb_refl, E1. cbn [negb]. unfold lb_iadd at 1. cbn [rbind]. unfold lb_read at 1. cbn [lb_bufs nth]. rewrite iadd_bad by lia. reflexivity.
Qed.
Print Assumptions C106_wrong_counts_length.

(** C106_isolated applies to programs in which other histograms share arrays. *)
Example ex_isolated : let l2 := [BSetCounts 0 (RArr 0); BScale 0 2; BFill 1 [/ 2] WNone; BSetErrors 0 (RErrs 1); BScale 1 3; BWrite (RArr 0) [Fin 7]] in
  snd (lb_step (lb_run lb_init [BArray [Fin 5]; BHistogram 1 (0, 1) None WNone]) (BHistogram 1 (0, 1) None WNone)) = Ok tt /\
  Forall (fun o => exposes 1 o = false) l2 /\ own_calls 1 l2 = [BFill 0 [/ 2] WNone; BScale 0 3].
Proof. cbv zeta. split; [reflexivity|]. split; [repeat constructor|reflexivity]. Qed.
