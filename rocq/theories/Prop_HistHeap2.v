(** Property theorems C10 and C66, second part: apart from the sharing of arrays, the histogram objects
    have the values described by [Model_Hist]. *)
From Coq Require Import Reals String ZArith Bool Arith List Lra Lia.
From Verif Require Import Model_Num Model_Hist Model_HistHeap Spec_HistHeap Proof_Hist Proof_HistHeap Prop_HistHeap.
Import ListNotations.
Local Open Scope R_scope.

Definition same_frame (h h' : hist) : Prop :=
  h_kind h' = h_kind h /\ h_edges h' = h_edges h /\ h_num_bins h' = h_num_bins h /\
  h_shape h' = h_shape h /\ h_range h' = h_range h.
Lemma fill_with_frame : forall st sh h n w, same_frame h (fst (fill_with st sh h n w)).
Proof.
  intros. unfold fill_with, same_frame. destruct (rbind _ _); [|now repeat split].
  destruct (negb (squareable w)); [now repeat split|]. destruct (rbind _ _); now repeat split.
Qed.

Lemma view_write_back : forall s k o h h', HInv s -> nth_error (s_objs s) k = Some o -> view s o = Some h ->
  ~ In (ERef (ho_counts o)) (ho_edges o) -> same_frame h h' ->
  exists o', nth_error (s_objs (write_back s k o h')) k = Some o' /\ view (write_back s k o h') o' = Some h'.
Proof.
  intros s k o h h' I O V NE (F1 & F2 & F3 & F4 & F5).
  destruct (hi_addr s I _ _ O) as (A1 & A2 & A3 & A4).
  destruct (hi_priv s I _ _ _ _ O O) as (P & _).
  eexists. split.
  { unfold write_back. simpl. apply upd_same. apply nth_error_Some. congruence. }
  unfold view in *. cbn [ho_edges ho_counts ho_errs ho_kind ho_nb ho_shape ho_range ho_empty].
  assert (B : forall a, a <> ho_counts o -> a <> ho_errs o -> buf (write_back s k o h') a = buf s a).
  { intros a X Y. unfold buf, write_back. simpl. rewrite !upd_other; auto. }
  assert (EE : map (edge_vals (write_back s k o h')) (ho_edges o) = map (edge_vals s) (ho_edges o)).
  { apply map_ext_in. intros [l|a] IN; simpl; [reflexivity|]. unfold real_buf. rewrite B; auto.
    - intros ->. auto.
    - intros ->. auto. }
  rewrite EE.
  assert (BC : buf (write_back s k o h') (ho_counts o) = Some (h_counts h')).
  { unfold buf, write_back. simpl. rewrite upd_other by auto. now apply upd_same. }
  assert (BQ : buf (write_back s k o h') (ho_errs o) = Some (h_errs_sq h')).
  { unfold buf, write_back. simpl. apply upd_same. now rewrite upd_length. }
  rewrite BC, BQ. destruct (all_some (map (edge_vals s) (ho_edges o))) as [es|]; [|discriminate].
  destruct (buf s (ho_counts o)); [|discriminate]. destruct (buf s (ho_errs o)); [|discriminate].
  injection V as <-. simpl in *. destruct h'. simpl in *. congruence.
Qed.

(** C10: fill() of a histogram leaves it with exactly the value and the outcome of the fill of
    [Model_Hist] (whose contents are the subject of C01-C06), unless the array of its counts is also
    its own edge array. *)
Theorem C10_fill_value : forall l k o h f r,
  let s := h_run hs_init l in
  nth_error (s_objs s) k = Some o -> view s o = Some h -> ~ In (ERef (ho_counts o)) (ho_edges o) ->
  fills_value s h k f r ->
  snd (h_step s f) = snd r /\
  exists o', nth_error (s_objs (fst (h_step s f))) k = Some o' /\ view (fst (h_step s f)) o' = Some (fst r).
Proof.
  intros l k o h f r s O V NE FV. assert (I : HInv s) by apply run_inv, init_inv.
  destruct FV as [d w dv wv D W|x y w xv yv wv X Y W]; cbn [h_step]; rewrite O, V.
  - rewrite D, W. pose proof (fill_with_frame (binned_statistic (edges_nth h 0) dv) [(length (edges_nth h 0) - 1)%nat] h (length dv) wv) as F.
    change (fill_with _ _ h _ wv) with (hist1_fill h dv wv) in F.
    destruct (hist1_fill h dv wv) as [h' q]. simpl in *. split; [reflexivity|]. now apply view_write_back with h.
  - rewrite X, Y, W.
    pose proof (fill_with_frame (binned_statistic_2d (edges_nth h 0) (edges_nth h 1) xv yv)
      [(length (edges_nth h 0) - 1)%nat; (length (edges_nth h 1) - 1)%nat] h (length xv) wv) as F.
    change (fill_with _ _ h _ wv) with (hist2_fill h xv yv wv) in F.
    destruct (hist2_fill h xv yv wv) as [h' q]. simpl in *. split; [reflexivity|]. now apply view_write_back with h.
Qed.
Print Assumptions C10_fill_value.

Lemma edges_app : forall s b es, refs_in (s_mine s) es -> HInv s ->
  forall o m, map (edge_vals (mk_hs (s_bufs s ++ b) o m)) es = map (edge_vals s) es.
Proof.
  intros s b es R I o m. apply map_ext_in. intros [l|a] IN; simpl; [reflexivity|]. unfold real_buf, buf. simpl.
  rewrite nth_error_app1; [reflexivity|]. apply (hi_mine s I). now apply R.
Qed.

Lemma view_obj : forall s h es c, HInv s -> refs_in (s_mine s) es -> buf s c = Some (h_counts h) ->
  all_some (map (edge_vals s) es) = Some (map e_vals (h_edges h)) ->
  Forall (fun e => e_list e = false) (h_edges h) ->
  exists o, nth_error (s_objs (add_obj s h es c)) (length (s_objs s)) = Some o /\ view (add_obj s h es c) o = Some h.
Proof.
  intros s h es c I R C E F. unfold add_obj, halloc. cbn [s_bufs s_objs s_mine set_bufs].
  eexists. split.
  { rewrite nth_error_app2 by lia. rewrite Nat.sub_diag. reflexivity. }
  unfold view. cbn [ho_edges ho_counts ho_errs ho_kind ho_nb ho_shape ho_range ho_empty].
  rewrite (edges_app s [h_errs_sq h] es R I), E. unfold buf in *. cbn [s_bufs].
  rewrite nth_error_app1 by (apply nth_error_Some; congruence). rewrite C.
  rewrite nth_error_app2, Nat.sub_diag by lia. simpl.
  assert (X : map (mk_edges false) (map e_vals (h_edges h)) = h_edges h).
  { clear -F. induction F as [|[b v] t]; simpl in *; [reflexivity|]. subst. now rewrite IHF. }
  rewrite X. destruct h; reflexivity.
Qed.

Lemma view_fresh : forall s h es, HInv s -> refs_in (s_mine s) es ->
  all_some (map (edge_vals s) es) = Some (map e_vals (h_edges h)) ->
  Forall (fun e => e_list e = false) (h_edges h) ->
  exists o, nth_error (s_objs (add_fresh s h es)) (length (s_objs s)) = Some o /\ view (add_fresh s h es) o = Some h.
Proof.
  intros s h es I R E F. unfold add_fresh, halloc, set_bufs.
  set (s1 := mk_hs (s_bufs s ++ [h_counts h]) (s_objs s) (s_mine s)).
  assert (I1 : HInv s1).
  { constructor; unfold s1; simpl; rewrite ?app_length; simpl.
    - intros a A. pose proof (hi_mine s I a A). lia.
    - intros k o O. destruct (hi_addr s I k o O) as (A & B & C & D). repeat split; auto; lia.
    - apply (hi_priv s I). }
  apply (view_obj s1 h es (length (s_bufs s)) I1); auto.
  - unfold buf, s1. simpl. rewrite nth_error_app2, Nat.sub_diag by lia. reflexivity.
  - unfold s1. now rewrite (edges_app s _ es R I).
Qed.

Lemma hist1_new_edges : forall b r d w h, hist1_new b r d w = Ok h ->
  exists e n q, hist1_init_bin_edges b r = Ok (n, e, q) /\ h_edges h = [e].
Proof.
  intros b r d w h H. unfold hist1_new, hist1_empty, rbind in H.
  destruct (hist1_init_bin_edges b r) as [[[n e] q]|] eqn:E; [|discriminate].
  exists e, n, q. split; [reflexivity|]. destruct d as [d|]; [|injection H as <-; reflexivity].
  match type of H with context [hist1_fill ?h0 _ _] =>
    pose proof (fill_with_frame (binned_statistic (edges_nth h0 0) d) [(length (edges_nth h0 0) - 1)%nat] h0 (length d) w) as F;
    change (fill_with _ _ h0 _ w) with (hist1_fill h0 d w) in F; destruct (hist1_fill h0 d w) as [h1 [|]]; [|discriminate] end.
  injection H as <-. destruct F as (_ & F & _). exact F.
Qed.
Lemma hist2_new_edges : forall ex ey d w h, hist2_new (B2Edges ex ey) None d w = Ok h -> h_edges h = [ex; ey].
Proof.
  intros ex ey d w h H. unfold hist2_new, hist2_empty, rbind in H.
  destruct (get_bin_range ex); [|discriminate]. destruct (get_bin_range ey); [|discriminate].
  destruct d as [[xs ys]|]; [|injection H as <-; reflexivity].
  match type of H with context [hist2_fill ?h0 _ _ _] =>
    pose proof (fill_with_frame (binned_statistic_2d (edges_nth h0 0) (edges_nth h0 1) xs ys)
      [(length (edges_nth h0 0) - 1)%nat; (length (edges_nth h0 1) - 1)%nat] h0 (length xs) w) as F;
    change (fill_with _ _ h0 _ w) with (hist2_fill h0 xs ys w) in F; destruct (hist2_fill h0 xs ys w) as [h1 [|]]; [|discriminate] end.
  injection H as <-. destruct F as (_ & F & _). exact F.
Qed.
Lemma from1_edges : forall c e q h, hist1_from_binned c e q = Ok h -> h_edges h = [e] /\ h_counts h = c.
Proof.
  intros c e q h H. unfold hist1_from_binned, hist1_empty, hist1_init_bin_edges, rbind in H.
  destruct (get_bin_range e); [|discriminate]. injection H as <-. split; reflexivity.
Qed.
Lemma from2_edges : forall c ex ey q h, hist2_from_binned c ex ey q = Ok h -> h_edges h = [ex; ey] /\ h_counts h = c.
Proof.
  intros c ex ey q h H. unfold hist2_from_binned, hist2_empty, rbind in H.
  destruct (get_bin_range ex); [|discriminate]. destruct (get_bin_range ey); [|discriminate].
  injection H as <-. split; reflexivity.
Qed.
Lemma arg_real : forall s a l, arg s a = Some l -> real_buf s a = Some l.
Proof. intros s a l. unfold arg. destruct (held s a); [auto|discriminate]. Qed.
Lemma arg_nd_buf : forall s a b, arg_nd s a = Some b -> buf s a = Some b.
Proof. intros s a l. unfold arg_nd. destruct (held s a); [auto|discriminate]. Qed.

(** C66: a constructor, from_binned_data or a projection makes a histogram with exactly the value
    [Model_Hist] gives for the current values of the argument arrays; a failing call raises that
    exception and leaves everything as it was. *)
Theorem C66_created_value : forall l op r,
  let s := h_run hs_init l in
  creates_value s op r ->
  match r with
  | Err e => h_step s op = (s, Err e)
  | Ok h => snd (h_step s op) = Ok tt /\
      exists o, nth_error (s_objs (fst (h_step s op))) (length (s_objs s)) = Some o /\
                view (fst (h_step s op)) o = Some h
  end.
Proof.
  intros l op r s CV. assert (I : HInv s) by apply run_inv, init_inv.
  destruct CV as [n lo hi d w dv wv D W|e d w ev dv wv E D W|ex ey d w vx vy dv wv X Y D W|c e q cv ev qv C E Q|c ex ey q cv vx vy qv C X Y Q|k x o h O V L];
    cbn [h_step bins1_of].
  - rewrite W. fold (data_of s d). rewrite D. destruct (hist1_new _ _ _ _) as [h|] eqn:N; [|reflexivity].
    split; [reflexivity|]. destruct (hist1_new_edges _ _ _ _ _ N) as (e & m & q & B & EE).
    assert (e = mk_edges false (np_linspace lo hi (Z.to_nat n + 1))) as ->.
    { unfold hist1_init_bin_edges, linspace_edges, rbind in B. destruct (Z.ltb n 0); [discriminate|]. congruence. }
    apply view_fresh; auto; rewrite ?EE; try reflexivity.
    + intros a [H|[]]. discriminate.
    + constructor; auto.
  - rewrite E. cbn [option_map]. rewrite W. fold (data_of s d). rewrite D.
    destruct (hist1_new _ _ _ _) as [h|] eqn:N; [|reflexivity].
    split; [reflexivity|]. destruct (hist1_new_edges _ _ _ _ _ N) as (e' & m & q & B & EE).
    assert (e' = mk_edges false ev) as ->.
    { unfold hist1_init_bin_edges, rbind in B. destruct (get_bin_range _); [|discriminate]. congruence. }
    apply view_fresh; auto; rewrite ?EE.
    + apply refs1. eapply arg_in; eauto.
    + simpl. now rewrite (arg_real _ _ _ E).
    + constructor; auto.
  - rewrite X, Y, W. fold (data2_of s d). rewrite D.
    destruct (hist2_new _ _ _ _) as [h|] eqn:N; [|reflexivity].
    split; [reflexivity|]. pose proof (hist2_new_edges _ _ _ _ _ N) as EE.
    apply view_fresh; auto; rewrite ?EE.
    + apply refs2; eapply arg_in; eauto.
    + simpl. now rewrite (arg_real _ _ _ X), (arg_real _ _ _ Y).
    + repeat constructor.
  - rewrite C, E, Q. destruct (hist1_from_binned _ _ _) as [h|] eqn:N; [|reflexivity].
    split; [reflexivity|]. destruct (from1_edges _ _ _ _ N) as (EE & EC).
    apply view_obj; auto; rewrite ?EE, ?EC.
    + apply refs1. eapply arg_in; eauto.
    + now apply arg_nd_buf.
    + simpl. now rewrite (arg_real _ _ _ E).
    + repeat constructor.
  - rewrite C, X, Y, Q. destruct (hist2_from_binned _ _ _ _) as [h|] eqn:N; [|reflexivity].
    split; [reflexivity|]. destruct (from2_edges _ _ _ _ _ N) as (EE & EC).
    apply view_obj; auto; rewrite ?EE, ?EC.
    + apply refs2; eapply arg_in; eauto.
    + now apply arg_nd_buf.
    + simpl. now rewrite (arg_real _ _ _ X), (arg_real _ _ _ Y).
    + repeat constructor.
  - rewrite O, V. destruct (ho_edges o) as [|ex [|ey [|? ?]]] eqn:EO; try discriminate.
    destruct (hist2_projection x h) as [p|] eqn:P; [|reflexivity]. split; [reflexivity|].
    destruct (hi_addr s I _ _ O) as (_ & _ & _ & R).
    unfold view in V. rewrite EO in V. cbn [map] in V.
    destruct (edge_vals s ex) as [vx|] eqn:VX; [|discriminate].
    destruct (edge_vals s ey) as [vy|] eqn:VY; [|discriminate]. cbn [all_some option_map] in V.
    destruct (buf s (ho_counts o)) as [cb|]; [|discriminate]. destruct (buf s (ho_errs o)) as [qb|]; [|discriminate].
    assert (HE : h_edges h = [mk_edges false vx; mk_edges false vy]).
    { apply (f_equal (fun z => match z with Some y => h_edges y | None => [] end)) in V. symmetry. exact V. }
    unfold hist2_projection in P. rewrite HE in P.
    destruct (nd_shape (h_counts h)) as [|nx [|ny [|]]]; try discriminate.
    destruct (nd_shape (h_errs_sq h)) as [|mx [|my [|]]]; try discriminate.
    rewrite EO in R.
    destruct x; destruct (from1_edges _ _ _ _ P) as (EE & _); apply view_fresh; auto; rewrite ?EE.
    + intros a [H|[]]. subst. apply R. now left.
    + simpl. now rewrite VX.
    + repeat constructor.
    + intros a [H|[]]. subst. apply R. right. now left.
    + simpl. now rewrite VY.
    + repeat constructor.
Qed.
Print Assumptions C66_created_value.

(** the hypotheses hold: two histograms over one edge array, a 2d one and its projection, and a fill *)
Definition ex_created : list h_op :=
  [HArray (mk_nd [2%nat] [Fin 0; Fin 1]); HArray (mk_nd [1%nat; 1%nat] [Fin 5]); HArray (mk_nd [1%nat] [Fin (1/2)]);
   HFrom2 1 0 0 None].
Example ex_C66_created :
  let s := h_run hs_init ex_created in
  (exists h, creates_value s (HFrom2 1 0 0 None) (Ok h)) /\ (exists h, creates_value s (HProj 0 true) (Ok h)) /\
  (exists h, creates_value s (HNew1 (HEdges 0) None None) (Ok h)) /\
  (exists o h f r, nth_error (s_objs s) 0 = Some o /\ view s o = Some h /\ ~ In (ERef (ho_counts o)) (ho_edges o) /\ fills_value s h 0 f r).
Proof.
  cbv zeta. split; [|split; [|split]].
  - eexists. exact (CV_from2 (h_run hs_init ex_created) 1 0 0 None (mk_nd [1%nat; 1%nat] [Fin 5]) [0; 1] [0; 1] None eq_refl eq_refl eq_refl eq_refl).
  - eexists. exact (CV_proj (h_run hs_init ex_created) 0 true
      (mk_hobj K2 [ERef 0; ERef 0] [1%nat; 1%nat] [1%nat; 1%nat] [(0, 1); (0, 1)] 1 3 false)
      (mk_hist K2 [mk_edges false [0; 1]; mk_edges false [0; 1]] [1%nat; 1%nat] [1%nat; 1%nat] [(0, 1); (0, 1)]
        (mk_nd [1%nat; 1%nat] [Fin 5]) (mk_nd [1%nat; 1%nat] [xsq (xsqrt (Fin 5))]) false) eq_refl eq_refl eq_refl).
  - eexists. exact (CV_edges (h_run hs_init ex_created) 0 None None [0; 1] None WNone eq_refl eq_refl eq_refl).
  - do 4 eexists. split; [reflexivity|split; [reflexivity|split]].
    + simpl. intros [H|[H|[]]]; discriminate.
    + exact (FV_two (h_run hs_init ex_created) _ 0 2 2 None [1/2] [1/2] WNone eq_refl eq_refl eq_refl).
Qed.
