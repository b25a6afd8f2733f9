(** Proofs about the plotting methods: projections and channels. *)
From Coq Require Import Reals String ZArith Bool Arith List Lra Lia.
From Verif Require Import Model_Num Model_Hist Model_Utility Model_Template Model_World Model_Minimizer Model_Plot
  Spec_Hist Spec_Matrix Spec_Template Spec_World Spec_Plot Proof_Hist Proof_Hist2 Proof_Hist3 Proof_Matrix Proof_Template2 Proof_Data Proof_Plot.
Import ListNotations.
Local Open Scope R_scope.

Lemma sum_axis1_vec nx ny v : sum_axis1 nx ny (vec_of (nx * ny) v) = vec_of nx (fun i => sumn ny (fun j => v (i * ny + j)%nat)).
Proof.
  unfold sum_axis1, vec_of at 2. apply map_ext_in. intros i Hi. apply in_seq in Hi. rewrite <- xsum_n_sumn. unfold xsum_n.
  f_equal. apply map_ext_in. intros j Hj. apply in_seq in Hj. apply vnth_vec. nia.
Qed.
Lemma sum_axis0_vec nx ny v : sum_axis0 nx ny (vec_of (nx * ny) v) = vec_of ny (fun j => sumn nx (fun i => v (i * ny + j)%nat)).
Proof.
  unfold sum_axis0, vec_of at 2. apply map_ext_in. intros j Hj. apply in_seq in Hj. rewrite <- xsum_n_sumn. unfold xsum_n.
  f_equal. apply map_ext_in. intros i Hi. apply in_seq in Hi. apply vnth_vec. nia.
Qed.
Lemma map_xsq_vec n s : map xsq (vec_of n s) = vec_of n (fun i => s i * s i).
Proof. unfold vec_of. rewrite map_map. reflexivity. Qed.
Lemma map_xsqrt_vec n s : (forall i, (i < n)%nat -> 0 <= s i) -> map xsqrt (vec_of n s) = vec_of n (fun i => sqrt (s i)).
Proof. intros H. unfold vec_of. rewrite map_map. apply map_ext_in. intros i Hi. apply in_seq in Hi. apply xsqrt_pos. apply H. lia. Qed.

Lemma from_binned1_edges c e er : e_vals e <> [] -> exists h, hist1_from_binned c e er = Ok h /\ h_edges h = [e].
Proof.
  intros N. unfold hist1_from_binned, hist1_empty, hist1_init_bin_edges, get_bin_range. destruct (e_vals e) as [|a l] eqn:E; [congruence|].
  cbn [rbind]. eexists. split; reflexivity.
Qed.

Theorem projection_plot (axis_x : bool) w tid t h ex ey nx ny v s :
  nth_error (w_tmpls w) tid = Some t -> nth_error (w_hists w) (t_hist t) = Some h -> h_edges h = [ex; ey] ->
  nd_shape (h_counts h) = [nx; ny] -> nd_shape (h_errs_sq h) = [nx; ny] -> t_bins t = [nx; ny] ->
  let e := if axis_x then ex else ey in
  let n := if axis_x then nx else ny in
  let total := fun (f : nat -> R) b => if axis_x then sumn ny (fun j => f (b * ny + j)%nat) else sumn nx (fun i => f (i * ny + b)%nat) in
  e_list e = false -> valid_edges (e_vals e) -> length (e_vals e) = S n ->
  t_values t = Ok (vec_of (nx * ny) v) -> t_errors t = Ok (vec_of (nx * ny) s) ->
  exists layers bars, t2_plot_projection_on axis_x tid w = ((w, [DHist layers (e_vals e); bars]), POk tt) /\ length layers = 1%nat /\
    forall b, (b < n)%nat ->
      stack_shows (e_vals e) layers 0 b 0 (total v b) /\
      exists u, u = sqrt (total (fun k => s k ^ 2) b) /\
      bar_shows bars b (nth b (e_vals e) 0) (nth (S b) (e_vals e) 0) (total v b - u) (total v b + u).
Proof.
  intros T H E SC SE TB e n total L V N TV TE.
  set (g := fun b => sqrt (total (fun k => s k * s k) b)).
  assert (RV : (if axis_x then sum_axis1 nx ny else sum_axis0 nx ny) (vec_of (nx * ny) v) = vec_of n (total v)).
  { unfold n, total. destruct axis_x; [apply sum_axis1_vec|apply sum_axis0_vec]. }
  assert (RE : map xsqrt ((if axis_x then sum_axis1 nx ny else sum_axis0 nx ny) (map xsq (vec_of (nx * ny) s))) = vec_of n g).
  { rewrite map_xsq_vec. unfold n, g, total. destruct axis_x; [rewrite sum_axis1_vec|rewrite sum_axis0_vec]; apply map_xsqrt_vec;
      intros i Hi; apply sumn_nonneg; intros; apply Rle_0_sqr. }
  assert (NE : e_vals e <> []) by (intros Q; rewrite Q in N; discriminate).
  assert (HP : exists p, hist2_projection axis_x h = Ok p /\ h_edges p = [e]).
  { unfold hist2_projection. rewrite SC, SE, E. unfold e in NE |- *. destruct axis_x; apply from_binned1_edges; auto. }
  destruct HP as (p & HP & EP).
  do 2 eexists. split; [|split]; [| |intros b Hb; split; [|exists (g b); split]].
  - unfold t2_plot_projection_on. rewrite (pbind_read _ _ _ _ (pget_tmpl _ _ _ T)), (pbind_read _ _ _ _ (pget_hist _ _ _ H)). rewrite TB.
    rewrite (pbind_read _ _ _ _ (pl_ok _ _ w TV)), (pbind_read _ _ _ _ (pl_ok _ _ w TE)). rewrite RV, RE.
    rewrite (pbind_read _ _ _ _ (pl_ok _ _ w HP)). unfold edges1. rewrite EP, (pbind_read _ _ _ e eq_refl).
    rewrite (pbind_read _ _ _ _ (pl_ok _ _ w (mids_ok e n L N))).
    erewrite pbind_ok; [|apply ax_hist_ok; auto; constructor; [|constructor]; cbn [fst snd]; now rewrite mids_length, vec_of_length].
    rewrite (pbind_read _ _ _ _ (pl_ok _ _ w (widths_ok e n L N))), band_vec. cbn [app]. reflexivity.
  - reflexivity.
  - now apply stack_single.
  - unfold g, total. destruct axis_x; f_equal; apply sumn_ext; intros; ring.
  - now apply bar_vec.
Qed.

(** ** Channels *)
Lemma mapM_nth {A B} (f : A -> M B) w (g : nat -> B) : forall l,
  (forall k a, nth_error l k = Some a -> f a w = (w, Ok (g k))) -> mapM f l w = (w, Ok (map g (seq 0 (length l)))).
Proof.
  intros l. revert g. induction l as [|a l IH]; intros g H; [reflexivity|]. cbn [mapM]. unfold bind.
  rewrite (H 0%nat a eq_refl). rewrite (IH (fun k => g (S k))) by (intros k b K; apply (H (S k)); auto).
  cbn [length seq map]. rewrite <- seq_shift, map_map. reflexivity.
Qed.

Lemma each_template_ok {A} w c (f : tmpl -> hist -> res A) (g : nat -> A) :
  on_templates w c (fun k t h => f t h = Ok (g k)) ->
  each_template c f w = ((w, []), POk (map g (seq 0 (length (c_tmpls c))))).
Proof.
  intros H. unfold each_template, pm. rewrite (mapM_nth _ w g); [reflexivity|].
  intros k [p tid] K. destruct (H k p tid K) as (t & h & T & Hh & F). unfold bind, get_tmpl, get_hist. cbn [snd]. rewrite T, Hh. unfold lift. now rewrite F.
Qed.
Lemma on_templates_impl w c (Q R : nat -> tmpl -> hist -> Prop) : (forall k t h, Q k t h -> R k t h) -> on_templates w c Q -> on_templates w c R.
Proof. intros I H k p tid K. destruct (H k p tid K) as (t & h & T & Hh & F). exists t, h. auto. Qed.

Lemma fold_xadd_fin l (f : nat -> R) : forall a, fold_left xadd (map (fun k => Fin (f k)) l) (Fin a) = Fin (a + fold_right Rplus 0 (map f l)).
Proof. induction l as [|k l IH]; intros a; cbn [map fold_left fold_right]; [f_equal; ring|]. cbn [xadd]. rewrite IH. f_equal. ring. Qed.
Lemma vec_sum_vec n nt (v : nat -> nat -> R) : (0 < nt)%nat ->
  vec_sum (map (fun k => vec_of n (v k)) (seq 0 nt)) = vec_of n (fun b => sumn nt (fun k => v k b)).
Proof.
  intros P. set (vs := map (fun k => vec_of n (v k)) (seq 0 nt)).
  assert (F : Forall (fun x => length x = n) vs).
  { apply Forall_forall. intros x Hx. apply in_map_iff in Hx as (k & <- & _). apply vec_of_length. }
  assert (NE : vs <> []) by (unfold vs; destruct nt; [lia|discriminate]).
  apply (nth_ext _ _ NaN NaN).
  - rewrite vec_of_length. now apply vec_sum_length.
  - rewrite (vec_sum_length n vs F NE). intros b Hb. destruct (vec_sum_nth n vs b F NE Hb) as [X _]. rewrite (nth_error_nth _ _ NaN X).
    change (nth b (vec_of n ?f) NaN) with (vnth (vec_of n f) b). rewrite vnth_vec by auto. unfold vs. rewrite map_map.
    rewrite (map_ext_in _ (fun k => Fin (v k b))) by (intros k _; now apply vnth_vec).
    rewrite fold_xadd_fin. f_equal. rewrite Rplus_0_l, <- Rsuml_seq_sumn. clear. induction (seq 0 nt); simpl; congruence.
Qed.
Lemma combine_const {A B} (a : A) (g : nat -> B) l : combine (map (fun _ => a) l) (map g l) = map (fun k => (a, g k)) l.
Proof. apply combine_map_seq. Qed.

Lemma nth_error_map_seq_inv {A} (f : nat -> A) n i a : nth_error (map f (seq 0 n)) i = Some a -> (i < n)%nat /\ a = f i.
Proof.
  intros H. assert (L : (i < n)%nat) by (apply nth_error_Some_lt in H || (assert (Q := nth_error_Some (map f (seq 0 n)) i); rewrite H in Q; rewrite map_length, seq_length in Q; apply Q; discriminate)).
  split; auto. rewrite nth_error_map_seq0 in H by auto. congruence.
Qed.
Lemma stack_vec es n nt (v : nat -> nat -> R) k b : valid_edges es -> length es = S n -> (b < n)%nat -> (k < nt)%nat ->
  stack_shows es (map (fun j => (mids_of es n, vec_of n (v j))) (seq 0 nt)) k b (sumn k (fun j => v j b)) (sumn (S k) (fun j => v j b)).
Proof.
  intros V L Hb Hk. exists (fun j => v j b), (mids_of es n, vec_of n (v k)). split; [now apply (nth_error_map_seq0 (fun j => (mids_of es n, vec_of n (v j))))|].
  split; [now apply layer_vec|]. split; [|split; reflexivity]. intros j l' Hj X. apply nth_error_map_seq_inv in X as [_ ->]. now apply layer_vec.
Qed.

Lemma plot_stack_gen w c (es : nat -> list R) n (v : nat -> nat -> R) :
  c_dim c = Some 1%nat -> c_tmpls c <> [] -> valid_edges (es 0%nat) -> (forall k, (k < length (c_tmpls c))%nat -> length (es k) = S n) ->
  on_templates w c (fun k t h => h_edges h = [mk_edges false (es k)] /\ t_values t = Ok (vec_of n (v k))) ->
  plot_stack c w = ((w, [DHist (map (fun k => (mids_of (es k) n, vec_of n (v k))) (seq 0 (length (c_tmpls c)))) (es 0%nat)]),
    POk (mids_of (es 0%nat) n, widths_of (es 0%nat) n, map (fun k => vec_of n (v k)) (seq 0 (length (c_tmpls c))))).
Proof.
  intros D NE V L T. unfold plot_stack. rewrite D. cbn [Nat.ltb Nat.leb].
  assert (T' : on_templates w c (fun k t h => h_edges h = [mk_edges false (es k)] /\ t_values t = Ok (vec_of n (v k)) /\ length (es k) = S n)).
  { intros k p tid K. destruct (T k p tid K) as (t & h & T1 & T2 & T3 & T4). exists t, h. repeat (split; auto). apply L. apply nth_error_Some. congruence. }
  rewrite (pbind_read _ _ _ (map (fun k => mids_of (es k) n) (seq 0 (length (c_tmpls c))))).
  2:{ apply each_template_ok. revert T'. apply on_templates_impl. intros k t h (E & _ & LL). unfold only_edges. rewrite E. now apply (mids_ok (mk_edges false (es k)) n). }
  rewrite (pbind_read _ _ _ (map (fun k => mk_edges false (es k)) (seq 0 (length (c_tmpls c))))).
  2:{ apply each_template_ok. revert T. apply on_templates_impl. intros k t h [E _]. unfold only_edges. now rewrite E. }
  destruct (length (c_tmpls c)) as [|m] eqn:LL; [destruct (c_tmpls c); [congruence|discriminate]|].
  cbn [seq map]. rewrite (pbind_read _ _ _ _ (pl_ok _ _ w (widths_ok (mk_edges false (es 0%nat)) n eq_refl (L 0%nat ltac:(lia))))).
  rewrite (pbind_read _ _ _ (map (fun k => vec_of n (v k)) (seq 0 (S m)))).
  2:{ rewrite <- LL. apply each_template_ok. revert T. apply on_templates_impl. intros k t h [_ X]. exact X. }
  change (mids_of (es 0%nat) n :: map (fun k : nat => mids_of (es k) n) (seq 1 m)) with (map (fun k : nat => mids_of (es k) n) (seq 0 (S m))).
  rewrite combine_map_seq. cbn [e_vals].
  erewrite pbind_ok; [|apply ax_hist_ok; auto].
  2:{ apply Forall_forall. intros q Hq. apply in_map_iff in Hq as (k & <- & _). cbn [fst snd]. now rewrite mids_length, vec_of_length. }
  reflexivity.
Qed.
Lemma plot_stack_ok w c es n (v : nat -> nat -> R) :
  c_dim c = Some 1%nat -> c_tmpls c <> [] -> valid_edges es -> length es = S n ->
  on_templates w c (fun k t h => h_edges h = [mk_edges false es] /\ t_values t = Ok (vec_of n (v k))) ->
  plot_stack c w = ((w, [DHist (map (fun k => (mids_of es n, vec_of n (v k))) (seq 0 (length (c_tmpls c)))) es]),
    POk (mids_of es n, widths_of es n, map (fun k => vec_of n (v k)) (seq 0 (length (c_tmpls c))))).
Proof. intros D NE V L T. apply (plot_stack_gen w c (fun _ => es)); auto. Qed.

Lemma plot_data_ok w c n es d q : length es = S n -> has_data_hist w c n es d q ->
  exists l, plot_data c w = ((w, l), POk tt) /\ data_points c n es d q l.
Proof.
  intros L [N|(hid & h & D & H & E & C & Q & P)]; unfold plot_data.
  - rewrite N. exists []. split; [reflexivity|left; auto].
  - rewrite D, (pbind_read _ _ _ _ (pget_hist _ _ _ H)). unfold edges1. rewrite E, (pbind_read _ _ _ (mk_edges false es) eq_refl).
    rewrite (pbind_read _ _ _ _ (pl_ok _ _ w (mids_ok (mk_edges false es) n eq_refl L))). cbn [e_vals]. rewrite C, Q, map_xsqrt_vec by auto.
    unfold ax_errorbar. rewrite !vec_of_length, mids_length, Nat.eqb_refl. eexists. split; [reflexivity|]. right. split; [congruence|]. eexists. split; [reflexivity|].
    intros b Hb. unfold point_shows, mids_of, vec_of. rewrite !nth_error_map_seq0 by auto. split; [f_equal; field|]. split; reflexivity.
Qed.

Lemma channel_plot_gen w cid c (es : nat -> list R) n (v s : nat -> nat -> R) d q :
  nth_error (w_chans w) cid = Some c -> c_dim c = Some 1%nat -> c_tmpls c <> [] -> valid_edges (es 0%nat) ->
  (forall k, (k < length (c_tmpls c))%nat -> length (es k) = S n) ->
  on_templates w c (fun k t h => h_edges h = [mk_edges false (es k)] /\ t_values t = Ok (vec_of n (v k)) /\ t_errors t = Ok (vec_of n (s k))) ->
  has_data_hist w c n (es 0%nat) d q ->
  let nt := length (c_tmpls c) in
  exists bars l, plot_stacked_on cid w
      = ((w, DHist (map (fun k => (mids_of (es k) n, vec_of n (v k))) (seq 0 nt)) (es 0%nat) :: bars :: l), POk tt) /\
    (forall b, (b < n)%nat ->
      let u := sqrt (sumn nt (fun k => s k b ^ 2)) in
      bar_shows bars b (nth b (es 0%nat) 0) (nth (S b) (es 0%nat) 0) (sumn nt (fun k => v k b) - u) (sumn nt (fun k => v k b) + u)) /\
    data_points c n (es 0%nat) d q l.
Proof.
  intros C D NE V L T HD nt.
  assert (NT : (0 < nt)%nat) by (unfold nt; destruct (c_tmpls c); [congruence|simpl; lia]).
  assert (L0 : length (es 0%nat) = S n) by (apply L; exact NT).
  destruct (plot_data_ok w c n (es 0%nat) d q L0 HD) as (l & PD & DP).
  eexists. exists l. split; [|split; [|exact DP]].
  - unfold plot_stacked_on. rewrite (pbind_read _ _ _ _ (pget_chan _ _ _ C)).
    erewrite pbind_ok; [|apply (plot_stack_gen w c es n v); auto; revert T; apply on_templates_impl; intros k t h (A & B & _); auto].
    cbv beta iota. rewrite (pbind_read _ _ _ (map (fun k => vec_of n (s k)) (seq 0 (length (c_tmpls c))))).
    2:{ apply each_template_ok. revert T. apply on_templates_impl. intros k t h (_ & _ & X). exact X. }
    fold nt. rewrite map_map. rewrite (map_ext (fun x => map xsq (vec_of n (s x))) (fun x => vec_of n (fun i => s x i * s x i))) by (intros; apply map_xsq_vec).
    rewrite !vec_sum_vec by auto. rewrite map_xsqrt_vec by (intros; apply sumn_nonneg; intros; apply Rle_0_sqr).
    erewrite pbind_ok; [|apply band_vec]. rewrite PD. cbn [app]. reflexivity.
  - intros b Hb. cbv zeta. rewrite (sumn_ext nt (fun k => s k b ^ 2) (fun k => s k b * s k b)) by (intros; ring).
    apply (bar_vec (es 0%nat) n (fun b => sumn nt (fun k => v k b)) (fun b => sqrt (sumn nt (fun k => s k b * s k b)))). auto.
Qed.

Theorem channel_plot w cid c es n (v s : nat -> nat -> R) d q :
  nth_error (w_chans w) cid = Some c -> c_dim c = Some 1%nat -> c_tmpls c <> [] -> valid_edges es -> length es = S n ->
  on_templates w c (fun k t h => h_edges h = [mk_edges false es] /\ t_values t = Ok (vec_of n (v k)) /\ t_errors t = Ok (vec_of n (s k))) ->
  has_data_hist w c n es d q ->
  let nt := length (c_tmpls c) in
  exists layers bars l, plot_stacked_on cid w = ((w, DHist layers es :: bars :: l), POk tt) /\ length layers = nt /\
    (forall b, (b < n)%nat ->
      (forall k, (k < nt)%nat -> stack_shows es layers k b (sumn k (fun j => v j b)) (sumn (S k) (fun j => v j b))) /\
      let u := sqrt (sumn nt (fun k => s k b ^ 2)) in
      bar_shows bars b (nth b es 0) (nth (S b) es 0) (sumn nt (fun k => v k b) - u) (sumn nt (fun k => v k b) + u)) /\
    data_points c n es d q l.
Proof.
  intros C D NE V L T HD nt. destruct (channel_plot_gen w cid c (fun _ => es) n v s d q C D NE V (fun _ _ => L) T HD) as (bars & l & E & B & DP).
  do 2 eexists. exists l. split; [exact E|]. split; [now rewrite map_length, seq_length|]. split; [|exact DP].
  intros b Hb. split; [intros k Hk; now apply stack_vec|]. exact (B b Hb).
Qed.

(** ** plot_post_fit_stacked_on *)
Theorem post_fit_plot jac w cid c es n (v s : nat -> nat -> R) d q rp opt w' er :
  nth_error (w_chans w) cid = Some c -> c_dim c = Some 1%nat -> c_tmpls c <> [] -> valid_edges es -> length es = S n ->
  on_templates w c (fun k t h => h_edges h = [mk_edges false es] /\ t_values t = Ok (vec_of n (v k))) ->
  has_data_hist w' c n es d q ->
  post_fit_errors jac cid c rp opt w = ((w', []), POk (vec_of n er)) ->
  let nt := length (c_tmpls c) in
  exists layers bars l, plot_post_fit_stacked_on jac cid rp opt w = ((w', DHist layers es :: bars :: l), POk tt) /\ length layers = nt /\
    (forall b, (b < n)%nat ->
      (forall k, (k < nt)%nat -> stack_shows es layers k b (sumn k (fun j => v j b)) (sumn (S k) (fun j => v j b))) /\
      bar_shows bars b (nth b es 0) (nth (S b) es 0) (sumn nt (fun k => v k b) - er b) (sumn nt (fun k => v k b) + er b)) /\
    data_points c n es d q l.
Proof.
  intros C D NE V L T HD PE nt. destruct (plot_data_ok w' c n es d q L HD) as (l & PD & DP).
  assert (NT : (0 < nt)%nat) by (unfold nt; destruct (c_tmpls c); [congruence|simpl; lia]).
  do 2 eexists. exists l. split; [|split; [|split; [|exact DP]]]; [| |intros b Hb; split].
  - unfold plot_post_fit_stacked_on. rewrite (pbind_read _ _ _ _ (pget_chan _ _ _ C)).
    erewrite pbind_ok; [|apply (plot_stack_ok w c es n v); auto].
    cbv beta iota. erewrite pbind_ok; [|exact PE]. fold nt. rewrite vec_sum_vec by auto.
    erewrite pbind_ok; [|apply band_vec]. rewrite PD. cbn [app]. reflexivity.
  - now rewrite map_length, seq_length.
  - intros k Hk. now apply stack_vec.
  - apply (bar_vec es n (fun b => sumn nt (fun k => v k b)) er). auto.
Qed.
Lemma post_fit_fails jac w cid c es n (v : nat -> nat -> R) rp opt e :
  nth_error (w_chans w) cid = Some c -> c_dim c = Some 1%nat -> c_tmpls c <> [] -> valid_edges es -> length es = S n ->
  on_templates w c (fun k t h => h_edges h = [mk_edges false es] /\ t_values t = Ok (vec_of n (v k))) ->
  (exists w', post_fit_errors jac cid c rp opt w = ((w', []), PErr e)) ->
  exists w' layers, plot_post_fit_stacked_on jac cid rp opt w = ((w', [DHist layers es]), PErr e).
Proof.
  intros C D NE V L T (w' & PE). exists w'. eexists. unfold plot_post_fit_stacked_on. rewrite (pbind_read _ _ _ _ (pget_chan _ _ _ C)).
  erewrite pbind_ok; [|apply (plot_stack_ok w c es n v); auto]. cbv beta iota. erewrite pbind_err; [|exact PE]. cbn [app]. reflexivity.
Qed.
