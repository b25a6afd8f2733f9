(** Proofs of the histogram properties C04, C07, C08, C09 and totality of fill. *)
From Coq Require Import Reals String ZArith Bool Arith List Lra Lia Permutation.
From Verif Require Import Model_Num Model_Hist Spec_Hist Proof_Hist Proof_Hist2.
Import ListNotations.
Local Open Scope R_scope.

(** *** C04 *)
Lemma linspace_nth lo hi n i : (1 <= n)%nat -> (i <= n)%nat ->
  nth i (np_linspace lo hi (n + 1)) 0 = lo + INR i * ((hi - lo) / INR n).
Proof.
  intros Hn Hi. rewrite Nat.add_1_r. destruct n as [|n]; [lia|]. unfold np_linspace.
  rewrite nth_map_seq by lia. reflexivity.
Qed.

Lemma nth_tl {A} (l : list A) i d : nth i (tl l) d = nth (S i) l d.
Proof. destruct l; simpl; auto. destruct i; reflexivity. Qed.
Lemma nth_removelast {A} (l : list A) i d : (S i < length l)%nat -> nth i (removelast l) d = nth i l d.
Proof.
  revert i; induction l as [|a [|b l] IH]; intros i H; simpl in H; try lia.
  change (removelast (a :: b :: l)) with (a :: removelast (b :: l)).
  destruct i as [|i]; auto. simpl nth at 1. rewrite IH by (simpl; lia). reflexivity.
Qed.
Lemma removelast_length {A} (l : list A) : length (removelast l) = (length l - 1)%nat.
Proof.
  induction l as [|a [|b l] IH]; auto. change (removelast (a :: b :: l)) with (a :: removelast (b :: l)).
  change (length (a :: removelast (b :: l))) with (S (length (removelast (b :: l)))).
  rewrite IH. simpl. lia.
Qed.
Lemma tl_length {A} (l : list A) : length (tl l) = (length l - 1)%nat.
Proof. destruct l; simpl; lia. Qed.

Lemma pairs_length {A} (f : R -> R -> A) l : length (map2 f (tl l) (removelast l)) = (length l - 1)%nat.
Proof. rewrite map2_length, tl_length, removelast_length. lia. Qed.
Lemma pairs_nth {A} (f : R -> R -> A) l i d : (S i < length l)%nat ->
  nth i (map2 f (tl l) (removelast l)) d = f (nth (S i) l 0) (nth i l 0).
Proof.
  intros H. rewrite (map2_nth f _ _ _ 0 0) by (rewrite ?tl_length, ?removelast_length; lia).
  rewrite nth_tl, nth_removelast by assumption. reflexivity.
Qed.

Lemma equal_width_binning n lo hi :
  (1 <= n)%nat -> lo < hi ->
  exists h e mids widths,
    hist1_new (B1Int (Z.of_nat n)) (Some (lo, hi)) None WNone = Ok h /\
    h_edges h = [e] /\ h_shape h = [n] /\ h_num_bins h = [n] /\ h_range h = [(lo, hi)] /\
    length (e_vals e) = S n /\ valid_edges (e_vals e) /\
    nth 0 (e_vals e) 0 = lo /\ nth n (e_vals e) 0 = hi /\
    bin_widths e = Ok widths /\ length widths = n /\ (forall w, In w widths -> w = (hi - lo) / INR n) /\
    Rsuml widths = hi - lo /\
    bin_mids e = Ok mids /\ length mids = n /\
    forall i, (i < n)%nat -> nth i mids 0 = (nth i (e_vals e) 0 + nth (S i) (e_vals e) 0) / 2.
Proof.
  intros Hn Hlt. assert (HN : 0 < INR n) by (apply lt_0_INR; lia).
  assert (Hstep : 0 < (hi - lo) / INR n) by (apply Rdiv_lt_0_compat; lra).
  unfold hist1_new, hist1_empty, hist1_init_bin_edges, linspace_edges.
  destruct (Z.ltb_spec (Z.of_nat n) 0); [lia|]. cbn [rbind]. rewrite Nat2Z.id.
  do 4 eexists. split; [reflexivity|]. split; [reflexivity|]. cbn [h_shape h_num_bins h_range e_vals e_list].
  do 3 (split; [reflexivity|]). set (es := np_linspace lo hi (n + 1)).
  assert (L : length es = S n) by (unfold es; rewrite linspace_length; lia).
  assert (E : forall i, (i <= n)%nat -> nth i es 0 = lo + INR i * ((hi - lo) / INR n))
    by (intros i Hi; apply linspace_nth; assumption).
  split; [exact L|]. split.
  { split; [lia|]. intros i Hi. rewrite !E by lia. rewrite S_INR. lra. }
  split; [rewrite E by lia; change (INR 0) with 0; ring|]. split; [rewrite E by lia; field; lra|].
  unfold bin_widths; simpl e_list; cbn iota. split; [reflexivity|].
  cbn [e_vals]. fold es. split; [rewrite pairs_length; lia|].
  assert (W : forall w, In w (map2 (fun b a => b - a) (tl es) (removelast es)) -> w = (hi - lo) / INR n).
  { intros w Hw. apply In_nth with (d := 0) in Hw as (k & Hk & <-). rewrite pairs_length in Hk.
    rewrite pairs_nth by lia. rewrite !E by lia. rewrite S_INR. lra. }
  split; [exact W|]. split.
  { assert (G : forall l c, (forall w, In w l -> w = c) -> Rsuml l = INR (length l) * c).
    { induction l as [|a l IH]; intros c H0; [simpl; lra|].
      change (Rsuml (a :: l)) with (a + Rsuml l). change (length (a :: l)) with (S (length l)).
      rewrite S_INR, (IH c) by (intros; apply H0; right; auto). replace a with c by (symmetry; apply H0; left; auto). lra. }
    rewrite (G _ _ W), pairs_length, L. replace (S n - 1)%nat with n by lia. field. lra. }
  split; [reflexivity|]. cbn [e_vals]. fold es. split; [rewrite pairs_length; lia|].
  intros i Hi. rewrite pairs_nth by lia. lra.
Qed.

Lemma equal_width_rejected n range :
  ((n < 0)%Z \/ range = None) -> exists e, hist1_new (B1Int n) range None WNone = Err e.
Proof.
  unfold hist1_new, hist1_empty, hist1_init_bin_edges, linspace_edges. intros [H| ->].
  - destruct range as [[lo hi]|]; [|eexists; reflexivity].
    destruct (Z.ltb_spec n 0); [|lia]. eexists; reflexivity.
  - eexists; reflexivity.
Qed.

(** *** C08 *)
Lemma fill_with_atomic stat shape h n w :
  nd_shape (h_errs_sq h) = nd_shape (h_counts h) -> length (nd_flat (h_errs_sq h)) = length (nd_flat (h_counts h)) ->
  (forall ws vs s, length ws = length vs -> stat ws = Ok s -> exists t, stat vs = Ok t /\ length t = length s) ->
  not_tuple w -> forall h' e, fill_with stat shape h n w = (h', Err e) -> h' = h.
Proof.
  intros Hs Hl Hstat Hw h' e. unfold fill_with. rewrite resolve_weight_list.
  destruct (stat (weight_list n w)) as [s|] eqn:Es; simpl; [|congruence].
  destruct (nd_iadd (h_counts h) shape s) as [c|] eqn:Ec; [|congruence].
  assert (squareable w = true) as -> by (destruct w; simpl in *; tauto || reflexivity). simpl.
  destruct (Hstat (weight_list n w) (map (fun x => x * x) (weight_list n w)) s) as (t & Et & Lt);
    [rewrite map_length; reflexivity|assumption|]. rewrite Et. simpl.
  apply nd_iadd_ok in Ec as (S1 & L1 & ->). unfold nd_iadd.
  rewrite Hs, Hl, S1, natlist_eqb_refl, L1, Lt, Nat.eqb_refl. simpl. congruence.
Qed.

Lemma binned_statistic_lengths es xs ws vs s :
  length ws = length vs -> binned_statistic es xs ws = Ok s ->
  exists t, binned_statistic es xs vs = Ok t /\ length t = length s.
Proof.
  unfold binned_statistic. intros <-. destruct (negb _); [discriminate|]. destruct (_ || _); [discriminate|].
  intros H; inversion H; subst. eexists; split; [reflexivity|]. rewrite !map_length. reflexivity.
Qed.
Lemma binned_statistic_2d_lengths ex ey xs ys ws vs s :
  length ws = length vs -> binned_statistic_2d ex ey xs ys ws = Ok s ->
  exists t, binned_statistic_2d ex ey xs ys vs = Ok t /\ length t = length s.
Proof.
  intros Hl H0. unfold binned_statistic_2d in *. rewrite <- Hl. destruct (negb _); [discriminate|]. destruct (_ || _ || _ || _ || _); [discriminate|].
  inversion H0; subst. eexists; split; [reflexivity|].
  rewrite !flat_map_const_length with (k := (length ey - 1)%nat); auto;
    intros a; rewrite map_length, seq_length; reflexivity.
Qed.

Lemma fill1_atomic h d w h' e :
  nd_shape (h_errs_sq h) = nd_shape (h_counts h) -> length (nd_flat (h_errs_sq h)) = length (nd_flat (h_counts h)) ->
  not_tuple w -> hist1_fill h d w = (h', Err e) -> h' = h.
Proof.
  intros Hs Hl Hw. unfold hist1_fill. apply fill_with_atomic; auto.
  intros ws vs s; apply binned_statistic_lengths.
Qed.
Lemma fill2_atomic h xs ys w h' e :
  nd_shape (h_errs_sq h) = nd_shape (h_counts h) -> length (nd_flat (h_errs_sq h)) = length (nd_flat (h_counts h)) ->
  not_tuple w -> hist2_fill h xs ys w = (h', Err e) -> h' = h.
Proof.
  intros Hs Hl Hw. unfold hist2_fill. apply fill_with_atomic; auto.
  intros ws vs s; apply binned_statistic_2d_lengths.
Qed.

(** witness: one bin [0,2], event 1 with weights given as the tuple (1,) *)
Lemma in_bin_dig : bin_number 1 [0; 2] = 1%nat.
Proof.
  apply (bin_number_spec [0; 2] 1 0).
  - split; simpl; [lia|]. intros [|i] Hi; [simpl; lra|lia].
  - simpl; lia.
  - unfold in_bin; simpl. lra.
Qed.
Lemma incr_02 : strictly_increasing [0; 2] = true.
Proof. apply strictly_increasing_spec. intros [|i] Hi; simpl in *; [lra|lia]. Qed.

Lemma fill1_tuple_not_atomic :
  exists h h', hist1_new (B1Edges (mk_edges false [0; 2])) None None WNone = Ok h /\
    hist1_fill h [1] (WTuple [1]) = (h', Err TypeError) /\ h_counts h' <> h_counts h /\
    entry (h_counts h) 0 0 /\ entry (h_counts h') 0 1.
Proof.
  eexists; eexists. split; [reflexivity|]. unfold hist1_fill, fill_with, edges_nth; simpl.
  unfold binned_statistic. rewrite incr_02. simpl. unfold nd_iadd; simpl.
  rewrite in_bin_dig. unfold bincount. simpl. split; [reflexivity|]. unfold entry; simpl.
  assert (E : 0 + (1 + 0) = 1) by lra. rewrite E. split; [|split; reflexivity].
  intros H. inversion H. lra.
Qed.

(** *** C09 *)
Lemma xsqrt_xsq x : xsqrt (xsq x) = xabs x.
Proof.
  destruct x; simpl; auto. destruct (Rltb_spec (r * r) 0) as [H|H]; [nra|].
  f_equal. apply sqrt_Rsqr_abs.
Qed.
Lemma xsq_xsqrt r : 0 <= r -> xsq (xsqrt (Fin r)) = Fin r.
Proof. intros H. rewrite xsqrt_nonneg by assumption. unfold xsq, xmul. f_equal. apply sqrt_sqrt; assumption. Qed.

Lemma from_binned1 counts e errors :
  (1 <= length (e_vals e))%nat ->
  exists h, hist1_from_binned counts e errors = Ok h /\ h_counts h = counts /\ h_edges h = [e] /\ h_empty h = false /\
    h_range h = [(nth 0 (e_vals e) 0, nth (length (e_vals e) - 1) (e_vals e) 0)] /\
    match errors with
    | Some er => bin_errors h = mk_nd (nd_shape er) (map xabs (nd_flat er))
    | None => (forall x, In x (nd_flat counts) -> exists r, x = Fin r /\ 0 <= r) ->
              h_errs_sq h = counts /\ bin_errors h = mk_nd (nd_shape counts) (map xsqrt (nd_flat counts))
    end.
Proof.
  intros He. unfold hist1_from_binned, hist1_empty, hist1_init_bin_edges, get_bin_range.
  destruct (e_vals e) as [|e0 es] eqn:E; [simpl in He; lia|]. rewrite <- E. simpl rbind.
  eexists; split; [reflexivity|]. simpl. do 3 (split; [reflexivity|]).
  split. { rewrite last_nth, E. reflexivity. }
  destruct errors as [er|]; simpl.
  - unfold bin_errors, nd_map; simpl. f_equal. rewrite map_map. apply map_ext. apply xsqrt_xsq.
  - intros Hpos. assert (Q : nd_map xsq (nd_map xsqrt counts) = counts).
    { unfold nd_map; simpl. destruct counts as [sh fl]; simpl in *. f_equal. rewrite map_map.
      rewrite <- (map_id fl) at 2. apply map_ext_in. intros x Hx. destruct (Hpos x Hx) as (r & -> & Hr).
      apply xsq_xsqrt; assumption. }
    split; [exact Q|]. unfold bin_errors; simpl. rewrite Q. reflexivity.
Qed.

Lemma from_binned2 counts e f errors :
  (1 <= length (e_vals e))%nat -> (1 <= length (e_vals f))%nat ->
  exists h, hist2_from_binned counts e f errors = Ok h /\ h_counts h = counts /\ h_edges h = [e; f] /\ h_empty h = false /\
    match errors with
    | Some er => bin_errors h = mk_nd (nd_shape er) (map xabs (nd_flat er))
    | None => (forall x, In x (nd_flat counts) -> exists r, x = Fin r /\ 0 <= r) ->
              h_errs_sq h = counts /\ bin_errors h = mk_nd (nd_shape counts) (map xsqrt (nd_flat counts))
    end.
Proof.
  intros He Hf. unfold hist2_from_binned, hist2_empty, get_bin_range.
  destruct (e_vals e) as [|e0 es] eqn:E; [simpl in He; lia|]. rewrite <- E.
  destruct (e_vals f) as [|f0 fs] eqn:F; [simpl in Hf; lia|]. rewrite <- F. simpl rbind.
  eexists; split; [reflexivity|]. simpl. do 3 (split; [reflexivity|]).
  destruct errors as [er|]; simpl.
  - unfold bin_errors, nd_map; simpl. f_equal. rewrite map_map. apply map_ext. apply xsqrt_xsq.
  - intros Hpos. assert (Q : nd_map xsq (nd_map xsqrt counts) = counts).
    { unfold nd_map; simpl. destruct counts as [sh fl]; simpl in *. f_equal. rewrite map_map.
      rewrite <- (map_id fl) at 2. apply map_ext_in. intros x Hx. destruct (Hpos x Hx) as (r & -> & Hr).
      apply xsq_xsqrt; assumption. }
    split; [exact Q|]. unfold bin_errors; simpl. rewrite Q. reflexivity.
Qed.

(** *** C07 *)
Lemma xsum_n_Fin n g : xsum_n n (fun j => Fin (g j)) = Fin (Rsuml (map g (seq 0 n))).
Proof. unfold xsum_n. rewrite <- np_sum_Fin, map_map. reflexivity. Qed.

Lemma np_sum_ext n f g : (forall i, (i < n)%nat -> f i = g i) -> xsum_n n f = xsum_n n g.
Proof. intros H. unfold xsum_n. f_equal. apply map_ext_in. intros i Hi. apply in_seq in Hi. apply H; lia. Qed.

Section Proj.
  Variables ex ey : list R.
  Hypothesis Vx : valid_edges ex.
  Hypothesis Vy : valid_edges ey.
  Let nx := (length ex - 1)%nat.
  Let ny := (length ey - 1)%nat.

  Definition rowc (i : nat) (p : R * R) : bool := Nat.eqb (bin_number (fst p) ex) (S i) && in_range_b ey (snd p).
  Definition colc (j : nat) (p : R * R) : bool := in_range_b ex (fst p) && Nat.eqb (bin_number (snd p) ey) (S j).
  Definition cellc (i j : nat) (p : R * R) : bool :=
    Nat.eqb (bin_number (fst p) ex) (S i) && Nat.eqb (bin_number (snd p) ey) (S j).
  Definition inboth (p : R * R) : bool := in_range_b ex (fst p) && in_range_b ey (snd p).

  Lemma vnth_cells ev i j : (i < nx)%nat -> (j < ny)%nat ->
    vnth (map (fun p => Fin (wsumf p ev)) (cells2 ex ey)) (i * ny + j) = Fin (wsumf (cellc i j) ev).
  Proof.
    intros Hi Hj. unfold vnth. apply nth_error_nth. rewrite nth_error_map.
    unfold nx, ny in *. rewrite cells2_nth by lia. reflexivity.
  Qed.

  (* exactly one y bin contains a value in range *)
  Lemma one_bin es (V : valid_edges es) y j :
    (j < length es - 1)%nat -> Nat.eqb (bin_number y es) (S j) = true -> in_range_b es y = true.
  Proof.
    intros Hj E. destruct (in_range_b_spec es y) as [|H]; auto. exfalso; apply H.
    apply in_range_in_bin; auto. exists j. split; [lia|].
    destruct (bin_number_in_bin es j V ltac:(lia) y); [assumption|discriminate].
  Qed.
  Lemma some_bin es (V : valid_edges es) y : in_range_b es y = true ->
    exists i, (i < length es - 1)%nat /\ forall j, (j < length es - 1)%nat -> Nat.eqb (bin_number y es) (S j) = Nat.eqb i j.
  Proof.
    intros E. destruct (in_range_b_spec es y) as [H|]; [|discriminate].
    apply in_range_in_bin in H as (i & Hi & Hb); auto. exists i. split; [lia|]. intros j Hj.
    apply (bin_number_spec es y i) in Hb; auto. rewrite Hb. reflexivity.
  Qed.

  Lemma sum_row ev i : Rsuml (map (fun j => wsumf (cellc i j) ev) (seq 0 ny)) = wsumf (rowc i) ev.
  Proof.
    rewrite <- (sum_cells (map (fun j => cellc i j) (seq 0 ny)) (rowc i) ev); [rewrite map_map; reflexivity| |].
    - intros [x y] H. unfold rowc in H; simpl in H. apply andb_prop in H as [H1 H2].
      destruct (some_bin ey Vy y H2) as (k & Hk & Hj). exists k. rewrite map_length, seq_length. split; [assumption|].
      intros j Hlt. rewrite nth_map_seq by assumption. unfold cellc; cbn [fst snd]. rewrite H1, Hj by assumption. reflexivity.
    - intros [x y] H p Hp. apply in_map_iff in Hp as (j & <- & Hj). apply in_seq in Hj. unfold cellc, rowc in *; cbn [fst snd] in *.
      destruct (Nat.eqb (bin_number x ex) (S i)); simpl in *; auto.
      destruct (Nat.eqb (bin_number y ey) (S j)) eqn:E; auto. apply one_bin in E; auto; [congruence|]. unfold ny in *; lia.
  Qed.
  Lemma sum_col ev j : Rsuml (map (fun i => wsumf (cellc i j) ev) (seq 0 nx)) = wsumf (colc j) ev.
  Proof.
    rewrite <- (sum_cells (map (fun i => cellc i j) (seq 0 nx)) (colc j) ev); [rewrite map_map; reflexivity| |].
    - intros [x y] H. unfold colc in H; simpl in H. apply andb_prop in H as [H1 H2].
      destruct (some_bin ex Vx x H1) as (k & Hk & Hj). exists k. rewrite map_length, seq_length. split; [assumption|].
      intros i Hlt. rewrite nth_map_seq by assumption. unfold cellc; cbn [fst snd]. rewrite H2, Hj by assumption.
      apply andb_true_r.
    - intros [x y] H p Hp. apply in_map_iff in Hp as (i & <- & Hi). apply in_seq in Hi. unfold cellc, colc in *; cbn [fst snd] in *.
      destruct (Nat.eqb (bin_number y ey) (S j)); simpl in *; [|apply andb_false_r]. rewrite andb_true_r in H.
      destruct (Nat.eqb (bin_number x ex) (S i)) eqn:E; auto. apply one_bin in E; auto; [congruence|]. unfold nx in *; lia.
  Qed.
  Lemma sum_rows ev : Rsuml (map (fun i => wsumf (rowc i) ev) (seq 0 nx)) = wsumf inboth ev.
  Proof.
    rewrite <- (sum_cells (map (fun i => rowc i) (seq 0 nx)) inboth ev); [rewrite map_map; reflexivity| |].
    - intros [x y] H. unfold inboth in H; simpl in H. apply andb_prop in H as [H1 H2].
      destruct (some_bin ex Vx x H1) as (k & Hk & Hj). exists k. rewrite map_length, seq_length. split; [assumption|].
      intros i Hlt. rewrite nth_map_seq by assumption. unfold rowc; cbn [fst snd]. rewrite H2, Hj by assumption.
      apply andb_true_r.
    - intros [x y] H p Hp. apply in_map_iff in Hp as (i & <- & Hi). apply in_seq in Hi. unfold rowc, inboth in *; cbn [fst snd] in *.
      destruct (in_range_b ey y); simpl in *; [|apply andb_false_r]. rewrite andb_true_r in H.
      destruct (Nat.eqb (bin_number x ex) (S i)) eqn:E; auto. apply one_bin in E; auto; [congruence|]. unfold nx in *; lia.
  Qed.
  Lemma sum_cols ev : Rsuml (map (fun j => wsumf (colc j) ev) (seq 0 ny)) = wsumf inboth ev.
  Proof.
    rewrite <- (sum_cells (map (fun j => colc j) (seq 0 ny)) inboth ev); [rewrite map_map; reflexivity| |].
    - intros [x y] H. unfold inboth in H; simpl in H. apply andb_prop in H as [H1 H2].
      destruct (some_bin ey Vy y H2) as (k & Hk & Hj). exists k. rewrite map_length, seq_length. split; [assumption|].
      intros i Hlt. rewrite nth_map_seq by assumption. unfold colc; cbn [fst snd]. rewrite H1, Hj by assumption.
      reflexivity.
    - intros [x y] H p Hp. apply in_map_iff in Hp as (i & <- & Hi). apply in_seq in Hi. unfold colc, inboth in *; cbn [fst snd] in *.
      destruct (in_range_b ex x); simpl in *; auto.
      destruct (Nat.eqb (bin_number y ey) (S i)) eqn:E; auto. apply one_bin in E; auto; [congruence|]. unfold ny in *; lia.
  Qed.

  Lemma sum_axis1_cells ev :
    sum_axis1 nx ny (map (fun p => Fin (wsumf p ev)) (cells2 ex ey)) = map (fun i => Fin (wsumf (rowc i) ev)) (seq 0 nx).
  Proof.
    unfold sum_axis1. apply map_ext_in. intros i Hi. apply in_seq in Hi.
    rewrite (np_sum_ext _ _ (fun j => Fin (wsumf (cellc i j) ev))) by (intros; apply vnth_cells; lia).
    rewrite xsum_n_Fin, sum_row. reflexivity.
  Qed.
  Lemma sum_axis0_cells ev :
    sum_axis0 nx ny (map (fun p => Fin (wsumf p ev)) (cells2 ex ey)) = map (fun j => Fin (wsumf (colc j) ev)) (seq 0 ny).
  Proof.
    unfold sum_axis0. apply map_ext_in. intros j Hj. apply in_seq in Hj.
    rewrite (np_sum_ext _ _ (fun i => Fin (wsumf (cellc i j) ev))) by (intros; apply vnth_cells; lia).
    rewrite xsum_n_Fin, sum_col. reflexivity.
  Qed.

  Lemma total_cells ev : np_sum (map (fun p => Fin (wsumf p ev)) (cells2 ex ey)) = Fin (wsumf inboth ev).
  Proof.
    rewrite <- (map_map (fun p => wsumf p ev) Fin), np_sum_Fin. f_equal. rewrite <- sum_rows.
    assert (S1 : forall n s, seq (S s) n = map S (seq s n)) by (intros; rewrite seq_shift; reflexivity).
    unfold cells2. fold nx ny. rewrite (S1 nx), (S1 ny).
    generalize (seq 0 nx) as l. intros l. induction l as [|i l IH]; simpl; auto.
    rewrite map_app, Rsuml_app, IH. f_equal. rewrite <- sum_row. rewrite !map_map. reflexivity.
  Qed.
End Proj.

Lemma wsumf_squared_nonneg {A} (p : A -> bool) ev : 0 <= wsumf p (squared ev).
Proof.
  unfold wsumf, squared. induction ev as [|[x w] ev IH]; simpl; [lra|]. destruct (p x); nra.
Qed.

Lemma sqrt_back {A} (f : A -> R) l : (forall a, 0 <= f a) ->
  map xsq (map xsqrt (map (fun a => Fin (f a)) l)) = map (fun a => Fin (f a)) l.
Proof. intros H. rewrite !map_map. apply map_ext. intros a. apply xsq_xsqrt; auto. Qed.

Lemma projections_are_marginals bins range data w h0 fills h e f :
  hist2_new bins range data w = Ok h0 -> fills2 h0 fills = Ok h ->
  h_edges h0 = [e; f] -> valid_edges (e_vals e) -> valid_edges (e_vals f) ->
  let ev := all_events2 (init_fill data w ++ fills) in
  exists hx hy,
    x_projection h = Ok hx /\ y_projection h = Ok hy /\
    h_kind hx = K1 /\ h_edges hx = [e] /\ vector_of (h_counts hx) (length (e_vals e) - 1)
    /\ vector_of (h_errs_sq hx) (length (e_vals e) - 1) /\
    h_kind hy = K1 /\ h_edges hy = [f] /\ vector_of (h_counts hy) (length (e_vals f) - 1)
    /\ vector_of (h_errs_sq hy) (length (e_vals f) - 1) /\
    (forall i, (S i < length (e_vals e))%nat ->
      let P p := in_bin (e_vals e) i (fst p) /\ in_range (e_vals f) (snd p) in
      exists s q, entry (h_counts hx) i s /\ wsum P ev s /\ entry (h_errs_sq hx) i q /\ wsum P (squared ev) q) /\
    (forall j, (S j < length (e_vals f))%nat ->
      let P p := in_range (e_vals e) (fst p) /\ in_bin (e_vals f) j (snd p) in
      exists s q, entry (h_counts hy) j s /\ wsum P ev s /\ entry (h_errs_sq hy) j q /\ wsum P (squared ev) q) /\
    exists t, np_sum (nd_flat (h_counts h)) = Fin t /\ np_sum (nd_flat (h_counts hx)) = Fin t
           /\ np_sum (nd_flat (h_counts hy)) = Fin t
           /\ wsum (fun p => in_range (e_vals e) (fst p) /\ in_range (e_vals f) (snd p)) ev t.
Proof.
  intros Hn Hf He Hv1 Hv2. cbv zeta. apply edges2_nth0 in He as En0. apply edges2_nth1 in He as En1.
  destruct (hist2_history _ _ _ _ _ _ _ Hn Hf) as ([Hc Hq] & G & _ & _ & _ & _). rewrite En0, En1 in Hc, Hq.
  destruct G as (_ & G2 & _). rewrite He in G2. set (ev := all_events2 _) in *.
  assert (Le : (1 <= length (e_vals e))%nat) by (destruct Hv1; lia).
  assert (Lf : (1 <= length (e_vals f))%nat) by (destruct Hv2; lia).
  unfold x_projection, y_projection, hist2_projection. rewrite Hc, Hq, G2. simpl.
  rewrite !sum_axis1_cells, !sum_axis0_cells by assumption.
  match goal with |- context [hist1_from_binned ?c e ?er] =>
    destruct (from_binned1 c e er Le) as (hx & Hx & Cx & Ex & _ & _ & Bx); 
    assert (Kx : h_kind hx = K1 /\ h_errs_sq hx = nd_map xsq (match er with Some v => v | None => c end))
      by (unfold hist1_from_binned, hist1_empty in Hx; destruct (hist1_init_bin_edges _ _) as [[[? ?] ?]|]; simpl in Hx; inversion Hx; split; reflexivity)
  end.
  match goal with |- context [hist1_from_binned ?c f ?er] =>
    destruct (from_binned1 c f er Lf) as (hy & Hy & Cy & Ey & _ & _ & By);
    assert (Ky : h_kind hy = K1 /\ h_errs_sq hy = nd_map xsq (match er with Some v => v | None => c end))
      by (unfold hist1_from_binned, hist1_empty in Hy; destruct (hist1_init_bin_edges _ _) as [[[? ?] ?]|]; simpl in Hy; inversion Hy; split; reflexivity)
  end.
  exists hx, hy. destruct Kx as [Kx Qx], Ky as [Ky Qy].
  unfold nd_map, nd1 in Qx, Qy, Cx, Cy; simpl in Qx, Qy.
  rewrite sqrt_back in Qx, Qy by (intros; apply wsumf_squared_nonneg).
  unfold vector_of, entry. rewrite Cx, Cy, Qx, Qy. simpl. rewrite !map_length, !seq_length.
  do 2 (split; [assumption|]). do 8 (split; [auto; fail|]).
  split; [|split].
  - intros i Hi. eexists; eexists. rewrite !nth_error_map_seq by lia. simpl.
    repeat split; try reflexivity; apply wsumf_wsum; intros [x y]; unfold rowc; cbn [fst snd];
      (destruct (bin_number_in_bin _ i Hv1 Hi x); simpl; [|constructor; tauto]);
      (destruct (in_range_b_spec (e_vals f) y); constructor; tauto).
  - intros i Hi. eexists; eexists. rewrite !nth_error_map_seq by lia. simpl.
    repeat split; try reflexivity; apply wsumf_wsum; intros [x y]; unfold colc; cbn [fst snd];
      (destruct (in_range_b_spec (e_vals e) x); simpl; [|constructor; tauto]);
      (destruct (bin_number_in_bin _ i Hv2 Hi y); constructor; tauto).
  - exists (wsumf (inboth (e_vals e) (e_vals f)) ev). rewrite total_cells by assumption.
    split; [reflexivity|].
    assert (E : forall (g : nat -> R) l, map (fun i => Fin (g i)) l = map Fin (map g l)) by (intros; rewrite map_map; reflexivity).
    split; [|split].
    + rewrite (E (fun i => wsumf (rowc (e_vals e) (e_vals f) i) ev)), np_sum_Fin, sum_rows by assumption. reflexivity.
    + rewrite (E (fun i => wsumf (colc (e_vals e) (e_vals f) i) ev)), np_sum_Fin, sum_cols by assumption. reflexivity.
    + apply wsumf_wsum. intros [x y]. unfold inboth; cbn [fst snd].
      destruct (in_range_b_spec (e_vals e) x); simpl; [|constructor; tauto].
      destruct (in_range_b_spec (e_vals f) y); constructor; tauto.
Qed.

(** *** success of 2d fills *)
Definition ready2 (h : hist) : Prop :=
  exists e f, h_edges h = [e; f] /\ valid_edges (e_vals e) /\ valid_edges (e_vals f)
    /\ nd_shape (h_counts h) = [(length (e_vals e) - 1)%nat; (length (e_vals f) - 1)%nat]
    /\ nd_shape (h_errs_sq h) = nd_shape (h_counts h)
    /\ length (nd_flat (h_counts h)) = ((length (e_vals e) - 1) * (length (e_vals f) - 1))%nat
    /\ length (nd_flat (h_errs_sq h)) = length (nd_flat (h_counts h)).

Lemma binned_statistic_2d_succeeds ex ey xs ys ws :
  valid_edges ex -> valid_edges ey -> length xs = length ys -> length xs = length ws -> xs <> [] ->
  exists s, binned_statistic_2d ex ey xs ys ws = Ok s /\ length s = ((length ex - 1) * (length ey - 1))%nat.
Proof.
  intros [A1 A2] [B1 B2] H1 H2 H3. unfold binned_statistic_2d. rewrite <- H1, <- H2, Nat.eqb_refl. simpl.
  destruct (Nat.ltb_spec (length ex) 2); [lia|]. destruct (Nat.ltb_spec (length ey) 2); [lia|]. simpl.
  apply strictly_increasing_spec in A2, B2. rewrite A2, B2. simpl.
  destruct xs; [congruence|]. simpl. eexists; split; [reflexivity|].
  rewrite flat_map_const_length with (k := (length ey - 1)%nat) by (intros a; rewrite map_length, seq_length; reflexivity).
  rewrite seq_length. reflexivity.
Qed.

Lemma fill2_succeeds h xs ys w :
  ready2 h -> not_tuple w -> length xs = length ys -> length xs = length (weight_list (length xs) w) -> xs <> [] ->
  exists h', hist2_fill h xs ys w = (h', Ok tt) /\ ready2 h'.
Proof.
  intros (e & f & He & Hv & Hvf & A1 & B1 & A2 & B2) Hw Hxy Hl Hne.
  apply edges2_nth0 in He as En. apply edges2_nth1 in He as Fn.
  unfold hist2_fill. rewrite En, Fn. unfold fill_with. rewrite resolve_weight_list.
  destruct (binned_statistic_2d_succeeds _ _ _ _ _ Hv Hvf Hxy Hl Hne) as (s & Es & Ls).
  assert (Hl2 : length xs = length (map (fun x => x * x) (weight_list (length xs) w))) by (rewrite map_length; assumption).
  destruct (binned_statistic_2d_succeeds _ _ _ _ _ Hv Hvf Hxy Hl2 Hne) as (q & Eq & Lq).
  rewrite Es. simpl. unfold nd_iadd. rewrite A1, natlist_eqb_refl, A2, Ls, Nat.eqb_refl. simpl.
  assert (squareable w = true) as -> by (destruct w; simpl in *; tauto || reflexivity). simpl.
  rewrite Eq. simpl. rewrite B1, A1, natlist_eqb_refl, B2, A2, Lq, Nat.eqb_refl. simpl.
  eexists; split; [reflexivity|]. exists e, f. simpl. rewrite !map2_length, B2, A2, Ls, Lq, Nat.min_id.
  destruct Hv, Hvf. repeat split; auto.
Qed.

Lemma new1_ready bins range data w h e :
  hist1_new bins range data w = Ok h -> h_edges h = [e] -> valid_edges (e_vals e) -> ready1 h.
Proof.
  intros Hn He Hv. destruct (fill1_each_event_in_its_bin _ _ _ _ _ [] h e Hn eq_refl He Hv) as (A & B & C & _).
  exists e; auto.
Qed.

(** concrete batching statements *)
Lemma batch1_weighted h d1 w1 d2 w2 :
  ready1 h -> length d1 = length w1 -> length d2 = length w2 ->
  exists h1 h2, hist1_fill h d1 (WArr w1) = (h1, Ok tt) /\ hist1_fill h1 d2 (WArr w2) = (h2, Ok tt) /\
    hist1_fill h (d1 ++ d2) (WArr (w1 ++ w2)) = (h2, Ok tt).
Proof.
  intros Hr L1 L2. destruct (fill1_succeeds h d1 (WArr w1) Hr I L1) as (h1 & F1 & R1).
  destruct (fill1_succeeds h1 d2 (WArr w2) R1 I L2) as (h2 & F2 & R2).
  destruct (fill1_succeeds h (d1 ++ d2) (WArr (w1 ++ w2)) Hr I) as (h' & F3 & _); [simpl; rewrite !app_length; lia|].
  exists h1, h2. split; [assumption|]. split; [assumption|]. rewrite F3. f_equal. symmetry.
  apply (fill1_batch _ _ _ _ _ _ _ _ _ _ F1 F2 F3). unfold events1; simpl. apply combine_app; assumption.
Qed.
Lemma batch1_unweighted h d1 d2 :
  ready1 h ->
  exists h1 h2, hist1_fill h d1 WNone = (h1, Ok tt) /\ hist1_fill h1 d2 WNone = (h2, Ok tt) /\
    hist1_fill h (d1 ++ d2) WNone = (h2, Ok tt).
Proof.
  intros Hr. assert (L : forall d : list R, length d = length (weight_list (length d) WNone)) by (intros; simpl; rewrite repeat_length; reflexivity).
  destruct (fill1_succeeds h d1 WNone Hr I (L _)) as (h1 & F1 & R1).
  destruct (fill1_succeeds h1 d2 WNone R1 I (L _)) as (h2 & F2 & R2).
  destruct (fill1_succeeds h (d1 ++ d2) WNone Hr I (L _)) as (h' & F3 & _).
  exists h1, h2. split; [assumption|]. split; [assumption|]. rewrite F3. f_equal. symmetry.
  apply (fill1_batch _ _ _ _ _ _ _ _ _ _ F1 F2 F3). unfold events1; simpl. rewrite app_length, repeat_app.
  apply combine_app. rewrite repeat_length. reflexivity.
Qed.
Lemma perm1 h d w d' w' :
  ready1 h -> length d = length w -> length d' = length w' -> Permutation (combine d w) (combine d' w') ->
  exists h', hist1_fill h d (WArr w) = (h', Ok tt) /\ hist1_fill h d' (WArr w') = (h', Ok tt).
Proof.
  intros Hr L1 L2 HP. destruct (fill1_succeeds h d (WArr w) Hr I L1) as (h1 & F1 & R1).
  destruct (fill1_succeeds h d' (WArr w') Hr I L2) as (h2 & F2 & _). exists h1. split; [assumption|].
  rewrite F2. f_equal. eapply fill1_order; eauto. apply Permutation_sym. exact HP.
Qed.
Lemma batch2_weighted h x1 y1 w1 x2 y2 w2 :
  ready2 h -> length x1 = length y1 -> length x1 = length w1 -> length x2 = length y2 -> length x2 = length w2 ->
  x1 <> [] -> x2 <> [] ->
  exists h1 h2, hist2_fill h x1 y1 (WArr w1) = (h1, Ok tt) /\ hist2_fill h1 x2 y2 (WArr w2) = (h2, Ok tt) /\
    hist2_fill h (x1 ++ x2) (y1 ++ y2) (WArr (w1 ++ w2)) = (h2, Ok tt).
Proof.
  intros Hr L1 L1' L2 L2' N1 N2. destruct (fill2_succeeds h x1 y1 (WArr w1) Hr I L1 L1' N1) as (h1 & F1 & R1).
  destruct (fill2_succeeds h1 x2 y2 (WArr w2) R1 I L2 L2' N2) as (h2 & F2 & R2).
  destruct (fill2_succeeds h (x1 ++ x2) (y1 ++ y2) (WArr (w1 ++ w2)) Hr I) as (h' & F3 & _);
    [rewrite !app_length; lia|simpl; rewrite !app_length; lia|destruct x1; simpl; congruence|].
  exists h1, h2. split; [assumption|]. split; [assumption|]. rewrite F3. f_equal. symmetry.
  apply (fill2_batch _ _ _ _ _ _ _ _ _ _ _ _ _ F1 F2 F3). unfold events2; simpl. rewrite combine_app by assumption. apply combine_app.
  rewrite combine_length, <- L1, Nat.min_id. assumption.
Qed.
Lemma perm2 h xs ys w xs' ys' w' :
  ready2 h -> length xs = length ys -> length xs = length w -> length xs' = length ys' -> length xs' = length w' ->
  xs <> [] -> Permutation (combine (combine xs ys) w) (combine (combine xs' ys') w') ->
  exists h', hist2_fill h xs ys (WArr w) = (h', Ok tt) /\ hist2_fill h xs' ys' (WArr w') = (h', Ok tt).
Proof.
  intros Hr L1 L1' L2 L2' N HP. destruct (fill2_succeeds h xs ys (WArr w) Hr I L1 L1' N) as (h1 & F1 & R1).
  assert (N' : xs' <> []).
  { intros ->. simpl in *. apply Permutation_sym, Permutation_nil in HP.
    destruct xs, ys, w; simpl in *; try discriminate; congruence. }
  destruct (fill2_succeeds h xs' ys' (WArr w') Hr I L2 L2' N') as (h2 & F2 & _). exists h1. split; [assumption|].
  rewrite F2. f_equal. eapply fill2_order; eauto. apply Permutation_sym. exact HP.
Qed.

Lemma bins_partition es x : valid_edges es ->
  (in_range es x <-> exists i, (S i < length es)%nat /\ in_bin es i x) /\
  (forall i j, (S i < length es)%nat -> (S j < length es)%nat -> in_bin es i x -> in_bin es j x -> i = j).
Proof.
  intros Hv; split; [apply in_range_in_bin; auto|].
  intros i j Hi Hj H1 H2. exact (in_bin_unique es i j x Hv Hi Hj H1 H2).
Qed.
