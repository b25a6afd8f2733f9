(** C95: scipy's comparison with the upper edge. *)
From Coq Require Import Reals ZArith Bool Arith List Lra Lia.
From Flocq Require Import Core.
From Verif Require Import Model_Num Model_Hist Model_Scipy Spec_Hist Spec_Scipy Proof_Hist Prop_Hist.
Import ListNotations.
Local Open Scope R_scope.

Lemma fold_min l : forall a, fold_left Rmin l a <= a /\ (forall w, In w l -> fold_left Rmin l a <= w) /\ (fold_left Rmin l a = a \/ In (fold_left Rmin l a) l).
Proof.
  induction l as [|b l IH]; intros a; cbn [fold_left].
  - split; [lra|]. split; [intros w []|auto].
  - destruct (IH (Rmin a b)) as (A & B & C). pose proof (Rmin_l a b). pose proof (Rmin_r a b). split; [lra|]. split.
    + intros w [<- |I]; [lra|auto].
    + destruct C as [C|C]; [|right; now right]. rewrite C. unfold Rmin. destruct (Rle_dec a b); [now left|right; now left].
Qed.
Lemma widths_nth es : forall i, (S i < length es)%nat -> nth i (map2 Rminus (tl es) (removelast es)) 0 = nth (S i) es 0 - nth i es 0
   /\ (i < length (map2 Rminus (tl es) (removelast es)))%nat.
Proof.
  destruct es as [|a es]; cbn [tl length]; [lia|]. revert a. induction es as [|b es IH]; intros a i I; cbn [length] in I; [lia|].
  change (removelast (a :: b :: es)) with (a :: removelast (b :: es)). cbn [map2 length]. destruct i as [|i]; [cbn; split; [reflexivity|lia]|].
  destruct (IH b i ltac:(lia)) as (E & L). cbn [nth]. rewrite E. split; [reflexivity|]. lia.
Qed.
Lemma widths_len es : length (map2 Rminus (tl es) (removelast es)) = (length es - 1)%nat.
Proof.
  destruct es as [|a es]; [reflexivity|]. cbn [tl]. revert a. induction es as [|b es IH]; intros a; [reflexivity|].
  change (removelast (a :: b :: es)) with (a :: removelast (b :: es)). cbn [map2 length]. rewrite IH. cbn. lia.
Qed.
Lemma min_width_spec es : valid_edges es ->
  0 < min_width es /\ forall i, (S i < length es)%nat -> min_width es <= nth (S i) es 0 - nth i es 0.
Proof.
  intros (L & V). unfold min_width. pose proof (widths_nth es) as W. pose proof (widths_len es) as WL.
  destruct (map2 Rminus (tl es) (removelast es)) as [|w ws] eqn:E; [cbn in WL; lia|].
  destruct (fold_min ws w) as (A & B & C).
  assert (P : forall v, In v (w :: ws) -> 0 < v).
  { intros v I. apply (In_nth _ _ 0) in I as (i & I & <-). rewrite WL in I. destruct (W i ltac:(lia)) as (-> & _). specialize (V i ltac:(lia)). lra. }
  split.
  - destruct C as [-> |C]; apply P; [now left|now right].
  - intros i I. destruct (W i I) as (<- & J). destruct i as [|i]; [exact A|]. cbn [nth]. apply B. apply nth_In. cbn [length] in J. lia.
Qed.
Lemma ten_decimal es : valid_edges es -> 100000 < powerRZ 10 (decimal es) * min_width es.
Proof.
  intros V. destruct (min_width_spec es V) as (W & _). set (w := min_width es) in *.
  assert (T : forall y, y - 1 < IZR (Ztrunc y)).
  { intros y. destruct (Rle_lt_dec 0 y) as [Y|Y].
    - rewrite Ztrunc_floor by exact Y. pose proof (Zfloor_ub y). lra.
    - rewrite Ztrunc_ceil by lra. pose proof (Zceil_ub y). lra. }
  set (y := - (ln w / ln 10)). assert (L10 : 0 < ln 10) by (rewrite <- ln_1; apply ln_increasing; lra).
  assert (D : y + 5 < IZR (decimal es)) by (unfold decimal; fold w; fold y; rewrite plus_IZR; specialize (T y); lra).
  rewrite powerRZ_Rpower by lra.
  assert (E : Rpower 10 (y + 5) * w = 100000).
  { rewrite Rpower_plus. unfold Rpower at 1. replace (y * ln 10) with (- ln w) by (unfold y; field; lra). rewrite exp_Ropp, exp_ln by exact W.
    replace (Rpower 10 5) with 100000; [field; lra|]. replace 5 with (INR 5) by (cbn; ring). rewrite Rpower_pow by lra. ring. }
  rewrite <- E. apply Rmult_lt_compat_r; [exact W|]. apply Rpower_lt; lra.
Qed.
Lemma around_close d a b : around d a = around d b -> Rabs (a - b) * powerRZ 10 d <= 1.
Proof.
  intros H. unfold around in H. assert (P : 0 < powerRZ 10 d) by (apply powerRZ_lt; lra).
  assert (E : IZR (ZnearestE (a * powerRZ 10 d)) = IZR (ZnearestE (b * powerRZ 10 d))).
  { apply (Rmult_eq_reg_r (/ powerRZ 10 d)); [exact H|]. apply Rinv_neq_0_compat. lra. }
  pose proof (Znearest_half (fun n => negb (Z.even n)) (a * powerRZ 10 d)) as A. pose proof (Znearest_half (fun n => negb (Z.even n)) (b * powerRZ 10 d)) as B.
  rewrite E in A. rewrite <- (Rabs_pos_eq (powerRZ 10 d)) by lra. rewrite <- Rabs_mult, Rmult_minus_distr_r.
  apply Rabs_le. apply Rabs_le_inv in A. apply Rabs_le_inv in B. lra.
Qed.
Lemma on_edge_near older es x : valid_edges es -> on_edge older es x = true -> x <> last es 0 -> near_upper_edge es x.
Proof.
  intros V H N. split; [exact N|]. intros i I. unfold on_edge in H. apply andb_prop in H as (_ & H). unfold Reqb in H.
  destruct (Req_EM_T (around (decimal es) x) (around (decimal es) (last es 0))) as [E|]; [|discriminate].
  apply around_close in E. pose proof (ten_decimal es V) as T. destruct (min_width_spec es V) as (W & M). specialize (M i I).
  assert (P : 0 < powerRZ 10 (decimal es)) by (apply powerRZ_lt; lra). set (p := powerRZ 10 (decimal es)) in *. set (r := Rabs (x - last es 0)) in *.
  apply Rlt_le_trans with (min_width es / 100000); [|unfold Rdiv; lra].
  apply (Rmult_lt_reg_r p); [exact P|]. apply Rle_lt_trans with (1 := E). unfold Rdiv. lra.
Qed.
Lemma on_edge_last older es : on_edge older es (last es 0) = true.
Proof. unfold on_edge, Rleb, Reqb. destruct (Rle_dec _ _); [|lra]. destruct (Req_EM_T _ _); [|lra]. now rewrite orb_true_r. Qed.
Lemma scipy_number_same older es x : valid_edges es -> ~ near_upper_edge es x -> scipy_number older x es = bin_number x es.
Proof.
  intros V N. unfold scipy_number, bin_number. cbv zeta. unfold Reqb. destruct (Req_EM_T x (last es 0)) as [-> |E]; [now rewrite on_edge_last|].
  destruct (on_edge older es x) eqn:H; [|reflexivity]. destruct N. eapply on_edge_near; eauto.
Qed.

(** ** C95.  No event next to the upper edge (closer than 1/100000 of the smallest bin width, the edge itself excepted):
    a fill does exactly what it does with an exact comparison, so C01-C09 hold for it. *)
Theorem C95_same_1d_partial : forall older h data w e, h_edges h = [e] -> valid_edges (e_vals e) ->
  (forall x, In x data -> ~ near_upper_edge (e_vals e) x) -> hist1_fill_scipy older h data w = hist1_fill h data w.
Proof.
  intros older h data w e E V N. unfold hist1_fill_scipy, hist1_fill, edges_nth. rewrite E. cbn [nth].
  assert (B : forall ws, binned_scipy older (e_vals e) data ws = binned_statistic (e_vals e) data ws).
  { intros ws. unfold binned_scipy, binned_statistic. cbv zeta. replace (map (fun x => scipy_number older x (e_vals e)) data) with (map (fun x => bin_number x (e_vals e)) data); [reflexivity|].
    apply map_ext_in. intros x I. symmetry. apply scipy_number_same; auto. }
  unfold fill_with. cbv zeta. rewrite !B. reflexivity.
Qed.
Print Assumptions C95_same_1d_partial.
Theorem C95_same_2d_partial : forall older h xs ys w ex ey, h_edges h = [ex; ey] -> valid_edges (e_vals ex) -> valid_edges (e_vals ey) ->
  (forall x, In x xs -> ~ near_upper_edge (e_vals ex) x) -> (forall y, In y ys -> ~ near_upper_edge (e_vals ey) y) ->
  hist2_fill_scipy older h xs ys w = hist2_fill h xs ys w.
Proof.
  intros older h xs ys w ex ey E Vx Vy Nx Ny. unfold hist2_fill_scipy, hist2_fill, edges_nth. rewrite E. cbn [nth].
  assert (B : forall ws, binned_scipy_2d older (e_vals ex) (e_vals ey) xs ys ws = binned_statistic_2d (e_vals ex) (e_vals ey) xs ys ws).
  { intros ws. unfold binned_scipy_2d, binned_statistic_2d. cbv zeta.
    replace (map (fun x => scipy_number older x (e_vals ex)) xs) with (map (fun x => bin_number x (e_vals ex)) xs) by (apply map_ext_in; intros x I; symmetry; apply scipy_number_same; auto).
    replace (map (fun x => scipy_number older x (e_vals ey)) ys) with (map (fun x => bin_number x (e_vals ey)) ys) by (apply map_ext_in; intros x I; symmetry; apply scipy_number_same; auto).
    reflexivity. }
  unfold fill_with. cbv zeta. rewrite !B. reflexivity.
Qed.
Print Assumptions C95_same_2d_partial.
(** In general (newer releases) a fill does what it would do if some events slightly above the range were moved onto the
    upper edge: they are counted in the last bin. *)
Theorem C95_moved_partial : forall h data w e, h_edges h = [e] -> valid_edges (e_vals e) ->
  exists data', hist1_fill_scipy false h data w = hist1_fill h data' w /\
    Forall2 (fun x x' => x' = x \/ near_upper_edge (e_vals e) x /\ last (e_vals e) 0 < x /\ x' = last (e_vals e) 0) data data'.
Proof.
  intros h data w e E V. set (es := e_vals e) in *. set (move := fun x => if on_edge false es x then last es 0 else x).
  assert (D : forall x, digitize x es = digitize (last es 0) es \/ ~ last es 0 <= x).
  { intros x. destruct (Rle_dec (last es 0) x) as [L|L]; [left|now right]. unfold digitize. f_equal.
    assert (A : forall a, In a es -> a <= last es 0).
    { intros a I. apply (In_nth _ _ 0) in I as (i & I & <-). rewrite last_nth. destruct V as (_ & V).
      clear - V I. remember (length es - 1 - i)%nat as k eqn:K. revert i I K. induction k as [|k IH]; intros i I K.
      - replace i with (length es - 1)%nat by lia. lra.
      - specialize (IH (S i) ltac:(lia) ltac:(lia)). specialize (V i ltac:(lia)). lra. }
    apply filter_ext_in. intros a I. specialize (A a I). unfold Rleb. destruct (Rle_dec a x), (Rle_dec a (last es 0)); (reflexivity || lra). }
  assert (S : forall x, scipy_number false x es = bin_number (move x) es).
  { intros x. unfold scipy_number, move. cbv zeta. destruct (on_edge false es x) eqn:O.
    - unfold bin_number. cbv zeta. unfold Reqb. destruct (Req_EM_T (last es 0) (last es 0)); [|lra].
      destruct (D x) as [-> |L]; [reflexivity|]. unfold on_edge in O. cbn [orb] in O. apply andb_prop in O as (O & _). unfold Rleb in O. destruct (Rle_dec (last es 0) x); [tauto|discriminate].
    - unfold bin_number. cbv zeta. unfold Reqb. destruct (Req_EM_T x (last es 0)) as [-> |]; [now rewrite on_edge_last in O|reflexivity]. }
  exists (map move data). split.
  - unfold hist1_fill_scipy, hist1_fill, edges_nth. rewrite E, map_length. cbn [nth]. fold es.
    assert (B : forall ws, binned_scipy false es data ws = binned_statistic es (map move data) ws).
    { intros ws. unfold binned_scipy, binned_statistic. cbv zeta. rewrite map_length, map_map. erewrite (map_ext _ _ S). reflexivity. }
    unfold fill_with. cbv zeta. rewrite !B. reflexivity.
  - clear D S. induction data as [|x data IH]; cbn; constructor; [|exact IH]. unfold move. destruct (on_edge false es x) eqn:O; [|now left].
    destruct (Req_EM_T x (last es 0)) as [Q|Q]; [now left|]. right. split; [eapply on_edge_near; eauto|]. split; [|reflexivity].
    unfold on_edge in O. cbn [orb] in O. apply andb_prop in O as (O & _). unfold Rleb in O. destruct (Rle_dec (last es 0) x); [lra|discriminate].
Qed.
Print Assumptions C95_moved_partial.

Lemma e01 : valid_edges [0; 1].
Proof. split; [cbn; lia|]. intros [|i] I; cbn in *; [lra|lia]. Qed.
Lemma dec01 : decimal [0; 1] = 6%Z.
Proof.
  unfold decimal, min_width. cbn [tl removelast map2 fold_left]. replace (1 - 0) with 1 by ring. rewrite ln_1. unfold Rdiv. rewrite Rmult_0_l, Ropp_0.
  change 0 with (IZR 0). rewrite Ztrunc_IZR. reflexivity.
Qed.
Lemma around01 x : Rabs (x - 1) <= / 10000000 -> around 6 x = 1.
Proof.
  intros H. unfold around. assert (P : powerRZ 10 6 = 1000000) by (change (10 ^ 6 = 1000000); ring). rewrite P.
  rewrite (Znearest_imp _ _ 1000000); [cbn; lra|]. apply Rabs_le_inv in H. apply Rabs_def1; lra.
Qed.
Lemma edge01 older x : Rabs (x - 1) <= / 10000000 -> (older = true \/ 1 <= x) -> on_edge older [0; 1] x = true.
Proof.
  intros H O. unfold on_edge. rewrite dec01. cbn [last]. rewrite (around01 x H), (around01 1) by (rewrite Rminus_diag_eq by reflexivity; rewrite Rabs_R0; lra).
  unfold Reqb. destruct (Req_EM_T 1 1); [|lra]. rewrite andb_true_r. destruct O as [-> |O]; [reflexivity|]. unfold Rleb. destruct (Rle_dec 1 x); [apply orb_true_r|lra].
Qed.
Definition h01 : hist := mk_hist K1 [mk_edges false [0; 1]] [1%nat] [1%nat] [(0, 1)] (np_zeros [1%nat]) (np_zeros [1%nat]) true.
Lemma fill01 older x w k : scipy_number older x [0; 1] = k ->
  exists h', hist1_fill_scipy older h01 [x] (WArr [w]) = (h', Ok tt) /\ entry (h_counts h') 0 (0 + ((if Nat.eqb k 1 then w else 0) + 0)).
Proof.
  intros K. unfold hist1_fill_scipy, fill_with, binned_scipy, edges_nth. cbn [h01 h_edges nth e_vals length Nat.eqb negb map resolve_weights].
  assert (SI : strictly_increasing [0; 1] = true) by (cbn; unfold Rltb; destruct (Rlt_dec 0 1); [reflexivity|lra]). rewrite SI.
  cbn [Nat.ltb Nat.leb orb negb]. cbv zeta. rewrite K. eexists. split; [reflexivity|]. reflexivity.
Qed.
(** An event above the range is counted ... *)
Theorem C95_above_refuted : exists bins range x h h' c, hist1_new bins range None WNone = Ok h /\ h_range h = [(0, 1)] /\ 1 < x /\
  hist1_fill_scipy false h [x] (WArr [1]) = (h', Ok tt) /\ entry (h_counts h') 0 c /\ c = 1.
Proof.
  set (x := 1 + / 10000000). exists (B1Edges (mk_edges false [0; 1])), None, x, h01.
  assert (H : Rabs (x - 1) <= / 10000000) by (unfold x; rewrite Rabs_right; lra).
  assert (K : scipy_number false x [0; 1] = 1%nat).
  { unfold scipy_number. cbv zeta. rewrite (edge01 false x H) by (right; unfold x; lra). unfold digitize, Rleb, x. cbn [filter].
    destruct (Rle_dec 0 _); [|lra]. destruct (Rle_dec 1 _); [|lra]. reflexivity. }
  destruct (fill01 false x 1 1 K) as (h' & F & E). exists h'. eexists. split; [reflexivity|]. split; [reflexivity|]. split; [unfold x; lra|]. split; [exact F|]. split; [exact E|].
  cbn. ring.
Qed.
Print Assumptions C95_above_refuted.
(** ... and with an older scipy an event slightly below the upper edge is lost. *)
Theorem C95_below_refuted : exists bins range x h h' c, hist1_new bins range None WNone = Ok h /\ h_range h = [(0, 1)] /\ 0 < x < 1 /\
  hist1_fill_scipy true h [x] (WArr [1]) = (h', Ok tt) /\ entry (h_counts h') 0 c /\ c = 0.
Proof.
  set (x := 1 - / 10000000). exists (B1Edges (mk_edges false [0; 1])), None, x, h01.
  assert (H : Rabs (x - 1) <= / 10000000) by (unfold x; rewrite Rabs_left1; lra).
  assert (K : scipy_number true x [0; 1] = 0%nat).
  { unfold scipy_number. cbv zeta. rewrite (edge01 true x H) by (now left). unfold digitize, Rleb, x. cbn [filter].
    destruct (Rle_dec 0 _); [|lra]. destruct (Rle_dec 1 _); [lra|]. reflexivity. }
  destruct (fill01 true x 1 0 K) as (h' & F & E). exists h'. eexists. split; [reflexivity|]. split; [reflexivity|]. split; [unfold x; lra|]. split; [exact F|]. split; [exact E|].
  cbn. ring.
Qed.
Print Assumptions C95_below_refuted.
Example C95_example : hist1_fill_scipy false h01 [0; 1/2; 1; 2] WNone = hist1_fill h01 [0; 1/2; 1; 2] WNone.
Proof.
  apply (C95_same_1d_partial false h01 _ _ (mk_edges false [0; 1]) eq_refl e01). intros x I (N & C). specialize (C 0%nat ltac:(cbn; lia)). cbn in N, C.
  cbn in I. destruct I as [<- |[<- |[<- |[<- |[]]]]]; [rewrite Rabs_left1 in C|rewrite Rabs_left1 in C|now apply N|rewrite Rabs_right in C]; lra.
Qed.
