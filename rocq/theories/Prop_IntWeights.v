(** C108: weights given as integers. *)
From Coq Require Import Reals String ZArith Bool Arith List Lra Lia.
From Verif Require Import Model_Num Model_Hist Model_IntWeights Spec_Hist Spec_IntWeights
  Proof_Hist Proof_Hist2 Proof_IntWeights.
Import ListNotations.
Local Open Scope R_scope.

(** The same call with the weights as floats: same outcome (also the same exception), same attributes but the squared
    errors; after a successful call every bin's squared error has grown by the exact sum of the squared weights of the
    bin's events less a multiple of the number of values of the weights' type; it is exact if and only if the type can
    represent the square of every weight in the bin. *)
Theorem C108_fill1 h e data ty ws :
  h_edges h = [e] ->
  snd (iw_fill1 h data ty ws) = snd (hist1_fill h data (WArr (map IZR ws)))
  /\ same_but_errors (fst (iw_fill1 h data ty ws)) (fst (hist1_fill h data (WArr (map IZR ws))))
  /\ (snd (iw_fill1 h data ty ws) = Ok tt -> valid_edges (e_vals e) ->
      forall i old, (S i < length (e_vals e))%nat -> entry (h_errs_sq h) i old ->
      exists s k, wsum (in_bin (e_vals e) i) (squared (combine data (map IZR ws))) s
        /\ entry (h_errs_sq (fst (iw_fill1 h data ty ws))) i (old + s - IZR (n_values ty) * INR k)
        /\ entry (h_errs_sq (fst (hist1_fill h data (WArr (map IZR ws))))) i (old + s)
        /\ (k = 0%nat <-> squares_fit (in_bin (e_vals e) i) ty (combine data ws))).
Proof.
  intros He. apply edges1_nth in He as En.
  assert (Hsame := iw_fill_with_same (binned_statistic (edges_nth h 0) data) [(length (edges_nth h 0) - 1)%nat] h
    (length data) ty ws (binned_statistic_shape (edges_nth h 0) data)). cbv zeta in Hsame. destruct Hsame as [H1 H2].
  split; [exact H1|]. split; [exact H2|]. intros Hok Hv i old Hi Ho.
  destruct (iw_fill1 h data ty ws) as [h' r] eqn:Ef. simpl in Hok. subst r.
  pose proof Ef as Ef'. unfold iw_fill1 in Ef'.
  assert (Hc := cells1_nth (edges_nth h 0) i ltac:(rewrite En; assumption)).
  destruct (iw_cell (cells1 (edges_nth h 0)) data _ _ _ _ _ _ i _ (in_bin (e_vals e) i) old
    (fun w s => binned_statistic_ok _ _ _ _) Ef' Hc) as (s & k & A & B & C).
  - intros x. rewrite En. pose proof (bin_number_in_bin _ i Hv Hi x) as Hr. inversion Hr; split; intros; congruence || tauto.
  - exact Ho.
  - exists s, k. split; [exact A|]. split; [exact B|]. split; [|exact C].
    unfold iw_fill1 in Ef. rewrite Ef in H1. simpl in H1.
    destruct (hist1_fill h data (WArr (map IZR ws))) as [h0 r0] eqn:Ef0. change (hist1_fill h data (WArr (map IZR ws))) with
      (fill_with (binned_statistic (edges_nth h 0) data) [(length (edges_nth h 0) - 1)%nat] h (length data) (WArr (map IZR ws))) in Ef0.
    rewrite Ef0 in H1. simpl in H1. subst r0. apply (fill1_effect h data (WArr (map IZR ws))) in Ef0. subst h0. simpl.
    unfold entry. simpl. erewrite nth_error_map2; [|exact Ho|
      erewrite map_nth_error by exact Hc; reflexivity].
    simpl. f_equal. f_equal. f_equal. eapply wsum_unique; [|exact A]. apply wsumf_wsum'. intros x. rewrite En.
    pose proof (bin_number_in_bin _ i Hv Hi x) as Hr. inversion Hr; split; intros; congruence || tauto.
Qed.

(** Hist2d: the same for the cells. *)
Theorem C108_fill2 h e f xs ys ty ws :
  h_edges h = [e; f] -> nd_shape (h_errs_sq h) = [(length (e_vals e) - 1)%nat; (length (e_vals f) - 1)%nat] ->
  snd (iw_fill2 h xs ys ty ws) = snd (hist2_fill h xs ys (WArr (map IZR ws)))
  /\ same_but_errors (fst (iw_fill2 h xs ys ty ws)) (fst (hist2_fill h xs ys (WArr (map IZR ws))))
  /\ (snd (iw_fill2 h xs ys ty ws) = Ok tt -> valid_edges (e_vals e) -> valid_edges (e_vals f) ->
      forall i j old, (S i < length (e_vals e))%nat -> (S j < length (e_vals f))%nat -> entry2 (h_errs_sq h) i j old ->
      let cell p := in_bin (e_vals e) i (fst p) /\ in_bin (e_vals f) j (snd p) in
      exists s k, wsum cell (squared (combine (combine xs ys) (map IZR ws))) s
        /\ entry2 (h_errs_sq (fst (iw_fill2 h xs ys ty ws))) i j (old + s - IZR (n_values ty) * INR k)
        /\ entry2 (h_errs_sq (fst (hist2_fill h xs ys (WArr (map IZR ws))))) i j (old + s)
        /\ (k = 0%nat <-> squares_fit cell ty (combine (combine xs ys) ws))).
Proof.
  intros He Hsh. apply edges2_nth0 in He as En0. apply edges2_nth1 in He as En1.
  assert (Hsame := iw_fill_with_same (binned_statistic_2d (edges_nth h 0) (edges_nth h 1) xs ys)
    [(length (edges_nth h 0) - 1)%nat; (length (edges_nth h 1) - 1)%nat] h
    (length xs) ty ws (binned_statistic_2d_shape (edges_nth h 0) (edges_nth h 1) xs ys)).
  cbv zeta in Hsame. destruct Hsame as [H1 H2].
  split; [exact H1|]. split; [exact H2|]. intros Hok Hv Hw i j old Hi Hj Ho. cbv zeta.
  destruct (iw_fill2 h xs ys ty ws) as [h' r] eqn:Ef. simpl in Hok. subst r.
  pose proof Ef as Ef'. unfold iw_fill2 in Ef'.
  unfold entry2 in Ho. rewrite Hsh in Ho. destruct Ho as (Bi & Bj & Ho).
  rewrite <- En0 in Bi. rewrite <- En1 in Bj, Ho.
  assert (Hc := cells2_nth (edges_nth h 0) (edges_nth h 1) i j ltac:(rewrite En0; assumption) ltac:(rewrite En1; assumption)).
  assert (HP : forall p : R * R,
      Nat.eqb (bin_number (fst p) (edges_nth h 0)) (S i) && Nat.eqb (bin_number (snd p) (edges_nth h 1)) (S j) = true
      <-> in_bin (e_vals e) i (fst p) /\ in_bin (e_vals f) j (snd p)).
  { intros [x y]. rewrite En0, En1. simpl fst; simpl snd.
    destruct (bin_number_in_bin _ i Hv Hi x); destruct (bin_number_in_bin _ j Hw Hj y); simpl; split; intros; tauto || congruence. }
  destruct (iw_cell (cells2 (edges_nth h 0) (edges_nth h 1)) (combine xs ys) _ _ _ _ _ _ _ _
    (fun p => in_bin (e_vals e) i (fst p) /\ in_bin (e_vals f) j (snd p)) old
    (fun w s => binned_statistic_2d_ok _ _ _ _ _ _) Ef' Hc HP Ho) as (s & k & A & B & C).
  exists s, k. split; [exact A|].
  destruct (iw_fill_with_errs _ _ _ _ _ _ _ _ (fun w s => binned_statistic_2d_ok _ _ _ _ _ _) Ef') as (_ & _ & E').
  split; [|split; [|exact C]].
  - simpl fst. rewrite E' in B |- *. unfold entry2. cbn [nd_shape]. auto.
  - unfold iw_fill2 in Ef. rewrite Ef in H1. simpl in H1.
    destruct (hist2_fill h xs ys (WArr (map IZR ws))) as [h0 r0] eqn:Ef0.
    change (hist2_fill h xs ys (WArr (map IZR ws))) with
      (fill_with (binned_statistic_2d (edges_nth h 0) (edges_nth h 1) xs ys)
        [(length (edges_nth h 0) - 1)%nat; (length (edges_nth h 1) - 1)%nat] h (length xs) (WArr (map IZR ws))) in Ef0.
    rewrite Ef0 in H1. simpl in H1. subst r0. apply (fill2_effect h xs ys (WArr (map IZR ws))) in Ef0. subst h0.
    unfold entry2. simpl. split; [assumption|]. split; [assumption|].
    erewrite nth_error_map2; [|exact Ho|erewrite map_nth_error by (exact Hc); reflexivity].
    f_equal. simpl. f_equal. f_equal. eapply wsum_unique; [|exact A]. apply wsumf_wsum'. exact HP.
Qed.

(** If the type can represent the square of every weight, nothing differs: neither in one nor in two dimensions, in
    every state of the histogram and for every outcome. *)
Theorem C108_exact ty ws :
  (forall z, In z ws -> holds ty (z * z)) ->
  (forall h data, iw_fill1 h data ty ws = hist1_fill h data (WArr (map IZR ws)))
  /\ (forall h xs ys, iw_fill2 h xs ys ty ws = hist2_fill h xs ys (WArr (map IZR ws))).
Proof.
  intros H.
  assert (E : map (fun z => IZR (iwrap ty (z * z))) ws = map (fun x => x * x) (map IZR ws)).
  { rewrite map_map. apply map_ext_in. intros z Hz. rewrite iwrap_id by (apply H; assumption). apply mult_IZR. }
  split; intros; unfold iw_fill1, hist1_fill, iw_fill2, hist2_fill, iw_fill_with, fill_with; rewrite E; reflexivity.
Qed.

(** The weights for which this holds, per type.  Python lists of ints are int64; without weights and with integer data
    the weights are ones of the data's type. *)
Theorem C108_limits z :
  (holds (Signed 8) (z * z) <-> (- 11 <= z <= 11)%Z)
  /\ (holds (Unsigned 8) (z * z) <-> (- 15 <= z <= 15)%Z)
  /\ (holds (Signed 16) (z * z) <-> (- 181 <= z <= 181)%Z)
  /\ (holds (Signed 32) (z * z) <-> (- 46340 <= z <= 46340)%Z)
  /\ (holds (Unsigned 32) (z * z) <-> (- 65535 <= z <= 65535)%Z)
  /\ (holds (Signed 64) (z * z) <-> (- 3037000499 <= z <= 3037000499)%Z).
Proof.
  unfold holds.
  change (2 ^ (8 - 1))%Z with 128%Z. change (2 ^ 8)%Z with 256%Z. change (2 ^ (16 - 1))%Z with 32768%Z.
  change (2 ^ (32 - 1))%Z with 2147483648%Z. change (2 ^ 32)%Z with 4294967296%Z.
  change (2 ^ (64 - 1))%Z with 9223372036854775808%Z.
  repeat split; intros; nia.
Qed.

(** from_binned_data with integer bin errors of a type: attribute bin_errors is the square root of the wrapped squares,
    which are the given errors (up to sign) exactly where the square can be represented. *)
Theorem C108_from_binned counts e ty errors h i z :
  iw_from_binned counts e ty errors = Ok h -> nth_error errors i = Some z ->
  exists k : nat, entry (h_errs_sq h) i (IZR z * IZR z - IZR (n_values ty) * INR k)
    /\ (k = 0%nat <-> holds ty (z * z))
    /\ (k = 0%nat -> nth_error (nd_flat (bin_errors h)) i = Some (Fin (Rabs (IZR z)))).
Proof.
  unfold iw_from_binned. destruct (hist1_empty _ _) as [h0|]; simpl; [|discriminate]. intros H Hi.
  inversion H; subst; clear H. destruct (iwrap_nat ty (z * z) (Z.square_nonneg z)) as (k & E & Hk).
  assert (He : entry (h_errs_sq (set_filled (set_errs (set_counts h0 counts)
      {| nd_shape := [length errors]; nd_flat := map (fun z => Fin (IZR (iwrap ty (z * z)))) errors |})))
      i (IZR z * IZR z - IZR (n_values ty) * INR k)).
  { unfold entry. simpl. erewrite map_nth_error by exact Hi. f_equal. f_equal.
    rewrite <- mult_IZR. rewrite E at 2. rewrite plus_IZR, mult_IZR, <- INR_IZR_INZ. ring. }
  exists k. split; [exact He|]. split; [exact Hk|]. intros ->.
  unfold bin_errors, nd_map. cbn [nd_flat]. unfold entry in He. rewrite nth_error_map, He. cbn [option_map INR].
  replace (IZR z * IZR z - IZR (n_values ty) * 0) with (Rsqr (IZR z)) by (unfold Rsqr; ring).
  unfold xsqrt. destruct (Rltb_spec (Rsqr (IZR z)) 0) as [Hlt|_]; [pose proof (Rle_0_sqr (IZR z)); lra|].
  rewrite sqrt_Rsqr_abs. reflexivity.
Qed.

(** *** What a user expects does not hold: the squared error of a bin is not the sum of the squared weights, it can even
    be negative, so that the bin's error is nan. *)
Definition iw_ex_edges : edges := mk_edges false [0; 1; 2].
Definition iw_ex_hist : hist :=
  mk_hist K1 [iw_ex_edges] [2%nat] [2%nat] [(0, 2)] (np_zeros [2%nat]) (np_zeros [2%nat]) true.

Lemma iw_ex_new : hist1_new (B1Edges iw_ex_edges) None None WNone = Ok iw_ex_hist.
Proof. reflexivity. Qed.

Lemma iw_ex_valid : valid_edges (e_vals iw_ex_edges).
Proof. split; [simpl; lia|]. intros [|[|i]] H; simpl in *; try lra; lia. Qed.

Lemma iw_ex_fill ty z : exists h',
  iw_fill1 iw_ex_hist [1 / 2] ty [z] = (h', Ok tt)
  /\ h_counts h' = mk_nd [2%nat] [Fin (IZR z); Fin 0] /\ entry (h_errs_sq h') 0 (IZR (iwrap ty (z * z))).
Proof.
  assert (Hb : forall ws, binned_statistic (e_vals iw_ex_edges) [1/2] [ws] = Ok [Fin ws; Fin 0]).
  { intros w. destruct (binned_statistic_succeeds (e_vals iw_ex_edges) [1/2] [w] iw_ex_valid eq_refl) as (s & Es & _).
    rewrite Es. apply binned_statistic_ok in Es. subst s. f_equal. unfold cells1. simpl. unfold wsumf. simpl.
    assert (H0 := bin_number_in_bin _ 0 iw_ex_valid ltac:(simpl; lia) (1/2)).
    assert (H1 := bin_number_in_bin _ 1 iw_ex_valid ltac:(simpl; lia) (1/2)).
    apply reflect_iff in H0. apply reflect_iff in H1. unfold in_bin in H0, H1. simpl in H0, H1.
    assert (E0 : Nat.eqb (bin_number (1/2) [0; 1; 2]) 1 = true) by (apply H0; split; [|left]; lra).
    assert (E1 : Nat.eqb (bin_number (1/2) [0; 1; 2]) 2 = false)
      by (destruct (Nat.eqb _ 2); [destruct H1 as [_ H1]; specialize (H1 eq_refl); lra|reflexivity]).
    rewrite E0, E1.
    rewrite !Rplus_0_r. reflexivity. }
  unfold iw_fill1, iw_fill_with, edges_nth. cbn [iw_ex_hist h_edges nth map].
  rewrite !Hb. cbn [rbind]. unfold nd_iadd. cbn [h_counts iw_ex_hist np_zeros nd_shape nd_flat].
  change (natlist_eqb _ _ && _) with true. cbn [rbind h_errs_sq set_counts iw_ex_hist np_zeros nd_shape nd_flat].
  change (natlist_eqb _ _ && _) with true.
  eexists; split; [reflexivity|]. split; [|unfold entry].
  - simpl. rewrite !Rplus_0_l. reflexivity.
  - simpl. rewrite !Rplus_0_l. reflexivity.
Qed.

Theorem C108_sum_of_squares_refuted :
  (* an int32 weight of 50000: the squared error is -1794967296 instead of 2500000000, the bin's error nan *)
  (exists h', iw_fill1 iw_ex_hist [1 / 2] (Signed 32) [50000%Z] = (h', Ok tt)
     /\ entry (h_counts h') 0 50000 /\ entry (h_errs_sq h') 0 (- 1794967296)
     /\ nth_error (nd_flat (bin_errors h')) 0 = Some NaN)
  (* an int8 weight of 20: -112 instead of 400 *)
  /\ (exists h', iw_fill1 iw_ex_hist [1 / 2] (Signed 8) [20%Z] = (h', Ok tt) /\ entry (h_errs_sq h') 0 (- 112))
  (* a uint8 weight of 16: a filled bin without an error *)
  /\ (exists h', iw_fill1 iw_ex_hist [1 / 2] (Unsigned 8) [16%Z] = (h', Ok tt)
        /\ entry (h_counts h') 0 16 /\ entry (h_errs_sq h') 0 0)
  (* a python list with an int of 2 ^ 32 (int64): the same *)
  /\ (exists h', iw_fill1 iw_ex_hist [1 / 2] (Signed 64) [4294967296%Z] = (h', Ok tt) /\ entry (h_errs_sq h') 0 0).
Proof.
  repeat split.
  - destruct (iw_ex_fill (Signed 32) 50000) as (h' & E & C & Q).
    change (iwrap (Signed 32) (50000 * 50000)) with (-1794967296)%Z in Q.
    exists h'. split; [exact E|]. split; [unfold entry; rewrite C; reflexivity|]. split; [exact Q|].
    unfold bin_errors, nd_map. cbn [nd_flat]. unfold entry in Q. rewrite nth_error_map, Q. cbn [option_map xsqrt].
    f_equal. destruct (Rltb_spec (-1794967296) 0); [reflexivity|lra].
  - destruct (iw_ex_fill (Signed 8) 20) as (h' & E & C & Q). exists h'. auto.
  - destruct (iw_ex_fill (Unsigned 8) 16) as (h' & E & C & Q).
    exists h'. split; [exact E|]. split; [unfold entry; rewrite C; reflexivity|]. exact Q.
  - destruct (iw_ex_fill (Signed 64) 4294967296) as (h' & E & C & Q). exists h'. auto.
Qed.

(** the hypotheses of C108_fill1 and C108_exact are met by a histogram with events *)
Theorem C108_fill1_ex : exists h',
  iw_fill1 iw_ex_hist [1 / 2] (Signed 8) [11%Z] = (h', Ok tt) /\ entry (h_errs_sq h') 0 121.
Proof. destruct (iw_ex_fill (Signed 8) 11) as (h' & E & _ & Q). exists h'. auto. Qed.
