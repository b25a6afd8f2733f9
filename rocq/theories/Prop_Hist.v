(** Property theorems C01-C09: histograms.  Only statements; the proofs are in Proof_Hist*.v. *)
From Coq Require Import Reals String ZArith Bool Arith List Permutation Lra Lia.
From Verif Require Import Model_Num Model_Hist Spec_Hist Proof_Hist Proof_Hist2 Proof_Hist3.
Import ListNotations.
Local Open Scope R_scope.

(** C01.  [ev] is the list of all (event, weight) pairs of the constructor and of all fills. *)
Theorem C01_each_event_in_its_bin : forall bins range data w h0 fills h e,
  hist1_new bins range data w = Ok h0 -> fills1 h0 fills = Ok h ->
  h_edges h0 = [e] -> valid_edges (e_vals e) ->
  let ev := all_events1 (init_fill data w ++ fills) in
  h_edges h = [e] /\ vector_of (h_counts h) (length (e_vals e) - 1)
  /\ vector_of (h_errs_sq h) (length (e_vals e) - 1) /\
  forall i, (S i < length (e_vals e))%nat ->
    exists s q, entry (h_counts h) i s /\ wsum (in_bin (e_vals e) i) ev s
             /\ entry (h_errs_sq h) i q /\ wsum (in_bin (e_vals e) i) (squared ev) q.
Proof. exact fill1_each_event_in_its_bin. Qed.
Print Assumptions C01_each_event_in_its_bin.

(** A successful fill exists for every data set with matching weights: the histories above are those
    a user can produce. *)
Theorem C01_fill_succeeds : forall h d w,
  ready1 h -> not_tuple w -> length d = length (weight_list (length d) w) ->
  exists h', hist1_fill h d w = (h', Ok tt) /\ ready1 h'.
Proof. exact fill1_succeeds. Qed.
Print Assumptions C01_fill_succeeds.

(** Every event in range belongs to exactly one bin, an event outside to none. *)
Theorem C01_bins_partition_the_range : forall es x, valid_edges es ->
  (in_range es x <-> exists i, (S i < length es)%nat /\ in_bin es i x) /\
  (forall i j, (S i < length es)%nat -> (S j < length es)%nat -> in_bin es i x -> in_bin es j x -> i = j).
Proof. exact bins_partition. Qed.
Print Assumptions C01_bins_partition_the_range.

(** C02 *)
Theorem C02_total_weight_in_range : forall bins range data w h0 fills h e,
  hist1_new bins range data w = Ok h0 -> fills1 h0 fills = Ok h ->
  h_edges h0 = [e] -> valid_edges (e_vals e) ->
  let ev := all_events1 (init_fill data w ++ fills) in
  exists s q, np_sum (nd_flat (h_counts h)) = Fin s /\ wsum (in_range (e_vals e)) ev s
           /\ np_sum (nd_flat (h_errs_sq h)) = Fin q /\ wsum (in_range (e_vals e)) (squared ev) q.
Proof. exact fill1_total. Qed.
Print Assumptions C02_total_weight_in_range.

Theorem C02_events_outside_change_nothing : forall h data w h' e,
  h_edges h = [e] -> valid_edges (e_vals e) -> hist1_fill h data w = (h', Ok tt) ->
  (forall x, In x data -> ~ in_range (e_vals e) x) ->
  h_counts h' = h_counts h /\ h_errs_sq h' = h_errs_sq h.
Proof. exact fill1_outside. Qed.
Print Assumptions C02_events_outside_change_nothing.

(** C03 *)
Theorem C03_batches_1d : forall h d1 w1 d2 w2,
  ready1 h -> length d1 = length w1 -> length d2 = length w2 ->
  exists h1 h2, hist1_fill h d1 (WArr w1) = (h1, Ok tt) /\ hist1_fill h1 d2 (WArr w2) = (h2, Ok tt) /\
    hist1_fill h (d1 ++ d2) (WArr (w1 ++ w2)) = (h2, Ok tt).
Proof. exact batch1_weighted. Qed.
Print Assumptions C03_batches_1d.

Theorem C03_batches_1d_unweighted : forall h d1 d2,
  ready1 h ->
  exists h1 h2, hist1_fill h d1 WNone = (h1, Ok tt) /\ hist1_fill h1 d2 WNone = (h2, Ok tt) /\
    hist1_fill h (d1 ++ d2) WNone = (h2, Ok tt).
Proof. exact batch1_unweighted. Qed.
Print Assumptions C03_batches_1d_unweighted.

Theorem C03_order_1d : forall h d w d' w',
  ready1 h -> length d = length w -> length d' = length w' -> Permutation (combine d w) (combine d' w') ->
  exists h', hist1_fill h d (WArr w) = (h', Ok tt) /\ hist1_fill h d' (WArr w') = (h', Ok tt).
Proof. exact perm1. Qed.
Print Assumptions C03_order_1d.

Theorem C03_batches_2d : forall h x1 y1 w1 x2 y2 w2,
  ready2 h -> length x1 = length y1 -> length x1 = length w1 -> length x2 = length y2 -> length x2 = length w2 ->
  x1 <> [] -> x2 <> [] ->
  exists h1 h2, hist2_fill h x1 y1 (WArr w1) = (h1, Ok tt) /\ hist2_fill h1 x2 y2 (WArr w2) = (h2, Ok tt) /\
    hist2_fill h (x1 ++ x2) (y1 ++ y2) (WArr (w1 ++ w2)) = (h2, Ok tt).
Proof. exact batch2_weighted. Qed.
Print Assumptions C03_batches_2d.

Theorem C03_order_2d : forall h xs ys w xs' ys' w',
  ready2 h -> length xs = length ys -> length xs = length w -> length xs' = length ys' -> length xs' = length w' ->
  xs <> [] -> Permutation (combine (combine xs ys) w) (combine (combine xs' ys') w') ->
  exists h', hist2_fill h xs ys (WArr w) = (h', Ok tt) /\ hist2_fill h xs' ys' (WArr w') = (h', Ok tt).
Proof. exact perm2. Qed.
Print Assumptions C03_order_2d.

(** C04 *)
Theorem C04_equal_width_binning : forall n lo hi,
  (1 <= n)%nat -> lo < hi ->
  exists h e mids widths,
    hist1_new (B1Int (Z.of_nat n)) (Some (lo, hi)) None WNone = Ok h /\
    h_edges h = [e] /\ h_shape h = [n] /\ h_num_bins h = [n] /\ h_range h = [(lo, hi)] /\
    length (e_vals e) = S n /\ valid_edges (e_vals e) /\
    nth 0 (e_vals e) 0 = lo /\ nth n (e_vals e) 0 = hi /\
    bin_widths e = Ok widths /\ length widths = n /\ (forall w, In w widths -> w = (hi - lo) / INR n) /\
    Rsuml widths = hi - lo /\
    bin_mids e = Ok mids /\ length mids = n /\
    forall i, (i < n)%nat -> nth i mids 0 = (nth i (e_vals e) 0 + nth (S i) (e_vals e) 0) / 2.
Proof. exact equal_width_binning. Qed.
Print Assumptions C04_equal_width_binning.

Theorem C04_invalid_binning_rejected : forall n range,
  ((n < 0)%Z \/ range = None) -> exists e, hist1_new (B1Int n) range None WNone = Err e.
Proof. exact equal_width_rejected. Qed.
Print Assumptions C04_invalid_binning_rejected.

(** edges given by the user: they are kept, and define the number of bins and the range *)
Lemma last_nth_len (l : list R) : last l 0 = nth (length l - 1) l 0.
Proof. induction l as [|a [|b l] IH]; [reflexivity|reflexivity|]. change (last (a :: b :: l) 0) with (last (b :: l) 0). rewrite IH. simpl. now rewrite Nat.sub_0_r. Qed.
Theorem C04_given_edges : forall e range, (1 <= length (e_vals e))%nat ->
  exists h, hist1_new (B1Edges e) range None WNone = Ok h /\ h_edges h = [e] /\
    h_shape h = [(length (e_vals e) - 1)%nat] /\ h_num_bins h = [(length (e_vals e) - 1)%nat] /\
    h_range h = [(nth 0 (e_vals e) 0, nth (length (e_vals e) - 1) (e_vals e) 0)] /\
    h_counts h = np_zeros [(length (e_vals e) - 1)%nat] /\ h_errs_sq h = h_counts h /\ h_empty h = true.
Proof.
  intros e range L. unfold hist1_new, hist1_empty, hist1_init_bin_edges, get_bin_range. destruct (e_vals e) as [|a l] eqn:E; [simpl in L; lia|].
  cbn [rbind]. eexists. split; [reflexivity|]. cbn [h_edges h_shape h_num_bins h_range h_counts h_errs_sq h_empty]. repeat split.
  do 2 f_equal. rewrite <- E. apply last_nth_len.
Qed.
Print Assumptions C04_given_edges.

(** two dimensions: equal widths on both axes, or given edges *)
Theorem C04_two_dimensions : forall nx ny lox hix loy hiy, (1 <= nx)%nat -> (1 <= ny)%nat -> lox < hix -> loy < hiy ->
  exists h ex ey, hist2_new (B2Ints (Z.of_nat nx) (Z.of_nat ny)) (Some ((lox, hix), (loy, hiy))) None WNone = Ok h /\
    h_edges h = [ex; ey] /\ h_shape h = [nx; ny] /\ h_num_bins h = [nx; ny] /\ h_range h = [(lox, hix); (loy, hiy)] /\
    length (e_vals ex) = S nx /\ length (e_vals ey) = S ny /\
    (forall i, (i <= nx)%nat -> nth i (e_vals ex) 0 = lox + INR i * ((hix - lox) / INR nx)) /\
    (forall j, (j <= ny)%nat -> nth j (e_vals ey) 0 = loy + INR j * ((hiy - loy) / INR ny)) /\
    h_counts h = np_zeros [nx; ny] /\ h_errs_sq h = h_counts h /\ h_empty h = true.
Proof.
  intros nx ny lox hix loy hiy HX HY LX LY. unfold hist2_new, hist2_empty, linspace_edges.
  destruct (Z.ltb_spec (Z.of_nat nx) 0); [lia|]. destruct (Z.ltb_spec (Z.of_nat ny) 0); [lia|]. rewrite !Nat2Z.id. cbn [rbind].
  eexists. eexists. eexists. split; [reflexivity|]. cbn [h_edges h_shape h_num_bins h_range h_counts h_errs_sq h_empty]. split; [reflexivity|].
  cbn [e_vals]. rewrite !Proof_Hist.linspace_length. do 3 (split; [reflexivity|]). split; [lia|]. split; [lia|].
  split; [intros; apply linspace_nth; auto|]. split; [intros; apply linspace_nth; auto|]. auto.
Qed.
Print Assumptions C04_two_dimensions.
Theorem C04_two_dimensions_given_edges : forall ex ey range, (1 <= length (e_vals ex))%nat -> (1 <= length (e_vals ey))%nat ->
  let nx := (length (e_vals ex) - 1)%nat in let ny := (length (e_vals ey) - 1)%nat in
  exists h, hist2_new (B2Edges ex ey) range None WNone = Ok h /\ h_edges h = [ex; ey] /\ h_shape h = [nx; ny] /\ h_num_bins h = [nx; ny] /\
    h_range h = [(nth 0 (e_vals ex) 0, nth nx (e_vals ex) 0); (nth 0 (e_vals ey) 0, nth ny (e_vals ey) 0)] /\
    h_counts h = np_zeros [nx; ny] /\ h_errs_sq h = h_counts h /\ h_empty h = true.
Proof.
  intros ex ey range LX LY nx ny. unfold hist2_new, hist2_empty, get_bin_range.
  destruct (e_vals ex) as [|a l] eqn:E; [simpl in LX; lia|]. destruct (e_vals ey) as [|b m] eqn:F; [simpl in LY; lia|].
  cbn [rbind]. eexists. split; [reflexivity|]. cbn [h_edges h_shape h_num_bins h_range h_counts h_errs_sq h_empty].
  repeat split. unfold nx, ny. rewrite <- E, <- F, <- !last_nth_len, E, F. reflexivity.
Qed.
Print Assumptions C04_two_dimensions_given_edges.

(** which exception an unusable binning raises, for every data and weights argument: the construction fails before anything is filled *)
Theorem C04_rejections : forall data w data2,
  (forall n, hist1_new (B1Int n) None data w = Err TypeError) /\
  (forall n rest, hist1_new (B1Tuple (n :: rest)) None data w = Err TypeError) /\
  (forall n lo hi, (n < 0)%Z -> hist1_new (B1Int n) (Some (lo, hi)) data w = Err ValueError) /\
  (forall n rest lo hi, (n < 0)%Z -> hist1_new (B1Tuple (n :: rest)) (Some (lo, hi)) data w = Err ValueError) /\
  (forall range, hist1_new (B1Tuple []) range data w = Err IndexError) /\
  (forall e range, length (e_vals e) = 0%nat -> hist1_new (B1Edges e) range data w = Err IndexError) /\
  (forall nx ny, hist2_new (B2Ints nx ny) None data2 w = Err TypeError) /\
  (forall nx ny rx ry, (nx < 0)%Z \/ (ny < 0)%Z -> hist2_new (B2Ints nx ny) (Some (rx, ry)) data2 w = Err ValueError) /\
  (forall ex ey range, length (e_vals ex) = 0%nat \/ length (e_vals ey) = 0%nat -> hist2_new (B2Edges ex ey) range data2 w = Err IndexError) /\
  (forall e counts errors, length (e_vals e) = 0%nat -> hist1_from_binned counts e errors = Err IndexError) /\
  (forall ex ey counts errors, length (e_vals ex) = 0%nat \/ length (e_vals ey) = 0%nat ->
     hist2_from_binned counts ex ey errors = Err IndexError).
Proof.
  intros data w data2. unfold hist1_new, hist2_new, hist1_from_binned, hist2_from_binned, hist1_empty, hist2_empty, hist1_init_bin_edges, linspace_edges, get_bin_range.
  split; [reflexivity|]. split; [reflexivity|].
  split. { intros n lo hi L. destruct (Z.ltb_spec n 0); [reflexivity|lia]. }
  split. { intros n rest lo hi L. destruct (Z.ltb_spec n 0); [reflexivity|lia]. }
  split; [reflexivity|].
  split. { intros e range L. destruct (e_vals e); [reflexivity|discriminate]. }
  split; [reflexivity|].
  split. { intros nx ny [lx hx] [ly hy] L. destruct (Z.ltb_spec nx 0); [reflexivity|]. destruct (Z.ltb_spec ny 0); [reflexivity|lia]. }
  split. { intros ex ey range L. destruct (e_vals ex); [reflexivity|]. destruct (e_vals ey); [reflexivity|]. destruct L; discriminate. }
  split. { intros e c q L. destruct (e_vals e); [reflexivity|discriminate]. }
  intros ex ey c q L. destruct (e_vals ex); [reflexivity|]. destruct (e_vals ey); [reflexivity|]. destruct L; discriminate.
Qed.
Print Assumptions C04_rejections.
(** edges given as a python list have neither centres nor widths: both raise TypeError *)
Theorem C04_list_edges : forall e h, e_list e = true -> (1 <= length (e_vals e))%nat ->
  hist1_new (B1Edges e) None None WNone = Ok h ->
  map bin_mids (h_edges h) = [Err TypeError] /\ map bin_widths (h_edges h) = [Err TypeError].
Proof.
  intros e h L N H. destruct (C04_given_edges e None N) as (h' & H' & E & _). rewrite H in H'. injection H' as <-. rewrite E.
  cbn [map]. unfold bin_mids, bin_widths. now rewrite L.
Qed.
Print Assumptions C04_list_edges.
Example C04_ex_list_edges : exists h, hist1_new (B1Edges (mk_edges true [0; 1; 3])) None None WNone = Ok h /\
  map bin_mids (h_edges h) = [Err TypeError].
Proof. eexists. split; reflexivity. Qed.

(** C05 *)
Theorem C05_unweighted_counts : forall bins range data h0 fills h e,
  hist1_new bins range data WNone = Ok h0 -> fills1 h0 fills = Ok h ->
  Forall (fun f => snd f = WNone) fills ->
  h_edges h0 = [e] -> valid_edges (e_vals e) ->
  let xs := concat (map fst (init_fill data WNone ++ fills)) in
  (forall i, (S i < length (e_vals e))%nat ->
    exists n, wcount (in_bin (e_vals e) i) xs n /\ entry (h_counts h) i (INR n)
           /\ entry (h_errs_sq h) i (INR n) /\ entry (bin_errors h) i (sqrt (INR n)))
  /\ (h_empty h = true <-> data = None /\ fills = []).
Proof. exact fill1_unweighted. Qed.
Print Assumptions C05_unweighted_counts.

(** C06 *)
Theorem C06_each_event_in_its_cell : forall bins range data w h0 fills h e f,
  hist2_new bins range data w = Ok h0 -> fills2 h0 fills = Ok h ->
  h_edges h0 = [e; f] -> valid_edges (e_vals e) -> valid_edges (e_vals f) ->
  let ev := all_events2 (init_fill data w ++ fills) in
  h_edges h = [e; f] /\
  nd_shape (h_counts h) = [(length (e_vals e) - 1)%nat; (length (e_vals f) - 1)%nat] /\
  nd_shape (h_errs_sq h) = nd_shape (h_counts h) /\
  length (nd_flat (h_counts h)) = ((length (e_vals e) - 1) * (length (e_vals f) - 1))%nat /\
  length (nd_flat (h_errs_sq h)) = length (nd_flat (h_counts h)) /\
  forall i j, (S i < length (e_vals e))%nat -> (S j < length (e_vals f))%nat ->
    let cell p := in_bin (e_vals e) i (fst p) /\ in_bin (e_vals f) j (snd p) in
    exists s q, entry2 (h_counts h) i j s /\ wsum cell ev s
             /\ entry2 (h_errs_sq h) i j q /\ wsum cell (squared ev) q.
Proof. exact fill2_each_event_in_its_cell. Qed.
Print Assumptions C06_each_event_in_its_cell.

Theorem C06_fill_succeeds : forall h xs ys w,
  ready2 h -> not_tuple w -> length xs = length ys -> length xs = length (weight_list (length xs) w) -> xs <> [] ->
  exists h', hist2_fill h xs ys w = (h', Ok tt) /\ ready2 h'.
Proof. exact fill2_succeeds. Qed.
Print Assumptions C06_fill_succeeds.

(** C07 *)
Theorem C07_projections_are_marginals : forall bins range data w h0 fills h e f,
  hist2_new bins range data w = Ok h0 -> fills2 h0 fills = Ok h ->
  h_edges h0 = [e; f] -> valid_edges (e_vals e) -> valid_edges (e_vals f) ->
  let ev := all_events2 (init_fill data w ++ fills) in
  exists hx hy,
    x_projection h = Ok hx /\ y_projection h = Ok hy /\
    h_kind hx = K1 /\ h_edges hx = [e] /\ vector_of (h_counts hx) (length (e_vals e) - 1)
    /\ vector_of (h_errs_sq hx) (length (e_vals e) - 1) /\
    h_kind hy = K1 /\ h_edges hy = [f] /\ vector_of (h_counts hy) (length (e_vals f) - 1)
    /\ vector_of (h_errs_sq hy) (length (e_vals f) - 1) /\
    (forall i, (S i < length (e_vals e))%nat ->
      let P p := in_bin (e_vals e) i (fst p) /\ in_range (e_vals f) (snd p) in
      exists s q, entry (h_counts hx) i s /\ wsum P ev s /\ entry (h_errs_sq hx) i q /\ wsum P (squared ev) q) /\
    (forall j, (S j < length (e_vals f))%nat ->
      let P p := in_range (e_vals e) (fst p) /\ in_bin (e_vals f) j (snd p) in
      exists s q, entry (h_counts hy) j s /\ wsum P ev s /\ entry (h_errs_sq hy) j q /\ wsum P (squared ev) q) /\
    exists t, np_sum (nd_flat (h_counts h)) = Fin t /\ np_sum (nd_flat (h_counts hx)) = Fin t
           /\ np_sum (nd_flat (h_counts hy)) = Fin t
           /\ wsum (fun p => in_range (e_vals e) (fst p) /\ in_range (e_vals f) (snd p)) ev t.
Proof. exact projections_are_marginals. Qed.
Print Assumptions C07_projections_are_marginals.

(** C08.  The claim "if fill raises nothing has changed" is false: weights given as a tuple. *)
Theorem C08_fill_atomic_refuted :
  exists h h', hist1_new (B1Edges (mk_edges false [0; 2])) None None WNone = Ok h /\
    hist1_fill h [1] (WTuple [1]) = (h', Err TypeError) /\ h_counts h' <> h_counts h /\
    entry (h_counts h) 0 0 /\ entry (h_counts h') 0 1.
Proof. exact fill1_tuple_not_atomic. Qed.
Print Assumptions C08_fill_atomic_refuted.

(** It holds for weights which are not a tuple.  (The hypotheses on shapes hold for every histogram
    except those made by from_binned_data with errors of another shape than the counts.) *)
Theorem C08_fill1_atomic_partial : forall h d w h' e,
  nd_shape (h_errs_sq h) = nd_shape (h_counts h) -> length (nd_flat (h_errs_sq h)) = length (nd_flat (h_counts h)) ->
  not_tuple w -> hist1_fill h d w = (h', Err e) -> h' = h.
Proof. exact fill1_atomic. Qed.
Print Assumptions C08_fill1_atomic_partial.

Theorem C08_fill2_atomic_partial : forall h xs ys w h' e,
  nd_shape (h_errs_sq h) = nd_shape (h_counts h) -> length (nd_flat (h_errs_sq h)) = length (nd_flat (h_counts h)) ->
  not_tuple w -> hist2_fill h xs ys w = (h', Err e) -> h' = h.
Proof. exact fill2_atomic. Qed.
Print Assumptions C08_fill2_atomic_partial.

(** C09 *)
Theorem C09_from_binned_1d : forall counts e errors,
  (1 <= length (e_vals e))%nat ->
  exists h, hist1_from_binned counts e errors = Ok h /\ h_counts h = counts /\ h_edges h = [e] /\ h_empty h = false /\
    h_range h = [(nth 0 (e_vals e) 0, nth (length (e_vals e) - 1) (e_vals e) 0)] /\
    match errors with
    | Some er => bin_errors h = mk_nd (nd_shape er) (map xabs (nd_flat er))
    | None => (forall x, In x (nd_flat counts) -> exists r, x = Fin r /\ 0 <= r) ->
              h_errs_sq h = counts /\ bin_errors h = mk_nd (nd_shape counts) (map xsqrt (nd_flat counts))
    end.
Proof. exact from_binned1. Qed.
Print Assumptions C09_from_binned_1d.

Theorem C09_from_binned_2d : forall counts e f errors,
  (1 <= length (e_vals e))%nat -> (1 <= length (e_vals f))%nat ->
  let nx := (length (e_vals e) - 1)%nat in let ny := (length (e_vals f) - 1)%nat in
  exists h, hist2_from_binned counts e f errors = Ok h /\ h_counts h = counts /\ h_edges h = [e; f] /\ h_empty h = false /\
    h_shape h = [nx; ny] /\ h_range h = [(nth 0 (e_vals e) 0, nth nx (e_vals e) 0); (nth 0 (e_vals f) 0, nth ny (e_vals f) 0)] /\
    match errors with
    | Some er => bin_errors h = mk_nd (nd_shape er) (map xabs (nd_flat er))
    | None => (forall x, In x (nd_flat counts) -> exists r, x = Fin r /\ 0 <= r) ->
              h_errs_sq h = counts /\ bin_errors h = mk_nd (nd_shape counts) (map xsqrt (nd_flat counts))
    end.
Proof.
  intros counts e f errors L1 L2 nx ny. destruct (from_binned2 counts e f errors L1 L2) as (h & H & A & B & C & D). exists h.
  do 4 (split; [assumption|]). destruct (C04_two_dimensions_given_edges e f None L1 L2) as (h0 & H0 & _ & S0 & _ & R0 & _).
  unfold hist2_from_binned in H. unfold hist2_new in H0. destruct (hist2_empty (B2Edges e f) None) as [h1|]; [|discriminate]. cbn [rbind] in H, H0.
  injection H0 as ->. injection H as <-. split; [exact S0|]. split; [exact R0|]. exact D.
Qed.
Print Assumptions C09_from_binned_2d.

(** C84: counts that do not fit the edges are accepted: the histogram says it has 2 bins and holds 3 counts. *)
Theorem C84_counts_of_wrong_length_refuted : exists h,
  hist1_from_binned (nd1 [Fin 1; Fin 2; Fin 3]) (mk_edges false [0; 1; 4]) None = Ok h /\
  h_shape h = [2%nat] /\ nd_shape (h_counts h) = [3%nat].
Proof. eexists. split; [reflexivity|]. split; reflexivity. Qed.
Print Assumptions C84_counts_of_wrong_length_refuted.
(** What is true: accepted counts are kept, so shape and counts agree if and only if the caller's do. *)
Theorem C84_kept_as_given_partial : forall counts e errors h, hist1_from_binned counts e errors = Ok h ->
  h_counts h = counts /\ (nd_shape (h_counts h) = h_shape h <-> nd_shape counts = [(length (e_vals e) - 1)%nat]).
Proof.
  intros counts e errors h. unfold hist1_from_binned, hist1_empty, hist1_init_bin_edges. destruct (get_bin_range e) as [r|]; [|discriminate].
  cbn [rbind]. intros H. injection H as <-. split; [reflexivity|]. cbn [h_counts h_shape with_binned set_filled set_errs set_counts]. tauto.
Qed.
Print Assumptions C84_kept_as_given_partial.

(** ** The hypotheses are met by concrete histograms *)
Lemma ex_edges : valid_edges [0; 1; 3].
Proof. split; simpl; [lia|]. intros [|[|[|i]]] H; simpl in *; lra || lia. Qed.

Example ex_history_1d : exists h0 h,
  hist1_new (B1Edges (mk_edges false [0; 1; 3])) None None WNone = Ok h0 /\ h_edges h0 = [mk_edges false [0; 1; 3]] /\
  ready1 h0 /\ fills1 h0 [([1; 3; 7], WNone); ([2], WArr [-5])] = Ok h.
Proof.
  destruct (hist1_new (B1Edges (mk_edges false [0; 1; 3])) None None WNone) as [h0|] eqn:E; [|discriminate E].
  assert (He : h_edges h0 = [mk_edges false [0; 1; 3]]) by (injection E as <-; reflexivity).
  assert (Hr : ready1 h0) by (exact (new1_ready _ _ _ _ _ _ E He ex_edges)).
  destruct (fill1_succeeds h0 [1; 3; 7] WNone Hr I eq_refl) as (h1 & F1 & R1).
  destruct (fill1_succeeds h1 [2] (WArr [-5]) R1 I eq_refl) as (h2 & F2 & R2).
  exists h0, h2. repeat split; auto. cbn [fills1]. rewrite F1, F2. reflexivity.
Qed.

Example ex_history_2d : exists h0 h,
  hist2_new (B2Edges (mk_edges false [0; 1; 3]) (mk_edges false [0; 1; 3])) None None WNone = Ok h0 /\
  h_edges h0 = [mk_edges false [0; 1; 3]; mk_edges false [0; 1; 3]] /\
  ready2 h0 /\ fills2 h0 [(([1; 3], [2; 0]), WNone)] = Ok h.
Proof.
  destruct (hist2_new (B2Edges (mk_edges false [0; 1; 3]) (mk_edges false [0; 1; 3])) None None WNone) as [h0|] eqn:E; [|discriminate E].
  assert (He : h_edges h0 = [mk_edges false [0; 1; 3]; mk_edges false [0; 1; 3]]) by (injection E as <-; reflexivity).
  assert (Hr : ready2 h0).
  { exists (mk_edges false [0; 1; 3]), (mk_edges false [0; 1; 3]). injection E as <-.
    repeat split; try apply ex_edges; simpl; lia || reflexivity. }
  destruct (fill2_succeeds h0 [1; 3] [2; 0] WNone Hr I eq_refl eq_refl ltac:(discriminate)) as (h1 & F1 & R1).
  exists h0, h1. repeat split; auto. cbn [fills2]. rewrite F1. reflexivity.
Qed.
