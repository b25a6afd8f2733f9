(** C91-C94: double precision. *)
From Coq Require Import Reals ZArith Bool Arith List Permutation Lra Lia.
From Flocq Require Import Core.
From Verif Require Import Model_Num Model_Hist Model_Float Spec_Hist Spec_Float Proof_Hist Proof_Float Proof_Float2 Proof_Float3 Prop_Hist.
Import ListNotations.
Local Open Scope R_scope.

(** ** C91.  Weights that are multiples of 2^e (1 = 2^0 without weights) are summed without any rounding as long as
    the sum of the squared multiples is at most 2^53: every count and every squared error is the exact sum over the
    events of the bin, for any number, order and batching of the events. *)
Theorem C91_exact_sums : forall es l e q, valid_edges es -> (-537 <= e)%Z ->
  (forall x w, In (x, w) (events_of l) -> multiple e w) ->
  wsum everything (squared (events_of l)) q -> q <= bpow radix2 (53 + 2 * e) ->
  length (fst (fills_fl es l)) = (length es - 1)%nat /\ length (snd (fills_fl es l)) = (length es - 1)%nat /\
  forall i, (S i < length es)%nat ->
    wsum (in_bin es i) (events_of l) (nth i (fst (fills_fl es l)) 0) /\
    wsum (in_bin es i) (squared (events_of l)) (nth i (snd (fills_fl es l)) 0).
Proof. exact fills_exact. Qed.
Print Assumptions C91_exact_sums.

Lemma ones_events l : (forall f, In f l -> snd f = repeat 1 (length (fst f))) ->
  events_of l = map (fun x => (x, 1)) (concat (map fst l)).
Proof.
  induction l as [|[xs ws] l IH]; intros H; [reflexivity|]. change (events_of ((xs, ws) :: l)) with (combine xs ws ++ events_of l). cbn [map concat fst].
  rewrite map_app, IH by (intros f I; apply H; now right). f_equal.
  pose proof (H _ (or_introl eq_refl)) as E. cbn in E. subst ws. clear. induction xs as [|x xs IH]; [reflexivity|]. cbn. f_equal. exact IH.
Qed.
(** Without weights every count is the number of events in the bin, as long as there are at most 2^53 events. *)
Theorem C91_unweighted : forall es l, valid_edges es -> (forall f, In f l -> snd f = repeat 1 (length (fst f))) ->
  let xs := concat (map fst l) in (Z.of_nat (length xs) <= 2 ^ 53)%Z ->
  forall i, (S i < length es)%nat -> exists n, wcount (in_bin es i) xs n /\
    nth i (fst (fills_fl es l)) 0 = INR n /\ nth i (snd (fills_fl es l)) 0 = INR n.
Proof.
  intros es l V H xs N i I. pose proof (ones_events l H) as E. fold xs in E.
  assert (SQ : squared (events_of l) = events_of l).
  { rewrite E. unfold squared. rewrite map_map. apply map_ext. intros x. cbn. f_equal. ring. }
  assert (WC : forall (P : R -> Prop) ys s, (forall x, P x \/ ~ P x) -> wsum P (map (fun x => (x, 1)) ys) s -> exists n, wcount P ys n /\ s = INR n).
  { clear. intros P ys. induction ys as [|y ys IH]; intros s D W; inversion W; subst.
    - exists 0%nat. split; [constructor|reflexivity].
    - match goal with H : wsum P (map _ ys) ?t |- _ => destruct (IH t D H) as (n & C & ->) end. exists (S n). split; [now apply wcount_in|]. rewrite S_INR. ring.
    - match goal with H : wsum P (map _ ys) ?t |- _ => destruct (IH t D H) as (n & C & ->) end. exists n. split; [now apply wcount_out|reflexivity]. }
  assert (Q : wsum everything (squared (events_of l)) (INR (length xs))).
  { rewrite SQ, E. clearbody xs. clear. induction xs as [|x xs IH]; [constructor|]. cbn [map length]. rewrite S_INR, Rplus_comm. now constructor. }
  destruct (C91_exact_sums es l 0 (INR (length xs)) V ltac:(lia)) as (_ & _ & G).
  - intros x w J. rewrite E in J. apply in_map_iff in J as (y & J & _). injection J as _ <-. exists 1%Z. cbn. ring.
  - exact Q.
  - change (53 + 2 * 0)%Z with 53%Z. rewrite bpow53, INR_IZR_INZ. apply IZR_le. exact N.
  - destruct (G i I) as (G1 & G2). rewrite SQ in G2. rewrite E in G1, G2.
    assert (D : forall x, in_bin es i x \/ ~ in_bin es i x) by (intros x; destruct (bin_number_in_bin es i V I x); auto).
    destruct (WC _ _ _ D G1) as (n & C & E1). destruct (WC _ _ _ D G2) as (n' & C' & E2). exists n. split; [exact C|]. split; [exact E1|].
    rewrite E2. rewrite <- E1, <- E2. eapply wsum_unique; eauto.
Qed.
Print Assumptions C91_unweighted.

(** Under the same condition the model with real numbers gives the same numbers, so what is proved about it (C01-C09)
    holds in double precision. *)
Theorem C91_agrees_with_reals : forall es l e q h0 h, valid_edges es -> (-537 <= e)%Z ->
  (forall x w, In (x, w) (events_of l) -> multiple e w) ->
  wsum everything (squared (events_of l)) q -> q <= bpow radix2 (53 + 2 * e) ->
  hist1_new (B1Edges (mk_edges false es)) None None WNone = Ok h0 ->
  fills1 h0 (map (fun f => (fst f, WArr (snd f))) l) = Ok h ->
  forall i, (S i < length es)%nat ->
    entry (h_counts h) i (nth i (fst (fills_fl es l)) 0) /\ entry (h_errs_sq h) i (nth i (snd (fills_fl es l)) 0).
Proof.
  intros es l e q h0 h V E M Q B N F i I. destruct (C91_exact_sums es l e q V E M Q B) as (_ & _ & G). destruct (G i I) as (G1 & G2).
  assert (HE : h_edges h0 = [mk_edges false es]).
  { destruct (C04_given_edges (mk_edges false es) None) as (h' & N' & HE & _); [cbn; destruct V; lia|]. rewrite N in N'. injection N' as ->. exact HE. }
  pose proof (C01_each_event_in_its_bin _ _ _ _ _ _ _ _ N F HE V) as C. cbv zeta in C. cbn [init_fill app e_vals] in C. destruct C as (_ & _ & _ & C).
  destruct (C i I) as (s & qq & Es & Ws & Eq & Wq).
  assert (EV : all_events1 (map (fun f => (fst f, WArr (snd f))) l) = events_of l).
  { unfold all_events1, events_of, events1. clear. induction l as [|f l IH]; [reflexivity|]. cbn. now rewrite IH. }
  rewrite EV in *. rewrite (wsum_unique _ _ _ _ G1 Ws), (wsum_unique _ _ _ _ G2 Wq). auto.
Qed.
Print Assumptions C91_agrees_with_reals.
(** The sum over the bins (the initial yield of a template, np.sum of the counts) is exact in any order of summation. *)
Theorem C91_np_sum : forall e l s, (-1074 <= e)%Z -> sum_fl l s -> (forall x, In x l -> multiple e x) ->
  Rsuml (map Rabs l) <= bpow radix2 (53 + e) -> s = Rsuml l.
Proof. exact sum_exact. Qed.
Print Assumptions C91_np_sum.
Definition ex_edges : list R := [0; 1; 2].
Lemma ex_edges_valid : valid_edges ex_edges.
Proof. split; [cbn; lia|]. intros [|[|i]] I; cbn in *; try lra. lia. Qed.
Example C91_example : exists n, wcount (in_bin ex_edges 0) [0; 1; 1/2; 7] n /\ nth 0 (fst (fills_fl ex_edges [([0; 1], [1; 1]); ([1/2; 7], [1; 1])])) 0 = INR n.
Proof.
  destruct (C91_unweighted ex_edges [([0; 1], [1; 1]); ([1/2; 7], [1; 1])] ex_edges_valid) with (i := 0%nat) as (n & C & E & _).
  - intros f [<- |[<- |[]]]; reflexivity.
  - cbn. lia.
  - cbn. lia.
  - exists n. auto.
Qed.

(** ** C92.  Arbitrary weights: the counts depend on the order of the events and on the batches ... *)
Lemma in0 : in_bin [0; 1] 0 0.
Proof. split; cbn; [lra|left; lra]. Qed.
Lemma e01 : valid_edges [0; 1].
Proof. split; [cbn; lia|]. intros [|i] I; cbn in *; [lra|lia]. Qed.
Lemma bin01 : bin_number 0 [0; 1] = 1%nat.
Proof. pose proof (bin_number_in_bin [0; 1] 0 e01 ltac:(cbn; lia) 0) as H. pose proof in0. inversion H; [|tauto]. symmetry in H1. now apply Nat.eqb_eq in H1. Qed.
Lemma d_int k : (Z.abs k < 2 ^ 53)%Z -> double (IZR k).
Proof. intros K. exists k, 0%Z. split; [cbn; ring|]. split; [exact K|lia]. Qed.
Lemma d_53 : double (IZR (2 ^ 53)).
Proof. exists 1%Z, 53%Z. split; [cbn; lra|]. split; lia. Qed.
Lemma d_34 : double (3/4).
Proof. exists 3%Z, (-2)%Z. split; [cbn; lra|]. split; lia. Qed.
Lemma fadd_0_l x : double x -> fadd 0 x = x.
Proof. intros D. unfold fadd. rewrite Rplus_0_l. now apply fl_id. Qed.
Lemma big1 : fadd (IZR (2 ^ 53)) (3/4) = IZR (2 ^ 53).
Proof. unfold fadd. rewrite (fl_calc (2 ^ 52) 1); [cbn; lra|lia|cbn; lra|]. apply Rabs_def1; cbn; lra. Qed.
Lemma big2 : fadd (3/4) (3/4) = 3/2.
Proof. unfold fadd. replace (3/4 + 3/4) with (3/2) by lra. apply fl_id. exists 3%Z, (-1)%Z. split; [cbn; lra|]. split; lia. Qed.
Lemma big3 : fadd (3/2) (IZR (2 ^ 53)) = IZR (2 ^ 53) + 2.
Proof. unfold fadd. rewrite (fl_calc (2 ^ 52 + 1) 1); [cbn; lra|lia|cbn; lra|]. apply Rabs_def1; cbn; lra. Qed.
Lemma big4 : fadd (IZR (2 ^ 53)) (3/2) = IZR (2 ^ 53) + 2.
Proof. rewrite <- big3. unfold fadd. now rewrite Rplus_comm. Qed.
Theorem C92_order_refuted : exists es d w1 w2, valid_edges es /\ Forall double w1 /\ Permutation (combine d w1) (combine d w2) /\
  fst (fills_fl es [(d, w1)]) <> fst (fills_fl es [(d, w2)]).
Proof.
  exists [0; 1], [0; 0; 0], [IZR (2 ^ 53); 3/4; 3/4], [3/4; 3/4; IZR (2 ^ 53)]. split; [exact e01|]. split.
  { repeat constructor; [apply d_53|apply d_34|apply d_34]. } split.
  { cbn [combine]. apply perm_trans with [(0, 3/4); (0, IZR (2 ^ 53)); (0, 3/4)]; [apply perm_swap|]. apply perm_skip. apply perm_swap. }
  unfold fills_fl, fill_fl, binned_fl, bincount_fl. cbn [fold_left fst snd length Nat.sub seq map combine repeat map2]. rewrite bin01. cbn [Nat.eqb fst snd].
  rewrite !(fadd_0_l _ d_53), !(fadd_0_l _ d_34), big1, big1, big2, big3, (fadd_0_l _ d_53).
  assert (D : double (IZR (2 ^ 53) + 2)) by (rewrite <- big3; apply fl_double). rewrite (fadd_0_l _ D). intros H. injection H. lra.
Qed.
Print Assumptions C92_order_refuted.
Theorem C92_batches_refuted : exists es d1 w1 d2 w2, valid_edges es /\ Forall double (w1 ++ w2) /\
  fst (fills_fl es [(d1, w1); (d2, w2)]) <> fst (fills_fl es [(d1 ++ d2, w1 ++ w2)]).
Proof.
  exists [0; 1], [0], [IZR (2 ^ 53)], [0; 0], [3/4; 3/4]. split; [exact e01|]. split.
  { repeat constructor; [apply d_53|apply d_34|apply d_34]. }
  unfold fills_fl, fill_fl, binned_fl, bincount_fl. cbn [fold_left fst snd length Nat.sub seq map combine repeat map2 app]. rewrite bin01. cbn [Nat.eqb fst snd].
  rewrite !(fadd_0_l _ d_53), !(fadd_0_l _ d_34), !big1, big2, big4, (fadd_0_l _ d_53). intros H. injection H. lra.
Qed.
Print Assumptions C92_batches_refuted.
(** ... but they differ from the exact sums by at most (events + fill calls) * 2^-52 times the sum of the absolute
    weights in the bin, so results for different orders or batches by at most twice that; likewise the squared errors
    (if no squared weight underflows). *)
Theorem C92_counts_close_partial : forall es l, valid_edges es -> (forall x w, In (x, w) (events_of l) -> double w) ->
  let K := (length (events_of l) + length l)%nat in INR K * bpow radix2 (-52) <= 1 ->
  forall i s a, (S i < length es)%nat -> wsum (in_bin es i) (events_of l) s ->
    wsum (in_bin es i) (map (fun q => (fst q, Rabs (snd q))) (events_of l)) a ->
    Rabs (nth i (fst (fills_fl es l)) 0 - s) <= INR K * bpow radix2 (-52) * a.
Proof. exact fills_near. Qed.
Print Assumptions C92_counts_close_partial.
Theorem C92_errors_close_partial : forall es l, valid_edges es -> (forall x w, In (x, w) (events_of l) -> double w) ->
  (forall x w, In (x, w) (events_of l) -> w = 0 \/ bpow radix2 (-1022) <= w * w) ->
  let K := (length (events_of l) + length l)%nat in INR (K + 1) * bpow radix2 (-52) <= 1 ->
  forall i q, (S i < length es)%nat -> wsum (in_bin es i) (squared (events_of l)) q ->
    Rabs (nth i (snd (fills_fl es l)) 0 - q) <= INR (K + 1) * bpow radix2 (-52) * q.
Proof. exact fills_near_sq. Qed.
Print Assumptions C92_errors_close_partial.
Example C92_example : Rabs (nth 0 (fst (fills_fl [0; 1] [([0; 0], [IZR (2 ^ 53); 3/4]); ([0], [3/4])])) 0 - (IZR (2 ^ 53) + (3/4 + (3/4 + 0))))
  <= INR 5 * bpow radix2 (-52) * (IZR (2 ^ 53) + (3/4 + (3/4 + 0))).
Proof.
  apply (C92_counts_close_partial [0; 1] [([0; 0], [IZR (2 ^ 53); 3/4]); ([0], [3/4])] e01).
  - cbn. intros x w [H|[H|[H|[]]]]; injection H as _ <-; [apply d_53|apply d_34|apply d_34].
  - cbn -[bpow INR]. change (INR 5) with (1 + 1 + 1 + 1 + 1). cbn. lra.
  - cbn. lia.
  - cbn -[IZR Z.pow]. repeat (constructor; [exact in0|]). constructor.
  - cbn -[IZR Z.pow Rabs]. rewrite (Rabs_right (3/4)) by lra. rewrite (Rabs_right (IZR (2 ^ 53))) by (apply Rle_ge, IZR_le; lia).
    repeat (apply wsum_in; [exact in0|]). constructor.
Qed.

(** ** C93.  Bin edges of a histogram made from a number of bins and a range: the limits are kept exactly, the edges
    never decrease and differ from the exact ones by rounding only (ranges that are not denormally small, at most 2^50
    bins) ... *)
Theorem C93_edges_partial : forall lo hi n, double lo -> double hi -> lo < hi -> (1 <= n)%nat ->
  INR n <= bpow radix2 50 -> INR n * bpow radix2 (-1020) <= hi - lo ->
  let es := linspace_fl lo hi n in
  length es = (n + 1)%nat /\ nth 0 es 0 = lo /\ nth n es 0 = hi /\
  (forall i, (i < n)%nat -> lo <= nth i es 0 <= nth (S i) es 0) /\
  (forall i, (i <= n)%nat -> Rabs (nth i es 0 - (lo + INR i * ((hi - lo) / INR n)))
     <= bpow radix2 (-50) * (hi - lo) + bpow radix2 (-53) * Rmax (Rabs lo) (Rabs hi)).
Proof. exact linspace_ok. Qed.
Print Assumptions C93_edges_partial.
(** ... and increase strictly if the bins are wider than 2^-47 of the largest limit. *)
Theorem C93_increasing_partial : forall lo hi n, double lo -> double hi -> lo < hi -> (1 <= n)%nat ->
  INR n <= bpow radix2 50 -> INR n * bpow radix2 (-1020) <= hi - lo ->
  bpow radix2 (-47) * Rmax (Rabs lo) (Rabs hi) < (hi - lo) / INR n -> valid_edges (linspace_fl lo hi n).
Proof. exact linspace_strict. Qed.
Print Assumptions C93_increasing_partial.
(** Narrower bins can be empty: the first two edges of 4 bins between 1 and the next double are equal. *)
Theorem C93_narrow_refuted : exists lo hi n, double lo /\ double hi /\ lo < hi /\ (1 <= n)%nat /\ ~ valid_edges (linspace_fl lo hi n).
Proof.
  exists 1, (IZR (2 ^ 52 + 1) * bpow radix2 (-52)), 4%nat.
  assert (H : IZR (2 ^ 52 + 1) * bpow radix2 (-52) = 1 + bpow radix2 (-52)).
  { change (2 ^ 52 + 1)%Z with (4503599627370497)%Z. cbn. lra. }
  split; [apply (d_int 1); reflexivity|]. split; [exists (2 ^ 52 + 1)%Z, (-52)%Z; split; [reflexivity|]; split; lia|].
  split; [rewrite H; pose proof (bpow_gt_0 radix2 (-52)); lra|]. split; [lia|]. intros (_ & V). specialize (V 0%nat ltac:(cbn; lia)).
  unfold linspace_fl in V. cbv zeta in V. cbn [seq Nat.add map nth Nat.eqb andb negb] in V.
  assert (S : fdiv (fsub (IZR (2 ^ 52 + 1) * bpow radix2 (-52)) 1) (INR 4) = bpow radix2 (-54)).
  { unfold fdiv, fsub. rewrite H. replace (1 + bpow radix2 (-52) - 1) with (bpow radix2 (-52)) by ring.
    rewrite (fl_id (bpow radix2 (-52))) by (exists 1%Z, (-52)%Z; split; [lra|]; split; lia).
    replace (bpow radix2 (-52) / INR 4) with (bpow radix2 (-54)).
    - apply fl_id. exists 1%Z, (-54)%Z. split; [lra|]. split; lia.
    - change (-52)%Z with (2 + -54)%Z. rewrite bpow_plus. change (bpow radix2 2) with 4. cbn [INR]. field. }
  rewrite S in V. destruct (Req_EM_T (bpow radix2 (-54)) 0) as [Z|Z]; [pose proof (bpow_gt_0 radix2 (-54)); lra|].
  replace (fmul (INR 0) (bpow radix2 (-54))) with 0 in V by (unfold fmul; cbn [INR]; rewrite Rmult_0_l, fl_0; reflexivity).
  rewrite (fadd_0_l 1 (d_int 1 ltac:(reflexivity))) in V.
  replace (fmul (INR 1) (bpow radix2 (-54))) with (bpow radix2 (-54)) in V.
  2: { unfold fmul. cbn [INR]. rewrite Rmult_1_l. symmetry. apply fl_id. exists 1%Z, (-54)%Z. split; [lra|]. split; lia. }
  replace (fadd (bpow radix2 (-54)) 1) with 1 in V; [lra|]. unfold fadd. rewrite (fl_calc (2 ^ 52) (-52)); [cbn; lra|lia|cbn; lra|].
  apply Rabs_def1; cbn; lra.
Qed.
Print Assumptions C93_narrow_refuted.
Example C93_example : valid_edges (linspace_fl 0 1 3).
Proof.
  apply C93_increasing_partial; try (apply (d_int 0); reflexivity); try (apply (d_int 1); reflexivity); try lra; try lia.
  - cbn. lra.
  - replace (1 - 0) with 1 by ring. cbn [INR]. assert (B : bpow radix2 (-1020) <= bpow radix2 (-2)) by (apply bpow_le; lia). change (bpow radix2 (-2)) with (/4) in B. lra.
  - rewrite Rabs_R0, Rabs_R1, Rmax_right by lra. cbn. lra.
Qed.

(** ** C94.  get_yield after set_yield: with non-negative efficiencies in n channels the result is the value times the
    sum of the efficiencies up to a relative error of n * 2^-51 (unless a product underflows) ... *)
Theorem C94_close_partial : forall effs v, 0 <= v -> Forall (fun e => 0 <= e /\ (v * e = 0 \/ bpow radix2 (-1022) <= v * e)) effs ->
  let n := INR (length effs) in n * bpow radix2 (-51) <= 1 ->
  Rabs (get_after_set_fl effs v - v * Rsuml effs) <= n * bpow radix2 (-51) * (v * Rsuml effs).
Proof.
  intros effs v V F n N. assert (U : bpow radix2 (-51) = 4 * u). { unfold u. change (-51)%Z with (2 + -53)%Z. rewrite bpow_plus. reflexivity. } rewrite U in *.
  pose proof (fold_yields v effs V F 0 0 0 ltac:(lra) (or_introl eq_refl) N ltac:(lra)) as H. cbv zeta in H. cbn [Nat.add] in H. fold n in H. rewrite Rplus_0_l in H.
  unfold get_after_set_fl. apply Rabs_le. lra.
Qed.
Print Assumptions C94_close_partial.
(** ... but in general not exactly the value, even if the efficiencies sum up to 1. *)
Definition eff1 : R := IZR 910144923893829 * bpow radix2 (-53).
Definition eff2 : R := IZR 6637473673025949 * bpow radix2 (-53).
Definition eff3 : R := IZR 1459580657821214 * bpow radix2 (-53).
Theorem C94_exact_refuted : exists effs v, Forall double effs /\ double v /\ Forall (fun e => 0 < e < 1) effs /\ Rsuml effs = 1 /\ get_after_set_fl effs v <> v.
Proof.
  exists [eff1; eff2; eff3], 7.
  split. { repeat constructor; [exists 910144923893829%Z|exists 6637473673025949%Z|exists 1459580657821214%Z]; exists (-53)%Z; (split; [reflexivity|split; lia]). }
  split; [apply (d_int 7); reflexivity|].
  split. { repeat constructor; unfold eff1, eff2, eff3; cbn; lra. }
  split. { unfold eff1, eff2, eff3. cbn. lra. }
  unfold get_after_set_fl. cbn [map fold_left].
  assert (P1 : fmul 7 eff1 = IZR 6371014467256803 * bpow radix2 (-53)).
  { unfold fmul, eff1. apply fl_calc; [lia|cbn; lra|]. apply Rabs_def1; cbn; lra. }
  assert (P2 : fmul 7 eff2 = IZR 5807789463897705 * bpow radix2 (-50)).
  { unfold fmul, eff2. apply fl_calc; [lia|cbn; lra|]. apply Rabs_def1; cbn; lra. }
  assert (P3 : fmul 7 eff3 = IZR 5108532302374249 * bpow radix2 (-52)).
  { unfold fmul, eff3. apply fl_calc; [lia|cbn; lra|]. apply Rabs_def1; cbn; lra. }
  assert (D1 : double (fmul 7 eff1)) by apply fl_double. rewrite (fadd_0_l _ D1).
  assert (S1 : fadd (fmul 7 eff1) (fmul 7 eff2) = IZR 6604166272304805 * bpow radix2 (-50)).
  { rewrite P1, P2. unfold fadd. apply fl_calc; [lia|cbn; lra|]. apply Rabs_def1; cbn; lra. }
  assert (S2 : fadd (fadd (fmul 7 eff1) (fmul 7 eff2)) (fmul 7 eff3) = IZR 7881299347898367 * bpow radix2 (-50)).
  { rewrite S1, P3. unfold fadd. apply fl_calc; [lia|cbn; lra|]. apply Rabs_def1; cbn; lra. }
  rewrite S2. cbn. lra.
Qed.
Print Assumptions C94_exact_refuted.
Example C94_example : Rabs (get_after_set_fl [/2; /4] 8 - 8 * (/2 + (/4 + 0))) <= (1 + 1) * bpow radix2 (-51) * (8 * (/2 + (/4 + 0))).
Proof.
  apply (C94_close_partial [/2; /4] 8); [lra| |cbn; lra].
  assert (B : bpow radix2 (-1022) <= bpow radix2 (-2)) by (apply bpow_le; lia). change (bpow radix2 (-2)) with (/4) in B.
  repeat constructor; try lra; right; lra.
Qed.
