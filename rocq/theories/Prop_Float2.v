(** C96, C97: templates and binned histograms in double precision. *)
From Coq Require Import Reals ZArith Bool Arith List Lra Lia.
From Flocq Require Import Core.
From Verif Require Import Model_Num Model_Hist Model_Float Model_FloatTmpl Spec_Hist Spec_Float Proof_Float Proof_Float2 Proof_Float3 Proof_Float4.
Import ListNotations.
Local Open Scope R_scope.

(** ** C96.  The values of a template: yield times the fraction of the bin, up to rounding; p are the (computed) bin
    yields c * (1 + theta * epsilon) *)
Theorem C96_values_partial : forall y counts rel nui vs, let p := per_bin_fl counts rel nui in let n := length p in
  sized p -> 0 < Rsuml p -> bpow radix2 (-300) <= y <= bpow radix2 300 -> INR n * bpow radix2 (-49) <= 1 -> values_fl y counts rel nui vs ->
  length vs = n /\ forall i, (i < n)%nat ->
    Rabs (nth i vs 0 - y * (nth i p 0 / Rsuml p)) <= (INR n + 1) * bpow radix2 (-51) * (y * (nth i p 0 / Rsuml p)).
Proof. exact values_near. Qed.
Print Assumptions C96_values_partial.
(** ... and the sum of the values, in any order of summation, is the yield up to rounding. *)
Theorem C96_total_partial : forall y counts rel nui vs t, let p := per_bin_fl counts rel nui in let n := length p in
  sized p -> 0 < Rsuml p -> bpow radix2 (-300) <= y <= bpow radix2 300 -> INR n * bpow radix2 (-49) <= 1 ->
  values_fl y counts rel nui vs -> sum_fl vs t -> Rabs (t - y) <= (INR n + 1) * bpow radix2 (-50) * y.
Proof. exact total_near. Qed.
Print Assumptions C96_total_partial.
(** A new template reproduces the counts of its histogram up to rounding, whatever the orders of the two summations ... *)
Theorem C96_new_template_partial : forall counts rel vs, let n := length counts in Forall double counts -> sized counts -> 0 < Rsuml counts ->
  length rel = n -> INR n * bpow radix2 (-49) <= 1 -> new_values_fl counts rel vs ->
  length vs = n /\ forall i, (i < n)%nat -> Rabs (nth i vs 0 - nth i counts 0) <= (INR n + 1) * bpow radix2 (-50) * nth i counts 0.
Proof. exact new_near. Qed.
Print Assumptions C96_new_template_partial.
(** ... and independently of the number of bins if the counts are multiples of 2^e with exact sum (e.g. numbers of events). *)
Theorem C96_new_template_events_partial : forall e counts rel vs, let n := length counts in (-300 <= e <= 200)%Z ->
  (forall c, In c counts -> 0 <= c /\ multiple e c) -> 0 < Rsuml counts <= bpow radix2 (53 + e) -> length rel = n -> new_values_fl counts rel vs ->
  length vs = n /\ forall i, (i < n)%nat -> Rabs (nth i vs 0 - nth i counts 0) <= bpow radix2 (-51) * nth i counts 0.
Proof. exact new_near_exact. Qed.
Print Assumptions C96_new_template_events_partial.

Lemma d_int k : (Z.abs k < 2 ^ 53)%Z -> double (IZR k).
Proof. intros K. exists k, 0%Z. split; [cbn; ring|]. split; [exact K|lia]. Qed.
Lemma sum_1_48 : sum_fl [1; 48] 49.
Proof. replace 49 with (fadd 1 48). - apply (sum_two [1] [48]); constructor. - unfold fadd. replace (1 + 48) with 49 by ring. apply fl_id. apply (d_int 49). reflexivity. Qed.
Lemma new_1_48 rel : length rel = 2%nat -> new_values_fl [1; 48] rel (scaled_fl 49 49 [1; 48]).
Proof.
  intros L. exists 49. split; [apply sum_1_48|]. exists 49. rewrite per_bin_new; [split; [apply sum_1_48|reflexivity]| |exact L].
  repeat constructor; [apply (d_int 1)|apply (d_int 48)]; reflexivity.
Qed.
(** Not exactly, even for small numbers of events: 1 and 48 events. *)
Theorem C96_reproduces_counts_refuted : exists counts vs, (forall c, In c counts -> exists n, c = INR n /\ (0 < n < 100)%nat) /\
  (forall rel, length rel = length counts -> new_values_fl counts rel vs) /\ nth 0 vs 0 <> nth 0 counts 0.
Proof.
  exists [1; 48], (scaled_fl 49 49 [1; 48]). split; [|split].
  - intros c [<- |[<- |[]]]; [exists 1%nat|exists 48%nat]; (split; [cbn; ring|lia]).
  - apply new_1_48.
  - unfold scaled_fl. cbn [map nth]. assert (Q : fdiv 1 49 = IZR 5882252574524729 * bpow radix2 (-58)).
    { unfold fdiv. apply fl_calc; [lia|cbn; lra|]. apply Rabs_def1; cbn; lra. }
    assert (V : fmul 49 (fdiv 1 49) = IZR (2 ^ 53 - 1) * bpow radix2 (-53)).
    { rewrite Q. unfold fmul. apply fl_calc; [lia|cbn; lra|]. apply Rabs_def1; cbn; lra. }
    rewrite V. cbn. lra.
Qed.
Print Assumptions C96_reproduces_counts_refuted.
Example C96_example : Rabs (nth 1 (scaled_fl 49 49 [1; 48]) 0 - 48) <= bpow radix2 (-51) * 48.
Proof.
  destruct (C96_new_template_events_partial 0 [1; 48] [0; 0] (scaled_fl 49 49 [1; 48])) as (_ & H).
  - lia.
  - intros c [<- |[<- |[]]]; (split; [lra|]); [exists 1%Z|exists 48%Z]; cbn; ring.
  - cbn. lra.
  - reflexivity.
  - apply new_1_48. reflexivity.
  - apply (H 1%nat). cbn. lia.
Qed.
Example C96_example_sized : sized (per_bin_fl [1; 48] [1; 1] [0; 0]) /\ 0 < Rsuml (per_bin_fl [1; 48] [1; 1] [0; 0]).
Proof.
  change [0; 0] with (repeat 0 (length [1; 48])). rewrite (per_bin_new [1; 48] [1; 1]); [|repeat constructor; [apply (d_int 1)|apply (d_int 48)]; reflexivity|reflexivity].
  assert (A : bpow radix2 (-300) <= 1) by (change 1 with (bpow radix2 0); apply bpow_le; lia).
  assert (B : bpow radix2 6 <= bpow radix2 300) by (apply bpow_le; lia). change (bpow radix2 6) with 64 in B.
  split; [|cbn; lra]. split; [|cbn -[bpow]; lra]. apply Forall_cons; [right; lra|]. apply Forall_cons; [right; lra|]. apply Forall_nil.
Qed.

(** ** C97.  Squared errors of binned data without errors: the counts up to rounding (unless they are denormally small) ... *)
Theorem C97_errors_close_partial : forall counts, (forall c, In c counts -> c = 0 \/ bpow radix2 (-1020) <= c) ->
  length (binned_errors_sq_fl counts) = length counts /\ forall i, (i < length counts)%nat ->
    Rabs (nth i (binned_errors_sq_fl counts) 0 - nth i counts 0) <= bpow radix2 (-51) * nth i counts 0.
Proof.
  intros counts H. split; [unfold binned_errors_sq_fl; now rewrite map_length|]. intros i I. specialize (H _ (nth_In _ 0 I)).
  unfold binned_errors_sq_fl. rewrite (nth_indep _ 0 (fmul (fsqrt 0) (fsqrt 0))) by (rewrite map_length; exact I). rewrite (map_nth (fun c => fmul (fsqrt c) (fsqrt c))).
  set (c := nth i counts 0) in *. clearbody c. assert (E51 : bpow radix2 (-51) = 4 * u) by (unfold u; change (-51)%Z with (2 + -53)%Z; rewrite bpow_plus; reflexivity). rewrite E51.
  destruct H as [-> |H]. { unfold fsqrt, fmul. rewrite sqrt_0, fl_0, Rmult_0_r, fl_0, Rminus_0_r, Rabs_R0. lra. }
  pose proof u_pos. pose proof u_small. pose proof (bpow_gt_0 radix2 (-1020)) as B. set (r := sqrt c). assert (R0 : 0 <= r) by apply sqrt_pos. assert (RR : r * r = c) by (apply sqrt_sqrt; lra).
  assert (RB : bpow radix2 (-510) <= r).
  { unfold r. rewrite <- (sqrt_square (bpow radix2 (-510))) by apply bpow_ge_0. rewrite <- bpow_plus. apply sqrt_le_1_alt. exact H. }
  unfold fsqrt, fmul. fold r. destruct (fl_rel r) as (d & D & ->).
  { rewrite Rabs_pos_eq by exact R0. eapply Rle_trans; [|exact RB]. apply bpow_le. lia. }
  apply Rabs_def2b in D. replace (r * (1 + d) * (r * (1 + d))) with (c * ((1 + d) * (1 + d))) by (rewrite <- RR; ring).
  destruct (fl_rel (c * ((1 + d) * (1 + d)))) as (d' & D' & ->).
  { assert (Q : bpow radix2 (-1022) * 4 = bpow radix2 (-1020)) by (change (-1020)%Z with (2 + -1022)%Z; rewrite bpow_plus; change (bpow radix2 2) with 4; ring).
    pose proof (bpow_gt_0 radix2 (-1022)). rewrite Rabs_pos_eq by nra. assert (1/4 <= (1 + d) * (1 + d)) by nra. nra. }
  apply Rabs_def2b in D'. replace (c * ((1 + d) * (1 + d)) * (1 + d') - c) with (c * ((1 + d) * (1 + d) * (1 + d') - 1)) by ring.
  rewrite Rabs_mult, (Rabs_pos_eq c) by lra. rewrite Rmult_comm. apply Rmult_le_compat_r; [lra|].
  assert (P : 1 - 4 * u <= (1 + d) * (1 + d) * (1 + d') <= 1 + 4 * u) by (apply prod3; apply Rabs_le; lra). apply Rabs_le. lra.
Qed.
Print Assumptions C97_errors_close_partial.
(** ... but not exactly: a bin with 2 events. *)
Theorem C97_errors_exact_refuted : exists counts, (forall c, In c counts -> exists n, c = INR n) /\ binned_errors_sq_fl counts <> counts.
Proof.
  exists [2]. split. { intros c [<- |[]]. exists 2%nat. cbn. ring. }
  unfold binned_errors_sq_fl. cbn [map]. pose proof (sqrt_sqrt 2 ltac:(lra)) as S. pose proof (sqrt_pos 2) as P.
  assert (Q : fsqrt 2 = IZR 6369051672525773 * bpow radix2 (-52)).
  { unfold fsqrt. apply fl_calc; [lia|split; cbn; nra|]. apply Rabs_def1; cbn; nra. }
  assert (V : fmul (fsqrt 2) (fsqrt 2) = IZR (2 ^ 52 + 1) * bpow radix2 (-51)).
  { rewrite Q. unfold fmul. apply fl_calc; [lia|cbn; lra|]. apply Rabs_def1; cbn; lra. }
  rewrite V. intros E. injection E. cbn. lra.
Qed.
Print Assumptions C97_errors_exact_refuted.
Example C97_example : Rabs (nth 0 (binned_errors_sq_fl [2; 0]) 0 - 2) <= bpow radix2 (-51) * 2.
Proof.
  apply (proj2 (C97_errors_close_partial [2; 0] ltac:(intros c [<- |[<- |[]]]; [right|now left]; assert (B : bpow radix2 (-1020) <= bpow radix2 0) by (apply bpow_le; lia); change (bpow radix2 0) with 1 in B; lra)) 0%nat ltac:(cbn; lia)).
Qed.
