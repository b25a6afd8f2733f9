(** np.linspace and yields in double precision. *)
From Coq Require Import Reals ZArith Bool Arith List Permutation Lra Lia.
From Flocq Require Import Core Relative.
From Verif Require Import Model_Num Model_Hist Model_Float Spec_Hist Spec_Float Proof_Hist Proof_Float.
Import ListNotations.
Local Open Scope R_scope.

(** computing a rounding *)
Lemma fl_calc m e x : (-1074 <= e)%Z -> IZR (2 ^ 52) * b2 e <= x < IZR (2 ^ 53) * b2 e -> Rabs (x - IZR m * b2 e) < /2 * b2 e -> fl x = IZR m * b2 e.
Proof.
  intros E (L & U) D.
  assert (Mg : mag radix2 x = (53 + e)%Z :> Z).
  { apply mag_unique_pos. replace (53 + e - 1)%Z with (52 + e)%Z by lia. rewrite !bpow_plus. exact (conj L U). }
  assert (C : cexp radix2 (FLT_exp (-1074) 53) x = e). { unfold cexp, FLT_exp. rewrite Mg. lia. }
  unfold fl, round, scaled_mantissa. rewrite C. unfold F2R. cbn [Fnum Fexp]. f_equal. f_equal. apply Znearest_imp.
  replace (x * b2 (- e) - IZR m) with ((x - IZR m * b2 e) * b2 (- e)).
  - rewrite Rabs_mult, (Rabs_right (b2 (- e))) by (apply Rle_ge, bpow_ge_0).
    apply (Rmult_lt_reg_r (b2 e)); [apply bpow_gt_0|]. rewrite Rmult_assoc, <- bpow_plus, Z.add_opp_diag_l. cbn [bpow]. lra.
  - rewrite Rmult_minus_distr_r, Rmult_assoc, <- bpow_plus, Z.add_opp_diag_r. cbn [bpow]. ring.
Qed.

(** relative errors *)
Definition u : R := b2 (-53).
Lemma u_pos : 0 < u. Proof. apply bpow_gt_0. Qed.
Lemma u_small : u <= /1000000. Proof. unfold u. cbn. lra. Qed.
Lemma fl_rel x : b2 (-1022) <= Rabs x -> exists d, Rabs d <= u /\ fl x = x * (1 + d).
Proof.
  intros H. destruct (relative_error_N_FLT_ex radix2 (-1074) 53 prec53 (fun z => negb (Z.even z)) x H) as (d & D & E).
  exists d. split; [|exact E]. eapply Rle_trans; [exact D|]. rewrite bpow_plus. unfold u. change (b2 1) with 2. change (- (53))%Z with (-53)%Z. lra.
Qed.
Lemma fl_abs x : Rabs (fl x - x) <= u * Rabs x + b2 (-1075).
Proof.
  destruct (relative_error_N_FLT'_ex radix2 (-1074) 53 prec53 (fun z => negb (Z.even z)) x) as (eps & eta & D & T & _ & E).
  change (fl x = x * (1 + eps) + eta) in E. rewrite E. replace (x * (1 + eps) + eta - x) with (eps * x + eta) by ring.
  eapply Rle_trans; [apply Rabs_triang|]. apply Rplus_le_compat.
  - rewrite Rabs_mult. apply Rmult_le_compat_r; [apply Rabs_pos|]. eapply Rle_trans; [exact D|].
    assert (U : u_ro radix2 53 = u). { unfold u_ro, u. change (- (53) + 1)%Z with (1 + -53)%Z. rewrite bpow_plus. change (b2 1) with 2. field. }
    rewrite U. pose proof u_pos. apply (Rmult_le_reg_r (1 + u)); [lra|]. unfold Rdiv. rewrite Rmult_assoc, Rinv_l by lra. nra.
  - eapply Rle_trans; [exact T|]. change (-1074)%Z with (1 + -1075)%Z. rewrite bpow_plus. change (b2 1) with 2. lra.
Qed.

Lemma Rabs_def2b x a : Rabs x <= a -> - a <= x <= a.
Proof. apply Rabs_le_inv. Qed.
Lemma prod3 a b c : Rabs a <= u -> Rabs b <= u -> Rabs c <= u -> 1 - 4 * u <= (1 + a) * (1 + b) * (1 + c) <= 1 + 4 * u.
Proof.
  intros A B C. pose proof u_pos. pose proof u_small.
  apply Rabs_def2b in A. apply Rabs_def2b in B. apply Rabs_def2b in C.
  assert (P1 : (1 - u) * (1 - u) <= (1 + a) * (1 + b) <= (1 + u) * (1 + u)) by (split; apply Rmult_le_compat; lra).
  assert (P2 : (1 - u) * (1 - u) * (1 - u) <= (1 + a) * (1 + b) * (1 + c) <= (1 + u) * (1 + u) * (1 + u)).
  { split; apply Rmult_le_compat; try lra; try (apply Rmult_le_pos; lra). }
  split; [eapply Rle_trans; [|apply P2]|eapply Rle_trans; [apply P2|]]; nra.
Qed.

Section Linspace.
  Variables (lo hi : R) (n : nat).
  Hypotheses (DL : double lo) (DH : double hi) (LH : lo < hi) (N1 : (1 <= n)%nat) (N2 : INR n <= b2 50) (SP : INR n * b2 (-1020) <= hi - lo).
  Let w := (hi - lo) / INR n.
  Let step := fdiv (fsub hi lo) (INR n).
  Let y (i : nat) := fmul (INR i) step.
  Let z (i : nat) := fadd (y i) lo.
  Lemma n_pos : 1 <= INR n. Proof. change 1 with (INR 1). now apply le_INR. Qed.
  Lemma small_pos : 0 < b2 (-1020). Proof. apply bpow_gt_0. Qed.
  Lemma ww : w * INR n = hi - lo. Proof. unfold w. field. pose proof n_pos. lra. Qed.
  Lemma w_lower : b2 (-1020) <= w.
  Proof. unfold w. apply (Rmult_le_reg_r (INR n)); [pose proof n_pos; lra|]. fold w. rewrite ww. lra. Qed.
  Lemma b1020 : b2 (-1022) = b2 (-1020) / 4.
  Proof. change (-1022)%Z with (-2 + -1020)%Z. rewrite bpow_plus. change (b2 (-2)) with (/4). field. Qed.
  Lemma step_rel : exists d1 d2, Rabs d1 <= u /\ Rabs d2 <= u /\ step = w * ((1 + d1) * (1 + d2)).
  Proof.
    pose proof n_pos. pose proof w_lower. pose proof small_pos. pose proof u_small. pose proof u_pos. pose proof b1020. pose proof ww.
    assert (HL : b2 (-1020) <= hi - lo). { rewrite <- H5. assert (w * 1 <= w * INR n) by (apply Rmult_le_compat_l; lra). lra. }
    destruct (fl_rel (hi - lo)) as (d1 & D1 & E1); [rewrite Rabs_right; lra|].
    destruct (fl_rel (fsub hi lo / INR n)) as (d2 & D2 & E2).
    - unfold fsub. rewrite E1. replace ((hi - lo) * (1 + d1) / INR n) with (w * (1 + d1)) by (unfold w; field; lra).
      apply Rabs_def2b in D1. assert (w * (/2) <= w * (1 + d1)) by (apply Rmult_le_compat_l; lra). rewrite Rabs_right; lra.
    - exists d1, d2. split; [exact D1|]. split; [exact D2|]. unfold step, fdiv. rewrite E2. unfold fsub. rewrite E1. unfold w. field. lra.
  Qed.
  Lemma step_pos : 0 < step.
  Proof.
    destruct step_rel as (d1 & d2 & D1 & D2 & ->). pose proof w_lower. pose proof small_pos. pose proof u_small. apply Rabs_def2b in D1. apply Rabs_def2b in D2.
    apply Rmult_lt_0_compat; [lra|]. apply Rmult_lt_0_compat; lra.
  Qed.
  Lemma y_rel i : INR i * w * (1 - 4 * u) <= y i <= INR i * w * (1 + 4 * u).
  Proof.
    pose proof w_lower. pose proof small_pos. pose proof u_small. pose proof u_pos.
    destruct (Nat.eq_dec i 0) as [-> |NZ].
    - unfold y, fmul. replace (INR 0 * step) with 0 by (simpl; ring). rewrite fl_0. simpl. lra.
    - assert (I : 1 <= INR i) by (change 1 with (INR 1); apply le_INR; lia).
      destruct step_rel as (d1 & d2 & D1 & D2 & E).
      assert (P : 1 - 4 * u <= (1 + d1) * (1 + d2) <= 1 + 4 * u).
      { pose proof (prod3 d1 d2 0 D1 D2 ltac:(rewrite Rabs_R0; lra)). lra. }
      assert (Q : w <= INR i * w). { rewrite <- (Rmult_1_l w) at 1. apply Rmult_le_compat_r; lra. }
      destruct (fl_rel (INR i * step)) as (d3 & D3 & E3).
      + rewrite E, <- Rmult_assoc. assert (INR i * w * (/2) <= INR i * w * ((1 + d1) * (1 + d2))) by (apply Rmult_le_compat_l; lra).
        pose proof b1020. rewrite Rabs_right; lra.
      + unfold y, fmul. rewrite E3, E.
        replace (INR i * (w * ((1 + d1) * (1 + d2))) * (1 + d3)) with (INR i * w * ((1 + d1) * (1 + d2) * (1 + d3))) by ring.
        pose proof (prod3 d1 d2 d3 D1 D2 D3). split; apply Rmult_le_compat_l; lra.
  Qed.
  Lemma y_top i : (i < n)%nat -> 0 <= y i <= hi - lo.
  Proof.
    intros I. pose proof (y_rel i) as (Y1 & Y2). pose proof u_small. pose proof u_pos. pose proof w_lower. pose proof small_pos. pose proof (pos_INR i).
    assert (0 <= INR i * w) by (apply Rmult_le_pos; lra). split.
    - eapply Rle_trans; [|exact Y1]. apply Rmult_le_pos; lra.
    - eapply Rle_trans; [exact Y2|]. rewrite <- ww.
      assert (I1 : INR i <= INR n - 1). { replace (INR n - 1) with (INR (n - 1)) by (rewrite minus_INR by lia; reflexivity). apply le_INR. lia. }
      assert (B : INR n * (4 * u) <= 1 / 2).
      { eapply Rle_trans; [apply Rmult_le_compat_r; [lra|exact N2]|]. unfold u. change (-53)%Z with (-50 + -3)%Z. rewrite bpow_plus. change (b2 (-3)) with (/8).
        replace (b2 50 * (4 * (b2 (-50) * / 8))) with (b2 50 * b2 (-50) * / 2) by field. assert (Q : b2 50 * b2 (-50) = 1) by (rewrite <- bpow_plus; reflexivity). rewrite Q. lra. }
      replace (INR i * w * (1 + 4 * u)) with (w * (INR i + INR i * (4 * u))) by ring. apply Rmult_le_compat_l; [lra|].
      assert (INR i * (4 * u) <= INR n * (4 * u)) by (apply Rmult_le_compat_r; lra). lra.
  Qed.
  Lemma z_le i : (S i < n)%nat -> z i <= z (S i).
  Proof.
    intros I. unfold z, fadd. apply fl_mono. apply Rplus_le_compat_r. unfold y, fmul. apply fl_mono. apply Rmult_le_compat_r; [pose proof step_pos; lra|].
    apply le_INR. lia.
  Qed.
  Lemma z_hi i : (i < n)%nat -> lo <= z i <= hi.
  Proof.
    intros I. pose proof (y_top i I). unfold z, fadd. split.
    - rewrite <- (fl_id lo DL) at 1. apply fl_mono. lra.
    - rewrite <- (fl_id hi DH). apply fl_mono. lra.
  Qed.
  Lemma z_0 : z 0 = lo.
  Proof. unfold z, fadd, y, fmul. replace (INR 0 * step) with 0 by (simpl; ring). rewrite fl_0, Rplus_0_l. now apply fl_id. Qed.
  Lemma z_close i : (i < n)%nat -> Rabs (z i - (lo + INR i * w)) <= b2 (-50) * (hi - lo) + b2 (-53) * Rmax (Rabs lo) (Rabs hi).
  Proof.
    intros I. pose proof (y_rel i) as (Y1 & Y2). pose proof (y_top i I) as (T1 & T2). pose proof u_pos. pose proof w_lower. pose proof small_pos. pose proof (pos_INR i).
    assert (IW : 0 <= INR i * w <= hi - lo).
    { split; [apply Rmult_le_pos; lra|]. rewrite <- ww, (Rmult_comm w). apply Rmult_le_compat_r; [lra|]. apply le_INR. lia. }
    pose proof (fl_abs (y i + lo)) as F. fold (fadd (y i) lo) in F. fold (z i) in F.
    assert (MX : Rabs (y i + lo) <= Rmax (Rabs lo) (Rabs hi)).
    { destruct (Rle_lt_dec 0 (y i + lo)) as [C|C].
      - rewrite Rabs_right by lra. eapply Rle_trans; [|apply Rmax_r]. pose proof (Rle_abs hi). lra.
      - rewrite Rabs_left by lra. eapply Rle_trans; [|apply Rmax_l]. pose proof (Rle_abs (- lo)) as A. rewrite Rabs_Ropp in A. lra. }
    assert (SM : b2 (-1075) <= b2 (-55) * (hi - lo)).
    { change (-1075)%Z with (-55 + -1020)%Z. rewrite bpow_plus. apply Rmult_le_compat_l; [apply bpow_ge_0|].
      pose proof n_pos. assert (1 * b2 (-1020) <= INR n * b2 (-1020)) by (apply Rmult_le_compat_r; lra). lra. }
    assert (YD : Rabs (y i - INR i * w) <= 4 * u * (hi - lo)).
    { apply Rabs_le. assert (INR i * w * (4 * u) <= (hi - lo) * (4 * u)) by (apply Rmult_le_compat_r; lra). lra. }
    replace (z i - (lo + INR i * w)) with (z i - (y i + lo) + (y i - INR i * w)) by ring.
    eapply Rle_trans; [apply Rabs_triang|].
    assert (U : u * Rabs (y i + lo) <= b2 (-53) * Rmax (Rabs lo) (Rabs hi)) by (apply Rmult_le_compat_l; [apply bpow_ge_0|exact MX]).
    assert (E1 : 4 * u = b2 (-50) / 2). { unfold u. change (-50)%Z with (3 + -53)%Z. rewrite bpow_plus. change (b2 3) with 8. field. }
    assert (E2 : b2 (-55) = b2 (-50) / 32). { change (-55)%Z with (-5 + -50)%Z. rewrite bpow_plus. change (b2 (-5)) with (/32). field. }
    rewrite E1 in YD. rewrite E2 in SM. assert (0 <= b2 (-50) * (hi - lo)) by (apply Rmult_le_pos; [apply bpow_ge_0|lra]). lra.
  Qed.

  Lemma linspace_nth_fl i : (i <= n)%nat -> nth i (linspace_fl lo hi n) 0 = if Nat.eqb i n then hi else z i.
  Proof.
    intros I. unfold linspace_fl. cbv zeta. rewrite nth_map_seq by lia. cbn [Nat.add].
    destruct (Nat.eqb_spec n 0) as [E|E]; [lia|]. rewrite andb_true_r. destruct (Nat.eqb i n); [reflexivity|]. fold step.
    destruct (Req_EM_T step 0) as [Z|Z]; [pose proof step_pos; lra|]. reflexivity.
  Qed.
  Lemma linspace_fl_length : length (linspace_fl lo hi n) = (n + 1)%nat.
  Proof. unfold linspace_fl. now rewrite map_length, seq_length. Qed.
End Linspace.

Theorem linspace_ok lo hi n : double lo -> double hi -> lo < hi -> (1 <= n)%nat -> INR n <= b2 50 -> INR n * b2 (-1020) <= hi - lo ->
  let es := linspace_fl lo hi n in
  length es = (n + 1)%nat /\ nth 0 es 0 = lo /\ nth n es 0 = hi /\
  (forall i, (i < n)%nat -> lo <= nth i es 0 <= nth (S i) es 0) /\
  (forall i, (i <= n)%nat -> Rabs (nth i es 0 - (lo + INR i * ((hi - lo) / INR n))) <= b2 (-50) * (hi - lo) + b2 (-53) * Rmax (Rabs lo) (Rabs hi)).
Proof.
  intros DL DH LH N1 N2 SP es. subst es. split; [apply linspace_fl_length|].
  assert (NT := fun i I => linspace_nth_fl lo hi n LH N1 SP i I).
  split. { rewrite NT by lia. destruct (Nat.eqb_spec 0 n); [lia|]. apply z_0; assumption. }
  split. { rewrite NT by lia. now rewrite Nat.eqb_refl. }
  split.
  - intros i I. rewrite !NT by lia. destruct (Nat.eqb_spec i n); [lia|]. pose proof (z_hi lo hi n DL DH LH N1 N2 SP i I) as (Z1 & Z2).
    split; [exact Z1|]. destruct (Nat.eqb_spec (S i) n) as [E|E]; [exact Z2|]. apply z_le; try assumption. lia.
  - intros i I. rewrite NT by lia. destruct (Nat.eqb_spec i n) as [-> |E].
    + replace (hi - (lo + INR n * ((hi - lo) / INR n))) with 0.
      * rewrite Rabs_R0. pose proof (bpow_ge_0 radix2 (-50)). pose proof (bpow_ge_0 radix2 (-53)). pose proof (Rabs_pos lo). pose proof (Rmax_l (Rabs lo) (Rabs hi)).
        assert (0 <= b2 (-50) * (hi - lo)) by (apply Rmult_le_pos; lra). assert (0 <= b2 (-53) * Rmax (Rabs lo) (Rabs hi)) by (apply Rmult_le_pos; lra). lra.
      * pose proof (n_pos n N1). field. lra.
    + apply z_close; try assumption. lia.
Qed.
Theorem linspace_strict lo hi n : double lo -> double hi -> lo < hi -> (1 <= n)%nat -> INR n <= b2 50 -> INR n * b2 (-1020) <= hi - lo ->
  b2 (-47) * Rmax (Rabs lo) (Rabs hi) < (hi - lo) / INR n -> valid_edges (linspace_fl lo hi n).
Proof.
  intros DL DH LH N1 N2 SP W. destruct (linspace_ok lo hi n DL DH LH N1 N2 SP) as (L & _ & _ & _ & C). split; [lia|]. rewrite L. intros i I.
  pose proof (C i ltac:(lia)) as C1. pose proof (C (S i) ltac:(lia)) as C2. apply Rabs_def2b in C1. apply Rabs_def2b in C2.
  rewrite S_INR in C2. set (M := Rmax (Rabs lo) (Rabs hi)) in *. set (w := (hi - lo) / INR n) in *.
  assert (HM : hi - lo <= 2 * M).
  { unfold M. pose proof (Rmax_l (Rabs lo) (Rabs hi)). pose proof (Rmax_r (Rabs lo) (Rabs hi)). pose proof (Rle_abs hi). pose proof (Rle_abs (- lo)). rewrite Rabs_Ropp in H2. lra. }
  assert (0 <= M) by lra.
  assert (E1 : b2 (-47) = 64 * b2 (-53)). { change (-47)%Z with (6 + -53)%Z. rewrite bpow_plus. reflexivity. }
  assert (E2 : b2 (-50) = 8 * b2 (-53)). { change (-50)%Z with (3 + -53)%Z. rewrite bpow_plus. reflexivity. }
  rewrite E1 in W. rewrite E2 in C1, C2. pose proof (bpow_gt_0 radix2 (-53)).
  assert (8 * b2 (-53) * (hi - lo) <= 8 * b2 (-53) * (2 * M)) by (apply Rmult_le_compat_l; lra).
  assert (0 <= b2 (-53) * M) by (apply Rmult_le_pos; lra). lra.
Qed.

(** sums of stored yields *)
Lemma fold_yields v effs : 0 <= v -> Forall (fun e => 0 <= e /\ (v * e = 0 \/ b2 (-1022) <= v * e)) effs ->
  forall acc t (k : nat), 0 <= t -> (acc = 0 \/ b2 (-1022) <= acc) -> INR (k + length effs) * (4 * u) <= 1 ->
  t * (1 - INR k * (4 * u)) <= acc <= t * (1 + INR k * (4 * u)) ->
  let T := t + v * Rsuml effs in let K := INR (k + length effs) in
  T * (1 - K * (4 * u)) <= fold_left fadd (map (fmul v) effs) acc <= T * (1 + K * (4 * u)).
Proof.
  intros V. induction effs as [|e effs IH]; intros F acc t k T0 A B I; cbn [map fold_left length Rsuml] in *.
  - rewrite Nat.add_0_r in *. rewrite Rmult_0_r, Rplus_0_r. exact I.
  - inversion F as [|? ? (E0 & E1) F']; subst. clear F. pose proof u_pos. pose proof u_small.
    replace (k + S (length effs))%nat with (S k + length effs)%nat in * by lia.
    assert (VE : 0 <= v * e) by (apply Rmult_le_pos; lra).
    assert (KB : (INR k + 1) * (4 * u) <= 1).
    { rewrite <- S_INR. eapply Rle_trans; [|exact B]. apply Rmult_le_compat_r; [lra|]. apply le_INR. lia. }
    pose proof (pos_INR k).
    (* the product *)
    assert (Y : exists d, Rabs d <= u /\ fmul v e = v * e * (1 + d)).
    { destruct E1 as [E1|E1]; [exists 0; rewrite Rabs_R0; split; [lra|]; unfold fmul; rewrite E1, fl_0; ring|].
      apply fl_rel. rewrite Rabs_right; lra. }
    destruct Y as (d & D & Y). pose proof (Rabs_def2b _ _ D) as D'.
    assert (YN : 0 <= v * e * (1 - u) <= fmul v e /\ fmul v e <= v * e * (1 + u)).
    { rewrite Y. split; [split|]; [apply Rmult_le_pos; lra|apply Rmult_le_compat_l; lra|apply Rmult_le_compat_l; lra]. }
    assert (A0 : 0 <= acc) by (destruct A as [-> |A]; [lra|pose proof (bpow_ge_0 radix2 (-1022)); lra]).
    assert (YF : fmul v e = 0 \/ b2 (-1022) <= fmul v e).
    { destruct E1 as [E1|E1]; [left; rewrite Y, E1; ring|right]. rewrite <- (fl_id (b2 (-1022))); [apply fl_mono; exact E1|].
      exists 1%Z, (-1022)%Z. split; [lra|]. split; lia. }
    assert (S : exists d2, Rabs d2 <= u /\ fadd acc (fmul v e) = (acc + fmul v e) * (1 + d2)).
    { destruct A as [A|A]; destruct YF as [Q|Q].
      - exists 0. rewrite Rabs_R0. split; [lra|]. unfold fadd. rewrite A, Q, Rplus_0_l, fl_0. ring.
      - apply fl_rel. rewrite Rabs_right; lra.
      - apply fl_rel. rewrite Rabs_right; lra.
      - apply fl_rel. rewrite Rabs_right; lra. }
    destruct S as (d2 & D2 & S). pose proof (Rabs_def2b _ _ D2) as D2'.
    assert (SF : fadd acc (fmul v e) = 0 \/ b2 (-1022) <= fadd acc (fmul v e)).
    { assert (G : acc + fmul v e = 0 \/ b2 (-1022) <= acc + fmul v e) by lra.
      destruct G as [G|G]; [left; rewrite S, G; ring|right]. rewrite <- (fl_id (b2 (-1022))); [apply fl_mono; exact G|].
      exists 1%Z, (-1022)%Z. split; [lra|]. split; lia. }
    replace (t + v * (e + Rsuml effs)) with (t + v * e + v * Rsuml effs) by ring.
    apply (IH F' _ (t + v * e) (Datatypes.S k)); [lra|exact SF|exact B|].
    rewrite S, S_INR. set (x := acc + fmul v e) in *. set (r := 4 * u) in *.
    assert (X : (t + v * e) * (1 - INR k * r - u) <= x <= (t + v * e) * (1 + INR k * r + u)).
    { unfold x. assert (0 <= INR k * r) by (apply Rmult_le_pos; unfold r; lra). assert (0 <= t * u) by (apply Rmult_le_pos; lra).
      assert (0 <= v * e * (INR k * r)) by (apply Rmult_le_pos; lra). split; lra. }
    assert (R0 : 0 <= INR k * r <= 1 - r) by (split; [apply Rmult_le_pos; unfold r; lra|lra]).
    assert (T1 : 0 <= t + v * e) by lra. assert (X0 : 0 <= x) by (unfold x; lra).
    assert (P1 : x * (1 - u) <= x * (1 + d2) <= x * (1 + u)) by (split; apply Rmult_le_compat_l; lra).
    split.
    + eapply Rle_trans; [|apply P1]. eapply Rle_trans; [|apply Rmult_le_compat_r; [lra|apply X]]. rewrite Rmult_assoc. apply Rmult_le_compat_l; [exact T1|].
      assert (0 <= INR k * r * u) by (apply Rmult_le_pos; lra). assert (0 <= u * u) by nra.
      replace ((1 - INR k * r - u) * (1 - u)) with (1 - INR k * r - u - u + INR k * r * u + u * u) by ring.
      replace ((INR k + 1) * r) with (INR k * r + 4 * u) by (unfold r; ring). lra.
    + eapply Rle_trans; [apply P1|]. eapply Rle_trans; [apply Rmult_le_compat_r; [lra|apply X]|]. rewrite Rmult_assoc. apply Rmult_le_compat_l; [exact T1|].
      assert (INR k * r * u <= u) by (rewrite <- (Rmult_1_l u) at 2; apply Rmult_le_compat_r; unfold r in *; lra). assert (u * u <= u) by nra.
      replace ((1 + INR k * r + u) * (1 + u)) with (1 + INR k * r + u + u + INR k * r * u + u * u) by ring.
      replace ((INR k + 1) * r) with (INR k * r + 4 * u) by (unfold r; ring). lra.
Qed.
