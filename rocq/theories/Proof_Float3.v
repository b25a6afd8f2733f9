(** Error bounds for sums of arbitrary weights. *)
From Coq Require Import Reals ZArith Bool Arith List Permutation Lra Lia.
From Flocq Require Import Core Relative Plus_error.
From Verif Require Import Model_Num Model_Hist Model_Float Spec_Hist Spec_Float Proof_Hist Proof_Float Proof_Float2.
Import ListNotations.
Local Open Scope R_scope.

Lemma fadd_rel x y : double x -> double y -> exists d, Rabs d <= u /\ fadd x y = (x + y) * (1 + d).
Proof.
  intros X Y. apply double_fmt in X. apply double_fmt in Y.
  destruct (FLT_plus_error_N_ex radix2 (-1074) 53 (fun z => negb (Z.even z)) x y X Y) as (d & D & E).
  exists d. split; [|exact E]. eapply Rle_trans; [exact D|].
  assert (U : u_ro radix2 53 = u). { unfold u_ro, u. change (- (53) + 1)%Z with (1 + -53)%Z. rewrite bpow_plus. change (b2 1) with 2. field. }
  rewrite U. pose proof u_pos. apply (Rmult_le_reg_r (1 + u)); [lra|]. unfold Rdiv. rewrite Rmult_assoc, Rinv_l by lra. nra.
Qed.
(** s is within k roundings of x; A bounds the sizes *)
Definition near (k : nat) (A s x : R) : Prop := double s /\ Rabs x <= A /\ Rabs (s - x) <= INR k * (2 * u) * A.
Lemma near_exact A x : double x -> Rabs x <= A -> near 0 A x x.
Proof. intros D H. split; [exact D|]. split; [exact H|]. rewrite Rminus_diag_eq, Rabs_R0 by reflexivity. simpl. lra. Qed.
Lemma near_add k1 k2 k A B s t x y : near k1 A s x -> near k2 B t y -> (S k1 <= k)%nat -> (S k2 <= k)%nat -> INR k * (2 * u) <= 1 -> near k (A + B) (fadd s t) (x + y).
Proof.
  intros (D1 & X & E1) (D2 & Y & E2) K1 K2 K. pose proof u_pos. pose proof (Rabs_pos x). pose proof (Rabs_pos y).
  split; [apply fl_double|]. split; [eapply Rle_trans; [apply Rabs_triang|lra]|].
  destruct (fadd_rel s t D1 D2) as (d & D & ->). apply le_INR in K1. apply le_INR in K2. rewrite S_INR in K1, K2. set (r := 2 * u) in *.
  assert (P1 : INR k1 * r * A <= (INR k - 1) * r * A) by (apply Rmult_le_compat_r; [lra|]; apply Rmult_le_compat_r; unfold r; lra).
  assert (P2 : INR k2 * r * B <= (INR k - 1) * r * B) by (apply Rmult_le_compat_r; [lra|]; apply Rmult_le_compat_r; unfold r; lra).
  replace ((s + t) * (1 + d) - (x + y)) with (((s - x) + (t - y)) * (1 + d) + (x + y) * d) by ring.
  assert (T1 : Rabs ((s - x) + (t - y)) <= (INR k - 1) * r * (A + B)).
  { eapply Rle_trans; [apply Rabs_triang|]. lra. }
  assert (D' := Rabs_def2b _ _ D). pose proof u_small.
  assert (T2 : Rabs (((s - x) + (t - y)) * (1 + d)) <= (INR k - 1) * r * (A + B) * (1 + u)).
  { rewrite Rabs_mult. apply Rmult_le_compat; try apply Rabs_pos; [exact T1|]. rewrite Rabs_right; lra. }
  assert (T3 : Rabs ((x + y) * d) <= (A + B) * u).
  { rewrite Rabs_mult. apply Rmult_le_compat; try apply Rabs_pos; [|exact D]. eapply Rle_trans; [apply Rabs_triang|]. lra. }
  eapply Rle_trans; [apply Rabs_triang|].
  assert (Q : (INR k - 1) * r * u <= u). { rewrite <- (Rmult_1_l u) at 2. apply Rmult_le_compat_r; [lra|]. unfold r in *. lra. }
  assert (G : ((INR k - 1) * r * (1 + u) + u) * (A + B) <= INR k * r * (A + B)).
  { apply Rmult_le_compat_r; [lra|]. replace ((INR k - 1) * r * (1 + u)) with ((INR k - 1) * r + (INR k - 1) * r * u) by ring. unfold r in *. lra. }
  replace ((INR k - 1) * r * (A + B) * (1 + u)) with ((INR k - 1) * r * (1 + u) * (A + B)) in T2 by ring. lra.
Qed.
Lemma near_more k k' A s x : near k A s x -> (k <= k')%nat -> near k' A s x.
Proof.
  intros (D & X & E) K. split; [exact D|]. split; [exact X|]. eapply Rle_trans; [exact E|]. apply le_INR in K. pose proof u_pos. pose proof (Rabs_pos x).
  apply Rmult_le_compat_r; [lra|]. apply Rmult_le_compat_r; lra.
Qed.
(** sums of the absolute weights of the events satisfying p *)
Definition asumf {A} (p : A -> bool) (l : list (A * R)) : R := wsumf p (map (fun q => (fst q, Rabs (snd q))) l).
Lemma asumf_app {A} (p : A -> bool) a b : asumf p (a ++ b) = asumf p a + asumf p b.
Proof. unfold asumf. now rewrite map_app, wsumf_app. Qed.
Definition all_double {A} (l : list (A * R)) : Prop := forall x w, In (x, w) l -> double w.
Lemma wsumf_le {A} (p : A -> bool) l : Rabs (wsumf p l) <= asumf p l.
Proof.
  unfold wsumf, asumf, wsumf. induction l as [|q l IH]; simpl; [rewrite Rabs_R0; lra|]. eapply Rle_trans; [apply Rabs_triang|].
  destruct (p (fst q)); [lra|]. rewrite Rabs_R0. lra.
Qed.
Lemma fold_near {A} (p : A -> bool) : forall l acc k B x, all_double l -> near k B acc x -> INR (k + length l) * (2 * u) <= 1 ->
  near (k + length l) (B + asumf p l) (fold_left (fun a (q : A * R) => if p (fst q) then fadd a (snd q) else a) l acc) (x + wsumf p l).
Proof.
  induction l as [|[z w] l IH]; intros acc k B x D N K; cbn [fold_left length] in *.
  - rewrite Nat.add_0_r. unfold asumf, wsumf. cbn. rewrite !Rplus_0_r. exact N.
  - replace (k + S (length l))%nat with (S k + length l)%nat in * by lia. cbn [fst snd].
    assert (Dl : all_double l) by (intros y v I; apply (D y); now right). assert (Dw : double w) by (apply (D z); now left).
    change ((z, w) :: l) with ([(z, w)] ++ l). rewrite asumf_app, wsumf_app. replace (asumf p [(z, w)]) with (if p z then Rabs w else 0) by (unfold asumf, wsumf; cbn; destruct (p z); cbn; ring).
    replace (wsumf p [(z, w)]) with (if p z then w else 0) by (unfold wsumf; cbn; destruct (p z); cbn; ring). rewrite <- !Rplus_assoc.
    destruct (p z).
    + apply IH; auto. eapply near_add; [exact N|apply near_exact; [exact Dw|apply Rle_refl]|lia|lia|].
      eapply Rle_trans; [|exact K]. apply Rmult_le_compat_r; [pose proof u_pos; lra|]. apply le_INR. lia.
    + rewrite !Rplus_0_r. apply IH; auto. apply (near_more k); [exact N|lia].
Qed.
Lemma double_0 : double 0.
Proof. exists 0%Z, 0%Z. split; [ring|]. split; lia. Qed.
Lemma bincount_near b es xs ws : all_double (combine xs ws) -> INR (length (combine xs ws)) * (2 * u) <= 1 ->
  near (length (combine xs ws)) (asumf (fun x => Nat.eqb (bin_number x es) b) (combine xs ws))
    (bincount_fl b (map (fun x => bin_number x es) xs) ws) (wsumf (fun x => Nat.eqb (bin_number x es) b) (combine xs ws)).
Proof.
  intros D K. pose proof (fold_near (fun x => Nat.eqb (bin_number x es) b) (combine xs ws) 0 0 0 0 D (near_exact 0 0 double_0 ltac:(rewrite Rabs_R0; lra)) K) as H.
  rewrite !Rplus_0_l in H. cbn [Nat.add] in H. match type of H with near _ _ ?f _ => replace (bincount_fl b (map (fun x => bin_number x es) xs) ws) with f; [exact H|] end.
  unfold bincount_fl. generalize 0. clear. revert ws. induction xs as [|x xs IH]; intros [|w ws] a; simpl; try reflexivity. apply IH.
Qed.
Lemma batches_near es b : (b < length es - 1)%nat -> let p := fun x => Nat.eqb (bin_number x es) (S b) in
  forall l c k B x, length c = (length es - 1)%nat -> near k B (nth b c 0) x -> all_double (events_of l) ->
  INR (k + length (events_of l) + length l) * (2 * u) <= 1 ->
  length (batches es l c) = (length es - 1)%nat /\
  near (k + length (events_of l) + length l) (B + asumf p (events_of l)) (nth b (batches es l c) 0) (x + wsumf p (events_of l)).
Proof.
  intros Hb p. induction l as [|[xs ws] l IH]; intros c k B x L N D K.
  - split; [exact L|]. change (events_of []) with (@nil (R * R)). unfold asumf, wsumf. cbn. rewrite !Rplus_0_r. apply (near_more k); [exact N|lia].
  - change (batches es ((xs, ws) :: l) c) with (batches es l (map2 fadd c (binned_fl es xs ws))).
    change (events_of ((xs, ws) :: l)) with (combine xs ws ++ events_of l) in *. rewrite app_length in *. cbn [length] in *.
    replace (k + (length (combine xs ws) + length (events_of l)) + S (length l))%nat with (k + length (combine xs ws) + 1 + length (events_of l) + length l)%nat in * by lia.
    rewrite asumf_app, wsumf_app, <- !Rplus_assoc.
    assert (LB : length (binned_fl es xs ws) = (length es - 1)%nat) by (unfold binned_fl; now rewrite map_length, seq_length).
    assert (U := u_pos).
    assert (D1 : all_double (combine xs ws)) by (intros y v I; apply (D y); apply in_or_app; now left).
    apply IH.
    + rewrite map2_length. lia.
    + rewrite (map2_nth fadd _ _ b 0 0 0) by lia. unfold binned_fl. rewrite nth_map_seq by lia. replace (1 + b)%nat with (S b) by lia.
      eapply near_add; [exact N|apply bincount_near; [exact D1|]|lia|lia|].
      * eapply Rle_trans; [|exact K]. apply Rmult_le_compat_r; [lra|]. apply le_INR. lia.
      * eapply Rle_trans; [|exact K]. apply Rmult_le_compat_r; [lra|]. apply le_INR. lia.
    + intros y v I. apply (D y). apply in_or_app. now right.
    + exact K.
Qed.
(** the events with the weights replaced by their absolute values *)
Theorem fills_near es l : valid_edges es -> all_double (events_of l) ->
  let K := (length (events_of l) + length l)%nat in INR K * b2 (-52) <= 1 ->
  forall i s a, (S i < length es)%nat -> wsum (in_bin es i) (events_of l) s ->
    wsum (in_bin es i) (map (fun q => (fst q, Rabs (snd q))) (events_of l)) a ->
    Rabs (nth i (fst (fills_fl es l)) 0 - s) <= INR K * b2 (-52) * a.
Proof.
  intros V D K B i s a I S A.
  assert (U2 : b2 (-52) = 2 * u). { unfold u. change (-52)%Z with (1 + -53)%Z. rewrite bpow_plus. reflexivity. } rewrite U2 in *.
  assert (R1 := wsumf_wsum (fun x => Nat.eqb (bin_number x es) (Datatypes.S i)) (in_bin es i)).
  rewrite (wsum_unique _ _ _ _ S (R1 _ (bin_number_in_bin es i V I))). rewrite (wsum_unique _ _ _ _ A (R1 _ (bin_number_in_bin es i V I))).
  rewrite fills_batches. cbn [fst].
  destruct (batches_near es i ltac:(lia) l (repeat 0 (length es - 1)) 0 0 0) as (_ & N).
  - apply repeat_length.
  - rewrite nth_repeat. apply near_exact; [apply double_0|rewrite Rabs_R0; lra].
  - exact D.
  - exact B.
  - rewrite !Rplus_0_l in N. destruct N as (_ & _ & N). exact N.
Qed.
Theorem fills_near_sq es l : valid_edges es -> all_double (events_of l) ->
  (forall x w, In (x, w) (events_of l) -> w = 0 \/ b2 (-1022) <= w * w) ->
  let K := (length (events_of l) + length l)%nat in INR (K + 1) * b2 (-52) <= 1 ->
  forall i q, (S i < length es)%nat -> wsum (in_bin es i) (squared (events_of l)) q ->
    Rabs (nth i (snd (fills_fl es l)) 0 - q) <= INR (K + 1) * b2 (-52) * q.
Proof.
  intros V D NU K B i q I Q.
  assert (U2 : b2 (-52) = 2 * u). { unfold u. change (-52)%Z with (1 + -53)%Z. rewrite bpow_plus. reflexivity. } rewrite U2 in *.
  set (p := fun x => Nat.eqb (bin_number x es) (S i)).
  assert (R1 := wsumf_wsum p (in_bin es i)). rewrite (wsum_unique _ _ _ _ Q (R1 _ (bin_number_in_bin es i V I))). clear Q q.
  rewrite fills_batches. cbn [snd].
  assert (EV : events_of (sq_batch l) = map (fun q => (fst q, fmul (snd q) (snd q))) (events_of l)).
  { unfold events_of, sq_batch. clear. induction l as [|[xs ws] l IH]; [reflexivity|]. cbn. rewrite IH, combine_map_r, map_app. reflexivity. }
  destruct (batches_near es i ltac:(lia) (sq_batch l) (repeat 0 (length es - 1)) 0 0 0) as (_ & N).
  - apply repeat_length.
  - rewrite nth_repeat. apply near_exact; [apply double_0|rewrite Rabs_R0; lra].
  - rewrite EV. intros x w Iw. apply in_map_iff in Iw as ([y v] & E & _). injection E as <- <-. apply fl_double.
  - rewrite EV, map_length. unfold sq_batch. rewrite map_length. cbn [Nat.add]. fold K. eapply Rle_trans; [|exact B].
    apply Rmult_le_compat_r; [pose proof u_pos; lra|]. apply le_INR. lia.
  - rewrite !Rplus_0_l in N. destruct N as (_ & _ & N). unfold sq_batch in N. rewrite map_length in N. fold (sq_batch l) in N. rewrite EV, map_length in N. cbn [Nat.add] in N. fold K in N. fold p in N.
    assert (T : forall ev, (forall x w, In (x, w) ev -> w = 0 \/ b2 (-1022) <= w * w) ->
      let t := wsumf p (map (fun q => (fst q, fmul (snd q) (snd q))) ev) in let q := wsumf p (squared ev) in
      0 <= q /\ asumf p (map (fun q => (fst q, fmul (snd q) (snd q))) ev) = t /\ Rabs (t - q) <= u * q).
    { clear. intros ev. cbv zeta. unfold asumf, wsumf, squared. induction ev as [|[x w] ev IH]; intros H; cbn [map Rsuml fst snd].
      - rewrite Rminus_diag_eq, Rabs_R0 by reflexivity. lra.
      - destruct IH as (Q & T & B); [intros y v Iv; apply (H y); now right|]. pose proof u_pos. pose proof u_small.
        assert (E : exists d, Rabs d <= u /\ fmul w w = w * w * (1 + d)).
        { destruct (H x w (or_introl eq_refl)) as [-> |G]; [exists 0; rewrite Rabs_R0; split; [lra|]; unfold fmul; replace (0 * 0) with 0 by ring; rewrite fl_0; ring|].
          apply fl_rel. rewrite Rabs_right; [exact G|]. nra. }
        destruct E as (d & Dd & E). assert (D' := Rabs_def2b _ _ Dd).
        assert (W : 0 <= w * w) by nra. assert (F0 : 0 <= fmul w w) by (rewrite E; apply Rmult_le_pos; lra).
        destruct (p x).
        + split; [lra|]. split; [rewrite T, (Rabs_right (fmul w w)) by lra; reflexivity|].
          match goal with |- Rabs (fmul w w + ?a - (w * w + ?b)) <= _ => replace (fmul w w + a - (w * w + b)) with (w * w * d + (a - b)) by (rewrite E; ring) end.
          eapply Rle_trans; [apply Rabs_triang|]. rewrite Rabs_mult, (Rabs_right (w * w)) by lra. assert (w * w * Rabs d <= w * w * u) by (apply Rmult_le_compat_l; lra). lra.
        + rewrite !Rplus_0_l. split; [exact Q|]. split; [exact T|exact B]. }
    destruct (T (events_of l) NU) as (Q & TA & TB). rewrite TA in N. set (t := wsumf p (map _ _)) in *. set (q := wsumf p (squared (events_of l))) in *.
    replace (nth i (batches es (sq_batch l) (repeat 0 (length es - 1))) 0 - q) with ((nth i (batches es (sq_batch l) (repeat 0 (length es - 1))) 0 - t) + (t - q)) by ring.
    eapply Rle_trans; [apply Rabs_triang|]. pose proof u_pos. assert (TB' := Rabs_def2b _ _ TB).
    rewrite plus_INR. change (INR 1) with 1. rewrite plus_INR in B. change (INR 1) with 1 in B. pose proof (pos_INR K).
    assert (INR K * (2 * u) * t <= INR K * (2 * u) * (q * (1 + u))) by (apply Rmult_le_compat_l; [apply Rmult_le_pos; lra|lra]).
    assert (0 <= INR K * (2 * u)) by (apply Rmult_le_pos; lra). assert (0 <= q * u) by (apply Rmult_le_pos; lra).
    assert (INR K * (2 * u) * (q * u) <= 1 * (q * u)) by (apply Rmult_le_compat_r; lra). lra.
Qed.
