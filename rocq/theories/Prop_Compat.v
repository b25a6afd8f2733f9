(** C98: compatibility of channels with templates and data. *)
From Coq Require Import Reals Bool Arith List Lra Lia.
From Verif Require Import Model_Num Model_Compat Spec_Compat.
Import ListNotations.
Local Open Scope R_scope.

Lemma Reqb_iff x y : Reqb x y = true <-> x = y.
Proof. unfold Reqb. destruct (Req_EM_T x y); split; intros; congruence. Qed.
Fixpoint eqs (l m : list py) : bool := match l, m with [], [] => true | x :: l', y :: m' => py_eqb x y && eqs l' m' | _, _ => false end.
Lemma py_eqb_tup l m : py_eqb (Tup l) (Tup m) = eqs l m. Proof. reflexivity. Qed.
Lemma py_eqb_lst l m : py_eqb (Lst l) (Lst m) = eqs l m. Proof. reflexivity. Qed.
(** induction over nested sequences *)
Lemma py_ind2 (P : py -> Prop) : (forall x, P (Num x)) -> (forall l, Forall P l -> P (Tup l)) -> (forall l, Forall P l -> P (Lst l)) -> forall a, P a.
Proof.
  intros HN HT HL. fix IH 1. intros [x|l|l]; [apply HN|apply HT|apply HL]; induction l as [|a l IHl]; constructor; auto.
Qed.
Lemma eqs_sound l m : Forall (fun a => forall b, py_eqb a b = true -> a = b) l -> eqs l m = true -> l = m.
Proof.
  intros F. revert m. induction F as [|a l A F IH]; intros [|b m] H; try discriminate; [reflexivity|]. cbn [eqs] in H. apply andb_prop in H as (H1 & H2). f_equal; auto.
Qed.
Lemma py_eqb_eq : forall a b, py_eqb a b = true <-> a = b.
Proof.
  assert (S : forall a b, py_eqb a b = true -> a = b).
  { induction a as [x|l F|l F] using py_ind2; intros [y|m|m] H; try discriminate H.
    - apply Reqb_iff in H. now subst.
    - rewrite py_eqb_tup in H. f_equal. now apply eqs_sound.
    - rewrite py_eqb_lst in H. f_equal. now apply eqs_sound. }
  assert (Rf : forall a, py_eqb a a = true).
  { induction a as [x|l F|l F] using py_ind2; [now apply Reqb_iff|rewrite py_eqb_tup|rewrite py_eqb_lst]; induction F; cbn [eqs]; auto; rewrite H, IHF; reflexivity. }
  intros a b. split; [apply S|]. intros ->. apply Rf.
Qed.
Lemma same_refl : forall a, same_numbers a a.
Proof.
  induction a as [x|l F|l F] using py_ind2; [constructor|apply (same_seq _ _ l l); auto|apply (same_seq _ _ l l); auto]; induction F; constructor; auto.
Qed.

(** ** C98.  Whatever containers are used: what a channel accepts has its numbers of bins and its limits ... *)
Theorem C98_accepts_only_same_numbers_partial : forall bins range b, accepts (define_channel bins range) b = true ->
  same_numbers (ch_bins (define_channel bins range)) (hist_shape b) /\ same_numbers range (hist_range b).
Proof.
  intros bins range b H. unfold accepts in H. apply andb_prop in H as (H1 & H2). apply py_eqb_eq in H1, H2. rewrite H1. change (ch_range (define_channel bins range)) with range in H2.
  rewrite H2. split; apply same_refl.
Qed.
Print Assumptions C98_accepts_only_same_numbers_partial.
(** ... and if tuples are used throughout it accepts exactly those: one dimension, *)
Lemma int_eq n m : int n = int m <-> n = m.
Proof. unfold int. split; [|now intros ->]. intros H. injection H. apply INR_eq. Qed.
Theorem C98_tuples_1d_partial : forall n lo hi,
  (forall m lo' hi', accepts (define_channel (int n) (tuple2 lo hi)) (Int1 m (tuple2 lo' hi')) = true <-> (m = n /\ lo' = lo /\ hi' = hi)) /\
  (forall es, accepts (define_channel (int n) (tuple2 lo hi)) (Edges1 es) = true <-> ((length es - 1)%nat = n /\ hd 0 es = lo /\ last es 0 = hi)).
Proof.
  intros n lo hi. unfold accepts, tuple2. split; intros.
  - rewrite andb_true_iff, !py_eqb_eq. cbn. split.
    + intros (A & B). injection A as A. apply INR_eq in A. injection B as -> ->. auto.
    + intros (-> & -> & ->). auto.
  - rewrite andb_true_iff, !py_eqb_eq. cbn. unfold ends. split.
    + intros (A & B). injection A as A. apply INR_eq in A. injection B as -> ->. auto.
    + intros (<- & <- & <-). auto.
Qed.
Print Assumptions C98_tuples_1d_partial.
(** two dimensions. *)
Theorem C98_tuples_2d_partial : forall nx ny lox hix loy hiy,
  let c := define_channel (Tup [int nx; int ny]) (Tup [tuple2 lox hix; tuple2 loy hiy]) in
  (forall mx my a b a' b', accepts c (Int2 mx my (Tup [tuple2 a b; tuple2 a' b'])) = true <-> (mx = nx /\ my = ny /\ a = lox /\ b = hix /\ a' = loy /\ b' = hiy)) /\
  (forall ex ey, accepts c (Edges2 ex ey) = true <->
     ((length ex - 1)%nat = nx /\ (length ey - 1)%nat = ny /\ hd 0 ex = lox /\ last ex 0 = hix /\ hd 0 ey = loy /\ last ey 0 = hiy)).
Proof.
  intros nx ny lox hix loy hiy c. unfold accepts, c, tuple2. split; intros.
  - rewrite andb_true_iff, !py_eqb_eq. cbn. split.
    + intros (A & B). injection A as A A'. apply INR_eq in A, A'. injection B as -> -> -> ->. auto 8.
    + intros (-> & -> & -> & -> & -> & ->). auto.
  - rewrite andb_true_iff, !py_eqb_eq. cbn. unfold ends. split.
    + intros (A & B). injection A as A A'. apply INR_eq in A, A'. injection B as -> -> -> ->. auto 8.
    + intros (<- & <- & <- & <- & <- & <-). auto.
Qed.
Print Assumptions C98_tuples_2d_partial.
(** A range given as a list on one side only is refused ... *)
Theorem C98_list_range_refuted : forall n lo hi,
  accepts (define_channel (int n) (tuple2 lo hi)) (Int1 n (list2 lo hi)) = false /\
  accepts (define_channel (int n) (list2 lo hi)) (Int1 n (tuple2 lo hi)) = false /\
  (forall es, accepts (define_channel (int n) (list2 lo hi)) (Edges1 es) = false).
Proof.
  intros n lo hi. unfold accepts. repeat split; intros; apply andb_false_iff; right; reflexivity.
Qed.
Print Assumptions C98_list_range_refuted.
(** ... and a channel whose numbers of bins are given as a list accepts nothing at all. *)
Theorem C98_list_bins_refuted : forall l range b, accepts (define_channel (Lst l) range) b = false.
Proof. intros l range b. unfold accepts. apply andb_false_iff. left. destruct b; reflexivity. Qed.
Print Assumptions C98_list_bins_refuted.
Example C98_example : accepts (define_channel (int 2) (tuple2 0 1)) (Edges1 [0; 1/2; 1]) = true.
Proof. apply (C98_tuples_1d_partial 2 0 1). auto. Qed.
