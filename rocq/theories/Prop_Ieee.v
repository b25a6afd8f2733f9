(** Property C105: the arithmetic of the models is the one of IEEE-754 doubles up to rounding. *)
From Coq Require Import Reals ZArith Bool Lra Lia.
From Flocq Require Import Core IEEE754.BinarySingleNaN.
From Verif Require Import Model_Num Model_Float Model_Ieee.
Local Open Scope R_scope.

Lemma rltb_spec a b : Rltb a b = Rlt_bool a b.
Proof. unfold Rltb. destruct (Rlt_dec a b); [rewrite Rlt_bool_true; auto|rewrite Rlt_bool_false; auto; lra]. Qed.
Lemma fl_fexp r : round radix2 (SpecFloat.fexp 53 1024) (round_mode mode_NE) r = fl r. Proof. reflexivity. Qed.
Lemma val_fin (x : double64) : is_finite x = true -> val x = Fin (B2R x). Proof. destruct x; simpl; congruence. Qed.
Lemma fl0 : fl 0 = 0. Proof. unfold fl. apply round_0. auto with typeclass_instances. Qed.
Lemma fl_val (x : double64) : fl (B2R x) = B2R x.
Proof. unfold fl. apply round_generic; [auto with typeclass_instances|]. apply (generic_format_B2R 53 1024). Qed.
Lemma val_overflow (x : double64) s : B2SF x = binary_overflow 53 1024 mode_NE s -> val x = if s then NInf else PInf.
Proof. destruct x; cbn; intros H; inversion H; reflexivity. Qed.
Lemma rounded_finite r : Rabs (fl r) < bpow radix2 1024 -> rounded (Fin r) = Fin (fl r).
Proof. intros H. unfold rounded. rewrite rltb_spec, Rlt_bool_true; auto. Qed.
Lemma rounded_big r : ~ Rabs (fl r) < bpow radix2 1024 -> rounded (Fin r) = if Rltb r 0 then NInf else PInf.
Proof. intros H. unfold rounded. rewrite rltb_spec, Rlt_bool_false; [auto|lra]. Qed.
Lemma rounded_val (x : double64) : rounded (val x) = val x.
Proof.
  destruct x as [s|[]| |s m e H]; try reflexivity.
  - simpl val. change (B2R (B754_zero s)) with 0. rewrite rounded_finite; rewrite fl0; [reflexivity|]. rewrite Rabs_R0. apply bpow_gt_0.
  - set (x := B754_finite s m e H). change (rounded (Fin (B2R x)) = Fin (B2R x)). rewrite rounded_finite; rewrite fl_val; [reflexivity|]. apply (abs_B2R_lt_emax 53 1024).
Qed.
(* the sign of an overflowing sum *)
Lemma sign_sum (x y : double64) : Bsign x = Bsign y -> is_finite x = true -> is_finite y = true -> B2R x + B2R y <> 0 ->
  Rltb (B2R x + B2R y) 0 = Bsign x.
Proof.
  intros S Fx Fy NZ. rewrite rltb_spec.
  assert (P : forall z : double64, is_finite z = true -> if Bsign z then B2R z <= 0 else 0 <= B2R z).
  { intros [s|s| |s m e H]; simpl; try discriminate; intros _; [destruct s; lra|]. destruct s; simpl; [apply F2R_le_0|apply F2R_ge_0]; simpl; lia. }
  pose proof (P x Fx) as Px. pose proof (P y Fy) as Py. rewrite <- S in Py. destruct (Bsign x); [apply Rlt_bool_true|apply Rlt_bool_false]; lra.
Qed.
Lemma not_zero_big r : ~ Rabs (fl r) < bpow radix2 1024 -> r <> 0.
Proof. intros H ->. apply H. rewrite fl0, Rabs_R0. apply bpow_gt_0. Qed.
Lemma rlt_case r s : Rlt_bool (Rabs (fl r)) (bpow radix2 1024) = s -> if s then Rabs (fl r) < bpow radix2 1024 else ~ Rabs (fl r) < bpow radix2 1024.
Proof. intros <-. destruct (Rlt_bool_spec (Rabs (fl r)) (bpow radix2 1024)); lra. Qed.

Theorem C105_add : forall x y : double64, val (dadd x y) = rounded (xadd (val x) (val y)).
Proof.
  intros x y. destruct (is_finite x && is_finite y)%bool eqn:F.
  - apply andb_prop in F as [Fx Fy]. rewrite (val_fin x Fx), (val_fin y Fy). cbn [xadd].
    pose proof (@Bplus_correct 53 1024 prec53 prec_emax mode_NE x y Fx Fy) as H. rewrite fl_fexp in H.
    destruct (Rlt_bool _ _) eqn:B in H; apply rlt_case in B.
    + destruct H as (H1 & H2 & _). rewrite rounded_finite by exact B. unfold dadd. rewrite val_fin by exact H2. now rewrite H1.
    + destruct H as (H1 & H2). rewrite rounded_big by exact B. rewrite sign_sum; auto; [|now apply not_zero_big]. now apply val_overflow.
  - destruct x as [sx|[]| |sx mx ex Hx], y as [sy|[]| |sy my ey Hy]; try discriminate; reflexivity.
Qed.
Print Assumptions C105_add.

Lemma b2r_opp (y : double64) : B2R (dopp y) = - B2R y. Proof. apply B2R_Bopp. Qed.
Theorem C105_sub : forall x y : double64, val (dsub x y) = rounded (xsub (val x) (val y)).
Proof.
  intros x y. destruct (is_finite x && is_finite y)%bool eqn:F.
  - apply andb_prop in F as [Fx Fy]. rewrite (val_fin x Fx), (val_fin y Fy). unfold xsub. cbn [xadd xopp].
    pose proof (@Bminus_correct 53 1024 prec53 prec_emax mode_NE x y Fx Fy) as H. rewrite fl_fexp in H. change (B2R x + - B2R y) with (B2R x - B2R y).
    destruct (Rlt_bool _ _) eqn:B in H; apply rlt_case in B.
    + destruct H as (H1 & H2 & _). rewrite rounded_finite by exact B. unfold dsub. rewrite val_fin by exact H2. now rewrite H1.
    + destruct H as (H1 & H2). rewrite rounded_big by exact B. pose proof (not_zero_big _ B) as NZ. unfold Rminus in *. rewrite <- b2r_opp in *. rewrite sign_sum; auto.
      * now apply val_overflow.
      * destruct y; try discriminate; simpl in *; congruence.
      * destruct y; try discriminate; reflexivity.
  - destruct x as [sx|[]| |sx mx ex Hx], y as [sy|[]| |sy my ey Hy]; try discriminate; reflexivity.
Qed.
Print Assumptions C105_sub.

Lemma finite_sign s m e (H : SpecFloat.bounded 53 1024 m e = true) : let r := B2R (B754_finite s m e H : double64) in r <> 0 /\ Rltb r 0 = s.
Proof.
  cbv zeta. rewrite rltb_spec. simpl. destruct s; simpl.
  - pose proof (F2R_lt_0 radix2 (Float radix2 (Z.neg m) e) ltac:(simpl; lia)). split; [lra|now apply Rlt_bool_true].
  - pose proof (F2R_gt_0 radix2 (Float radix2 (Z.pos m) e) ltac:(simpl; lia)). split; [lra|apply Rlt_bool_false; lra].
Qed.
Lemma inf_mul n s m e (H : SpecFloat.bounded 53 1024 m e = true) : xinf_mul n (B2R (B754_finite s m e H : double64)) = xinf (xorb n s).
Proof. destruct (finite_sign s m e H) as (NZ & E). unfold xinf_mul, Reqb. destruct (Req_EM_T _ 0) as [Z|_]; [contradiction|]. now rewrite E. Qed.
Lemma xorb_sign a b : a <> 0 -> b <> 0 -> Rltb (a * b) 0 = xorb (Rltb a 0) (Rltb b 0).
Proof.
  intros A B. rewrite !rltb_spec. destruct (Rlt_bool_spec a 0) as [A1|A1], (Rlt_bool_spec b 0) as [B1|B1]; simpl; [apply Rlt_bool_false|apply Rlt_bool_true|apply Rlt_bool_true|apply Rlt_bool_false]; nra.
Qed.
Lemma zero_rounded : rounded (Fin 0) = Fin 0. Proof. rewrite rounded_finite; rewrite fl0; [reflexivity|]. rewrite Rabs_R0. apply bpow_gt_0. Qed.
Lemma reqb0 : Reqb 0 0 = true. Proof. unfold Reqb. destruct (Req_EM_T 0 0); auto; lra. Qed.

Theorem C105_mul : forall x y : double64, val (dmul x y) = rounded (xmul (val x) (val y)).
Proof.
  intros x y. destruct x as [sx|sx| |sx mx ex Hx], y as [sy|sy| |sy my ey Hy]; try reflexivity; try (destruct sx; reflexivity); try (destruct sy; reflexivity); try (destruct sx, sy; reflexivity).
  - cbn [val xmul]. change (B2R (B754_zero sx)) with 0. rewrite Rmult_0_l, zero_rounded. reflexivity.
  - cbn [val]. change (B2R (B754_zero sx)) with 0. destruct sy; cbn [xmul]; unfold xinf_mul; rewrite reqb0; reflexivity.
  - cbn [val xmul]. change (B2R (B754_zero sx)) with 0. rewrite Rmult_0_l, zero_rounded. reflexivity.
  - cbn [val]. change (B2R (B754_zero sy)) with 0. destruct sx; cbn [xmul]; unfold xinf_mul; rewrite reqb0; reflexivity.
  - cbn [val]. destruct sx; cbn [xmul]; rewrite inf_mul; destruct sy; reflexivity.
  - cbn [val xmul]. change (B2R (B754_zero sy)) with 0. rewrite Rmult_0_r, zero_rounded. reflexivity.
  - cbn [val]. destruct sy; cbn [xmul]; rewrite inf_mul; destruct sx; reflexivity.
  - set (x := B754_finite sx mx ex Hx : double64). set (y := B754_finite sy my ey Hy : double64). change (val x) with (Fin (B2R x)). change (val y) with (Fin (B2R y)). cbn [xmul].
    pose proof (@Bmult_correct 53 1024 prec53 prec_emax mode_NE x y) as H. rewrite fl_fexp in H.
    destruct (Rlt_bool _ _) eqn:B in H; apply rlt_case in B.
    + destruct H as (H1 & H2 & _). rewrite rounded_finite by exact B. unfold dmul. rewrite val_fin by (rewrite H2; reflexivity). now rewrite H1.
    + rewrite rounded_big by exact B. destruct (finite_sign sx mx ex Hx) as (NX & SX), (finite_sign sy my ey Hy) as (NY & SY). fold x in NX, SX. fold y in NY, SY.
      rewrite xorb_sign, SX, SY by assumption. apply val_overflow. exact H.
Qed.
Print Assumptions C105_mul.

(** division: the model takes every zero for +0; a division by -0 (with another sign of the result) is excluded *)
Theorem C105_div : forall x y : double64, y <> B754_zero true -> val (ddiv x y) = rounded (xdiv (val x) (val y)).
Proof.
  intros x y NM. destruct x as [sx|sx| |sx mx ex Hx], y as [sy|sy| |sy my ey Hy]; try reflexivity; try (destruct sx; reflexivity); try (destruct sy; reflexivity); try (destruct sx, sy; reflexivity).
  - simpl. now rewrite reqb0.
  - cbn [val]. destruct sy; cbn [xdiv]; now rewrite zero_rounded.
  - cbn [val xdiv]. destruct (finite_sign sy my ey Hy) as (NY & SY). unfold Reqb. destruct (Req_EM_T _ 0) as [Z|_]; [contradiction|]. change (B2R (B754_zero sx)) with 0. unfold Rdiv. rewrite Rmult_0_l, zero_rounded. reflexivity.
  - destruct sy; [congruence|]. cbn [val ddiv Bdiv xorb]. change (B2R (B754_zero false)) with 0. destruct sx; cbn [xdiv]; rewrite (rltb_spec 0 0), Rlt_bool_false by lra; reflexivity.
  - cbn [val ddiv Bdiv]. destruct (finite_sign sy my ey Hy) as (NY & SY). destruct sx; cbn [xdiv]; rewrite SY; destruct sy; reflexivity.
  - destruct sy; [congruence|]. cbn [val ddiv Bdiv xdiv]. change (B2R (B754_zero false)) with 0. rewrite reqb0. destruct (finite_sign sx mx ex Hx) as (NX & SX). unfold Reqb. destruct (Req_EM_T _ 0) as [Z|_]; [contradiction|]. rewrite SX. destruct sx; reflexivity.
  - cbn [val ddiv Bdiv]. destruct sy; cbn [xdiv]; rewrite zero_rounded; reflexivity.
  - set (x := B754_finite sx mx ex Hx : double64). set (y := B754_finite sy my ey Hy : double64). change (val x) with (Fin (B2R x)). change (val y) with (Fin (B2R y)). cbn [xdiv].
    destruct (finite_sign sx mx ex Hx) as (NX & SX), (finite_sign sy my ey Hy) as (NY & SY). fold x in NX, SX. fold y in NY, SY.
    pose proof (@Bdiv_correct 53 1024 prec53 prec_emax mode_NE x y NY) as H. rewrite fl_fexp in H. unfold Reqb. destruct (Req_EM_T (B2R y) 0) as [Z|_]; [contradiction|].
    destruct (Rlt_bool _ _) eqn:B in H; apply rlt_case in B.
    + destruct H as (H1 & H2 & _). rewrite rounded_finite by exact B. unfold ddiv. rewrite val_fin by (rewrite H2; reflexivity). now rewrite H1.
    + rewrite rounded_big by exact B. unfold Rdiv. rewrite xorb_sign; [|exact NX|now apply Rinv_neq_0_compat].
      assert (SI : Rltb (/ B2R y) 0 = Rltb (B2R y) 0).
      { rewrite !rltb_spec. destruct (Rlt_bool_spec (B2R y) 0); [apply Rlt_bool_true; now apply Rinv_lt_0_compat|apply Rlt_bool_false]. apply Rlt_le, Rinv_0_lt_compat. lra. }
      rewrite SI, SX, SY. apply val_overflow. exact H.
Qed.
Print Assumptions C105_div.
(** 1 / -0 is minus infinity, and the model says plus infinity *)
Theorem C105_division_by_minus_zero_refuted : let one := @Bone 53 1024 prec53 prec_emax in
  val one = Fin 1 /\ val (ddiv one (B754_zero true)) = NInf /\ rounded (xdiv (val one) (val (B754_zero true))) = PInf.
Proof.
  cbv zeta. assert (V : val (@Bone 53 1024 prec53 prec_emax) = Fin 1).
  { rewrite val_fin by reflexivity. f_equal. apply (@Bone_correct 53 1024 prec53 prec_emax). }
  split; [exact V|]. split; [reflexivity|]. rewrite V. cbn [val xdiv]. change (B2R (B754_zero true)) with 0. rewrite reqb0. unfold Reqb. destruct (Req_EM_T 1 0); [lra|].
  rewrite rltb_spec, Rlt_bool_false by lra. reflexivity.
Qed.
Print Assumptions C105_division_by_minus_zero_refuted.

Theorem C105_sqrt : forall x : double64, val (dsqrt x) = rounded (xsqrt (val x)).
Proof.
  intros x. destruct x as [sx|[]| |sx mx ex Hx]; try reflexivity.
  - cbn [val dsqrt Bsqrt xsqrt]. change (B2R (B754_zero sx)) with 0. rewrite (rltb_spec 0 0), Rlt_bool_false, sqrt_0, zero_rounded by lra. reflexivity.
  - set (x := B754_finite sx mx ex Hx : double64). change (val x) with (Fin (B2R x)). cbn [xsqrt]. destruct (finite_sign sx mx ex Hx) as (NX & SX). fold x in NX, SX. rewrite SX. destruct sx; [reflexivity|].
    pose proof (@Bsqrt_correct 53 1024 prec53 prec_emax mode_NE x) as (H1 & H2 & _). rewrite fl_fexp in H1. fold (dsqrt x) in H1, H2.
    rewrite rounded_finite; rewrite <- H1; [now apply val_fin|]. apply (abs_B2R_lt_emax 53 1024).
Qed.
Print Assumptions C105_sqrt.

Theorem C105_opp_abs : forall x : double64, val (dopp x) = xopp (val x) /\ val (dabs x) = xabs (val x).
Proof.
  intros x. destruct (is_finite x) eqn:F.
  - rewrite (val_fin x F). cbn [xopp xabs]. split.
    + rewrite val_fin; [now rewrite b2r_opp|]. unfold dopp. now rewrite is_finite_Bopp.
    + rewrite val_fin; [|unfold dabs; now rewrite is_finite_Babs]. f_equal. apply B2R_Babs.
  - destruct x as [sx|[]| |sx mx ex Hx]; try discriminate; split; reflexivity.
Qed.
Print Assumptions C105_opp_abs.

(** comparisons: exact, on all doubles (zeros of both signs are equal, NaN is not equal to itself) *)
Theorem C105_compare : forall x y : double64, Bltb x y = xltb (val x) (val y) /\ Beqb x y = xeqb (val x) (val y).
Proof.
  intros x y. destruct (is_finite x && is_finite y)%bool eqn:F.
  - apply andb_prop in F as [Fx Fy]. rewrite (val_fin x Fx), (val_fin y Fy). cbn [xltb xeqb]. split.
    + rewrite rltb_spec. now apply Bltb_correct.
    + rewrite Beqb_correct by assumption. unfold Reqb. destruct (Req_EM_T _ _); [apply Req_bool_true|apply Req_bool_false]; auto.
  - destruct x as [sx|[]| |sx mx ex Hx], y as [sy|[]| |sy my ey Hy]; try discriminate; split; reflexivity.
Qed.
Print Assumptions C105_compare.
(** every double is a value of the model that rounding does not change *)
Theorem C105_values : forall x : double64, rounded (val x) = val x.
Proof. exact rounded_val. Qed.
Print Assumptions C105_values.

(** The logarithms (np.log, np.log1p; their rounding is not modelled): the real y with exp y = x for positive x, minus
    infinity at 0, infinite at infinity, NaN below 0 and for NaN. *)
Theorem C105_log : forall x : xr,
  match x with
  | Fin r => (r < 0 /\ xlog x = NaN) \/ (r = 0 /\ xlog x = NInf) \/ (0 < r /\ exists y, xlog x = Fin y /\ exp y = r)
  | PInf => xlog x = PInf | NInf => xlog x = NaN | NaN => xlog x = NaN
  end.
Proof.
  intros [r| | |]; try reflexivity. unfold xlog, Rltb, Reqb. destruct (Rlt_dec r 0); [left; auto|]. right. destruct (Req_EM_T r 0); [left; auto|]. right. split; [lra|]. eexists. split; [reflexivity|]. apply exp_ln. lra.
Qed.
Print Assumptions C105_log.
Theorem C105_log1p : forall x : xr, xlog1p x = xlog (xadd (Fin 1) x).
Proof.
  intros [r| | |]; try reflexivity. unfold xlog1p, xlog, xadd, Rltb, Reqb. destruct (Rlt_dec r (-1)), (Rlt_dec (1 + r) 0); try lra; try reflexivity. destruct (Req_EM_T r (-1)), (Req_EM_T (1 + r) 0); try lra; reflexivity.
Qed.
Print Assumptions C105_log1p.
(** np.rint: the nearest integer, ties to the even one; infinities and NaN are unchanged *)
Theorem C105_rint : forall x : xr, xrint x = match x with Fin r => Fin (IZR (ZnearestE r)) | _ => x end.
Proof.
  intros [r| | |]; try reflexivity. unfold xrint, Rrint. f_equal.
  assert (F : Int_part r = Zfloor r). { symmetry. apply Zfloor_imp. destruct (base_Int_part r). rewrite plus_IZR. lra. }
  rewrite F. cbv zeta. unfold ZnearestE, Znearest. set (f := Zfloor r).
  destruct (Rcompare_spec (r - IZR f) (/ 2)) as [H|H|H]; unfold Rltb, Reqb.
  - destruct (Rlt_dec (r - IZR f) (1 / 2)); [reflexivity|lra].
  - destruct (Rlt_dec (r - IZR f) (1 / 2)); [lra|]. destruct (Req_EM_T (r - IZR f) (1 / 2)); [|lra].
    assert (C : Zceil r = (f + 1)%Z). { apply Zceil_floor_neq. fold f. lra. }
    rewrite C. destruct (Z.even f); reflexivity.
  - destruct (Rlt_dec (r - IZR f) (1 / 2)); [lra|]. destruct (Req_EM_T (r - IZR f) (1 / 2)); [lra|].
    assert (C : Zceil r = (f + 1)%Z). { apply Zceil_floor_neq. fold f. lra. } now rewrite C.
Qed.
Print Assumptions C105_rint.
(** np.nan_to_num: NaN becomes 0, infinities the largest finite double (which is a double, and no finite double is
    larger), finite numbers are unchanged *)
Theorem C105_nan_to_num : forall x : double64,
  match val x with
  | Fin r => xnan_to_num (val x) = Fin r /\ - dbl_max <= r <= dbl_max
  | PInf => xnan_to_num (val x) = Fin dbl_max | NInf => xnan_to_num (val x) = Fin (- dbl_max) | NaN => xnan_to_num (val x) = Fin 0
  end /\ exists m : double64, val m = Fin dbl_max.
Proof.
  intros x. split.
  - destruct (val x) as [r| | |] eqn:V; try reflexivity. split; [reflexivity|].
    assert (F : is_finite x = true) by (destruct x as [sx|[]| |]; try discriminate; reflexivity). rewrite (val_fin x F) in V. injection V as <-.
    pose proof (abs_B2R_le_emax_minus_prec 53 1024 prec53 x) as H. apply Rabs_le_inv. eapply Rle_trans; [exact H|].
    unfold dbl_max. change (bpow radix2 1024) with (IZR (2 ^ Z.of_nat 1024)). change (bpow radix2 (1024 - 53)) with (IZR (2 ^ Z.of_nat 971)).
    apply Req_le. rewrite <- !pow_IZR, Rmult_minus_distr_r.
    replace (/ 2 ^ 52 * 2 ^ 1023) with (2 ^ 971) by (replace 1023%nat with (52 + 971)%nat by reflexivity; rewrite pow_add; field; apply pow_nonzero; lra).
    replace (2 * 2 ^ 1023) with (2 ^ 1024) by (replace 1024%nat with (S 1023) by reflexivity; apply tech_pow_Rmult). reflexivity.
  - exists (@Bmax_float 53 1024 prec53 prec_emax). rewrite val_fin by reflexivity. f_equal.
    transitivity (IZR (2 ^ Z.of_nat 53 - 1) * IZR (2 ^ Z.of_nat 971)); [reflexivity|]. rewrite minus_IZR, <- !pow_IZR.
    unfold dbl_max. replace 1023%nat with (52 + 971)%nat by reflexivity. rewrite pow_add. replace (2 ^ 53) with (2 * 2 ^ 52) by reflexivity. field.
Qed.
Print Assumptions C105_nan_to_num.
