(** The Gaussian integral: the integral of exp(-t^2) from 0 to infinity is sqrt(pi)/2. *)
From Coq Require Import Reals Lra Lia.
From Coquelicot Require Import Coquelicot.
Local Open Scope R_scope.

(** ring and lra on equations whose type is only convertible to R *)
Ltac eqR := match goal with |- @eq _ ?a ?b => change (@eq R a b) end.

Definition gau (t : R) : R := exp (- (t * t)).
Definition Gau (x : R) : R := RInt gau 0 x.
Definition gker (x t : R) : R := exp (- (x * x * (1 + t * t))) / (1 + t * t).
Definition Hgau (x : R) : R := RInt (gker x) 0 1.

Lemma one_sq t : 0 < 1 + t * t. Proof. nra. Qed.
Lemma gau_cont x : continuous gau x.
Proof. apply (ex_derive_continuous (V := R_NormedModule)). unfold gau. auto_derive. exact I. Qed.
Lemma gau_int a b : ex_RInt gau a b.
Proof. apply (ex_RInt_continuous (V := R_CompleteNormedModule)). intros. apply gau_cont. Qed.
Lemma Gau_derive x : is_derive Gau x (gau x).
Proof.
  apply (is_derive_RInt gau Gau 0 x); [|apply gau_cont]. apply filter_forall. intros b. apply (RInt_correct (V := R_CompleteNormedModule)), gau_int.
Qed.
Lemma gker_derive x t : is_derive (fun u => gker u t) x (-2 * x * exp (- (x * x * (1 + t * t)))).
Proof. pose proof (one_sq t). unfold gker. auto_derive; [lra|]. field. lra. Qed.
Lemma gker_cont x t : continuous (gker x) t.
Proof. apply (ex_derive_continuous (V := R_NormedModule)). unfold gker. pose proof (one_sq t). auto_derive. lra. Qed.
Lemma Hgau_derive x : is_derive Hgau x (-2 * exp (- (x * x)) * Gau x).
Proof.
  assert (D : is_derive Hgau x (RInt (fun t => Derive (fun u => gker u t) x) 0 1)).
  { apply is_derive_RInt_param.
    - apply filter_forall. intros y t _. eexists. apply gker_derive.
    - intros t _. apply continuity_2d_pt_ext with (fun u v => (-2 * u) * exp (- (u * u * (1 + v * v)))).
      { intros u v. symmetry. apply is_derive_unique, gker_derive. }
      apply continuity_2d_pt_mult.
      + apply continuity_2d_pt_mult; [apply continuity_2d_pt_const|apply continuity_2d_pt_id1].
      + apply (continuity_1d_2d_pt_comp exp).
        * apply derivable_continuous_pt, derivable_pt_exp.
        * apply continuity_2d_pt_opp. apply continuity_2d_pt_mult.
          -- apply continuity_2d_pt_mult; apply continuity_2d_pt_id1.
          -- apply continuity_2d_pt_plus; [apply continuity_2d_pt_const|]. apply continuity_2d_pt_mult; apply continuity_2d_pt_id2.
    - apply filter_forall. intros y. apply (ex_RInt_continuous (V := R_CompleteNormedModule)). intros. apply gker_cont. }
  replace (-2 * exp (- (x * x)) * Gau x) with (RInt (fun t => Derive (fun u => gker u t) x) 0 1); [exact D|].
  rewrite (RInt_ext _ (fun t => (-2 * exp (- (x * x))) * (x * gau (x * t + 0)))).
  2:{ intros t _. etransitivity; [apply is_derive_unique, gker_derive|]. unfold gau.
      replace (- (x * x * (1 + t * t))) with (- (x * x) + - ((x * t + 0) * (x * t + 0))) by ring. rewrite exp_plus. eqR. ring. }
  assert (E : is_RInt (fun t => x * gau (x * t + 0)) 0 1 (Gau x)).
  { apply (is_RInt_comp_lin (V := R_NormedModule) gau x 0 0 1). rewrite Rmult_0_r, !Rplus_0_r, Rmult_1_r.
    apply (RInt_correct (V := R_CompleteNormedModule)), gau_int. }
  apply is_RInt_unique. apply (is_RInt_scal (V := R_NormedModule) _ 0 1 (-2 * exp (- (x * x)))). exact E.
Qed.

Lemma gau_const x : Gau x * Gau x + Hgau x = Hgau 0.
Proof.
  set (F := fun x => Gau x * Gau x + Hgau x).
  assert (D : forall y, is_derive F y 0).
  { intros y. unfold F. evar_last; [apply @is_derive_plus; [apply @is_derive_mult; [apply Gau_derive|apply Gau_derive|intros; apply Rmult_comm]|apply Hgau_derive]|].
    unfold plus, mult; simpl. unfold gau. eqR. ring. }
  assert (E : F x = F 0).
  { destruct (Req_dec x 0) as [->|N]; [reflexivity|].
    assert (IR : is_RInt (fun _ => 0) 0 x (F x - F 0)).
    { apply (is_RInt_derive F (fun _ => 0)); intros; [apply D|apply continuous_const]. }
    pose proof (is_RInt_unique _ _ _ _ IR) as U. rewrite RInt_const in U. unfold scal in U; simpl in U. unfold mult in U; simpl in U. lra. }
  unfold F in E. rewrite E. unfold Gau at 1 2. rewrite RInt_point. unfold zero; simpl. eqR. ring.
Qed.
Lemma Hgau_0 : Hgau 0 = PI / 4.
Proof.
  unfold Hgau. rewrite (RInt_ext _ (fun t => / (1 + t ^ 2))).
  2:{ intros t _. unfold gker. replace (- (0 * 0 * (1 + t * t))) with 0 by ring. rewrite exp_0. pose proof (one_sq t). eqR. field. nra. }
  assert (IR : is_RInt (fun t => / (1 + t ^ 2)) 0 1 (atan 1 - atan 0)).
  { apply (is_RInt_derive atan (fun t => / (1 + t ^ 2))).
    - intros t _. apply is_derive_Reals. apply derivable_pt_lim_atan.
    - intros t _. apply (ex_derive_continuous (V := R_NormedModule)). auto_derive. nra. }
  rewrite (is_RInt_unique _ _ _ _ IR), atan_1, atan_0. lra.
Qed.
Lemma Hgau_bounds x : 0 <= Hgau x <= exp (- (x * x)).
Proof.
  assert (EI : ex_RInt (gker x) 0 1) by (apply (ex_RInt_continuous (V := R_CompleteNormedModule)); intros; apply gker_cont).
  split.
  - apply RInt_ge_0; [lra|exact EI|]. intros t _. unfold gker. pose proof (one_sq t). left. apply Rdiv_lt_0_compat; [apply exp_pos|lra].
  - replace (exp (- (x * x))) with (RInt (fun _ => exp (- (x * x))) 0 1).
    2:{ rewrite RInt_const. unfold scal; simpl. unfold mult; simpl. eqR. ring. }
    apply RInt_le; [lra|exact EI|apply ex_RInt_const|]. intros t _. unfold gker. pose proof (one_sq t).
    assert (exp (- (x * x * (1 + t * t))) <= exp (- (x * x))).
    { destruct (Req_dec (x * x * (1 + t * t)) (x * x)) as [E|E]; [rewrite E; lra|]. left. apply exp_increasing. nra. }
    apply Rle_trans with (exp (- (x * x * (1 + t * t)))); [|assumption].
    apply Rmult_le_reg_r with (1 + t * t); [lra|]. unfold Rdiv. rewrite Rmult_assoc, Rinv_l, Rmult_1_r by lra.
    pose proof (exp_pos (- (x * x * (1 + t * t)))). nra.
Qed.
Lemma Gau_nonneg x : 0 <= x -> 0 <= Gau x.
Proof. intros H. apply RInt_ge_0; [exact H|apply gau_int|]. intros. left. apply exp_pos. Qed.
Lemma Gau_sq x : Gau x * Gau x = PI / 4 - Hgau x.
Proof. pose proof (gau_const x). rewrite Hgau_0 in H. lra. Qed.
Lemma Gau_strict x y : x < y -> Gau x < Gau y.
Proof.
  intros H. assert (E : Gau y = Gau x + RInt gau x y).
  { unfold Gau. symmetry. apply (RInt_Chasles (V := R_CompleteNormedModule)); apply gau_int. }
  assert (0 < RInt gau x y); [|lra]. apply RInt_gt_0; auto; intros; [apply exp_pos|apply gau_cont].
Qed.

(** exp(-x) goes to 0 *)
Lemma Gau_limit : is_lim Gau p_infty (sqrt PI / 2).
Proof.
  assert (LE : is_lim (fun x => exp (- (x * x))) p_infty 0).
  { apply (is_lim_comp exp (fun x => - (x * x)) p_infty 0 m_infty); [apply is_lim_exp_m| |].
    - evar_last; [apply is_lim_opp|]. 
      + apply (is_lim_mult (fun x => x) (fun x => x) p_infty p_infty p_infty); [apply is_lim_id|apply is_lim_id|simpl; auto].
      + reflexivity.
    - exists 0. intros; discriminate. }
  assert (LH : is_lim Hgau p_infty 0).
  { apply (is_lim_le_le_loc (fun _ => 0) (fun x => exp (- (x * x)))); [|apply is_lim_const|exact LE].
    exists 0. intros y _. apply Hgau_bounds. }
  assert (LS : is_lim (fun x => sqrt (PI / 4 - Hgau x)) p_infty (sqrt (PI / 4))).
  { assert (L1 : is_lim (fun x => PI / 4 - Hgau x) p_infty (PI / 4)).
    { evar_last; [apply is_lim_minus'; [apply is_lim_const|exact LH]|]. simpl. f_equal. ring. }
    unfold is_lim in *. eapply filterlim_comp; [exact L1|]. apply continuous_sqrt. }
  replace (sqrt PI / 2) with (sqrt (PI / 4)).
  2:{ rewrite sqrt_div_alt by lra. f_equal. replace 4 with (2 * 2) by ring. apply sqrt_square. lra. }
  eapply is_lim_ext_loc; [|exact LS]. exists 0. intros x Hx. rewrite <- Gau_sq. apply sqrt_square. apply Gau_nonneg. lra.
Qed.
