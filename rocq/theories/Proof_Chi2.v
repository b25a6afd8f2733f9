(** The survival function of the chi2 distribution *)
From Coq Require Import Reals ZArith Arith Lra Lia.
From Coquelicot Require Import Coquelicot.
From Verif Require Import Model_Num Model_Stats Proof_Gauss.
Local Open Scope R_scope.

Lemma gamma_half_SS m : (1 <= m)%nat -> gamma_half (S (S m)) = INR m / 2 * gamma_half m.
Proof. intros H. destruct m; [lia|reflexivity]. Qed.
Lemma nat_ind2 (P : nat -> Prop) : P 1%nat -> P 2%nat -> (forall k, (1 <= k)%nat -> P k -> P (S (S k))) -> forall k, (1 <= k)%nat -> P k.
Proof.
  intros P1 P2 PS k. assert (H : ((1 <= k)%nat -> P k) /\ P (S k)); [|tauto].
  induction k as [|k IH]; [split; [lia|exact P1]|]. destruct IH as [A B]. split; [auto|].
  destruct k; [exact P2|]. apply PS; [lia|]. apply A. lia.
Qed.
Lemma INR_pos k : (1 <= k)%nat -> 0 < INR k.
Proof. intros. apply lt_0_INR. lia. Qed.
Lemma sqrt_PI_pos : 0 < sqrt PI. Proof. apply sqrt_lt_R0, PI_RGT_0. Qed.
Lemma gamma_half_pos : forall k, (1 <= k)%nat -> 0 < gamma_half k.
Proof.
  apply nat_ind2; [apply sqrt_PI_pos|simpl; lra|]. intros k K H. rewrite gamma_half_SS by exact K.
  pose proof (INR_pos k K). nra.
Qed.

Definition cterm (k : nat) (x : R) : R := exp (INR k / 2 * ln x - x / 2 - ln (gamma_half (S (S k))) - ln 2 * (INR k / 2)).
Fixpoint surv (n : nat) (x : R) : R :=
  match n with
  | O => 0
  | 1%nat => 1 - 2 / sqrt PI * Gau (sqrt (x / 2))
  | S (S m) => match m with O => exp (- x / 2) | _ => surv m x + cterm m x end
  end.
Lemma surv_SS m x : (1 <= m)%nat -> surv (S (S m)) x = surv m x + cterm m x.
Proof. intros H. destruct m; [lia|reflexivity]. Qed.

Lemma pdf_pos n x : 0 < x -> 0 < chi2_pdf n x.
Proof. intros H. unfold chi2_pdf. destruct (Rlt_dec 0 x); [apply exp_pos|lra]. Qed.
Lemma pdf_term k x : (1 <= k)%nat -> 0 < x -> chi2_pdf k x = cterm k x * (INR k / (2 * x)).
Proof.
  intros K X. unfold chi2_pdf, cterm. destruct (Rlt_dec 0 x) as [_|N]; [|lra].
  pose proof (INR_pos k K). pose proof (gamma_half_pos k K).
  rewrite gamma_half_SS by exact K. rewrite ln_mult by lra.
  replace (INR k / (2 * x)) with (exp (ln (INR k / 2) - ln x)).
  2:{ unfold Rminus. rewrite exp_plus, exp_Ropp, !exp_ln by lra. field. lra. }
  rewrite <- exp_plus. f_equal. ring.
Qed.
Lemma pdf_next k x : (1 <= k)%nat -> 0 < x -> chi2_pdf (S (S k)) x = cterm k x / 2.
Proof.
  intros K X. unfold chi2_pdf, cterm. destruct (Rlt_dec 0 x) as [_|N]; [|lra].
  rewrite S_INR, S_INR.
  replace (exp (INR k / 2 * ln x - x / 2 - ln (gamma_half (S (S k))) - ln 2 * (INR k / 2)) / 2)
    with (exp (INR k / 2 * ln x - x / 2 - ln (gamma_half (S (S k))) - ln 2 * (INR k / 2)) * exp (- ln 2)).
  2:{ rewrite exp_Ropp, exp_ln by lra. reflexivity. }
  rewrite <- exp_plus. f_equal. field.
Qed.
Lemma cterm_derive k x : 0 < x -> is_derive (cterm k) x (cterm k x * (INR k / (2 * x)) - cterm k x / 2).
Proof.
  intros X. unfold cterm. set (c := ln (gamma_half (S (S k)))). set (e := ln 2 * (INR k / 2)).
  assert (D : is_derive (fun x => INR k / 2 * ln x - x / 2 - c - e) x (INR k / (2 * x) - / 2)).
  { auto_derive; [exact X|]. field. lra. }
  evar_last; [apply (is_derive_comp exp (fun x => INR k / 2 * ln x - x / 2 - c - e) x); [apply is_derive_exp|exact D]|].
  unfold scal; simpl. unfold mult; simpl. eqR. field. lra.
Qed.

Lemma surv_derive : forall k, (1 <= k)%nat -> forall x, 0 < x -> is_derive (surv k) x (- chi2_pdf k x).
Proof.
  apply (nat_ind2 (fun k => forall x, 0 < x -> is_derive (surv k) x (- chi2_pdf k x))).
  - intros x X. unfold surv.
    assert (SX : 0 < sqrt (x / 2)) by (apply sqrt_lt_R0; lra).
    assert (D1 : is_derive (fun x => sqrt (x / 2)) x (/ (4 * sqrt (x / 2)))).
    { auto_derive; [lra|]. unfold Rdiv in *. set (q := sqrt (x * / 2)) in *. field. lra. }
    assert (D2 : is_derive (fun x => Gau (sqrt (x / 2))) x (/ (4 * sqrt (x / 2)) * gau (sqrt (x / 2)))).
    { apply (is_derive_comp Gau (fun x => sqrt (x / 2)) x); [apply Gau_derive|exact D1]. }
    assert (D3 : is_derive (fun x => 1 - 2 / sqrt PI * Gau (sqrt (x / 2))) x (0 - 2 / sqrt PI * (/ (4 * sqrt (x / 2)) * gau (sqrt (x / 2))))).
    { apply (is_derive_minus (V := R_NormedModule) (fun _ => 1) (fun x => 2 / sqrt PI * Gau (sqrt (x / 2)))); [apply @is_derive_const|]. apply is_derive_scal. exact D2. }
    replace (- chi2_pdf 1 x) with (0 - 2 / sqrt PI * (/ (4 * sqrt (x / 2)) * gau (sqrt (x / 2)))); [exact D3|].
    unfold chi2_pdf, gau. destruct (Rlt_dec 0 x) as [_|N]; [|lra]. rewrite sqrt_sqrt by lra.
    change (gamma_half 1) with (sqrt PI). change (INR 1) with 1.
    pose proof sqrt_PI_pos as SP.
    replace ((1 / 2 - 1) * ln x - x / 2 - ln (sqrt PI) - ln 2 * (1 / 2)) with (- (x / 2) + (- (/ 2 * ln x) + (- (/ 2 * ln 2) + - ln (sqrt PI)))) by field.
    rewrite !exp_plus, !exp_Ropp, (exp_ln (sqrt PI)) by exact SP.
    replace (exp (/ 2 * ln x)) with (sqrt x) by (rewrite <- Rpower_sqrt by exact X; reflexivity).
    replace (exp (/ 2 * ln 2)) with (sqrt 2) by (rewrite <- Rpower_sqrt by lra; reflexivity).
    rewrite sqrt_div_alt by lra. assert (0 < sqrt 2) by (apply sqrt_lt_R0; lra). assert (0 < sqrt x) by (apply sqrt_lt_R0; lra).
    assert (S2 : sqrt 2 * sqrt 2 = 2) by (apply sqrt_sqrt; lra).
    pose proof (exp_pos (x / 2)) as EP.
    transitivity (- (sqrt 2 / (2 * sqrt PI * sqrt x * exp (x / 2)))); [field; repeat split; lra|].
    f_equal. apply Rmult_eq_reg_r with (2 * sqrt PI * sqrt x * exp (x / 2) * sqrt 2); [|repeat (apply Rmult_integral_contrapositive_currified; try lra)].
    transitivity (sqrt 2 * sqrt 2); [field; repeat split; lra|]. rewrite S2. field. repeat split; lra.
  - intros x X. unfold surv.
    assert (D : is_derive (fun x => - x / 2) x (- / 2)) by (auto_derive; [exact I|field]).
    evar_last; [apply (is_derive_comp exp (fun x => - x / 2) x); [apply is_derive_exp|exact D]|].
    unfold scal; simpl. unfold mult; simpl.
    unfold chi2_pdf. destruct (Rlt_dec 0 x) as [_|N]; [|lra]. change (gamma_half 2) with 1. change (INR 2) with 2.
    replace ((2 / 2 - 1) * ln x - x / 2 - ln 1 - ln 2 * (2 / 2)) with (- x / 2 + - ln 2) by (rewrite ln_1; field).
    rewrite exp_plus, (exp_Ropp (ln 2)), exp_ln by lra. eqR. field.
  - intros k K IH x X. apply is_derive_ext with (fun x => surv k x + cterm k x).
    { intros t. symmetry. now apply surv_SS. }
    replace (- chi2_pdf (S (S k)) x) with (- chi2_pdf k x + (cterm k x * (INR k / (2 * x)) - cterm k x / 2)).
    + apply (is_derive_plus (V := R_NormedModule)); [now apply IH|now apply cterm_derive].
    + rewrite (pdf_term k x K X), (pdf_next k x K X). ring.
Qed.

Lemma exp_lin_lim a b : 0 < b -> is_lim (fun x => exp (a - b * x)) p_infty 0.
Proof.
  intros B. apply (is_lim_comp exp (fun x => a - b * x) p_infty 0 m_infty); [apply is_lim_exp_m| |exists 0; intros; discriminate].
  intros Q [M HM]. exists ((a - M) / b). intros x X. apply HM. apply Rmult_lt_compat_r with (r := b) in X; [|exact B].
  replace ((a - M) / b * b) with (a - M) in X by (field; lra). lra.
Qed.
Lemma cterm_lim k : (1 <= k)%nat -> is_lim (cterm k) p_infty 0.
Proof.
  intros K. pose proof (INR_pos k K) as P.
  set (a := INR k / 2 * ln (2 * INR k) - ln (gamma_half (S (S k))) - ln 2 * (INR k / 2)).
  apply (is_lim_le_le_loc (fun _ => 0) (fun x => exp (a - / 4 * x))); [|apply is_lim_const|apply exp_lin_lim; lra].
  exists 1. intros x X. split; [left; apply exp_pos|]. unfold cterm.
  assert (LN : ln x <= x / (2 * INR k) + ln (2 * INR k)).
  { assert (EX : ln x = ln (x / (2 * INR k)) + ln (2 * INR k)).
    { rewrite <- ln_mult; [f_equal; field; lra|apply Rdiv_lt_0_compat; lra|lra]. }
    rewrite EX. pose proof (exp_ineq1_le (ln (x / (2 * INR k)))) as E. rewrite exp_ln in E by (apply Rdiv_lt_0_compat; lra). lra. }
  assert (LE : INR k / 2 * ln x - x / 2 - ln (gamma_half (S (S k))) - ln 2 * (INR k / 2) <= a - / 4 * x).
  { unfold a. apply Rmult_le_compat_l with (r := INR k / 2) in LN; [|lra].
    replace (INR k / 2 * (x / (2 * INR k) + ln (2 * INR k))) with (x / 4 + INR k / 2 * ln (2 * INR k)) in LN by (field; lra). lra. }
  destruct LE as [L|E]; [left; now apply exp_increasing|rewrite E; lra].
Qed.
Lemma cterm_lim0 k : (1 <= k)%nat -> filterlim (cterm k) (at_right 0) (locally 0).
Proof.
  intros K. pose proof (INR_pos k K) as P.
  set (a := - ln (gamma_half (S (S k))) - ln 2 * (INR k / 2)).
  assert (U : filterlim (fun x => exp (INR k / 2 * ln x + a)) (at_right 0) (locally 0)).
  { apply (filterlim_comp _ _ _ (fun x => INR k / 2 * ln x + a) exp _ (Rbar_locally m_infty)); [|apply is_lim_exp_m].
    intros Q [M HM]. pose proof (is_lim_ln_0 (fun y => y < (M - a) * 2 / INR k)) as L.
    destruct L as [d Hd]; [exists ((M - a) * 2 / INR k); auto|]. exists d. intros y B Y. apply HM.
    specialize (Hd y B Y). apply Rmult_lt_compat_l with (r := INR k / 2) in Hd; [|lra].
    replace (INR k / 2 * ((M - a) * 2 / INR k)) with (M - a) in Hd by (field; lra). lra. }
  apply (filterlim_le_le (fun _ => 0) (cterm k) (fun x => exp (INR k / 2 * ln x + a)) 0); [|apply filterlim_const|exact U].
  exists (mkposreal 1 Rlt_0_1). intros y _ Y. split; [left; apply exp_pos|]. unfold cterm.
  left. apply exp_increasing. unfold a. lra.
Qed.

Lemma surv_lim : forall k, (1 <= k)%nat -> is_lim (surv k) p_infty 0.
Proof.
  apply nat_ind2.
  - unfold surv. pose proof sqrt_PI_pos as SP.
    assert (LG : is_lim (fun x => Gau (sqrt (x / 2))) p_infty (sqrt PI / 2)).
    { apply (is_lim_comp Gau (fun x => sqrt (x / 2)) p_infty (sqrt PI / 2) p_infty); [apply Gau_limit| |exists 0; intros; discriminate].
      apply (is_lim_comp sqrt (fun x => x / 2) p_infty p_infty p_infty); [apply is_lim_sqrt_p, is_lim_id| |exists 0; intros; discriminate].
      intros Q [M HM]. exists (2 * M). intros x X. apply HM. lra. }
    evar_last; [apply is_lim_minus'; [apply is_lim_const|apply (is_lim_scal_l _ _ _ (sqrt PI / 2)); exact LG]|].
    simpl. f_equal. field. lra.
  - unfold surv. eapply is_lim_ext; [|apply (exp_lin_lim 0 (/ 2)); lra]. intros y. simpl. f_equal. field.
  - intros k K IH. apply is_lim_ext with (fun x => surv k x + cterm k x); [intros; symmetry; now apply surv_SS|].
    evar_last; [apply is_lim_plus'; [exact IH|apply cterm_lim; exact K]|]. simpl. f_equal. ring.
Qed.
Lemma surv_lim0 : forall k, (1 <= k)%nat -> filterlim (surv k) (at_right 0) (locally 1).
Proof.
  apply nat_ind2.
  - apply (filterlim_filter_le_1 (F := locally 0) (G := at_right 0)); [apply filter_le_within|].
    assert (C : continuous (surv 1) 0).
    { unfold surv. apply (continuous_minus (V := R_NormedModule) (fun _ => 1) (fun x => 2 / sqrt PI * Gau (sqrt (x / 2)))); [apply continuous_const|].
      apply (continuous_scal_r (V := R_NormedModule) (2 / sqrt PI) (fun x => Gau (sqrt (x / 2)))).
      apply (continuous_comp (fun x => sqrt (x / 2)) Gau).
      - apply (continuous_comp (fun x => x / 2) sqrt); [|apply continuous_sqrt].
        apply (ex_derive_continuous (V := R_NormedModule)). auto_derive. exact I.
      - apply (ex_derive_continuous (V := R_NormedModule)). eexists. apply Gau_derive. }
    replace 1 with (surv 1 0); [exact C|]. unfold surv. replace (0 / 2) with 0 by field. rewrite sqrt_0. unfold Gau. rewrite RInt_point.
    unfold zero; simpl. eqR. ring.
  - apply (filterlim_filter_le_1 (F := locally 0) (G := at_right 0)); [apply filter_le_within|].
    assert (C : continuous (surv 2) 0) by (apply (ex_derive_continuous (V := R_NormedModule)); unfold surv; auto_derive; exact I).
    replace 1 with (surv 2 0); [exact C|]. unfold surv. replace (- 0 / 2) with 0 by field. apply exp_0.
  - intros k K IH. apply filterlim_ext with (fun x => surv k x + cterm k x); [intros; symmetry; now apply surv_SS|].
    replace 1 with (1 + 0) by ring.
    eapply (filterlim_comp_2 (F := at_right 0)); [exact IH|apply cterm_lim0; exact K|].
    apply (filterlim_plus (V := R_NormedModule) 1 0).
Qed.

Lemma pdf_cont k x : (1 <= k)%nat -> 0 < x -> continuous (chi2_pdf k) x.
Proof.
  intros K X. apply continuous_ext_loc with (fun x => cterm k x * (INR k / (2 * x))).
  - exists (mkposreal x X). intros y B. symmetry. apply pdf_term; [exact K|].
    unfold ball in B; simpl in B. unfold AbsRing_ball, abs, minus, plus, opp in B; simpl in B. apply Rabs_def2 in B. lra.
  - apply (continuous_mult (K := R_AbsRing)).
    + apply (ex_derive_continuous (V := R_NormedModule)). eexists. now apply cterm_derive.
    + apply (ex_derive_continuous (V := R_NormedModule)). auto_derive. lra.
Qed.

(** the limit of the survival function at a, from the right *)
Definition survival (k : nat) (a : R) : R := if Rlt_dec 0 a then surv k a else 1.
Lemma survival_int k a : (1 <= k)%nat -> 0 <= a ->
  is_RInt_gen (chi2_pdf k) (at_right a) (Rbar_locally p_infty) (survival k a).
Proof.
  intros K A. set (F := fun x => - surv k x).
  assert (DF : forall x, 0 < x -> is_derive F x (chi2_pdf k x)).
  { intros x X. unfold F. evar_last; [apply (is_derive_opp (V := R_NormedModule) (surv k) x (- chi2_pdf k x)); apply surv_derive; [exact K|exact X]|]. unfold opp; simpl. eqR. ring. }
  assert (IN : forall P : R * R -> Prop, (forall u v, a < u -> a < v -> P (u, v)) -> filter_prod (at_right a) (Rbar_locally p_infty) P).
  { intros P H. apply (Filter_prod _ _ _ (fun u => a < u) (fun v => a < v)).
    - exists (mkposreal 1 Rlt_0_1). auto.
    - exists a. auto.
    - exact H. }
  assert (PO : forall u v x, a < u -> a < v -> Rmin u v <= x -> 0 < x).
  { intros u v x U V X. assert (a < Rmin u v) by (apply Rmin_glb_lt; auto). lra. }
  assert (G : is_RInt_gen (Derive F) (at_right a) (Rbar_locally p_infty) (0 - - survival k a)).
  { apply is_RInt_gen_Derive.
    - apply IN. intros u v U V x [X _]. cbn [fst snd] in X. exists (chi2_pdf k x). apply DF. exact (PO u v x U V X).
    - apply IN. intros u v U V x [X _]. cbn [fst snd] in X. pose proof (PO u v x U V X) as X0.
      apply continuous_ext_loc with (chi2_pdf k); [|now apply pdf_cont].
      exists (mkposreal x X0). intros y B. symmetry. apply is_derive_unique, DF.
      unfold ball in B; simpl in B. unfold AbsRing_ball, abs, minus, plus, opp in B; simpl in B. apply Rabs_def2 in B. lra.
    - unfold survival. destruct (Rlt_dec 0 a) as [P|N].
      + apply (filterlim_filter_le_1 (F := locally a) (G := at_right a)); [apply filter_le_within|].
        change (- surv k a) with (F a). apply (ex_derive_continuous (V := R_NormedModule)). eexists. now apply DF.
      + assert (a = 0) by lra. subst a. unfold F. eapply filterlim_comp; [apply surv_lim0; exact K|].
        apply (filterlim_opp (V := R_NormedModule) 1).
    - change (filterlim F (Rbar_locally' p_infty) (locally 0)). replace 0 with (- 0) by ring.
      unfold F. eapply filterlim_comp; [apply surv_lim; exact K|]. apply (filterlim_opp (V := R_NormedModule) 0). }
  replace (survival k a) with (0 - - survival k a) by ring.
  eapply is_RInt_gen_ext; [|exact G]. apply IN. intros u v U V x [X _]. cbn [fst snd] in X. apply is_derive_unique, DF.
  apply (PO u v); auto. lra.
Qed.

Lemma surv_strict k x y : (1 <= k)%nat -> 0 < x -> x < y -> surv k y < surv k x.
Proof.
  intros K X XY.
  assert (IR : is_RInt (fun t => - chi2_pdf k t) x y (surv k y - surv k x)).
  { apply (is_RInt_derive (surv k) (fun t => - chi2_pdf k t)).
    - intros t [T _]. rewrite Rmin_left in T by lra. apply surv_derive; [exact K|lra].
    - intros t [T _]. rewrite Rmin_left in T by lra. apply (continuous_opp (V := R_NormedModule)), pdf_cont; [exact K|lra]. }
  assert (IP : is_RInt (chi2_pdf k) x y (surv k x - surv k y)).
  { apply is_RInt_ext with (fun t => opp (- chi2_pdf k t)); [intros; unfold opp; simpl; eqR; ring|].
    replace (surv k x - surv k y) with (opp (surv k y - surv k x)) by (unfold opp; simpl; eqR; ring).
    apply (is_RInt_opp (V := R_NormedModule)). exact IR. }
  assert (0 < surv k x - surv k y); [|lra]. rewrite <- (is_RInt_unique _ _ _ _ IP). apply RInt_gt_0; [exact XY| |].
  - intros t T. apply pdf_pos. lra.
  - intros t T. apply pdf_cont; [exact K|lra].
Qed.
Lemma surv_pos k x : (1 <= k)%nat -> 0 < x -> 0 < surv k x.
Proof.
  intros K X. assert (S1 : surv k (x + 1) < surv k x) by (apply surv_strict; auto; lra).
  assert (0 <= surv k (x + 1)); [|lra].
  apply Rnot_lt_le. intros N. pose proof (surv_lim k K) as L.
  assert (O : Rbar_locally' p_infty (fun y => surv k (x + 1) < surv k y)).
  { apply (L (fun z => surv k (x + 1) < z)). exists (mkposreal (- surv k (x + 1)) ltac:(lra)). intros z B.
    unfold ball in B; simpl in B. unfold AbsRing_ball, abs, minus, plus, opp in B; simpl in B. apply Rabs_def2 in B. lra. }
  destruct O as [M HM]. specialize (HM (Rmax (M + 1) (x + 2))).
  assert (M < Rmax (M + 1) (x + 2)) by (pose proof (Rmax_l (M + 1) (x + 2)); lra).
  pose proof (Rmax_r (M + 1) (x + 2)). specialize (HM H).
  assert (surv k (Rmax (M + 1) (x + 2)) < surv k (x + 1)) by (apply surv_strict; auto; lra). lra.
Qed.
Lemma surv_lt1 k x : (1 <= k)%nat -> 0 < x -> surv k x < 1.
Proof.
  intros K X. assert (S1 : surv k x < surv k (x / 2)) by (apply surv_strict; auto; lra).
  assert (surv k (x / 2) <= 1); [|lra].
  apply Rnot_lt_le. intros N. pose proof (surv_lim0 k K) as L.
  assert (O : at_right 0 (fun y => surv k y < surv k (x / 2))).
  { apply (L (fun z => z < surv k (x / 2))). exists (mkposreal (surv k (x / 2) - 1) ltac:(lra)). intros z B.
    unfold ball in B; simpl in B. unfold AbsRing_ball, abs, minus, plus, opp in B; simpl in B. apply Rabs_def2 in B. lra. }
  destruct O as [d Hd]. set (y := Rmin (d / 2) (x / 4)).
  assert (Y : 0 < y) by (apply Rmin_glb_lt; [pose proof (cond_pos d); lra|lra]).
  assert (Y1 : y <= d / 2) by apply Rmin_l. assert (Y2 : y <= x / 4) by apply Rmin_r. pose proof (cond_pos d).
  specialize (Hd y). assert (surv k (x / 2) < surv k y) by (apply surv_strict; auto; lra).
  assert (surv k y < surv k (x / 2)); [|lra]. apply Hd; [|exact Y].
  unfold ball; simpl. unfold AbsRing_ball, abs, minus, plus, opp; simpl. rewrite Rabs_right; lra.
Qed.

(** even numbers of degrees of freedom *)
Lemma gamma_even m : gamma_half (2 * S m) = INR (fact m).
Proof.
  induction m as [|m IH]; [reflexivity|].
  replace (2 * S (S m))%nat with (S (S (2 * S m)))%nat by lia. rewrite gamma_half_SS by lia. rewrite IH, fact_simpl, mult_INR, mult_INR.
  change (INR 2) with 2. field.
Qed.
Lemma cterm_even m x : 0 < x -> cterm (2 * S m) x = exp (- x / 2) * ((x / 2) ^ S m / INR (fact (S m))).
Proof.
  intros X. unfold cterm. replace (S (S (2 * S m)))%nat with (2 * S (S m))%nat by lia. rewrite gamma_even.
  assert (F : 0 < INR (fact (S m))) by (apply lt_0_INR, lt_O_fact).
  rewrite mult_INR. change (INR 2) with 2. replace (2 * INR (S m) / 2) with (INR (S m)) by field.
  replace (INR (S m) * ln x - x / 2 - ln (INR (fact (S m))) - ln 2 * INR (S m))
    with (- x / 2 + (INR (S m) * (ln x - ln 2) + - ln (INR (fact (S m))))) by field.
  rewrite !exp_plus, exp_Ropp, exp_ln by exact F. rewrite <- ln_div by lra.
  replace (exp (INR (S m) * ln (x / 2))) with ((x / 2) ^ S m); [reflexivity|].
  rewrite <- Rpower_pow by lra. reflexivity.
Qed.
Lemma surv_even m x : 0 < x -> surv (2 * S m) x = exp (- x / 2) * sum_f_R0 (fun j => (x / 2) ^ j / INR (fact j)) m.
Proof.
  intros X. induction m as [|m IH].
  - simpl. field.
  - replace (2 * S (S m))%nat with (S (S (2 * S m)))%nat by lia. rewrite surv_SS by lia. rewrite IH, cterm_even by exact X.
    cbn [sum_f_R0]. ring.
Qed.
