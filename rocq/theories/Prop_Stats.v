(** Property theorems C101: the p-values of stats.py. *)
From Coq Require Import Reals String ZArith Bool Arith Lra Lia.
From Coquelicot Require Import Coquelicot.
From Coq Require Import List.
From Verif Require Import Model_Num Model_Utility Model_Stats Spec_Matrix Proof_Hist Proof_Gauss Proof_Chi2 Prop_Utility.
Import ListNotations.
Local Open Scope R_scope.

Lemma pval_survival k c : (1 <= k)%nat -> 0 <= c -> chi2_pval (Fin c) (Z.of_nat k) = Fin (survival k c).
Proof.
  intros K C. unfold chi2_pval. destruct (Z.leb_spec (Z.of_nat k) 0) as [H|_]; [lia|]. rewrite Nat2Z.id. f_equal.
  apply is_RInt_gen_unique. now apply survival_int.
Qed.
Lemma survival_pos k c : (1 <= k)%nat -> 0 <= c -> 0 < survival k c <= 1 /\ (survival k c = 1 <-> c = 0).
Proof.
  intros K C. unfold survival. destruct (Rlt_dec 0 c) as [P|N].
  - pose proof (surv_pos k c K P). pose proof (surv_lt1 k c K P). repeat split; intros; lra.
  - repeat split; intros; lra.
Qed.
Lemma survival_strict k c c' : (1 <= k)%nat -> 0 <= c -> c < c' -> survival k c' < survival k c.
Proof.
  intros K C L. unfold survival. destruct (Rlt_dec 0 c') as [P'|N]; [|lra]. destruct (Rlt_dec 0 c) as [P|N].
  - now apply surv_strict.
  - now apply surv_lt1.
Qed.

(** The chi2 density with k degrees of freedom is a probability density on the positive reals. *)
Theorem C101_density : forall k, (1 <= k)%nat ->
  (forall x, 0 < x -> 0 < chi2_pdf k x) /\ is_RInt_gen (chi2_pdf k) (at_right 0) (Rbar_locally p_infty) 1.
Proof.
  intros k K. split; [intros; now apply pdf_pos|]. replace 1 with (survival k 0); [apply survival_int; [exact K|lra]|].
  unfold survival. destruct (Rlt_dec 0 0); [lra|reflexivity].
Qed.
Print Assumptions C101_density.
(** The p-value exists for every statistic c >= 0 and is the integral of the density from c on; it lies in (0, 1] and
    is 1 only for c = 0. *)
Theorem C101_probability : forall k c, (1 <= k)%nat -> 0 <= c ->
  exists p, chi2_pval (Fin c) (Z.of_nat k) = Fin p /\
    is_RInt_gen (chi2_pdf k) (at_right c) (Rbar_locally p_infty) p /\ 0 < p <= 1 /\ (p = 1 <-> c = 0).
Proof.
  intros k c K C. exists (survival k c). split; [now apply pval_survival|]. split; [now apply survival_int|]. now apply survival_pos.
Qed.
Print Assumptions C101_probability.
(** A larger statistic has a smaller p-value, and the p-value goes to 0. *)
Theorem C101_decreasing : forall k c c' p p', (1 <= k)%nat -> 0 <= c -> c < c' ->
  chi2_pval (Fin c) (Z.of_nat k) = Fin p -> chi2_pval (Fin c') (Z.of_nat k) = Fin p' -> p' < p.
Proof.
  intros k c c' p p' K C L. rewrite !pval_survival by (auto; lra). intros E E'. injection E as <-. injection E' as <-.
  now apply survival_strict.
Qed.
Print Assumptions C101_decreasing.
Theorem C101_vanishes : forall k eps, (1 <= k)%nat -> 0 < eps ->
  exists M, forall c p, M < c -> chi2_pval (Fin c) (Z.of_nat k) = Fin p -> p < eps.
Proof.
  intros k eps K E. destruct (surv_lim k K (fun z => z < eps)) as [M HM].
  { exists (mkposreal eps E). intros z B. unfold ball in B; simpl in B. unfold AbsRing_ball, abs, minus, plus, opp in B; simpl in B. apply Rabs_def2 in B. lra. }
  exists (Rmax M 0). intros c p C. pose proof (Rmax_l M 0). pose proof (Rmax_r M 0). rewrite pval_survival by (auto; lra).
  intros X. injection X as <-. unfold survival. destruct (Rlt_dec 0 c); [|lra]. apply HM. lra.
Qed.
Print Assumptions C101_vanishes.
(** More degrees of freedom: a larger p-value for the same statistic. *)
Theorem C101_more_dof : forall k c p p', (1 <= k)%nat -> 0 < c ->
  chi2_pval (Fin c) (Z.of_nat k) = Fin p -> chi2_pval (Fin c) (Z.of_nat (k + 2)) = Fin p' -> p < p'.
Proof.
  intros k c p p' K C. rewrite !pval_survival by (lia || lra). intros E E'. injection E as <-. injection E' as <-.
  unfold survival. destruct (Rlt_dec 0 c); [|lra]. replace (k + 2)%nat with (S (S k)) by lia. rewrite surv_SS by exact K.
  assert (0 < cterm k c) by apply exp_pos. lra.
Qed.
Print Assumptions C101_more_dof.
(** Closed forms.  Even dof = 2 (m + 1): exp(-c/2) times the first m + 1 terms of the series of exp(c/2).  One degree of
    freedom: the probability that a normal variable is further than sqrt(c) standard deviations from its mean. *)
Theorem C101_even : forall m c, 0 <= c ->
  chi2_pval (Fin c) (Z.of_nat (2 * S m)) = Fin (exp (- c / 2) * sum_f_R0 (fun j => (c / 2) ^ j / INR (fact j)) m).
Proof.
  intros m c C. rewrite pval_survival by (lia || lra). f_equal. unfold survival. destruct (Rlt_dec 0 c) as [P|N]; [now apply surv_even|].
  assert (c = 0) by lra. subst c. replace (- 0 / 2) with 0 by field. rewrite exp_0, Rmult_1_l. clear.
  induction m as [|m IH]; [simpl; field|]. cbn [sum_f_R0]. rewrite <- IH. replace (0 / 2) with 0 by field. rewrite pow_i by lia.
  unfold Rdiv. ring.
Qed.
Print Assumptions C101_even.
Theorem C101_one_dof : forall c, 0 <= c ->
  exists p, chi2_pval (Fin c) 1 = Fin p /\
    is_RInt_gen (fun z => 2 * (exp (- (z * z) / 2) / sqrt (2 * PI))) (at_point (sqrt c)) (Rbar_locally p_infty) p.
Proof.
  intros c C. exists (survival 1 c). split; [exact (pval_survival 1 c (le_n 1) C)|].
  pose proof sqrt_PI_pos as SP. assert (S2 : 0 < sqrt 2) by (apply sqrt_lt_R0; lra).
  assert (SS : sqrt 2 * sqrt 2 = 2) by (apply sqrt_sqrt; lra).
  set (F := fun z => 2 / sqrt PI * Gau (z / sqrt 2)).
  assert (DF : forall z, is_derive F z (2 * (exp (- (z * z) / 2) / sqrt (2 * PI)))).
  { intros z. unfold F. evar_last.
    { apply is_derive_scal. apply (is_derive_comp Gau (fun z => z / sqrt 2) z); [apply Gau_derive|].
      instantiate (1 := / sqrt 2). auto_derive; [exact I|field; lra]. }
    unfold scal; simpl. unfold mult; simpl. unfold gau. rewrite sqrt_mult by (lra || (left; apply PI_RGT_0)).
    assert (ZZ : z / sqrt 2 * (z / sqrt 2) = z * z / 2) by (transitivity (z * z / (sqrt 2 * sqrt 2)); [field; lra|now rewrite SS]). rewrite ZZ.
    replace (- (z * z / 2)) with (- (z * z) / 2) by field. eqR. field. lra. }
  assert (CF : forall z, continuous (fun z => 2 * (exp (- (z * z) / 2) / sqrt (2 * PI))) z).
  { intros z. apply (ex_derive_continuous (V := R_NormedModule)). auto_derive. exact I. }
  assert (LF : is_lim F p_infty 1).
  { unfold F. assert (LG : is_lim (fun z => Gau (z / sqrt 2)) p_infty (sqrt PI / 2)).
    { apply (is_lim_comp Gau (fun z => z / sqrt 2) p_infty (sqrt PI / 2) p_infty); [apply Gau_limit| |exists 0; intros; discriminate].
      intros Q [M HM]. exists (M * sqrt 2). intros z Z. apply HM. apply Rmult_lt_reg_r with (sqrt 2); [exact S2|].
      replace (z / sqrt 2 * sqrt 2) with z by (field; lra). exact Z. }
    evar_last; [apply (is_lim_scal_l _ _ _ (sqrt PI / 2)); exact LG|]. simpl. f_equal. field. lra. }
  assert (G : is_RInt_gen (Derive F) (at_point (sqrt c)) (Rbar_locally p_infty) (1 - F (sqrt c))).
  { apply is_RInt_gen_Derive.
    - apply filter_forall. intros ab x _. eexists. apply DF.
    - apply filter_forall. intros ab x _. eapply continuous_ext; [|apply CF]. intros t. symmetry. apply is_derive_unique, DF.
    - intros Q H. unfold at_point, filtermap. now apply locally_singleton.
    - exact LF. }
  replace (survival 1 c) with (1 - F (sqrt c)).
  - eapply is_RInt_gen_ext; [|exact G]. apply filter_forall. intros ab x _. apply is_derive_unique, DF.
  - unfold survival, F. destruct (Rlt_dec 0 c) as [P|N].
    + unfold surv. rewrite sqrt_div_alt by lra. reflexivity.
    + assert (c = 0) by lra. subst c. rewrite sqrt_0. replace (0 / sqrt 2) with 0 by (field; lra). unfold Gau. rewrite RInt_point.
      unfold zero; simpl. eqR. ring.
Qed.
Print Assumptions C101_one_dof.

(** The three tests: with at least one degree of freedom the p-value is in (0, 1], and 1 exactly if the data agree with
    the expectation in every bin. *)
Theorem C101_pearson : forall n d e k, (1 <= k)%nat -> (forall i, (i < n)%nat -> 0 < e i) ->
  exists c p, pearson_chi2_test chi2_pval (vec_of n d) (vec_of n e) (Z.of_nat k) = Ok (Fin c, Fin (c / INR k), Fin p) /\
    0 < p <= 1 /\ (p = 1 <-> forall i, (i < n)%nat -> d i = e i).
Proof.
  intros n d e k K E. destruct (C58_pearson_distance n d e E) as [C0 C1]. pose proof (C58_pearson_value chi2_pval n d e (Z.of_nat k) E) as V.
  cbv zeta in *. set (c := sumn n _) in *. destruct (C101_probability k c K C0) as (p & P & _ & B & I1).
  exists c, p. split; [|split; [exact B|rewrite I1; exact C1]]. rewrite V, P. rewrite <- INR_IZR_INZ. pose proof (INR_pos k K).
  unfold xdiv. destruct (Reqb_spec (INR k) 0); [lra|reflexivity].
Qed.
Print Assumptions C101_pearson.
Theorem C101_default : forall n d e u k, (1 <= k)%nat -> (forall i, (i < n)%nat -> u i <> 0) ->
  exists c p, default_chi2_test chi2_pval (vec_of n d) (vec_of n e) (vec_of n u) (Z.of_nat k) = Ok (Fin c, Fin (c / INR k), Fin p) /\
    0 < p <= 1 /\ (p = 1 <-> forall i, (i < n)%nat -> d i = e i).
Proof.
  intros n d e u k K E. destruct (C58_default_distance n d e u E) as [C0 C1]. pose proof (C58_default_value chi2_pval n d e u (Z.of_nat k) E) as V.
  cbv zeta in *. set (c := sumn n _) in *. destruct (C101_probability k c K C0) as (p & P & _ & B & I1).
  exists c, p. split; [|split; [exact B|rewrite I1; exact C1]]. rewrite V, P. rewrite <- INR_IZR_INZ. pose proof (INR_pos k K).
  unfold xdiv. destruct (Reqb_spec (INR k) 0); [lra|reflexivity].
Qed.
Print Assumptions C101_default.
Theorem C101_cowan_partial : forall n d e k, (1 <= k)%nat -> (forall i, (i < n)%nat -> 0 < d i /\ 0 < e i) ->
  exists c p, cowan_binned_likelihood_gof chi2_pval (vec_of n d) (vec_of n e) (Z.of_nat k) = Ok (Fin c, Fin (c / INR k), Fin p) /\
    0 < p <= 1 /\ (p = 1 <-> forall i, (i < n)%nat -> d i = e i).
Proof.
  intros n d e k K E. destruct (C59_cowan_distance_partial n d e E) as [C0 C1]. pose proof (C59_cowan_value_partial chi2_pval n d e (Z.of_nat k) E) as V.
  cbv zeta in *. set (c := 2 * sumn n _) in *. destruct (C101_probability k c K C0) as (p & P & _ & B & I1).
  exists c, p. split; [|split; [exact B|rewrite I1; exact C1]]. rewrite V, P. rewrite <- INR_IZR_INZ. pose proof (INR_pos k K).
  unfold xdiv. destruct (Reqb_spec (INR k) 0); [lra|reflexivity].
Qed.
Print Assumptions C101_cowan_partial.
(** Without a degree of freedom (as many free parameters as bins) there is no p-value: nan. *)
Theorem C101_no_dof : forall c dof, (dof <= 0)%Z -> chi2_pval (Fin c) dof = NaN.
Proof. intros c dof H. unfold chi2_pval. destruct (Z.leb_spec dof 0); [reflexivity|lia]. Qed.
Print Assumptions C101_no_dof.

(** two bins, two degrees of freedom: p = exp(-chi2 / 2) *)
Example ex_C101 : exists p, pearson_chi2_test chi2_pval (vec_of 2 (fun i => nth i [3; 5] 0)) (vec_of 2 (fun i => nth i [4; 5] 0)) 2
  = Ok (Fin (1 / 4), Fin (1 / 8), Fin p) /\ p = exp (- (1 / 8)).
Proof.
  rewrite C58_pearson_value by (intros [|[|i]] H; simpl; lra || lia). cbv zeta.
  assert (S : sumn 2 (fun i => (nth i [3; 5] 0 - nth i [4; 5] 0) ^ 2 / nth i [4; 5] 0) = 1 / 4) by (simpl; field).
  rewrite S. change 2%Z with (Z.of_nat (2 * 1)). rewrite C101_even by lra. eexists. split; [|].
  - f_equal. f_equal. f_equal. unfold xdiv. change (IZR (Z.of_nat (2 * 1))) with 2. destruct (Reqb_spec 2 0); [lra|]. f_equal. field.
  - simpl. replace (- (1 / 4) / 2) with (- (1 / 8)) by field. field.
Qed.
