(** Error bounds for the values of templates. *)
From Coq Require Import Reals ZArith Bool Arith List Permutation Lra Lia.
From Flocq Require Import Core.
From Verif Require Import Model_Num Model_Hist Model_Float Model_FloatTmpl Spec_Hist Spec_Float Proof_Hist Proof_Float Proof_Float2 Proof_Float3.
Import ListNotations.
Local Open Scope R_scope.
Local Notation b2 := (bpow radix2).

Lemma Rsuml_app a b : Rsuml (a ++ b) = Rsuml a + Rsuml b.
Proof. induction a as [|x a IH]; cbn; [ring|]. rewrite IH. ring. Qed.
Lemma Rsuml_abs l : Rabs (Rsuml l) <= Rsuml (map Rabs l).
Proof. induction l as [|x l IH]; cbn; [rewrite Rabs_R0; lra|]. eapply Rle_trans; [apply Rabs_triang|lra]. Qed.
Lemma fadd_0_r x : double x -> fadd x 0 = x.
Proof. intros D. unfold fadd. rewrite Rplus_0_r. now apply fl_id. Qed.
Lemma fadd_0_l x : double x -> fadd 0 x = x.
Proof. intros D. unfold fadd. rewrite Rplus_0_l. now apply fl_id. Qed.

Lemma sum_nil_inv l s : sum_fl l s -> l = [] -> s = 0.
Proof.
  intros H. induction H as [|x|l1 l2 s1 s2 H1 IH1 H2 IH2|l1 l2 s P H IH]; intros E; [reflexivity|discriminate| |].
  - apply app_eq_nil in E as (E1 & E2). rewrite IH1, IH2 by assumption. unfold fadd. rewrite Rplus_0_l. apply fl_0.
  - subst. apply Permutation_sym, Permutation_nil in P. auto.
Qed.
Lemma sum_near l s : sum_fl l s -> Forall double l -> INR (length l) * (2 * u) <= 1 -> near (length l) (Rsuml (map Rabs l)) s (Rsuml l).
Proof.
  intros H. pose proof u_pos as U. induction H as [|x|l1 l2 s1 s2 H1 IH1 H2 IH2|l1 l2 s P H IH]; intros D K.
  - cbn. apply near_exact; [apply double_0|rewrite Rabs_R0; lra].
  - inversion D; subst. cbn [length map Rsuml]. rewrite !Rplus_0_r. apply (near_more 0); [|lia]. apply near_exact; [assumption|lra].
  - apply Forall_app in D as (D1 & D2). rewrite app_length in *. rewrite plus_INR in K.
    assert (K1 : INR (length l1) * (2 * u) <= 1) by (pose proof (pos_INR (length l2)); nra).
    assert (K2 : INR (length l2) * (2 * u) <= 1) by (pose proof (pos_INR (length l1)); nra).
    specialize (IH1 D1 K1). specialize (IH2 D2 K2). rewrite map_app, !Rsuml_app.
    destruct l1 as [|a l1]; [|destruct l2 as [|b l2]].
    + rewrite (sum_nil_inv _ _ H1 eq_refl). cbn [length map Rsuml Nat.add app]. rewrite !Rplus_0_l. rewrite fadd_0_l by apply IH2. exact IH2.
    + rewrite (sum_nil_inv _ _ H2 eq_refl). change (length (@nil R)) with 0%nat. change (Rsuml (map Rabs [])) with 0. change (Rsuml []) with 0.
      rewrite !Rplus_0_r, Nat.add_0_r. rewrite fadd_0_r by apply IH1. exact IH1.
    + eapply near_add; [exact IH1|exact IH2| | |rewrite plus_INR; exact K]; cbn [length]; lia.
  - rewrite <- (Permutation_length P), <- (Rsuml_perm _ _ P), <- (Rsuml_perm _ _ (Permutation_map Rabs P)). apply IH.
    + eapply Permutation_Forall; [apply Permutation_sym, P|exact D].
    + rewrite (Permutation_length P). exact K.
Qed.
Lemma abs_id l : Forall (fun x => 0 <= x) l -> map Rabs l = l.
Proof. induction 1; cbn; [reflexivity|]. rewrite IHForall, Rabs_right by lra. reflexivity. Qed.
Lemma Rsuml_nonneg l : Forall (fun x => 0 <= x) l -> 0 <= Rsuml l.
Proof. induction 1; cbn; lra. Qed.
Lemma sum_rel l s : sum_fl l s -> Forall double l -> Forall (fun x => 0 <= x) l -> INR (length l) * (2 * u) <= 1 ->
  Rsuml l * (1 - INR (length l) * (2 * u)) <= s <= Rsuml l * (1 + INR (length l) * (2 * u)).
Proof. intros H D N K. destruct (sum_near l s H D K) as (_ & _ & E). rewrite (abs_id l N) in E. apply Rabs_def2b in E. lra. Qed.

(** one value *)
Lemma one_value y p s P a : 0 < P -> 0 <= a <= /8 -> P * (1 - a) <= s <= P * (1 + a) -> 0 <= p -> 0 <= y ->
  (p = 0 \/ (b2 (-1022) <= p / s /\ b2 (-1021) <= y * (p / s))) ->
  y * (p / P) * (1 - (2 * a + 4 * u)) <= fmul y (fdiv p s) <= y * (p / P) * (1 + (2 * a + 4 * u)).
Proof.
  intros HP A S Hp Hy C. pose proof u_pos as U. pose proof u_small as US.
  assert (S0 : 0 < s) by nra.
  destruct C as [-> |(C1 & C2)].
  - unfold fmul, fdiv. replace (0 / s) with 0 by (field; lra). rewrite fl_0, Rmult_0_r, fl_0. replace (y * (0 / P)) with 0 by (field; lra). lra.
  - unfold fmul, fdiv. pose proof (bpow_gt_0 radix2 (-1022)) as B. pose proof (bpow_gt_0 radix2 (-1021)) as B'.
    destruct (fl_rel (p / s)) as (d & D & ->); [rewrite Rabs_pos_eq; lra|]. apply Rabs_def2b in D.
    assert (B2 : b2 (-1022) * 2 = b2 (-1021)). { change (-1021)%Z with (1 + -1022)%Z. rewrite bpow_plus. change (b2 1) with 2. ring. }
    destruct (fl_rel (y * (p / s * (1 + d)))) as (d' & D' & ->).
    { rewrite Rabs_pos_eq by nra. replace (y * (p / s * (1 + d))) with (y * (p / s) * (1 + d)) by ring. nra. }
    apply Rabs_def2b in D'.
    set (q := y * (p / P)). replace (y * (p / s * (1 + d)) * (1 + d')) with (q * ((P / s) * ((1 + d) * (1 + d')))) by (unfold q; field; lra).
    assert (Q : 0 <= q). { unfold q. apply Rmult_le_pos; [exact Hy|]. apply Rmult_le_pos; [exact Hp|]. apply Rlt_le, Rinv_0_lt_compat. exact HP. }
    assert (R1 : 1 - a <= P / s <= 1 + 8 / 7 * a).
    { split; apply (Rmult_le_reg_r s); try exact S0; unfold Rdiv; rewrite Rmult_assoc, Rinv_l by lra; nra. }
    assert (R2 : 1 - 2 * u <= (1 + d) * (1 + d') <= 1 + 3 * u) by nra.
    assert (R3 : (1 - a) * (1 - 2 * u) <= P / s * ((1 + d) * (1 + d')) <= (1 + 8 / 7 * a) * (1 + 3 * u)) by (split; apply Rmult_le_compat; lra).
    split; apply Rmult_le_compat_l; try exact Q; nra.
Qed.

Lemma sized_nonneg l : sized l -> Forall (fun x => 0 <= x) l.
Proof. intros (H & _). revert H. apply Forall_impl. intros x [-> |H]; [lra|]. pose proof (bpow_gt_0 radix2 (-300)). lra. Qed.
Lemma per_bin_double counts rel nui : Forall double (per_bin_fl counts rel nui).
Proof. revert rel nui. induction counts as [|c counts IH]; intros [|r rel] [|t nui]; cbn; constructor; [apply fl_double|apply IH]. Qed.
Lemma bp a b c : (a + b = c)%Z -> b2 a * b2 b = b2 c.
Proof. intros <-. symmetry. apply bpow_plus. Qed.
Lemma n_small n : INR n * b2 (-49) <= 1 -> 0 <= INR n * (2 * u) <= /8.
Proof.
  intros H. assert (E : b2 (-49) = 16 * u). { unfold u. change (-49)%Z with (4 + -53)%Z. rewrite bpow_plus. reflexivity. } rewrite E in H. pose proof (pos_INR n). pose proof u_pos. split; nra.
Qed.
Lemma scaled_near y s p : Forall double p -> sized p -> 0 < Rsuml p -> b2 (-301) <= y -> sum_fl p s -> INR (length p) * b2 (-49) <= 1 ->
  let e := (INR (length p) + 1) * (4 * u) in
  forall x, In x p -> y * (x / Rsuml p) * (1 - e) <= fmul y (fdiv x s) <= y * (x / Rsuml p) * (1 + e).
Proof.
  intros D Z P Y H K e x I. pose proof (n_small _ K) as K'. pose proof (sized_nonneg p Z) as N.
  pose proof (sum_rel p s H D N ltac:(lra)) as S. set (a := INR (length p) * (2 * u)) in *.
  pose proof (bpow_gt_0 radix2 (-301)) as B0. assert (XN : 0 <= x) by (eapply Forall_forall in N; eauto).
  replace e with (2 * a + 4 * u) by (unfold e, a; ring). apply one_value; try assumption; try lra.
  destruct Z as (Z & Z2). eapply Forall_forall in Z; [|exact I]. destruct Z as [-> |Z]; [now left|right].
  assert (S2 : 0 < s <= b2 301). { split; [nra|]. rewrite <- (bp 1 300 301 eq_refl). change (b2 1) with 2. nra. }
  assert (Q : b2 (-601) <= x / s).
  { apply (Rmult_le_reg_r s); [lra|]. unfold Rdiv. rewrite Rmult_assoc, Rinv_l, Rmult_1_r by lra.
    apply Rle_trans with (b2 (-601) * b2 301); [apply Rmult_le_compat_l; [apply bpow_ge_0|lra]|]. rewrite (bp (-601) 301 (-300) eq_refl). exact Z. }
  split; [eapply Rle_trans; [|exact Q]; apply bpow_le; lia|].
  apply Rle_trans with (b2 (-301) * b2 (-601)); [rewrite (bp (-301) (-601) (-902) eq_refl); apply bpow_le; lia|].
  apply Rmult_le_compat; try apply bpow_ge_0; [exact Y|exact Q].
Qed.
Lemma near_total y q e (f : R -> R) l : 0 < q -> (forall x, In x l -> y * (x / q) * (1 - e) <= f x <= y * (x / q) * (1 + e)) ->
  y * (Rsuml l / q) * (1 - e) <= Rsuml (map f l) <= y * (Rsuml l / q) * (1 + e).
Proof.
  intros Q. induction l as [|x l IH]; intros H; cbn [map Rsuml].
  - replace (0 / q) with 0 by (field; lra). lra.
  - specialize (IH (fun z I => H z (or_intror I))). specialize (H x (or_introl eq_refl)).
    replace ((x + Rsuml l) / q) with (x / q + Rsuml l / q) by (field; lra). lra.
Qed.
Lemma e50 n : (INR n + 1) * b2 (-50) = (INR n + 1) * (8 * u).
Proof. unfold u. change (-50)%Z with (3 + -53)%Z. rewrite bpow_plus. reflexivity. Qed.
Lemma e51 n : (INR n + 1) * b2 (-51) = (INR n + 1) * (4 * u).
Proof. unfold u. change (-51)%Z with (2 + -53)%Z. rewrite bpow_plus. reflexivity. Qed.

Theorem total_near y counts rel nui vs t : let p := per_bin_fl counts rel nui in let n := length p in
  sized p -> 0 < Rsuml p -> b2 (-300) <= y <= b2 300 -> INR n * b2 (-49) <= 1 -> values_fl y counts rel nui vs -> sum_fl vs t ->
  Rabs (t - y) <= (INR n + 1) * b2 (-50) * y.
Proof.
  intros p n Z P Y K (s & H & ->) T. fold p in H, T. assert (Y' : b2 (-301) <= y) by (assert (b2 (-301) <= b2 (-300)) by (apply bpow_le; lia); lra).
  pose proof (scaled_near y s p (per_bin_double _ _ _) Z P Y' H K) as E. cbv zeta in E. fold n in E.
  set (e := (INR n + 1) * (4 * u)) in E. apply near_total in E; [|exact P]. replace (Rsuml p / Rsuml p) with 1 in E by (field; lra). rewrite Rmult_1_r in E.
  fold (scaled_fl y s p) in E. pose proof (n_small _ K) as K'. fold n in K'. pose proof u_pos. pose proof u_small. pose proof (pos_INR n). pose proof (bpow_gt_0 radix2 (-300)).
  assert (L : length (scaled_fl y s p) = n) by (unfold scaled_fl; now rewrite map_length).
  assert (D : Forall double (scaled_fl y s p)).
  { unfold scaled_fl. apply Forall_forall. intros v I. apply in_map_iff in I as (x & <- & _). apply fl_double. }
  assert (N : Forall (fun v => 0 <= v) (scaled_fl y s p)).
  { unfold scaled_fl. apply Forall_forall. intros v I. apply in_map_iff in I as (x & <- & I).
    pose proof (scaled_near y s p (per_bin_double _ _ _) Z P Y' H K x I) as E'. cbv zeta in E'. fold n e in E'.
    assert (X : 0 <= x) by (pose proof (sized_nonneg p Z) as NN; eapply Forall_forall in NN; eauto).
    assert (0 <= x / Rsuml p) by (apply Rmult_le_pos; [exact X|apply Rlt_le, Rinv_0_lt_compat; exact P]).
    assert (0 <= y * (x / Rsuml p)) by (apply Rmult_le_pos; lra). assert (e <= 1/2) by (unfold e; lra). nra. }
  pose proof (sum_rel _ _ T D N ltac:(rewrite L; lra)) as S. rewrite L in S. rewrite e50. set (a := INR n * (2 * u)) in *.
  replace ((INR n + 1) * (8 * u)) with (4 * a + 8 * u) by (unfold a; ring). replace e with (2 * a + 4 * u) in E by (unfold e, a; ring).
  set (V := Rsuml (scaled_fl y s p)) in *. clearbody V a. clear - S E Y H2 K' H0 H1 H3. apply Rabs_le.
  assert (VP : 0 <= V) by nra.
  assert (U1 : t <= y * (1 + (2 * a + 4 * u)) * (1 + a)) by nra.
  assert (L1 : y * (1 - (2 * a + 4 * u)) * (1 - a) <= t) by nra.
  assert (y * ((1 + (2 * a + 4 * u)) * (1 + a)) <= y * (1 + (4 * a + 8 * u))) by (apply Rmult_le_compat_l; nra).
  assert (y * (1 - (4 * a + 8 * u)) <= y * ((1 - (2 * a + 4 * u)) * (1 - a))) by (apply Rmult_le_compat_l; nra).
  split; lra.
Qed.

Theorem values_near y counts rel nui vs : let p := per_bin_fl counts rel nui in let n := length p in
  sized p -> 0 < Rsuml p -> b2 (-300) <= y <= b2 300 -> INR n * b2 (-49) <= 1 -> values_fl y counts rel nui vs ->
  length vs = n /\ forall i, (i < n)%nat -> Rabs (nth i vs 0 - y * (nth i p 0 / Rsuml p)) <= (INR n + 1) * b2 (-51) * (y * (nth i p 0 / Rsuml p)).
Proof.
  intros p n Z P Y K (s & H & ->). fold p in H |- *. assert (Y' : b2 (-301) <= y) by (assert (b2 (-301) <= b2 (-300)) by (apply bpow_le; lia); lra).
  split; [unfold scaled_fl; now rewrite map_length|]. intros i I. pose proof (scaled_near y s p (per_bin_double _ _ _) Z P Y' H K (nth i p 0) (nth_In _ _ I)) as E. cbv zeta in E. fold n in E.
  unfold scaled_fl. rewrite (nth_indep _ 0 (fmul y (fdiv 0 s))) by (rewrite map_length; exact I). rewrite (map_nth (fun x => fmul y (fdiv x s))). rewrite e51. apply Rabs_le. lra.
Qed.
Lemma per_bin_new counts rel : Forall double counts -> length rel = length counts -> per_bin_fl counts rel (repeat 0 (length counts)) = counts.
Proof.
  revert rel. induction counts as [|c counts IH]; intros [|r rel] D L; try discriminate; [reflexivity|]. inversion D; subst. cbn. f_equal.
  - unfold fmul, fadd. rewrite Rmult_0_l, fl_0, Rplus_0_r. rewrite (fl_id 1) by (exists 1%Z, 0%Z; split; [cbn; lra|split; lia]). rewrite Rmult_1_r. now apply fl_id.
  - apply IH; [assumption|]. now injection L.
Qed.
Theorem new_near counts rel vs : let n := length counts in Forall double counts -> sized counts -> 0 < Rsuml counts -> length rel = n ->
  INR n * b2 (-49) <= 1 -> new_values_fl counts rel vs ->
  length vs = n /\ forall i, (i < n)%nat -> Rabs (nth i vs 0 - nth i counts 0) <= (INR n + 1) * b2 (-50) * nth i counts 0.
Proof.
  intros n D Z P L K (y & HY & s & H & ->). rewrite (per_bin_new counts rel D L) in *. split; [unfold scaled_fl; now rewrite map_length|]. intros i I.
  pose proof (n_small _ K) as K'. fold n in K'. pose proof u_pos as U. pose proof u_small. pose proof (sized_nonneg _ Z) as N.
  pose proof (sum_rel counts y HY D N ltac:(fold n; lra)) as SY. fold n in SY.
  assert (B : b2 (-301) <= y).
  { assert (Q : b2 (-300) <= Rsuml counts).
    { destruct Z as (Z & _). clear - Z P. induction Z as [|c l C Z IH]; cbn in *; [lra|]. assert (0 <= Rsuml l).
      { apply Rsuml_nonneg. revert Z. apply Forall_impl. intros x [-> |X]; [lra|]. pose proof (bpow_gt_0 radix2 (-300)). lra. }
      destruct C as [-> |C]; [|lra]. specialize (IH ltac:(lra)). lra. }
    rewrite <- (bp 1 (-301) (-300) eq_refl) in Q. change (b2 1) with 2 in Q. pose proof (bpow_gt_0 radix2 (-301)). nra. }
  pose proof (scaled_near y s counts D Z P B H K (nth i counts 0) (nth_In _ _ I)) as E. cbv zeta in E. fold n in E.
  unfold scaled_fl. rewrite (nth_indep _ 0 (fmul y (fdiv 0 s))) by (rewrite map_length; exact I). rewrite (map_nth (fun x => fmul y (fdiv x s))). rewrite e50.
  set (c := nth i counts 0) in *. assert (C : 0 <= c) by (apply (proj1 (Forall_forall _ _) N); apply nth_In; exact I).
  set (v := fmul y (fdiv c s)) in *. set (T := Rsuml counts) in *. set (a := INR n * (2 * u)) in *.
  replace ((INR n + 1) * (8 * u)) with (4 * a + 8 * u) by (unfold a; ring). replace ((INR n + 1) * (4 * u)) with (2 * a + 4 * u) in E by (unfold a; ring).
  set (z := y / T). replace (y * (c / T)) with (c * z) in E by (unfold z; field; lra).
  assert (Zb : 1 - a <= z <= 1 + a). { unfold z. split; apply (Rmult_le_reg_r T); try exact P; unfold Rdiv; rewrite Rmult_assoc, Rinv_l by lra; lra. }
  clearbody v z a c. clear - E Zb C K' U H0. apply Rabs_le.
  assert (c * (z * (1 + (2 * a + 4 * u))) <= c * (1 + (4 * a + 8 * u))) by (apply Rmult_le_compat_l; nra).
  assert (c * (1 - (4 * a + 8 * u)) <= c * (z * (1 - (2 * a + 4 * u)))) by (apply Rmult_le_compat_l; nra).
  split; lra.
Qed.
Theorem new_near_exact e counts rel vs : let n := length counts in (-300 <= e <= 200)%Z -> (forall c, In c counts -> 0 <= c /\ multiple e c) ->
  0 < Rsuml counts <= b2 (53 + e) -> length rel = n -> new_values_fl counts rel vs ->
  length vs = n /\ forall i, (i < n)%nat -> Rabs (nth i vs 0 - nth i counts 0) <= b2 (-51) * nth i counts 0.
Proof.
  intros n E M (P & B) L (y & HY & s & H & ->).
  assert (N : Forall (fun x => 0 <= x) counts) by (apply Forall_forall; intros x I; apply M; exact I).
  assert (AB : Rsuml (map Rabs counts) <= b2 (53 + e)) by (rewrite (abs_id _ N); exact B).
  assert (LE : forall c, In c counts -> c <= Rsuml counts).
  { clear - N. intros c I. induction N as [|x l X N IH]; [destruct I|]. cbn. pose proof (Rsuml_nonneg l N). destruct I as [-> |I]; [lra|]. specialize (IH I). lra. }
  assert (D : Forall double counts).
  { apply Forall_forall. intros c I. apply (multiple_double e); [lia|apply M; exact I|]. rewrite Rabs_pos_eq by (apply M; exact I). specialize (LE c I). lra. }
  rewrite (per_bin_new counts rel D L) in *.
  rewrite (sum_exact e counts y ltac:(lia) HY (fun x I => proj2 (M x I)) AB), (sum_exact e counts s ltac:(lia) H (fun x I => proj2 (M x I)) AB). clear y s HY H.
  split; [unfold scaled_fl; now rewrite map_length|]. intros i I. set (T := Rsuml counts) in *.
  unfold scaled_fl. rewrite (nth_indep _ 0 (fmul T (fdiv 0 T))) by (rewrite map_length; exact I). rewrite (map_nth (fun x => fmul T (fdiv x T))).
  set (c := nth i counts 0). assert (CI : In c counts) by (apply nth_In; exact I). pose proof (LE c CI) as CL. destruct (M c CI) as (C0 & (k & CM)).
  pose proof u_pos. pose proof (one_value T c T T 0 P ltac:(lra) ltac:(lra) C0 ltac:(lra)) as V.
  assert (E51 : b2 (-51) = 4 * u) by (unfold u; change (-51)%Z with (2 + -53)%Z; rewrite bpow_plus; reflexivity). rewrite E51.
  replace (T * (c / T)) with c in V by (field; lra). rewrite Rmult_0_r, Rplus_0_l in V. apply Rabs_le.
  enough (Q : c = 0 \/ b2 (-1022) <= c / T /\ b2 (-1021) <= c) by (specialize (V Q); lra).
  destruct (Req_EM_T c 0) as [Z|Z]; [now left|right]. assert (CE : b2 e <= c).
  { rewrite CM in C0, Z |- *. pose proof (bpow_gt_0 radix2 e). assert (1 <= IZR k); [|nra]. apply IZR_le. destruct (Z_le_gt_dec 1 k) as [|G]; [assumption|exfalso].
    assert (IZR k <= 0) by (apply IZR_le; lia). assert (IZR k = 0) by nra. rewrite H2 in Z. lra. }
  split; [|eapply Rle_trans; [|exact CE]; apply bpow_le; lia].
  apply Rle_trans with (b2 (-53)); [apply bpow_le; lia|]. apply (Rmult_le_reg_r T); [exact P|]. unfold Rdiv. rewrite Rmult_assoc, Rinv_l, Rmult_1_r by lra.
  apply Rle_trans with (b2 (-53) * b2 (53 + e)); [apply Rmult_le_compat_l; [apply bpow_ge_0|exact B]|]. rewrite (bp (-53) (53 + e) e) by lia. exact CE.
Qed.
