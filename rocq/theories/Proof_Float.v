(** Lemmas about double precision. *)
From Coq Require Import Reals ZArith Bool Arith List Permutation Lra Lia.
From Flocq Require Import Core Relative.
From Verif Require Import Model_Num Model_Hist Model_Float Spec_Hist Spec_Float Proof_Hist.
Import ListNotations.
Local Open Scope R_scope.

Notation fmt := (generic_format radix2 (FLT_exp (-1074) 53)).
Notation b2 := (bpow radix2).
#[global] Instance prec53 : Prec_gt_0 53. Proof. reflexivity. Qed.
#[global] Instance vexp : Valid_exp (FLT_exp (-1074) 53). Proof. apply FLT_exp_valid. exact prec53. Qed.

Lemma double_fmt x : double x <-> fmt x.
Proof.
  split.
  - intros (k & e & -> & K & E). apply generic_format_FLT. exists (Float radix2 k e); [reflexivity|exact K|exact E].
  - intros H. apply FLT_format_generic in H; [|typeclasses eauto]. destruct H as [[k e] H K E]. exists k, e. auto.
Qed.
Lemma fl_id x : double x -> fl x = x.
Proof. intros H. apply round_generic; [typeclasses eauto|]. now apply double_fmt. Qed.
Lemma fl_double x : double (fl x).
Proof. apply double_fmt. apply generic_format_round; typeclasses eauto. Qed.
Lemma fl_mono x y : x <= y -> fl x <= fl y.
Proof. apply round_le; typeclasses eauto. Qed.
Lemma fl_0 : fl 0 = 0.
Proof. apply round_0. typeclasses eauto. Qed.

Lemma multiple_add e x y : multiple e x -> multiple e y -> multiple e (x + y).
Proof. intros (a & ->) (b & ->). exists (a + b)%Z. rewrite plus_IZR. ring. Qed.
Lemma multiple_0 e : multiple e 0.
Proof. exists 0%Z. ring. Qed.
Lemma multiple_sq e x : multiple e x -> multiple (2 * e) (x * x).
Proof. intros (a & ->). exists (a * a)%Z. rewrite mult_IZR. replace (2 * e)%Z with (e + e)%Z by lia. rewrite bpow_plus. ring. Qed.
Lemma bpow53 : b2 53 = IZR (2 ^ 53).
Proof. reflexivity. Qed.
Lemma multiple_double e x : (-1074 <= e)%Z -> multiple e x -> Rabs x <= b2 (53 + e) -> double x.
Proof.
  intros E (k & ->) H. rewrite Rabs_mult, (Rabs_right (b2 e)) in H by (apply Rle_ge, bpow_ge_0).
  rewrite bpow_plus in H. apply Rmult_le_reg_r in H; [|apply bpow_gt_0]. rewrite <- abs_IZR, bpow53 in H. apply le_IZR in H.
  destruct (Z.eq_dec (Z.abs k) (2 ^ 53)) as [Q|Q].
  - assert (D : k = (2 ^ 53)%Z \/ k = (- 2 ^ 53)%Z) by lia.
    destruct D as [-> | ->].
    + exists 1%Z, (53 + e)%Z. split; [rewrite bpow_plus, bpow53; ring|]. split; lia.
    + exists (-1)%Z, (53 + e)%Z. split; [rewrite bpow_plus, bpow53, opp_IZR; ring|]. split; lia.
  - exists k, e. split; [reflexivity|]. split; [lia|exact E].
Qed.
Lemma fadd_exact e x y : (-1074 <= e)%Z -> multiple e x -> multiple e y -> Rabs (x + y) <= b2 (53 + e) -> fadd x y = x + y.
Proof. intros E X Y H. apply fl_id. apply (multiple_double e); auto. now apply multiple_add. Qed.

(** sums of absolute values *)
Definition asum {A} (l : list (A * R)) : R := Rsuml (map (fun p => Rabs (snd p)) l).
Lemma asum_app {A} (a b : list (A * R)) : asum (a ++ b) = asum a + asum b.
Proof. unfold asum. now rewrite map_app, Rsuml_app. Qed.
Lemma asum_pos {A} (l : list (A * R)) : 0 <= asum l.
Proof. unfold asum. induction l as [|p l IH]; simpl; [lra|]. pose proof (Rabs_pos (snd p)). lra. Qed.
Lemma wsumf_asum {A} (p : A -> bool) l : Rabs (wsumf p l) <= asum l.
Proof.
  unfold wsumf, asum. induction l as [|q l IH]; simpl; [rewrite Rabs_R0; lra|].
  eapply Rle_trans; [apply Rabs_triang|]. destruct (p (fst q)); [lra|]. rewrite Rabs_R0. pose proof (Rabs_pos (snd q)). lra.
Qed.
Definition all_multiple {A} e (l : list (A * R)) : Prop := forall x w, In (x, w) l -> multiple e w.
Lemma wsumf_multiple {A} (p : A -> bool) e l : all_multiple e l -> multiple e (wsumf p l).
Proof.
  unfold wsumf. induction l as [|[x w] l IH]; intros H; simpl; [apply multiple_0|]. apply multiple_add.
  - destruct (p x); [|apply multiple_0]. apply (H x). now left.
  - apply IH. intros y v I. apply (H y). now right.
Qed.
Lemma fold_exact {A} (p : A -> bool) e : (-1074 <= e)%Z -> forall l acc, multiple e acc -> all_multiple e l ->
  Rabs acc + asum l <= b2 (53 + e) ->
  fold_left (fun a (q : A * R) => if p (fst q) then fadd a (snd q) else a) l acc = acc + wsumf p l.
Proof.
  intros E. induction l as [|[x w] l IH]; intros acc M ML B; cbn [fold_left]; unfold wsumf; cbn [map Rsuml]; [lra|].
  change (asum ((x, w) :: l)) with (Rabs w + asum l) in B. cbn [fst snd]. pose proof (asum_pos l). pose proof (Rabs_pos w).
  assert (Mw : multiple e w) by (apply (ML x); now left).
  destruct (p x).
  - pose proof (Rabs_triang acc w). rewrite (fadd_exact e); auto; [|lra]. rewrite IH; [unfold wsumf; lra|now apply multiple_add| |lra].
    intros y v I. apply (ML y). now right.
  - rewrite IH; [unfold wsumf; lra|exact M| |lra]. intros y v I. apply (ML y). now right.
Qed.
Lemma bincount_exact b es xs ws e : (-1074 <= e)%Z -> all_multiple e (combine xs ws) -> asum (combine xs ws) <= b2 (53 + e) ->
  bincount_fl b (map (fun x => bin_number x es) xs) ws = wsumf (fun x => Nat.eqb (bin_number x es) b) (combine xs ws).
Proof.
  intros E M B. unfold bincount_fl.
  rewrite <- (Rplus_0_l (wsumf _ _)), <- (fold_exact (fun x => Nat.eqb (bin_number x es) b) e E (combine xs ws) 0).
  - generalize 0. clear. revert ws. induction xs as [|x xs IH]; intros [|w ws] a; simpl; try reflexivity. apply IH.
  - apply multiple_0.
  - exact M.
  - rewrite Rabs_R0. lra.
Qed.

(** one array of sums after a number of batches *)
Definition batches (es : list R) (l : list (list R * list R)) (c : list R) : list R :=
  fold_left (fun c f => map2 fadd c (binned_fl es (fst f) (snd f))) l c.
Lemma batches_exact es e : (-1074 <= e)%Z -> forall l (ev : list (R * R)), all_multiple e ev -> all_multiple e (events_of l) ->
  asum ev + asum (events_of l) <= b2 (53 + e) ->
  batches es l (map (fun p => wsumf p ev) (cells1 es)) = map (fun p => wsumf p (ev ++ events_of l)) (cells1 es).
Proof.
  intros E. induction l as [|[xs ws] l IH]; intros ev M ML B.
  - cbn. rewrite app_nil_r. reflexivity.
  - change (batches es ((xs, ws) :: l) (map (fun p => wsumf p ev) (cells1 es))) with (batches es l (map2 fadd (map (fun p => wsumf p ev) (cells1 es)) (binned_fl es xs ws))).
    change (events_of ((xs, ws) :: l)) with (combine xs ws ++ events_of l) in *. rewrite asum_app in B.
    pose proof (asum_pos ev). pose proof (asum_pos (combine xs ws)). pose proof (asum_pos (events_of l)).
    assert (M1 : all_multiple e (combine xs ws)) by (intros x w I; apply (ML x); apply in_or_app; now left).
    assert (M2 : all_multiple e (events_of l)) by (intros x w I; apply (ML x); apply in_or_app; now right).
    replace (map2 fadd (map (fun p => wsumf p ev) (cells1 es)) (binned_fl es xs ws)) with (map (fun p => wsumf p (ev ++ combine xs ws)) (cells1 es)).
    + rewrite IH.
      * rewrite <- app_assoc. reflexivity.
      * intros x w I. apply in_app_or in I as [I|I]; [now apply (M x)|now apply (M1 x)].
      * exact M2.
      * rewrite asum_app. lra.
    + unfold binned_fl, cells1. rewrite !map_map. induction (seq 1 (length es - 1)) as [|b bs IHb]; [reflexivity|]. cbn [map map2]. f_equal; [|exact IHb].
      rewrite wsumf_app. rewrite (bincount_exact b es xs ws e); auto; [|lra]. symmetry. apply (fadd_exact e); auto.
      * now apply wsumf_multiple.
      * now apply wsumf_multiple.
      * eapply Rle_trans; [apply Rabs_triang|].
        pose proof (wsumf_asum (fun x => Nat.eqb (bin_number x es) b) ev). pose proof (wsumf_asum (fun x => Nat.eqb (bin_number x es) b) (combine xs ws)). lra.
Qed.
Definition sq_batch (l : list (list R * list R)) : list (list R * list R) := map (fun f => (fst f, map (fun w => fmul w w) (snd f))) l.
Lemma fills_batches es l : fills_fl es l = (batches es l (repeat 0 (length es - 1)), batches es (sq_batch l) (repeat 0 (length es - 1))).
Proof.
  unfold fills_fl, batches, sq_batch. generalize (repeat 0 (length es - 1)) at 1 3. generalize (repeat 0 (length es - 1)).
  induction l as [|[xs ws] l IH]; intros a b; cbn [fold_left map fst snd]; [reflexivity|]. unfold fill_fl at 2. cbn [fst snd]. apply IH.
Qed.
Lemma zeros_cells es : repeat 0 (length es - 1) = map (fun p => wsumf p ([] : list (R * R))) (cells1 es).
Proof.
  unfold cells1. rewrite map_map. unfold wsumf. cbn [map Rsuml]. generalize (length es - 1)%nat. intros n. generalize 1%nat. induction n as [|n IH]; intros s; cbn; [reflexivity|]. f_equal. apply IH.
Qed.

(** squares *)
Lemma sq_ge e w : multiple e w -> Rabs w * b2 e <= w * w.
Proof.
  intros (k & ->). rewrite Rabs_mult, (Rabs_right (b2 e)) by (apply Rle_ge, bpow_ge_0).
  replace (Rabs (IZR k) * b2 e * b2 e) with (Rabs (IZR k) * (b2 e * b2 e)) by ring.
  replace (IZR k * b2 e * (IZR k * b2 e)) with (IZR k * IZR k * (b2 e * b2 e)) by ring.
  apply Rmult_le_compat_r; [apply Rmult_le_pos; apply bpow_ge_0|]. rewrite <- abs_IZR, <- mult_IZR. apply IZR_le. nia.
Qed.
Lemma squared_asum {A} (ev : list (A * R)) q : wsum everything (squared ev) q -> asum (squared ev) = q.
Proof.
  intros H. assert (G : wsum everything (squared ev) (wsumf (fun _ => true) (squared ev))) by (apply wsumf_wsum; intros; constructor; exact I).
  rewrite (wsum_unique _ _ _ _ H G). unfold asum, wsumf. f_equal. unfold squared. rewrite !map_map. apply map_ext. intros [x w]. cbn.
  apply Rabs_right. apply Rle_ge. nra.
Qed.
Lemma asum_sq {A} (ev : list (A * R)) e : all_multiple e ev -> asum ev * b2 e <= asum (squared ev).
Proof.
  unfold asum, squared. induction ev as [|[x w] ev IH]; intros M; simpl; [lra|].
  assert (Mw : multiple e w) by (apply (M x); now left). pose proof (sq_ge e w Mw).
  assert (IH' := IH ltac:(intros y v I; apply (M y); now right)). rewrite (Rabs_right (w * w)) by nra. lra.
Qed.
Lemma in_asum {A} (ev : list (A * R)) x w : In (x, w) ev -> Rabs w <= asum ev.
Proof.
  unfold asum. induction ev as [|[y v] ev IH]; simpl; [tauto|]. intros [I|I].
  - injection I as -> ->. pose proof (asum_pos ev). unfold asum in *. lra.
  - specialize (IH I). pose proof (Rabs_pos v). lra.
Qed.
Lemma combine_map_r {A} (f : R -> R) (xs : list A) ws : combine xs (map f ws) = map (fun p => (fst p, f (snd p))) (combine xs ws).
Proof. revert ws. induction xs as [|x xs IH]; intros [|w ws]; simpl; try reflexivity. f_equal. apply IH. Qed.
Lemma events_sq l e : (-537 <= e)%Z -> all_multiple e (events_of l) -> asum (squared (events_of l)) <= b2 (53 + 2 * e) ->
  events_of (sq_batch l) = squared (events_of l).
Proof.
  intros E M B. assert (G : events_of (sq_batch l) = map (fun p => (fst p, fmul (snd p) (snd p))) (events_of l)).
  { unfold events_of, sq_batch. clear. induction l as [|[xs ws] l IH]; [reflexivity|]. cbn. rewrite IH, combine_map_r, map_app. reflexivity. }
  rewrite G. unfold squared. apply map_ext_in. intros [x w] I. cbn. f_equal. apply fl_id. apply (multiple_double (2 * e)).
  - lia.
  - apply multiple_sq. now apply (M x).
  - eapply Rle_trans; [|exact B]. apply (in_asum _ x). unfold squared. apply in_map_iff. exists (x, w). auto.
Qed.

Theorem fills_exact es l e q : valid_edges es -> (-537 <= e)%Z ->
  (forall x w, In (x, w) (events_of l) -> multiple e w) ->
  wsum everything (squared (events_of l)) q -> q <= b2 (53 + 2 * e) ->
  length (fst (fills_fl es l)) = (length es - 1)%nat /\ length (snd (fills_fl es l)) = (length es - 1)%nat /\
  forall i, (S i < length es)%nat ->
    wsum (in_bin es i) (events_of l) (nth i (fst (fills_fl es l)) 0) /\
    wsum (in_bin es i) (squared (events_of l)) (nth i (snd (fills_fl es l)) 0).
Proof.
  intros V E M Q B. apply squared_asum in Q. subst q.
  assert (A : asum (events_of l) <= b2 (53 + e)).
  { pose proof (asum_sq _ e M) as H. apply (Rmult_le_reg_r (b2 e)); [apply bpow_gt_0|]. rewrite <- bpow_plus.
    replace (53 + e + e)%Z with (53 + 2 * e)%Z by lia. lra. }
  rewrite fills_batches. cbn [fst snd]. rewrite zeros_cells.
  rewrite (batches_exact es e); [|lia|intros x w []|exact M|change (asum (@nil (R * R))) with 0; rewrite Rplus_0_l; assumption].
  rewrite (batches_exact es (2 * e)); [|lia|intros x w []| |].
  3: { rewrite (events_sq l e) by assumption. change (asum (@nil (R * R))) with 0; rewrite Rplus_0_l; assumption. }
  2: { rewrite (events_sq l e) by assumption. intros x w I. unfold squared in I. apply in_map_iff in I as ([y v] & I1 & I2). injection I1 as <- <-.
       apply multiple_sq. now apply (M y). }
  rewrite (events_sq l e) by assumption. cbn [app]. unfold cells1. rewrite !map_length, seq_length. split; [reflexivity|]. split; [reflexivity|].
  intros i I. rewrite !map_map, !nth_map_seq by lia. replace (1 + i)%nat with (S i) by lia.
  split; apply wsumf_wsum; intros x; apply bin_number_in_bin; auto.
Qed.

(** np.sum in any order *)
Lemma Rsuml_perm l1 l2 : Permutation l1 l2 -> Rsuml l1 = Rsuml l2.
Proof. intros P. induction P; simpl; lra. Qed.
Theorem sum_exact e l s : (-1074 <= e)%Z -> sum_fl l s -> (forall x, In x l -> multiple e x) ->
  Rsuml (map Rabs l) <= b2 (53 + e) -> s = Rsuml l.
Proof.
  intros E H. assert (P : forall l, 0 <= Rsuml (map Rabs l)). { intros k. induction k as [|x k IH]; simpl; [lra|]. pose proof (Rabs_pos x). lra. }
  assert (T : forall l, Rabs (Rsuml l) <= Rsuml (map Rabs l)).
  { intros k. induction k as [|x k IH]; simpl; [rewrite Rabs_R0; lra|]. eapply Rle_trans; [apply Rabs_triang|]. lra. }
  assert (Mu : forall l, (forall x, In x l -> multiple e x) -> multiple e (Rsuml l)).
  { intros k. induction k as [|x k IH]; intros M; simpl; [apply multiple_0|]. apply multiple_add; [apply M; now left|]. apply IH. intros y I. apply M. now right. }
  induction H as [|x|l1 l2 s1 s2 H1 IH1 H2 IH2|l1 l2 s Pm H IH]; intros M B.
  - reflexivity.
  - simpl. lra.
  - rewrite map_app, Rsuml_app in B. pose proof (P l1). pose proof (P l2).
    rewrite IH1, IH2; try lra; try (intros x I; apply M; apply in_or_app; tauto). rewrite Rsuml_app. apply (fadd_exact e); auto.
    + apply Mu. intros x I. apply M. apply in_or_app. now left.
    + apply Mu. intros x I. apply M. apply in_or_app. now right.
    + eapply Rle_trans; [apply Rabs_triang|]. pose proof (T l1). pose proof (T l2). lra.
  - rewrite IH.
    + now apply Rsuml_perm.
    + intros x I. apply M. eapply Permutation_in; eauto.
    + erewrite Rsuml_perm; [exact B|]. now apply Permutation_map.
Qed.
