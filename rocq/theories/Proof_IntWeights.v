From Coq Require Import Reals String ZArith Bool Arith List Lra Lia.
From Verif Require Import Model_Num Model_Hist Model_IntWeights Spec_Hist Spec_IntWeights Proof_Hist Proof_Hist2.
Import ListNotations.
Local Open Scope R_scope.

Lemma n_values_pos ty : (0 < n_values ty)%Z.
Proof. destruct ty; unfold n_values; apply Z.pow_pos_nonneg; lia. Qed.

Lemma half_bits b : (2 ^ Zpos b = 2 * 2 ^ (Zpos b - 1))%Z.
Proof. rewrite <- Z.pow_succ_r by lia. f_equal. lia. Qed.

Lemma iwrap_holds ty z : holds ty (iwrap ty z).
Proof.
  pose proof (n_values_pos ty). destruct ty as [b|b]; cbn [n_values holds iwrap] in *.
  - pose proof (Z.mod_pos_bound (z + 2 ^ (Zpos b - 1)) (2 ^ Zpos b) H). pose proof (half_bits b). lia.
  - apply Z.mod_pos_bound; assumption.
Qed.

Lemma iwrap_cong ty z : exists q, z = (iwrap ty z + n_values ty * q)%Z.
Proof.
  pose proof (n_values_pos ty). destruct ty as [b|b]; cbn [n_values holds iwrap] in *.
  - exists ((z + 2 ^ (Zpos b - 1)) / 2 ^ Zpos b)%Z.
    pose proof (Z.div_mod (z + 2 ^ (Zpos b - 1)) (2 ^ Zpos b)). lia.
  - exists (z / 2 ^ Zpos b)%Z. pose proof (Z.div_mod z (2 ^ Zpos b)). lia.
Qed.

Lemma holds_width ty a b : holds ty a -> holds ty b -> (a - b < n_values ty)%Z.
Proof. destruct ty as [p|p]; cbn [n_values holds]; [pose proof (half_bits p)|]; lia. Qed.

(** for non-negative numbers the multiple is a natural number, 0 exactly if the number can be represented *)
Lemma iwrap_nat ty z : (0 <= z)%Z ->
  exists k : nat, z = (iwrap ty z + n_values ty * Z.of_nat k)%Z /\ (k = 0%nat <-> holds ty z).
Proof.
  intros Hz. destruct (iwrap_cong ty z) as [q Hq]. pose proof (iwrap_holds ty z) as Hh. pose proof (n_values_pos ty) as Hn.
  assert (0 <= q)%Z as Hq0.
  { destruct (Z_lt_le_dec q 0) as [Hlt|]; [|assumption]. exfalso.
    assert (n_values ty * q <= - n_values ty)%Z by nia.
    assert (holds ty 0) as H0 by (destruct ty as [p|p]; cbn [n_values holds] in *;
      [pose proof (Z.pow_pos_nonneg 2 (Zpos p - 1))|]; lia).
    assert (n_values ty <= iwrap ty z)%Z by lia.
    pose proof (holds_width ty _ _ Hh H0). lia. }
  exists (Z.to_nat q). rewrite Z2Nat.id by assumption. split; [assumption|]. split; intros E.
  - assert (q = 0)%Z as -> by lia. rewrite Z.mul_0_r, Z.add_0_r in Hq. rewrite Hq. assumption.
  - assert (q = 0)%Z as ->; [|reflexivity].
    destruct (Z.eq_dec q 0) as [|Hne]; [assumption|exfalso].
    assert (n_values ty <= n_values ty * q)%Z by nia.
    pose proof (holds_width ty _ _ E Hh). lia.
Qed.

Lemma iwrap_id ty z : holds ty z -> iwrap ty z = z.
Proof.
  intros H. destruct (iwrap_cong ty z) as [q Hq]. pose proof (iwrap_holds ty z) as Hh. pose proof (n_values_pos ty) as Hn.
  pose proof (holds_width ty _ _ H Hh). pose proof (holds_width ty _ _ Hh H).
  assert (q = 0)%Z by nia. subst q. lia.
Qed.

(** sums over one cell *)
Definition wrapped (ty : itype) (ws : list Z) : list R := map (fun z => IZR (iwrap ty (z * z))) ws.
Definition exact_sq (ws : list Z) : list R := map (fun z => IZR z * IZR z) ws.

Lemma wrapped_sum {A} (p : A -> bool) ty (xs : list A) ws :
  exists k : nat,
    wsumf p (combine xs (wrapped ty ws)) = wsumf p (combine xs (exact_sq ws)) - IZR (n_values ty) * INR k
    /\ (k = 0%nat <-> squares_fit (fun x => p x = true) ty (combine xs ws)).
Proof.
  revert ws; induction xs as [|x xs IH]; intros ws.
  { exists 0%nat. split; [unfold wsumf; simpl; ring|]. split; [intros _ ? ? []|reflexivity]. }
  destruct ws as [|z ws].
  { exists 0%nat. split; [unfold wsumf; simpl; ring|]. split; [intros _ ? ? []|reflexivity]. }
  destruct (IH ws) as (k & E & Hk). unfold wsumf in *. simpl. rewrite E.
  destruct (p x) eqn:Ep.
  - destruct (iwrap_nat ty (z * z) (Z.square_nonneg z)) as (j & Ej & Hj). exists (j + k)%nat. split.
    + rewrite plus_INR. rewrite <- mult_IZR. rewrite Ej at 2. rewrite plus_IZR, mult_IZR, <- INR_IZR_INZ. ring.
    + split; intros H.
      * assert (j = 0 /\ k = 0)%nat as [H1 H2] by lia. intros x' z' [Hi|Hi] Hp.
        { inversion Hi; subst. apply Hj; assumption. }
        { apply Hk in H2. eapply H2; eauto. }
      * assert (j = 0%nat) as -> by (apply Hj; eapply H; [left; reflexivity|assumption]).
        apply Hk. intros x' z' Hi Hp. eapply H; eauto. right; assumption.
  - exists k. split; [ring|]. rewrite Hk. split; intros H x' z' Hi Hp.
    + destruct Hi as [Hi|Hi]; [inversion Hi; subst; congruence|eapply H; eauto].
    + eapply H; eauto. right; assumption.
Qed.

(** both fills succeed or fail alike and agree up to the squared errors *)
Lemma iw_fill_with_same stat shape h n ty ws :
  (forall a b, length a = length b ->
     (forall e, stat a = Err e -> stat b = Err e)
     /\ (forall s, stat a = Ok s -> exists t, stat b = Ok t /\ length t = length s)) ->
  let a := iw_fill_with stat shape h ty ws in
  let b := fill_with stat shape h n (WArr (map IZR ws)) in
  snd a = snd b /\ same_but_errors (fst a) (fst b).
Proof.
  intros Hst a b. unfold a, b, iw_fill_with, fill_with. simpl resolve_weights. simpl squareable.
  destruct (stat (map IZR ws)) as [s|e] eqn:Es; simpl; [|split; [reflexivity|repeat split]].
  destruct (nd_iadd (h_counts h) shape s) as [c|e] eqn:Ec; simpl; [|split; [reflexivity|repeat split]].
  destruct (Hst (map (fun z => IZR (iwrap ty (z * z))) ws) (map (fun x => x * x) (map IZR ws))) as [He Hk];
    [rewrite !map_length; reflexivity|].
  destruct (stat (map (fun z => IZR (iwrap ty (z * z))) ws)) as [s1|e1] eqn:E1; simpl.
  - destruct (Hk _ eq_refl) as (t & -> & Ht). simpl. unfold nd_iadd. rewrite Ht.
    destruct (_ && _); simpl; split; try reflexivity; repeat split.
  - rewrite (He _ eq_refl). simpl. split; [reflexivity|repeat split].
Qed.

Lemma binned_statistic_shape es xs a b : length a = length b ->
  (forall e, binned_statistic es xs a = Err e -> binned_statistic es xs b = Err e)
  /\ (forall s, binned_statistic es xs a = Ok s -> exists t, binned_statistic es xs b = Ok t /\ length t = length s).
Proof.
  intros H. unfold binned_statistic. rewrite H. destruct (negb _); [split; intros; congruence|].
  destruct (_ || _); [split; intros; congruence|]. split; [congruence|]. intros s E.
  eexists; split; [reflexivity|]. inversion E; subst. rewrite !map_length. reflexivity.
Qed.

Lemma binned_statistic_2d_shape ex ey xs ys a b : length a = length b ->
  (forall e, binned_statistic_2d ex ey xs ys a = Err e -> binned_statistic_2d ex ey xs ys b = Err e)
  /\ (forall s, binned_statistic_2d ex ey xs ys a = Ok s ->
        exists t, binned_statistic_2d ex ey xs ys b = Ok t /\ length t = length s).
Proof.
  intros H. unfold binned_statistic_2d. rewrite H. destruct (negb _); [split; intros; congruence|].
  destruct (_ || _); [split; intros; congruence|]. split; [congruence|]. intros s E.
  eexists; split; [reflexivity|]. inversion E; subst.
  rewrite !(flat_map_const_length _ _ (length ey - 1)); [reflexivity|..]; intros; rewrite map_length, seq_length; reflexivity.
Qed.

Lemma iw_fill_with_errs {A} (cells : list (A -> bool)) (xs : list A) stat shape h ty ws h' :
  (forall w s, stat w = Ok s -> s = map (fun p => Fin (wsumf p (combine xs w))) cells) ->
  iw_fill_with stat shape h ty ws = (h', Ok tt) ->
  nd_shape (h_errs_sq h) = shape /\ length (nd_flat (h_errs_sq h)) = length cells
  /\ h_errs_sq h' = mk_nd shape (map2 xadd (nd_flat (h_errs_sq h))
                      (map (fun p => Fin (wsumf p (combine xs (wrapped ty ws)))) cells)).
Proof.
  intros Hs. unfold iw_fill_with.
  destruct (s <- stat (map IZR ws) ;; nd_iadd (h_counts h) shape s) as [c|] eqn:E0; [|intros; discriminate].
  change (map (fun z => IZR (iwrap ty (z * z))) ws) with (wrapped ty ws).
  destruct (stat (wrapped ty ws)) as [q|] eqn:Eq; simpl; [|discriminate].
  destruct (nd_iadd (h_errs_sq h) shape q) as [c2|] eqn:E2; [|discriminate].
  intros H; inversion H; subst; clear H. apply nd_iadd_ok in E2 as (S2 & L2 & ->). apply Hs in Eq. subst q.
  rewrite map_length in L2. simpl. auto.
Qed.

Lemma nth_error_map2 {A B C} (f : A -> B -> C) l m i a b :
  nth_error l i = Some a -> nth_error m i = Some b -> nth_error (map2 f l m) i = Some (f a b).
Proof.
  revert m i; induction l as [|x l IH]; intros [|y m] [|i] Ha Hb; simpl in *; try discriminate.
  - congruence.
  - apply IH; assumption.
Qed.

Lemma combine_exact_sq {A} (xs : list A) ws : combine xs (exact_sq ws) = squared (combine xs (map IZR ws)).
Proof. rewrite <- combine_sq. unfold exact_sq. rewrite map_map. reflexivity. Qed.

Lemma wsumf_wsum' {A} (p : A -> bool) (P : A -> Prop) ev : (forall x, p x = true <-> P x) -> wsum P ev (wsumf p ev).
Proof.
  intros H. apply wsumf_wsum. intros x. destruct (p x) eqn:E; constructor; [apply H; assumption|].
  intros HP. apply H in HP. congruence.
Qed.

(** one cell of the result *)
Lemma iw_cell {A} (cells : list (A -> bool)) (xs : list A) stat shape h ty ws h' i p (P : A -> Prop) old :
  (forall w s, stat w = Ok s -> s = map (fun p => Fin (wsumf p (combine xs w))) cells) ->
  iw_fill_with stat shape h ty ws = (h', Ok tt) ->
  nth_error cells i = Some p -> (forall x, p x = true <-> P x) ->
  nth_error (nd_flat (h_errs_sq h)) i = Some (Fin old) ->
  exists s k, wsum P (squared (combine xs (map IZR ws))) s
    /\ nth_error (nd_flat (h_errs_sq h')) i = Some (Fin (old + s - IZR (n_values ty) * INR k))
    /\ (k = 0%nat <-> squares_fit P ty (combine xs ws)).
Proof.
  intros Hs Hf Hp HP Ho. destruct (iw_fill_with_errs _ _ _ _ _ _ _ _ Hs Hf) as (_ & _ & ->).
  destruct (wrapped_sum p ty xs ws) as (k & E & Hk).
  exists (wsumf p (combine xs (exact_sq ws))), k. split; [|split].
  - rewrite combine_exact_sq. apply wsumf_wsum'. assumption.
  - simpl. erewrite nth_error_map2; [|eassumption|erewrite map_nth_error by eassumption; reflexivity].
    simpl. rewrite E. f_equal. f_equal. ring.
  - rewrite Hk. unfold squares_fit. split; intros H x z Hi Hx; eapply H; eauto; apply HP; assumption.
Qed.
