From Coq Require Import Reals String ZArith Bool Arith List Lra Lia ClassicalEpsilon.
From Verif Require Import Model_Num Model_Hist Model_Utility Model_Template Spec_Matrix Spec_Template Spec_Hist
  Proof_Hist Proof_Hist2 Proof_Hist3 Proof_Matrix Proof_Linear.
Import ListNotations.
Local Open Scope R_scope.

(** ** inv_spec is satisfiable *)
Lemma square_of_mat n k A : square n (mat_of k A) = true -> n = k.
Proof. unfold square. rewrite mat_of_length. intros H. apply andb_prop in H as [H _]. apply Nat.eqb_eq in H. auto. Qed.

Lemma inv_spec_satisfiable : exists inv, inv_spec inv.
Proof.
  exists (fun m =>
    match excluded_middle_informative (exists A B, m = mat_of (length m) A /\ inverse_of (length m) A B) with
    | left H => Ok (mat_of (length m) (proj1_sig (constructive_indefinite_description _ (proj2_sig (constructive_indefinite_description _ H)))))
    | right _ => Err LinAlgError
    end).
  split; [|split].
  - intros n A B HB. destruct (excluded_middle_informative _) as [H|H].
    2:{ exfalso; apply H. exists A, B. rewrite mat_of_length. auto. }
    destruct (constructive_indefinite_description _ H) as [A' HA']; simpl.
    destruct (constructive_indefinite_description _ HA') as [B' [E HB']]; simpl.
    rewrite mat_of_length in *. f_equal. apply mat_of_ext.
    assert (HB2 : inverse_of n A B').
    { intros i j Hi Hj. destruct (HB' i j Hi Hj) as [H1 H2]. split; [rewrite <- H1|rewrite <- H2]; apply sumn_ext; intros k Hk; rewrite (mat_of_inj n A A') by auto; reflexivity. }
    intros i j Hi Hj. exact (inverse_unique n A B' B HB2 HB i j Hi Hj).
  - intros n A H0. destruct (excluded_middle_informative _) as [H|H]; auto.
    exfalso; apply H0. destruct H as (A' & B & E & HB). rewrite mat_of_length in *. exists B.
    intros i j Hi Hj. destruct (HB i j Hi Hj) as [H1 H2]. split; [rewrite <- H1|rewrite <- H2]; apply sumn_ext; intros k Hk; rewrite (mat_of_inj n A A') by auto; reflexivity.
  - intros n m m' Hm. destruct (excluded_middle_informative _) as [H|H]; [|discriminate].
    intros E; injection E as <-. unfold square in Hm. apply andb_prop in Hm as [Hl _]. apply Nat.eqb_eq in Hl.
    rewrite <- Hl. apply square_mat.
Qed.

(** ** Creation *)
Lemma kind_eqb_spec a b : reflect (a = b) (kind_eqb a b).
Proof. destruct a, b; simpl; constructor; congruence. Qed.

Lemma c14_pos : 0 < / 10 ^ 14. Proof. apply Rinv_0_lt_compat, pow_lt; lra. Qed.

Lemma stat_cov_vec n e : stat_cov (vec_of n e) = mat_of n (stat_cov_of e).
Proof.
  unfold stat_cov. rewrite (map_vec n e _ (fun i => if Req_EM_T (e i) 0 then / 10 ^ 14 else e i)).
  - rewrite np_diag_vec. apply mat_of_ext; intros i j _ _. unfold stat_cov_of, delta.
    destruct (Nat.eqb_spec i j); [subst|]; ring_simplify; auto.
  - intros i _. cbn [xeqb]. unfold Reqb. destruct (Req_EM_T (e i) 0); reflexivity.
Qed.

Lemma stat_cov_as_delta e i j : stat_cov_of e i j = delta i j * (if Req_EM_T (e i) 0 then / 10 ^ 14 else e i).
Proof. unfold stat_cov_of, delta. destruct (Nat.eqb i j); ring. Qed.

Lemma quad_stat n e v : quad n (stat_cov_of e) v = quad n (fun i j => delta i j * (if Req_EM_T (e i) 0 then / 10 ^ 14 else e i)) v.
Proof. apply quad_ext; auto. intros; apply stat_cov_as_delta. Qed.

Lemma stat_pos (e : nat -> R) i : 0 <= e i -> 0 < (if Req_EM_T (e i) 0 then / 10 ^ 14 else e i).
Proof. intros H. destruct (Req_EM_T (e i) 0); [apply c14_pos|lra]. Qed.

Lemma stat_posdef n e : (forall i, (i < n)%nat -> 0 <= e i) -> posdef n (stat_cov_of e).
Proof.
  intros H v Hv. rewrite quad_stat.
  apply (posdef_diagonal n (fun i => if Req_EM_T (e i) 0 then / 10 ^ 14 else e i)); auto.
  intros i Hi. apply stat_pos; auto.
Qed.
Lemma stat_symmetric n e : symmetric n (stat_cov_of e).
Proof. intros i j _ _. unfold stat_cov_of. rewrite Nat.eqb_sym. destruct (Nat.eqb_spec j i); subst; auto. Qed.

Lemma relative_errors_mat n A c : (forall i, (i < n)%nat -> 0 <= A i i) ->
  relative_errors (mat_of n A) (vec_of n c) = vec_of n (rel_error A c).
Proof.
  intros H. unfold relative_errors. rewrite np_diagonal_mat.
  apply map2_vec_in. intros i Hi. cbn [xeqb]. unfold Reqb, rel_error, c1e_7.
  destruct (Req_EM_T (c i) 0); auto. rewrite xsqrt_pos by auto. apply xdiv_fin; auto.
Qed.

Lemma rel_error_ext A B c i : A i i = B i i -> rel_error A c i = rel_error B c i.
Proof. intros H; unfold rel_error; rewrite H; reflexivity. Qed.
Lemma msum_single A i j : msum [A] i j = A i j. Proof. unfold msum; simpl; ring. Qed.
Lemma posdef_ext n A B : (forall i j, (i < n)%nat -> (j < n)%nat -> A i j = B i j) -> posdef n A -> posdef n B.
Proof. intros H HA v Hv. rewrite <- (quad_ext n A B v v) by auto. auto. Qed.
Lemma symmetric_ext n A B : (forall i j, (i < n)%nat -> (j < n)%nat -> A i j = B i j) -> symmetric n A -> symmetric n B.
Proof. intros H HA i j Hi Hj. rewrite <- !H by auto. auto. Qed.

Lemma template_new_state k name hid h t n c e :
  template_new k name hid h = Ok t -> contents_of h n c e ->
  error_state t n c e [] /\ t_kind t = k /\ t_name t = name /\ t_hist t = hid /\ t_bins t = h_shape h /\
  t_range t = h_range h /\ t_params t = Fin (sumn n c) :: vec_of n (fun _ => 0).
Proof.
  intros H (Hn & Hs & Hc & He & Hpos). unfold template_new in H.
  destruct (negb (kind_eqb k (h_kind h))); [discriminate|].
  rewrite Hc, He, !vec_of_length, <- Hn, Nat.eqb_refl in H. simpl in H. injection H as <-.
  assert (Hcov : forall i j, (i < n)%nat -> (j < n)%nat -> stat_cov_of e i j = msum [stat_cov_of e] i j)
    by (intros; rewrite msum_single; reflexivity).
  assert (Hpd : posdef n (stat_cov_of e)) by (apply stat_posdef; auto).
  assert (Hones : np_diag (repeat (Fin 1) n) = mat_of n delta).
  { replace (repeat (Fin 1) n) with (vec_of n (fun _ => 1)).
    - rewrite np_diag_vec. apply mat_of_ext; intros; ring.
    - unfold vec_of. rewrite (map_ext_const _ (Fin 1)), seq_length by auto. reflexivity. }
  assert (Hcorr : forall i j, (i < n)%nat -> (j < n)%nat -> delta i j = correlation (msum [stat_cov_of e]) i j).
  { intros i j Hi Hj. unfold correlation. rewrite !msum_single. rewrite !stat_cov_as_delta.
    pose proof (stat_pos e i (Hpos i Hi)). 
    unfold delta. rewrite !Nat.eqb_refl. destruct (Nat.eqb_spec i j) as [->|].
    - rewrite !Rmult_1_l, sqrt_def by lra. field. lra.
    - unfold Rdiv; ring. }
  split; [|repeat split; simpl; auto].
  - unfold error_state. cbv zeta. simpl t_nb. simpl t_counts. simpl t_errs_sq. simpl t_cov_mats. simpl t_cov.
    simpl t_corr. simpl t_inv. simpl t_rel. rewrite stat_cov_vec, Hones.
    repeat split; auto.
    + apply mat_of_ext; auto.
    + apply (symmetric_ext n (stat_cov_of e)); auto. apply stat_symmetric.
    + apply (posdef_ext n (stat_cov_of e)); auto.
    + apply mat_of_ext; auto.
    + exists delta. split; auto. intros i j Hi Hj.
      split.
      * rewrite (sumn_ext n _ (fun k => delta i k * delta k j)) by (intros; rewrite <- Hcorr by auto; auto).
        apply (sumn_delta_l n i (fun k => delta k j)); auto.
      * rewrite (sumn_ext n _ (fun k => delta i k * delta k j)) by (intros; rewrite <- Hcorr by auto; auto).
        apply (sumn_delta_l n i (fun k => delta k j)); auto.
    + rewrite relative_errors_mat.
      * apply vec_of_ext; intros i Hi. apply rel_error_ext. auto.
      * intros i Hi. left. apply (posdef_diag n); auto.
  - unfold init_params. rewrite np_sum_vec. f_equal. unfold vec_of.
    rewrite (map_ext_const _ (Fin 0)), seq_length by auto. reflexivity.
Qed.

(** ** Adding covariances *)
Lemma msum_app l A i j : msum (l ++ [A]) i j = msum l i j + A i j.
Proof. unfold msum. induction l as [|B l IH]; simpl; [ring|]. rewrite IH. ring. Qed.

Section WithInv.
  Variable inv : mat -> res mat.
  Hypothesis Hinv : inv_spec inv.

  Lemma add_cov_raw_state t n c e covs C :
    error_state t n c e covs -> symmetric n C -> psd n C ->
    exists t', add_cov_raw inv t (mat_of n C) = (t', Ok tt) /\ error_state t' n c e (covs ++ [C]) /\
      t_params t' = t_params t /\ t_kind t' = t_kind t /\ t_name t' = t_name t /\ t_hist t' = t_hist t /\
      t_bins t' = t_bins t /\ t_range t' = t_range t.
  Proof.
    intros (Hnb & Hc & He & Hmats & Hcov & Hsym & Hpd & Hcorr & Hi & Hrel) HCs HCp.
    set (new := msum (stat_cov_of e :: covs ++ [C])).
    assert (Enew : forall i j, new i j = msum (stat_cov_of e :: covs) i j + C i j).
    { intros i j. unfold new. rewrite app_comm_cons, msum_app. reflexivity. }
    assert (Hpd' : posdef n new).
    { apply (posdef_ext n (fun i j => msum (stat_cov_of e :: covs) i j + C i j)); [intros; auto|].
      apply posdef_plus; auto. }
    assert (Hsym' : symmetric n new).
    { intros i j Hi' Hj'. rewrite !Enew. rewrite (Hsym i j), (HCs i j); auto. }
    assert (Hdiag : forall i, (i < n)%nat -> 0 < new i i) by (intros; apply (posdef_diag n); auto).
    assert (Emat : np_madd (t_cov t) (mat_of n C) = mat_of n new).
    { rewrite Hcov, np_madd_mat. apply mat_of_ext; intros; rewrite Enew; reflexivity. }
    assert (Ecorr : cov2corr (mat_of n new) = mat_of n (corr_of new)) by (apply cov2corr_mat; auto).
    destruct (posdef_invertible n (corr_of new)) as (P & HPs & HP).
    { apply corr_symmetric; auto. } { apply corr_posdef; auto. }
    unfold add_cov_raw. rewrite Emat, Ecorr.
    destruct Hinv as [Hinv1 _]. rewrite (Hinv1 n (corr_of new) P HP).
    eexists; split; [reflexivity|]. split; [|repeat split].
    unfold error_state; cbv zeta; fold new.
    simpl. repeat split; auto.
    - rewrite Hmats. simpl. rewrite map_app. reflexivity.
    - exists P. split; auto.
    - rewrite Hc. apply relative_errors_mat. intros i Hi'. left; auto.
  Qed.

  Lemma add_cov_mat_state t n c e covs C :
    t_kind t = K1 -> error_state t n c e covs -> symmetric n C -> psd n C ->
    exists t', t_add_cov_mat inv t (mat_of n C) = (t', Ok tt) /\ error_state t' n c e (covs ++ [C]) /\
      t_params t' = t_params t /\ t_kind t' = t_kind t /\ t_name t' = t_name t /\ t_hist t' = t_hist t /\
      t_bins t' = t_bins t /\ t_range t' = t_range t.
  Proof.
    intros Hk Hst HCs HCp. unfold t_add_cov_mat. rewrite Hk.
    destruct Hst as (Hnb & Hst). rewrite Hnb, square_mat. rewrite <- Hk.
    apply add_cov_raw_state; auto. split; auto.
  Qed.
End WithInv.
