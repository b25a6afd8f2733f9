From Coq Require Import Reals String ZArith Bool Arith List Lra Lia.
From Verif Require Import Model_Num Model_Hist Model_Utility Model_Template Spec_Matrix Spec_Template Spec_Hist
  Proof_Hist Proof_Hist2 Proof_Hist3 Proof_Matrix Proof_Linear Proof_Template Proof_Template2.
Import ListNotations.
Local Open Scope R_scope.

Section WithInv.
  Variable inv : mat -> res mat.
  Hypothesis Hinv : inv_spec inv.

  (** Every operation on any template keeps an error state. *)
  Lemma run_any : forall l t n c e covs,
    length (t_params t) = S n -> error_state t n c e covs -> valid_covs n l ->
    forall t' log, t_run inv t l = (t', log) ->
    map fst log = l /\ frame_eq t t' /\ exists Cs, error_state t' n c e (covs ++ Cs).
  Proof.
    induction l as [|o l IH]; intros t n c e covs Hp Hst Hv t' log E.
    - injection E as <- <-. split; auto. split; [apply frame_eq_refl|]. exists []. rewrite app_nil_r. auto.
    - cbn [t_run] in E. destruct (t_do inv t o) as [t1 r] eqn:Eo.
      destruct (t_run inv t1 l) as [t2 rs] eqn:El. injection E as <- <-.
      inversion Hv as [|? ? Hv1 Hv2]; subst.
      assert (Step : frame_eq t t1 /\ exists C1, error_state t1 n c e (covs ++ C1)).
      { destruct o as [C|d up down|v|v|v|h]; cbn [t_do] in Eo.
        - destruct (t_kind t) eqn:Hk.
          + destruct (add_cov_mat_state inv Hinv t n c e covs C Hk Hst) as (tt1 & F & G & F1 & F2 & F3 & F4 & F5 & F6); try apply Hv1.
            assert (Hnb : t_nb t = n) by apply Hst. rewrite Hnb in Eo; rewrite F in Eo; injection Eo as <- <-.
            split; [repeat split; try congruence; rewrite Hnb; apply G|]; exists [C]; auto.
          + unfold t_add_cov_mat in Eo. rewrite Hk in Eo. injection Eo as <- <-.
            split; [apply frame_eq_refl|]; exists []; rewrite app_nil_r; auto.
        - assert (Hcase : (exists lo hi, t_kind t = K1 /\ t_range t = [(lo, hi)]) \/ exists ex, (t1, r) = (t, Err ex)).
          { destruct (t_kind t) eqn:Hk.
            - destruct (t_range t) as [|[lo hi] [|r2 rr]] eqn:Hr; [right|left; eauto|right];
                unfold t_add_variation in Eo; rewrite Hk, Hr in Eo; destruct d; rewrite <- Eo; eauto.
            - right. destruct (cov_ops_2d inv t (TVar d up down) Hk) as [ex HK2]. cbn [t_do] in HK2.
              rewrite HK2 in Eo. rewrite <- Eo. eauto. }
          destruct Hcase as [(lo & hi & Hk & Hr)|[ex Ex]].
          + destruct (run_state inv Hinv [TVar d up down] t n c e covs lo hi Hk Hr Hp Hst) with (t' := t1) (log := [(TVar d up down, r)]) as (_ & F & Cs & G & _).
            * constructor; auto. * cbn [t_run t_do]. rewrite Eo. reflexivity.
            * split; auto. exists Cs; auto.
          + injection Ex as -> ->. split; [apply frame_eq_refl|]; exists []; rewrite app_nil_r; auto.
        - destruct (params_setter_frame t v) as (p & F & L). rewrite Eo in F; simpl in F; subst t1.
          split; [apply set_params_frame; auto|]. exists []. rewrite app_nil_r. apply error_state_params; auto.
        - destruct (yield_setter_frame t v) as (p & F & L & _). rewrite Eo in F; simpl in F; subst t1.
          split; [apply set_params_frame; auto|]. exists []. rewrite app_nil_r. apply error_state_params; auto.
        - destruct (nui_setter_frame t v) as (p & F & L & _); [rewrite Hp; f_equal; symmetry; apply Hst|].
          rewrite Eo in F; simpl in F; subst t1.
          split; [apply set_params_frame; auto|]. exists []. rewrite app_nil_r. apply error_state_params; auto.
        - injection Eo as <- <-; split;
          [apply set_params_frame; unfold init_params; simpl; rewrite repeat_length, Hp; f_equal; apply Hst
          |exists []; rewrite app_nil_r; apply error_state_params; auto]. }
      destruct Step as (Fr & C1 & Hst1).
      destruct (IH t1 n c e (covs ++ C1)) with (t' := t2) (log := rs) as (Hm & Fr2 & Cs & Hst2); auto;
        try (destruct Fr as (Q1 & Q2 & Q3 & Q4 & Q5 & Q6 & Q7); congruence).
      split; [simpl; congruence|]. split; [eapply frame_eq_trans; eauto|].
      exists (C1 ++ Cs). rewrite app_assoc. auto.
  Qed.

  Lemma reach_state k name hid h t0 n c e ops t log :
    contents_of h n c e -> template_new k name hid h = Ok t0 -> valid_covs n ops -> t_run inv t0 ops = (t, log) ->
    (exists covs, error_state t n c e covs) /\ nprod (t_bins t) = n /\ length (t_params t) = S n /\
    t_kind t = k /\ t_name t = name /\ t_hist t = hid.
  Proof.
    intros Hh Hn Hv Hr. destruct (template_new_state _ _ _ _ _ _ _ _ Hn Hh) as (Hst & H1 & H2 & H3 & H4 & H5 & H6).
    assert (HL : length (t_params t0) = S n) by (rewrite H6; simpl; rewrite vec_of_length; auto).
    destruct (run_any ops t0 n c e [] HL Hst Hv _ _ Hr) as (_ & (Q1 & Q2 & Q3 & Q4 & Q5 & Q6 & Q7) & Cs & Hst').
    split; [eauto|]. destruct Hh as (_ & Hs & _). repeat split; try congruence.
  Qed.
End WithInv.

(** ** C18 *)
Lemma fractions_value t n c e covs th :
  error_state t n c e covs ->
  let eps := rel_error (msum (stat_cov_of e :: covs)) c in
  sumn n (varied c eps th) <> 0 ->
  t_fractions t (vec_of n th) = Ok (vec_of n (fun i => varied c eps th i / sumn n (varied c eps th))).
Proof.
  intros (Hnb & Hc & _ & _ & _ & _ & _ & _ & _ & Hrel) eps Hne.
  unfold t_fractions, bin_fractions. rewrite Hc, Hrel. fold eps.
  rewrite (bcast_vec n _ _ _ (fun i => th i * eps i)) by reflexivity. cbn [rbind].
  rewrite (bcast_vec n _ _ _ (varied c eps th)) by reflexivity. cbn [rbind].
  rewrite np_sum_vec. f_equal. apply map_vec. intros i Hi. apply xdiv_fin; auto.
Qed.

Lemma sumn_div n f s : sumn n (fun i => f i / s) = sumn n f / s.
Proof. unfold Rdiv. apply sumn_scal_r. Qed.

(** ** C19 *)
Lemma values_value t n c e covs y th :
  error_state t n c e covs -> nprod (t_bins t) = n ->
  let eps := rel_error (msum (stat_cov_of e :: covs)) c in
  t_params t = Fin y :: vec_of n th -> sumn n (varied c eps th) <> 0 ->
  t_values t = Ok (vec_of n (fun i => y * (varied c eps th i / sumn n (varied c eps th)))).
Proof.
  intros Hst Hb eps Hp Hne. unfold t_values, t_nui, t_yield. rewrite Hp. cbn [tl hd].
  rewrite (fractions_value t n c e covs th Hst Hne). cbn [rbind]. rewrite vec_of_length, Hb, Nat.eqb_refl.
  f_equal. apply map_vec. reflexivity.
Qed.

Lemma varied_zero c eps i : varied c eps (fun _ => 0) i = c i.
Proof. unfold varied. ring. Qed.

Lemma new_values k name hid h t n c e :
  template_new k name hid h = Ok t -> contents_of h n c e -> sumn n c <> 0 ->
  t_values t = Ok (vec_of n c) /\
  exists er, t_errors t = Ok (vec_of n er) /\
    forall i, (i < n)%nat -> c i <> 0 -> e i <> 0 -> er i = sqrt (e i).
Proof.
  intros Hn Hh Hne. destruct (template_new_state _ _ _ _ _ _ _ _ Hn Hh) as (Hst & _ & _ & _ & Hb & _ & Hp).
  assert (Hbins : nprod (t_bins t) = n) by (rewrite Hb; destruct Hh as (_ & Hs & _); auto).
  set (eps := rel_error (msum [stat_cov_of e]) c).
  assert (Hs : sumn n (varied c eps (fun _ => 0)) = sumn n c) by (apply sumn_ext; intros; apply varied_zero).
  pose proof (values_value t n c e [] (sumn n c) (fun _ => 0) Hst Hbins Hp) as Hval. cbv zeta in Hval.
  fold eps in Hval. rewrite Hs in Hval. specialize (Hval Hne).
  assert (E : t_values t = Ok (vec_of n c)).
  { rewrite Hval. f_equal. apply vec_of_ext; intros i Hi. rewrite varied_zero. field. auto. }
  split; auto. exists (fun i => eps i * c i). split.
  - unfold t_errors. rewrite E. cbn [rbind]. destruct Hst as (_ & _ & _ & _ & _ & _ & _ & _ & _ & Hrel).
    rewrite Hrel. fold eps. apply bcast_vec. reflexivity.
  - intros i Hi Hci Hei. unfold eps, rel_error. destruct (Req_EM_T (c i) 0); [contradiction|].
    rewrite msum_single. unfold stat_cov_of. rewrite Nat.eqb_refl. destruct (Req_EM_T (e i) 0); [contradiction|].
    field. auto.
Qed.

(** ** C20 *)
Lemma empty_template_nan k name hid h t n e i :
  template_new k name hid h = Ok t -> contents_of h n (fun _ => 0) e -> (i < n)%nat ->
  exists v, t_values t = Ok v /\ nth_error v i = Some NaN.
Proof.
  intros Hn Hh Hi. destruct (template_new_state _ _ _ _ _ _ _ _ Hn Hh) as (Hst & _ & _ & _ & Hb & _ & Hp).
  destruct Hst as (Hnb & Hc & _ & _ & _ & _ & _ & _ & _ & Hrel).
  set (eps := rel_error (msum [stat_cov_of e]) (fun _ => 0)) in *.
  unfold t_values, t_fractions, bin_fractions, t_nui, t_yield. rewrite Hp. cbn [tl hd]. rewrite Hc, Hrel.
  rewrite (bcast_vec n _ _ _ (fun i => 0 * eps i)) by reflexivity. cbn [rbind].
  rewrite (bcast_vec n _ _ _ (fun _ => 0)) by (intros; cbn; do 2 f_equal; ring). cbn [rbind].
  rewrite np_sum_vec. assert (E0 : sumn n (fun _ => 0) = 0) by (apply sumn_zero; auto). rewrite E0.
  rewrite map_length, vec_of_length.
  assert (Hs : nprod (t_bins t) = n) by (rewrite Hb; destruct Hh as (_ & Hs & _); auto).
  rewrite Hs, Nat.eqb_refl. eexists; split; [reflexivity|].
  unfold vec_of. rewrite !map_map. rewrite nth_error_map_seq by auto. f_equal. simpl.
  unfold Reqb. destruct (Req_EM_T 0 0); [reflexivity|congruence].
Qed.

(** ** C22 *)
Lemma add_cov_shape_error inv t C : square (t_nb t) C = false -> t_kind t = K1 -> t_add_cov_mat inv t C = (t, Err ValueError).
Proof. intros H Hk. unfold t_add_cov_mat. rewrite Hk, H. reflexivity. Qed.

Lemma singular_zero : ~ exists B, inverse_of 1 (fun _ _ => 0) B.
Proof.
  intros [B H]. destruct (H 0%nat 0%nat) as [H1 _]; auto. simpl in H1. unfold delta in H1; simpl in H1. lra.
Qed.

Lemma add_cov_not_atomic inv : inv_spec inv ->
  exists h t t', contents_of h 1 (fun _ => 1) (fun _ => 1) /\ template_new K1 "t" 0 h = Ok t /\
    t_add_cov_mat inv t (mat_of 1 (fun _ _ => -1)) = (t', Err LinAlgError) /\
    t_cov t = mat_of 1 (fun _ _ => 1) /\ t_cov t' = mat_of 1 (fun _ _ => 0) /\
    t_corr t = mat_of 1 (fun _ _ => 1) /\ t_corr t' = mat_of 1 (fun _ _ => 0) /\
    length (t_cov_mats t) = 1%nat /\ length (t_cov_mats t') = 2%nat.
Proof.
  intros Hinv.
  set (h := mk_hist K1 [mk_edges false [0; 2]] [1%nat] [1%nat] [(0, 2)] (mk_nd [1%nat] (vec_of 1 (fun _ => 1))) (mk_nd [1%nat] (vec_of 1 (fun _ => 1))) false).
  assert (Hh : contents_of h 1 (fun _ => 1) (fun _ => 1)).
  { unfold contents_of, h; simpl. repeat split; auto. intros; lra. }
  destruct (template_new K1 "t" 0 h) as [t|] eqn:Et; [|discriminate].
  destruct (template_new_state _ _ _ _ _ _ _ _ Et Hh) as ((Hnb & Hc & He & Hm & Hcov & _ & _ & Hcorr & _) & Hk & _).
  assert (Estat : forall i j, (i < 1)%nat -> (j < 1)%nat -> msum [stat_cov_of (fun _ => 1)] i j = 1).
  { intros i j Hi Hj. replace i with 0%nat by lia. replace j with 0%nat by lia. rewrite msum_single. unfold stat_cov_of; simpl.
    destruct (Req_EM_T 1 0); lra. }
  assert (E0 : np_madd (t_cov t) (mat_of 1 (fun _ _ => -1)) = mat_of 1 (fun _ _ => 0)).
  { rewrite Hcov, np_madd_mat. apply mat_of_ext; intros; rewrite Estat by auto; ring. }
  assert (E1 : cov2corr (mat_of 1 (fun _ _ => 0)) = mat_of 1 (fun _ _ => 0)).
  { unfold cov2corr. rewrite mat_of_length, np_diagonal_mat.
    rewrite (map_vec 1 _ (fun v => xnan_to_num (xdiv (Fin 1) (xsqrt v))) (fun _ => dbl_max)) || idtac.
    unfold np_diag, vec_of; simpl. unfold np_matmul, mat_of, vec_of, xsum_n, mnth, vnth; simpl.
    unfold Rltb. destruct (Rlt_dec 0 0); [lra|]. rewrite sqrt_0. unfold Reqb.
    destruct (Req_EM_T 0 0); [|congruence]. destruct (Req_EM_T 1 0); [lra|].
    destruct (Rlt_dec 1 0); [lra|]. simpl. do 3 f_equal. ring. }
  exists h, t. unfold t_add_cov_mat. rewrite Hk, Hnb, square_mat. unfold add_cov_raw. rewrite E0, E1.
  destruct Hinv as (_ & Hi2 & _). rewrite (Hi2 1%nat (fun _ _ => 0) singular_zero).
  eexists; split; [auto|]. split; [auto|]. split; [reflexivity|]. simpl.
  split; [rewrite Hcov; apply mat_of_ext; auto|]. split; auto.
  split; [|split; auto].
  - rewrite Hcorr. apply mat_of_ext; intros. unfold correlation. rewrite !Estat by auto. rewrite sqrt_1. field.
  - rewrite Hm. simpl. auto.
Qed.

(** ** C24 *)
Definition arrives (t t' : tmpl) (p : list xr) : Prop := t' = set_params t p.
Lemma set_params_same t : set_params t (t_params t) = t. Proof. destruct t; reflexivity. Qed.

Lemma params_setter_spec t v :
  (exists e, params_setter t v = (t, Err e)) \/
  (exists l, v = VArr l /\ length l = length (t_params t) /\ params_setter t v = (set_params t l, Ok tt)).
Proof.
  destruct v as [x|z|l|]; simpl; eauto.
  destruct (Nat.eqb_spec (length l) (length (t_params t))); eauto 6.
Qed.
Lemma params_setter_rejects t l : length l <> length (t_params t) -> params_setter t (VArr l) = (t, Err RuntimeError).
Proof. intros H. simpl. apply Nat.eqb_neq in H. rewrite H. reflexivity. Qed.

Lemma yield_setter_spec t v :
  (exists e, yield_setter t v = (t, Err e)) \/
  (exists x, (v = VFloat x \/ (exists z, v = VInt z /\ x = Fin (IZR z)) \/ v = VArr [x]) /\
     t_params t <> [] /\ yield_setter t v = (set_params t (x :: tl (t_params t)), Ok tt)).
Proof.
  destruct v as [x|z|[|x [|y l]]|]; simpl; eauto; destruct (t_params t) as [|y0 nui]; eauto; right.
  - exists x. repeat split; auto; congruence.
  - exists (Fin (IZR z)). repeat split; eauto; congruence.
  - exists x. repeat split; eauto; congruence.
Qed.
Lemma yield_setter_rejects t l : length l <> 1%nat -> exists e, yield_setter t (VArr l) = (t, Err e).
Proof. destruct l as [|x [|y l]]; simpl; eauto. intros H; lia. Qed.

Lemma nui_setter_spec t v :
  (exists e, nui_setter t v = (t, Err e)) \/
  (exists l, v = VArr l /\ length l = t_nb t /\ nui_setter t v = (set_params t (firstn 1 (t_params t) ++ l), Ok tt)).
Proof.
  destruct v as [x|z|l|]; simpl; eauto. destruct (Nat.eqb_spec (length l) (t_nb t)); eauto 6.
Qed.
Lemma nui_setter_rejects t l : length l <> t_nb t -> nui_setter t (VArr l) = (t, Err RuntimeError).
Proof. intros H. simpl. apply Nat.eqb_neq in H. rewrite H. reflexivity. Qed.

(** ** C25 *)
Lemma add_variation_2d_fails inv t xs ys up down : t_kind t = K2 ->
  exists e, t_add_variation inv t (D2 xs ys) up down = (t, Err e).
Proof. intros H. exact (cov_ops_2d inv t (TVar (D2 xs ys) up down) H). Qed.

Lemma add_variation_2d_typeerror inv t xs ys up down nx ny rx ry hu hd_ :
  t_kind t = K2 -> t_bins t = [nx; ny] -> t_range t = [rx; ry] ->
  hist2_new (B2Ints (Z.of_nat nx) (Z.of_nat ny)) (Some (rx, ry)) (Some (xs, ys)) up = Ok hu ->
  hist2_new (B2Ints (Z.of_nat nx) (Z.of_nat ny)) (Some (rx, ry)) (Some (xs, ys)) down = Ok hd_ ->
  t_add_variation inv t (D2 xs ys) up down = (t, Err TypeError).
Proof. intros Hk Hb Hr E1 E2. unfold t_add_variation. rewrite Hk, Hb, Hr, E1, E2. reflexivity. Qed.
