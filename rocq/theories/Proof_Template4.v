From Coq Require Import Reals String ZArith Bool Arith List Lra Lia.
From Verif Require Import Model_Num Model_Hist Model_Utility Model_Template Spec_Matrix Spec_Template Spec_Hist
  Proof_Hist Proof_Hist2 Proof_Hist3 Proof_Matrix Proof_Linear Proof_Template Proof_Template2 Proof_Template3.
Import ListNotations.
Local Open Scope R_scope.

(** ** C26 *)
Lemma wsum_fun {A} (P : A -> Prop) ev s s' : wsum P ev s -> wsum P ev s' -> s = s'.
Proof.
  intros H; revert s'; induction H; intros s' H'; inversion H'; subst; try contradiction; auto.
  f_equal; auto.
Qed.

Definition ex_edges3 : list R := [0; 1; 4].
Lemma ex_edges3_valid : valid_edges ex_edges3.
Proof. split; simpl; [lia|]. intros [|[|[|i]]] H; simpl in *; lra || lia. Qed.

(** the histogram with edges 0, 1, 4 filled with one event at 1 *)
Definition ex_hist : hist :=
  mk_hist K1 [mk_edges false ex_edges3] [2%nat] [2%nat] [(0, 4)]
    (mk_nd [2%nat] [Fin 0; Fin 1]) (mk_nd [2%nat] [Fin 0; Fin 1]) false.

Ltac dec_R := repeat (match goal with
  | |- context[Rltb ?a ?b] => destruct (Rltb_spec a b); [try lra|try lra]
  | |- context[Rleb ?a ?b] => destruct (Rleb_spec a b); [try lra|try lra]
  | |- context[Reqb ?a ?b] => destruct (Reqb_spec a b); [try lra|try lra] end; simpl).

Lemma ex_hist_new : hist1_new (B1Edges (mk_edges false ex_edges3)) None (Some [1]) WNone = Ok ex_hist.
Proof.
  assert (Hs : strictly_increasing ex_edges3 = true).
  { unfold ex_edges3. cbn [strictly_increasing]. dec_R; auto. }
  assert (Hb : bin_number 1 ex_edges3 = 2%nat).
  { apply bin_number_spec; [apply ex_edges3_valid|simpl; lia|]. unfold in_bin, ex_edges3; simpl. lra. }
  unfold hist1_new, hist1_empty, hist1_init_bin_edges, get_bin_range. cbn [e_vals ex_edges3 rbind].
  unfold hist1_fill, edges_nth. cbn [h_edges nth e_vals].
  unfold fill_with, binned_statistic. cbn [resolve_weights length repeat squareable negb Nat.eqb].
  change (strictly_increasing [0; 1; 4]) with (strictly_increasing ex_edges3). rewrite Hs.
  change (bin_number 1 [0; 1; 4]) with (bin_number 1 ex_edges3).
  cbn [Nat.ltb Nat.leb negb orb map rbind length Nat.sub seq]. rewrite Hb.
  unfold bincount. cbn. unfold ex_hist. f_equal.
  replace (0 + (0 + 0)) with 0 by ring. replace (0 + (1 + 0)) with 1 by ring.
  replace (0 + (1 * 1 + 0)) with 1 by ring. reflexivity.
Qed.

Lemma ex_hist_contents : contents_of ex_hist 2 INR INR.
Proof.
  unfold contents_of, ex_hist; simpl. repeat split; auto. intros i _; apply pos_INR.
Qed.

Lemma variation_not_own_bins inv : inv_spec inv ->
  exists h t t' C,
    hist1_new (B1Edges (mk_edges false ex_edges3)) None (Some [1]) WNone = Ok h /\
    template_new K1 "t" 0 h = Ok t /\
    t_add_variation inv t (D1 [1]) WNone WNone = (t', Ok tt) /\
    t_cov_mats t' = t_cov_mats t ++ [mat_of 2 C] /\
    ~ exists C', variation_cov ex_edges3 INR [1] WNone WNone C' /\ mat_of 2 C = mat_of 2 C'.
Proof.
  intros Hinv. exists ex_hist.
  destruct (template_new K1 "t" 0 ex_hist) as [t|] eqn:Et; [|discriminate].
  destruct (template_new_state _ _ _ _ _ _ _ _ Et ex_hist_contents) as (Hst & Hk & _ & _ & _ & Hr & _).
  change (t_range t = [(0, 4)]) in Hr.
  assert (Hv : valid_edges (uniform_edges 0 4 2)).
  { split; simpl; [lia|]. intros [|[|[|i]]] H; simpl in *; lra || lia. }
  assert (Hok : exists h, hist1_new (B1Int (Z.of_nat 2)) (Some (0, 4)) (Some [1]) WNone = Ok h).
  { unfold hist1_new. unfold hist1_empty, hist1_init_bin_edges, linspace_edges. cbn [Z.of_nat Z.ltb Z.compare rbind Pos.of_succ_nat].
    match goal with |- context[hist1_fill ?h [1] WNone] => destruct (fill1_succeeds h [1] WNone) as (h' & F & _) end; auto.
    - eexists; split; [reflexivity|]. cbn [e_vals]. change (Z.to_nat 2) with 2%nat.
      rewrite uniform_linspace by lia. split; auto. split; split; reflexivity.
    - simpl; auto.
    - exists h'. rewrite F. reflexivity. }
  destruct Hok as [hu Hu].
  destruct (add_variation_effect inv Hinv t 2 INR INR [] [1] WNone WNone 0 4 Hk Hst Hr)
    as [[ex F]|(t' & C & F & Hst' & V & _)].
  { exfalso. unfold t_add_variation in F. rewrite Hk, Hr in F. destruct Hst as (Hnb & Hc & _). rewrite Hnb, Hu in F.
    apply hist1_uniform in Hu as (_ & _ & up & Hup & _).
    cbn [rbind] in F. rewrite Hc, Hup in F.
    destruct (systematic_cov_valid 2 INR up up) as (S & d & ES & S1 & S2 & _). rewrite ES in F.
    destruct (add_cov_raw_state inv Hinv t 2 INR INR [] S) as (t' & E & _).
    { destruct (template_new_state _ _ _ _ _ _ _ _ Et ex_hist_contents) as (Hst & _). exact Hst. }
    { auto. } { auto. } rewrite E in F. discriminate. }
  exists t, t', C. split; [apply ex_hist_new|]. split; auto. split; auto. split.
  { destruct Hst' as (_ & _ & _ & Hm' & _). destruct Hst as (_ & _ & _ & Hm & _). rewrite Hm', Hm. reflexivity. }
  intros (C' & V' & E).
  destruct V as (up & down & d & V1 & V2). destruct V' as (up' & down' & d' & V1' & V2').
  assert (Ev : events1 [1] WNone = [(1, 1)]) by reflexivity.
  destruct (V1 1%nat) as (U1 & U2 & U3 & _); [simpl; lia|].
  destruct (V1' 1%nat) as (U1' & U2' & U3' & _); [simpl; lia|].
  rewrite Ev in *.
  assert (Hout : ~ in_bin (uniform_edges 0 4 2) 1 1) by (unfold in_bin; simpl; lra).
  assert (Hin : in_bin ex_edges3 1 1) by (unfold in_bin; simpl; lra).
  assert (W0 : wsum (in_bin (uniform_edges 0 4 2) 1) [(1, 1)] 0) by (apply wsum_out; [auto|constructor]).
  assert (W1 : wsum (in_bin ex_edges3 1) [(1, 1)] (1 + 0)) by (apply wsum_in; [auto|constructor]).
  rewrite (wsum_fun _ _ _ _ U1 W0), (wsum_fun _ _ _ _ U2 W0) in U3.
  rewrite (wsum_fun _ _ _ _ U1' W1), (wsum_fun _ _ _ _ U2' W1) in U3'.
  simpl in U3, U3'.
  replace (0 - 1) with (-1) in U3 by lra. replace (1 + 0 - 1) with 0 in U3' by lra.
  rewrite Rabs_R0 in U3'. rewrite (Rabs_left (-1)) in U3 by lra.
  pose proof (mat_of_inj 2 C C' 1 1 E ltac:(lia) ltac:(lia)) as E11.
  rewrite V2, V2' in E11 by (simpl; lia).
  assert (d' 1%nat = 0) by (destruct (Req_EM_T (d' 1%nat) 0); auto; pose proof (Rabs_pos_lt (d' 1%nat)); lra).
  rewrite H in E11.
  assert (d 1%nat = 0) by nra. rewrite H0, Rabs_R0 in U3. lra.
Qed.

(** If the bins of the template's histogram are equally spaced, the variation is that of its own bins. *)
Lemma variation_own_bins inv t n c e covs xs wup wdown h lo hi t' :
  inv_spec inv -> t_kind t = K1 -> error_state t n c e covs -> t_range t = [(lo, hi)] ->
  edges_nth h 0 = uniform_edges lo hi n ->
  t_add_variation inv t (D1 xs) wup wdown = (t', Ok tt) ->
  exists C, t_cov_mats t' = t_cov_mats t ++ [mat_of n C] /\ variation_cov (edges_nth h 0) c xs wup wdown C.
Proof.
  intros Hinv Hk Hst Hr He F. rewrite He.
  destruct (add_variation_effect inv Hinv t n c e covs xs wup wdown lo hi Hk Hst Hr) as [[ex F']|(t1 & C & F' & Hst' & V & _)];
    rewrite F' in F; [discriminate|]. injection F as <-. exists C. split; auto.
  destruct Hst' as (_ & _ & _ & Hm' & _). destruct Hst as (_ & _ & _ & Hm & _). rewrite Hm', Hm.
  change (stat_cov_of e :: covs ++ [C]) with ((stat_cov_of e :: covs) ++ [C]). rewrite map_app. reflexivity.
Qed.

(** ** Statements about reached templates *)
Lemma fractions_of_reached inv k name hid h t0 n c e ops t log :
  inv_spec inv -> contents_of h n c e -> template_new k name hid h = Ok t0 -> valid_covs n ops ->
  t_run inv t0 ops = (t, log) ->
  exists eps, t_rel t = vec_of n eps /\
  forall th, let total := sumn n (fun j => c j * (1 + th j * eps j)) in
    total <> 0 ->
    exists f, t_fractions t (vec_of n th) = Ok (vec_of n f) /\
      sumn n f = 1 /\
      (forall i, (i < n)%nat -> f i = c i * (1 + th i * eps i) / total) /\
      ((forall i, (i < n)%nat -> 0 <= c i /\ 0 <= 1 + th i * eps i) -> forall i, (i < n)%nat -> 0 <= f i).
Proof.
  intros Hi Hh Hn Hv Hr. destruct (reach_state inv Hi _ _ _ _ _ _ _ _ _ _ _ Hh Hn Hv Hr) as ((covs & Hst) & _).
  exists (rel_error (msum (stat_cov_of e :: covs)) c). split; [apply Hst|].
  intros th total Hne. exists (fun i => c i * (1 + th i * rel_error (msum (stat_cov_of e :: covs)) c i) / total).
  split; [exact (fractions_value t n c e covs th Hst Hne)|].
  split; [rewrite sumn_div; fold total; field; auto|]. split; auto.
  intros Hpos i Hi'.
  assert (Ht : 0 < total).
  { assert (0 <= total) by (apply sumn_nonneg; intros j Hj; destruct (Hpos j Hj); apply Rmult_le_pos; auto). lra. }
  destruct (Hpos i Hi'). apply Rmult_le_pos; [apply Rmult_le_pos; auto|]. left. apply Rinv_0_lt_compat; auto.
Qed.

Lemma values_of_reached inv k name hid h t0 n c e ops t log :
  inv_spec inv -> contents_of h n c e -> template_new k name hid h = Ok t0 -> valid_covs n ops ->
  t_run inv t0 ops = (t, log) ->
  exists eps, t_rel t = vec_of n eps /\
  forall y th, t_params t = Fin y :: vec_of n th -> sumn n (fun j => c j * (1 + th j * eps j)) <> 0 ->
    exists v, t_values t = Ok (vec_of n v) /\ sumn n v = y.
Proof.
  intros Hi Hh Hn Hv Hr. destruct (reach_state inv Hi _ _ _ _ _ _ _ _ _ _ _ Hh Hn Hv Hr) as ((covs & Hst) & Hb & _).
  exists (rel_error (msum (stat_cov_of e :: covs)) c). split; [apply Hst|].
  intros y th Hp Hne. eexists. split; [exact (values_value t n c e covs y th Hst Hb Hp Hne)|].
  rewrite sumn_scal, sumn_div. unfold varied. field. auto.
Qed.

Lemma covariance_of_reached inv name hid h t0 n c e lo hi ops t log :
  inv_spec inv -> contents_of h n c e -> h_range h = [(lo, hi)] -> template_new K1 name hid h = Ok t0 ->
  valid_covs n ops -> t_run inv t0 ops = (t, log) ->
  map fst log = ops /\ exists covs, error_state t n c e covs /\ added lo hi n c log covs.
Proof.
  intros Hi Hh Hr Hn Hv Hrun. destruct (template_new_state _ _ _ _ _ _ _ _ Hn Hh) as (Hst & H1 & H2 & H3 & H4 & H5 & H6).
  assert (HL : length (t_params t0) = S n) by (rewrite H6; simpl; rewrite vec_of_length; auto).
  rewrite Hr in H5.
  destruct (run_state inv Hi ops t0 n c e [] lo hi H1 H5 HL Hst Hv _ _ Hrun) as (Hm & _ & Cs & Hst' & Hadd).
  split; auto. exists Cs. auto.
Qed.

Lemma add_cov_succeeds inv t n c e covs C :
  inv_spec inv -> t_kind t = K1 -> error_state t n c e covs -> symmetric n C -> psd n C ->
  exists t', t_add_cov_mat inv t (mat_of n C) = (t', Ok tt) /\ error_state t' n c e (covs ++ [C]) /\
    t_params t' = t_params t.
Proof.
  intros Hi Hk Hst H1 H2. destruct (add_cov_mat_state inv Hi t n c e covs C Hk Hst H1 H2) as (t' & A & B & D & _).
  exists t'; auto.
Qed.

Lemma add_cov_failure inv t n c e covs C t' ex :
  inv_spec inv -> t_kind t = K1 -> error_state t n c e covs ->
  t_add_cov_mat inv t (mat_of n C) = (t', Err ex) -> ~ (symmetric n C /\ psd n C).
Proof.
  intros Hi Hk Hst F [H1 H2]. destruct (add_cov_succeeds inv t n c e covs C Hi Hk Hst H1 H2) as (t1 & E & _).
  rewrite E in F; discriminate.
Qed.

Lemma setters_accept inv k name hid h t0 n c e ops t log :
  inv_spec inv -> contents_of h n c e -> template_new k name hid h = Ok t0 -> valid_covs n ops ->
  t_run inv t0 ops = (t, log) ->
  (forall x, exists t', yield_setter t (VFloat x) = (t', Ok tt) /\ t_yield t' = x /\ t_nui t' = t_nui t) /\
  (forall l, length l = n -> exists t', nui_setter t (VArr l) = (t', Ok tt) /\ t_nui t' = l /\ t_yield t' = t_yield t) /\
  (forall x l, length l = n -> exists t', params_setter t (VArr (x :: l)) = (t', Ok tt) /\ t_yield t' = x /\ t_nui t' = l).
Proof.
  intros Hi Hh Hn Hv Hr. destruct (reach_state inv Hi _ _ _ _ _ _ _ _ _ _ _ Hh Hn Hv Hr) as ((covs & Hst) & _ & HL & _).
  assert (Hnb : t_nb t = n) by apply Hst. unfold t_yield, t_nui.
  destruct (t_params t) as [|y nui] eqn:E; [discriminate|]. split; [|split].
  - intros x. exists (set_params t (x :: nui)). simpl. rewrite E. auto.
  - intros l Hl. exists (set_params t (y :: l)). simpl. rewrite Hnb, E, Hl, Nat.eqb_refl. auto.
  - intros x l Hl. exists (set_params t (x :: l)). simpl. rewrite E. simpl in *. replace (length l) with (length nui) by lia.
    rewrite Nat.eqb_refl. auto.
Qed.
