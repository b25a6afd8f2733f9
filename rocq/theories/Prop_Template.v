(** Property theorems C18-C22, C24-C26: templates.  Throughout, [contents_of h n c e] says that the
    histogram of the template has n bins with counts c and squared errors e >= 0 (true of every
    histogram made by a constructor and fills: C18_histograms_have_contents), [t_run] executes an
    arbitrary sequence of template operations, and [inv] is numpy's matrix inversion. *)
From Coq Require Import Reals String ZArith Bool Arith List Lra Lia.
From Verif Require Import Model_Num Model_Hist Model_Utility Model_Template Spec_Matrix Spec_Template Spec_Hist
  Proof_Hist Proof_Hist2 Proof_Hist3 Proof_Matrix Proof_Linear Proof_Template Proof_Template2 Proof_Template3 Proof_Template4.
Import ListNotations.
Local Open Scope R_scope.

Theorem C18_histograms_have_contents : forall bins range data w h0 fills h,
  hist1_new bins range data w = Ok h0 -> fills1 h0 fills = Ok h -> exists n c e, contents_of h n c e.
Proof. exact hist1_contents_of. Qed.
Print Assumptions C18_histograms_have_contents.
Theorem C18_histograms_2d_have_contents : forall bins range data w h0 fills h,
  hist2_new bins range data w = Ok h0 -> fills2 h0 fills = Ok h -> exists n c e, contents_of h n c e.
Proof. exact hist2_contents_of. Qed.
Print Assumptions C18_histograms_2d_have_contents.

(** C18.  eps are the relative errors of the template. *)
Theorem C18_fractions_normalised : forall inv k name hid h t0 n c e ops t log,
  inv_spec inv -> contents_of h n c e -> template_new k name hid h = Ok t0 -> valid_covs n ops ->
  t_run inv t0 ops = (t, log) ->
  exists eps, t_rel t = vec_of n eps /\
  forall th, let total := sumn n (fun j => c j * (1 + th j * eps j)) in
    total <> 0 ->
    exists f, t_fractions t (vec_of n th) = Ok (vec_of n f) /\
      sumn n f = 1 /\
      (forall i, (i < n)%nat -> f i = c i * (1 + th i * eps i) / total) /\
      ((forall i, (i < n)%nat -> 0 <= c i /\ 0 <= 1 + th i * eps i) -> forall i, (i < n)%nat -> 0 <= f i).
Proof. exact fractions_of_reached. Qed.
Print Assumptions C18_fractions_normalised.

(** C19 *)
Theorem C19_values_add_up_to_yield : forall inv k name hid h t0 n c e ops t log,
  inv_spec inv -> contents_of h n c e -> template_new k name hid h = Ok t0 -> valid_covs n ops ->
  t_run inv t0 ops = (t, log) ->
  exists eps, t_rel t = vec_of n eps /\
  forall y th, t_params t = Fin y :: vec_of n th -> sumn n (fun j => c j * (1 + th j * eps j)) <> 0 ->
    exists v, t_values t = Ok (vec_of n v) /\ sumn n v = y.
Proof. exact values_of_reached. Qed.
Print Assumptions C19_values_add_up_to_yield.

Theorem C19_new_template_reproduces_histogram : forall k name hid h t n c e,
  template_new k name hid h = Ok t -> contents_of h n c e -> sumn n c <> 0 ->
  t_values t = Ok (vec_of n c) /\
  exists er, t_errors t = Ok (vec_of n er) /\
    forall i, (i < n)%nat -> c i <> 0 -> e i <> 0 -> er i = sqrt (e i).
Proof. exact new_values. Qed.
Print Assumptions C19_new_template_reproduces_histogram.

(** values and errors for any parameters and covariance matrices: the errors are the values times the relative errors *)
Theorem C19_values_and_errors : forall t n c e covs y th,
  error_state t n c e covs -> nprod (t_bins t) = n ->
  let eps := rel_error (msum (stat_cov_of e :: covs)) c in
  t_params t = Fin y :: vec_of n th -> sumn n (varied c eps th) <> 0 ->
  exists v, t_values t = Ok (vec_of n v) /\ t_errors t = Ok (vec_of n (fun i => eps i * v i)) /\
    forall i, v i = y * (varied c eps th i / sumn n (varied c eps th)).
Proof.
  intros t n c e covs y th ST B eps P N. pose proof (values_value t n c e covs y th ST B P N) as V. fold eps in V.
  exists (fun i => y * (varied c eps th i / sumn n (varied c eps th))). split; [exact V|]. split; [|reflexivity].
  unfold t_errors. rewrite V. cbn [rbind]. destruct ST as (_ & _ & _ & _ & _ & _ & _ & _ & _ & R). rewrite R. fold eps. apply bcast_vec. reflexivity.
Qed.
Print Assumptions C19_values_and_errors.

(** C20: every bin of a template of an empty histogram is nan. *)
Theorem C20_empty_template_refuted : forall k name hid h t n e i,
  template_new k name hid h = Ok t -> contents_of h n (fun _ => 0) e -> (i < n)%nat ->
  exists v, t_values t = Ok v /\ nth_error v i = Some NaN.
Proof. exact empty_template_nan. Qed.
Print Assumptions C20_empty_template_refuted.

(** C21.  [error_state t n c e covs] spells out covariance, correlation, inverse and relative errors;
    [added] relates the log of all operations to the added matrices. *)
Theorem C21_template_covariance : forall inv name hid h t0 n c e lo hi ops t log,
  inv_spec inv -> contents_of h n c e -> h_range h = [(lo, hi)] -> template_new K1 name hid h = Ok t0 ->
  valid_covs n ops -> t_run inv t0 ops = (t, log) ->
  map fst log = ops /\ exists covs, error_state t n c e covs /\ added lo hi n c log covs.
Proof. exact covariance_of_reached. Qed.
Print Assumptions C21_template_covariance.

(** add_cov_mat with a covariance matrix succeeds (the correlation matrix stays invertible). *)
Theorem C21_add_cov_mat_succeeds : forall inv t n c e covs C,
  inv_spec inv -> t_kind t = K1 -> error_state t n c e covs -> symmetric n C -> psd n C ->
  exists t', t_add_cov_mat inv t (mat_of n C) = (t', Ok tt) /\ error_state t' n c e (covs ++ [C]) /\
    t_params t' = t_params t.
Proof. exact add_cov_succeeds. Qed.
Print Assumptions C21_add_cov_mat_succeeds.

(** the assumption on np.linalg.inv is consistent *)
Theorem C21_inv_spec_satisfiable : exists inv, inv_spec inv.
Proof. exact inv_spec_satisfiable. Qed.
Print Assumptions C21_inv_spec_satisfiable.

(** C22 *)
Theorem C22_add_cov_mat_atomic_refuted : forall inv, inv_spec inv ->
  exists h t t', contents_of h 1 (fun _ => 1) (fun _ => 1) /\ template_new K1 "t" 0 h = Ok t /\
    t_add_cov_mat inv t (mat_of 1 (fun _ _ => -1)) = (t', Err LinAlgError) /\
    t_cov t = mat_of 1 (fun _ _ => 1) /\ t_cov t' = mat_of 1 (fun _ _ => 0) /\
    t_corr t = mat_of 1 (fun _ _ => 1) /\ t_corr t' = mat_of 1 (fun _ _ => 0) /\
    length (t_cov_mats t) = 1%nat /\ length (t_cov_mats t') = 2%nat.
Proof. exact add_cov_not_atomic. Qed.
Print Assumptions C22_add_cov_mat_atomic_refuted.
(** matrices of the wrong shape are rejected without effect *)
Theorem C22_wrong_shape_rejected_partial : forall inv t C,
  square (t_nb t) C = false -> t_kind t = K1 -> t_add_cov_mat inv t C = (t, Err ValueError).
Proof. exact add_cov_shape_error. Qed.
Print Assumptions C22_wrong_shape_rejected_partial.
(** and covariance matrices are never rejected: a failing call with a matrix of the right shape and
    finite entries has been given something which is not a covariance matrix. *)
Theorem C22_covariances_never_fail_partial : forall inv t n c e covs C t' ex,
  inv_spec inv -> t_kind t = K1 -> error_state t n c e covs ->
  t_add_cov_mat inv t (mat_of n C) = (t', Err ex) -> ~ (symmetric n C /\ psd n C).
Proof. exact add_cov_failure. Qed.
Print Assumptions C22_covariances_never_fail_partial.

(** C24 *)
Theorem C24_params_setter : forall t v,
  (exists e, params_setter t v = (t, Err e)) \/
  (exists l, v = VArr l /\ length l = length (t_params t) /\ params_setter t v = (set_params t l, Ok tt)).
Proof. exact params_setter_spec. Qed.
Print Assumptions C24_params_setter.
Theorem C24_params_setter_rejects : forall t l,
  length l <> length (t_params t) -> params_setter t (VArr l) = (t, Err RuntimeError).
Proof. exact params_setter_rejects. Qed.
Print Assumptions C24_params_setter_rejects.
Theorem C24_yield_setter : forall t v,
  (exists e, yield_setter t v = (t, Err e)) \/
  (exists x, (v = VFloat x \/ (exists z, v = VInt z /\ x = Fin (IZR z)) \/ v = VArr [x]) /\
     t_params t <> [] /\ yield_setter t v = (set_params t (x :: tl (t_params t)), Ok tt)).
Proof. exact yield_setter_spec. Qed.
Print Assumptions C24_yield_setter.
Theorem C24_yield_setter_rejects : forall t l, length l <> 1%nat -> exists e, yield_setter t (VArr l) = (t, Err e).
Proof. exact yield_setter_rejects. Qed.
Print Assumptions C24_yield_setter_rejects.
Theorem C24_nui_setter : forall t v,
  (exists e, nui_setter t v = (t, Err e)) \/
  (exists l, v = VArr l /\ length l = t_nb t /\ nui_setter t v = (set_params t (firstn 1 (t_params t) ++ l), Ok tt)).
Proof. exact nui_setter_spec. Qed.
Print Assumptions C24_nui_setter.
Theorem C24_nui_setter_rejects : forall t l, length l <> t_nb t -> nui_setter t (VArr l) = (t, Err RuntimeError).
Proof. exact nui_setter_rejects. Qed.
Print Assumptions C24_nui_setter_rejects.
(** the exceptions: what is no array has no shape attribute; the yield accepts a float, an int or an array of one number *)
Theorem C24_exceptions : forall t v, t_params t <> [] ->
  ((forall l, v <> VArr l) -> params_setter t v = (t, Err AttributeError) /\ nui_setter t v = (t, Err AttributeError)) /\
  (v = VOther \/ (exists l, v = VArr l /\ (1 < length l)%nat) -> yield_setter t v = (t, Err RuntimeError)) /\
  (v = VArr [] -> yield_setter t v = (t, Err ValueError)) /\
  ((exists x, v = VFloat x \/ (exists z, v = VInt z /\ x = Fin (IZR z)) \/ v = VArr [x]) -> snd (yield_setter t v) = Ok tt).
Proof.
  intros t v P. split; [|split; [|split]].
  - intros N. destruct v as [x|z|l|]; try (split; reflexivity). now destruct (N l).
  - intros [ -> |(l & -> & L)]; [reflexivity|]. destruct l as [|a [|b l]]; simpl in L; try lia. reflexivity.
  - intros ->. reflexivity.
  - destruct (t_params t) as [|y r] eqn:E; [congruence|]. intros (x & [ -> |[(z & -> & ->)| -> ]]); simpl; rewrite E; reflexivity.
Qed.
Print Assumptions C24_exceptions.
(** valid values are accepted by every template *)
Theorem C24_setters_accept : forall inv k name hid h t0 n c e ops t log,
  inv_spec inv -> contents_of h n c e -> template_new k name hid h = Ok t0 -> valid_covs n ops ->
  t_run inv t0 ops = (t, log) ->
  (forall x, exists t', yield_setter t (VFloat x) = (t', Ok tt) /\ t_yield t' = x /\ t_nui t' = t_nui t) /\
  (forall l, length l = n -> exists t', nui_setter t (VArr l) = (t', Ok tt) /\ t_nui t' = l /\ t_yield t' = t_yield t) /\
  (forall x l, length l = n -> exists t', params_setter t (VArr (x :: l)) = (t', Ok tt) /\ t_yield t' = x /\ t_nui t' = l).
Proof. exact setters_accept. Qed.
Print Assumptions C24_setters_accept.

(** C25: for every 2d template and all arguments add_variation raises and adds nothing. *)
Theorem C25_add_variation_2d_refuted : forall inv t xs ys up down, t_kind t = K2 ->
  exists e, t_add_variation inv t (D2 xs ys) up down = (t, Err e).
Proof. exact add_variation_2d_fails. Qed.
Print Assumptions C25_add_variation_2d_refuted.
Theorem C25_add_variation_2d_raises_TypeError : forall inv t xs ys up down nx ny rx ry hu hd_,
  t_kind t = K2 -> t_bins t = [nx; ny] -> t_range t = [rx; ry] ->
  hist2_new (B2Ints (Z.of_nat nx) (Z.of_nat ny)) (Some (rx, ry)) (Some (xs, ys)) up = Ok hu ->
  hist2_new (B2Ints (Z.of_nat nx) (Z.of_nat ny)) (Some (rx, ry)) (Some (xs, ys)) down = Ok hd_ ->
  t_add_variation inv t (D2 xs ys) up down = (t, Err TypeError).
Proof. exact add_variation_2d_typeerror. Qed.
Print Assumptions C25_add_variation_2d_raises_TypeError.

(** C26: a histogram with edges 0, 1, 4 and one event; the same event with unchanged weights as up and
    down variation.  In the template's own bins the covariance would be 0. *)
Theorem C26_variation_own_bins_refuted : forall inv, inv_spec inv ->
  exists h t t' C,
    hist1_new (B1Edges (mk_edges false [0; 1; 4])) None (Some [1]) WNone = Ok h /\
    template_new K1 "t" 0 h = Ok t /\
    t_add_variation inv t (D1 [1]) WNone WNone = (t', Ok tt) /\
    t_cov_mats t' = t_cov_mats t ++ [mat_of 2 C] /\
    ~ exists C', variation_cov [0; 1; 4] INR [1] WNone WNone C' /\ mat_of 2 C = mat_of 2 C'.
Proof. exact variation_not_own_bins. Qed.
Print Assumptions C26_variation_own_bins_refuted.
Theorem C26_variation_own_bins_partial : forall inv t n c e covs xs wup wdown h lo hi t',
  inv_spec inv -> t_kind t = K1 -> error_state t n c e covs -> t_range t = [(lo, hi)] ->
  edges_nth h 0 = uniform_edges lo hi n ->
  t_add_variation inv t (D1 xs) wup wdown = (t', Ok tt) ->
  exists C, t_cov_mats t' = t_cov_mats t ++ [mat_of n C] /\ variation_cov (edges_nth h 0) c xs wup wdown C.
Proof. exact variation_own_bins. Qed.
Print Assumptions C26_variation_own_bins_partial.

(** ** Non-vacuity *)
Example ex_template : exists h t,
  hist1_new (B1Edges (mk_edges false [0; 1; 4])) None (Some [1]) WNone = Ok h /\ contents_of h 2 INR INR /\
  h_range h = [(0, 4)] /\ template_new K1 "t" 0 h = Ok t /\ sumn 2 INR <> 0 /\
  valid_covs 2 [TCov (fun _ _ => 1); TYield (VFloat (Fin 5)); TNui (VArr [Fin 1; Fin (-1)]); TReset h].
Proof.
  exists ex_hist. destruct (template_new K1 "t" 0 ex_hist) as [t|] eqn:E; [|discriminate].
  exists t. split; [apply ex_hist_new|]. split; [apply ex_hist_contents|]. split; auto. split; auto.
  split; [simpl; lra|]. constructor; [split; [intros i j _ _; reflexivity|]|repeat constructor].
  intros v. unfold quad; simpl. replace (_ + _) with ((v 0%nat + v 1%nat) ^ 2) by ring. apply pow2_ge_0.
Qed.
Example ex_empty_template : exists h t, contents_of h 2 (fun _ => 0) (fun _ => 0) /\ template_new K1 "t" 0 h = Ok t.
Proof.
  exists (mk_hist K1 [mk_edges false [0; 1; 4]] [2%nat] [2%nat] [(0, 4)] (np_zeros [2%nat]) (np_zeros [2%nat]) true).
  destruct (template_new K1 "t" 0 _) as [t|] eqn:E; [|discriminate].
  exists t. split; auto. unfold contents_of; simpl. repeat split; auto. intros; lra.
Qed.
