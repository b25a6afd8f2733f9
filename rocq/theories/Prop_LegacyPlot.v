(** Property theorems C81, C82, C83: plots and generated datasets of legacy templates. *)
From Coq Require Import Reals String ZArith Bool Arith List Lra Lia.
From Verif Require Import Model_Num Model_Hist Model_Utility Model_Template Model_World Model_Plot Model_Legacy Model_LegacyPlot
  Spec_Hist Spec_Matrix Spec_Template Spec_Nll Spec_Legacy Spec_Data Spec_Plot Spec_LegacyPlot Proof_Hist Proof_Hist3 Proof_HistHeap Proof_LegacyHist
  Proof_Matrix Proof_Linear Proof_Utility Proof_Template Proof_World Proof_Route Proof_Update Proof_Nll Proof_Valid Proof_Legacy Proof_Legacy2 Proof_Legacy3
  Proof_Legacy4 Proof_Legacy5 Proof_Plot Proof_Plot2 Prop_Hist Prop_Data Prop_Nll Prop_Legacy Prop_LegacyNll.
Import ListNotations.
Local Open Scope R_scope.

(** ** Values and errors of one template *)
Lemma expects_ok w t n v er : expects w t n v er -> exists tm, nth_error (g_tmpls w) t = Some tm /\ lt_nb tm = n /\
  lt_values w tm = Ok (vec_of n v) /\ lt_errors w tm = Ok (vec_of n er).
Proof.
  intros (tm & c & e & covs & y & th & ye & nue & TM & L & P & NZ & E). exists tm. split; auto. split; [apply L|].
  rewrite (params_of_some _ _ _ TM) in P. unfold pview in P. injection P as PY _ PN _.
  assert (V : lt_values w tm = Ok (vec_of n v)).
  { unfold lt_values. rewrite PN, (lfractions tm n c e covs th L NZ). cbn [rbind]. rewrite PY. f_equal.
    rewrite (map_vec n _ (xmul (Fin y)) (fun b => y * (varied c (rel_error (msum (stat_cov_of e :: covs)) c) th b / sumn n (varied c (rel_error (msum (stat_cov_of e :: covs)) c) th)))) by reflexivity.
    apply vec_of_ext. intros b Hb. symmetry. apply E; auto. }
  split; auto. unfold lt_errors. rewrite V. cbn [rbind]. destruct L as (_ & _ & _ & _ & _ & _ & _ & _ & R). rewrite R.
  rewrite (bcast_vec n _ v xmul (fun b => rel_error (msum (stat_cov_of e :: covs)) c b * v b)) by reflexivity. f_equal.
  apply vec_of_ext. intros b Hb. symmetry. apply E; auto.
Qed.

(** ** The edges of a container are those of its limits *)
Definition GG (w : gworld) : Prop := forall s st, nth_error (g_stacks w) s = Some st ->
  ls_edges st = np_linspace (fst (ls_limits st)) (snd (ls_limits st)) (ls_nb st + 1).
Lemma GG_upd w s st d : GG w -> nth_error (g_stacks w) s = Some st -> GG (upd_stack w s (set_dict st d)).
Proof.
  intros G E s' st' H. unfold upd_stack in H. cbn in H. destruct (Nat.eq_dec s s') as [->|N].
  - rewrite upd_same in H by (apply nth_error_Some; congruence). injection H as <-. cbn. eauto.
  - rewrite upd_other in H by auto. eauto.
Qed.
Lemma GG_step inv w o : GG w -> GG (fst (gstep inv w o)).
Proof.
  intros G.
  assert (D : (forall n v nb lim, o <> GStack n v nb lim) -> (forall s i t, o <> GAddTemplate s i t) ->
    (forall s i d ws, o <> GCreateTemplate s i d ws) -> GG (fst (gstep inv w o))).
  { intros H1 H2 H3 s st. rewrite stacks_step by auto. apply G. }
  destruct o; try (apply D; intros; discriminate); clear D; simpl gstep.
  - unfold ls_create. destruct (Z.ltb_spec nb (-1)); [exact G|]. destruct (Z.ltb_spec nb 1); [exact G|]. cbn [fst]. intros s st HH. cbn in HH.
    destruct (Nat.lt_ge_cases s (length (g_stacks w))).
    + rewrite nth_error_app1 in HH by auto. eauto.
    + rewrite nth_error_app2 in HH by auto. destruct (s - length (g_stacks w))%nat as [|k]; [|destruct k; discriminate]. injection HH as <-. reflexivity.
  - unfold ls_add_template. destruct (nth_error (g_stacks w) s) as [st|] eqn:E; [|exact G]. destruct (nth_error (g_tmpls w) t); [|exact G].
    destruct (_ && _); [|exact G]. cbn [fst]. now apply GG_upd.
  - unfold ls_create_template. destruct (nth_error (g_stacks w) s) as [st|] eqn:E; [|exact G].
    destruct (lt_create w tid (ls_var st) (Z.of_nat (ls_nb st)) (ls_limits st) data ws) as [w' r] eqn:L.
    assert (SS : g_stacks w' = g_stacks w).
    { unfold lt_create in L. destruct (hist1_new _ _ _ _); [|congruence]. destruct (Nat.eqb _ _); [congruence|]. injection L as <- _. reflexivity. }
    assert (G' : GG w') by (intros s' st'; rewrite SS; apply G). destruct r; cbn [fst]; [|exact G']. apply GG_upd; auto. congruence.
Qed.
Lemma GG_run inv l : forall w, GG w -> GG (grun inv w l).
Proof. induction l as [|o l IH]; intros w G; simpl; auto. apply IH, GG_step, G. Qed.
Lemma GG_empty : GG g_empty. Proof. intros [|s] st H; discriminate. Qed.

Lemma linspace_equal lo hi n : (1 <= n)%nat -> equal_edges lo hi n (np_linspace lo hi (n + 1)).
Proof. intros H. split; [rewrite Proof_Hist.linspace_length; lia|]. intros i Hi. now rewrite linspace_nth by auto. Qed.
Lemma l_mids_ok es n : length es = S n -> l_mids es = mids_of es n.
Proof. intros H. unfold l_mids. now apply map2_steps. Qed.
Lemma l_widths lo hi n : (1 <= n)%nat -> repeat (l_width (np_linspace lo hi (n + 1))) n = widths_of (np_linspace lo hi (n + 1)) n.
Proof.
  intros H. unfold widths_of. transitivity (map (fun _ : nat => l_width (np_linspace lo hi (n + 1))) (seq 0 n)).
  - generalize (l_width (np_linspace lo hi (n + 1))) as q. intros q. clear H. generalize 0%nat as a. induction n as [|n IH]; intros a; simpl; [reflexivity|]. f_equal. apply IH.
  - apply map_ext_in. intros i Hi. apply in_seq in Hi. unfold l_width. rewrite !linspace_nth by lia. rewrite !S_INR. change (INR 0) with 0. ring.
Qed.
Lemma l_hist_ok layers es : Forall (fun l => length (fst l) = length (snd l)) layers -> valid_edges es ->
  l_hist layers es = ([DHist layers es], POk tt).
Proof.
  intros F V. pose proof (ax_hist_ok layers es world_init F V) as H. unfold ax_hist in H. unfold l_hist.
  destruct (negb _); [discriminate|]. destruct (_ || _); [discriminate|]. reflexivity.
Qed.
Lemma col_sums_vecs T n (v : nat -> nat -> R) : (0 < T)%nat ->
  col_sums (map (fun k => vec_of n (v k)) (seq 0 T)) = Ok (vec_of n (fun b => sumn T (fun k => v k b))).
Proof.
  intros T0. change (map (fun k => vec_of n (v k)) (seq 0 T)) with (rmat_of T n v). unfold col_sums. destruct (rmat_of T n v) as [|r rs] eqn:ER.
  { apply (f_equal (@length _)) in ER. unfold rmat_of in ER. rewrite map_length, seq_length in ER. simpl in ER. lia. }
  assert (LR : length r = n). { assert (I : In r (rmat_of T n v)) by (rewrite ER; now left). unfold rmat_of in I. apply in_map_iff in I as (k & <- & _). apply vec_of_length. }
  rewrite rows_ok_uniform by (intros l I; rewrite <- ER in I; unfold rmat_of in I; apply in_map_iff in I as (k & <- & _); now rewrite vec_of_length).
  rewrite LR, <- ER. f_equal. unfold vec_of. apply map_ext_in. intros j Hj. apply in_seq in Hj.
  assert (LL : length (rmat_of T n v) = T) by (unfold rmat_of; now rewrite map_length, seq_length).
  rewrite LL. transitivity (xsum_n T (fun i => Fin (v i j))); [|now rewrite xsum_n_sumn].
  unfold xsum_n. f_equal. apply map_ext_in. intros i Hi. apply in_seq in Hi. rewrite mnth_rmat by lia. reflexivity.
Qed.

(** the values and errors of the templates of a container *)
Lemma members_values w s st T (v er : nat -> nat -> R) : let n := ls_nb st in GS w -> nth_error (g_stacks w) s = Some st -> length (ls_dict st) = T ->
  (forall k t, member w s k t -> expects w t n (v k) (er k)) ->
  exists ts, ls_templates w st = Ok ts /\ mapr (lt_values w) ts = Ok (map (fun k => vec_of n (v k)) (seq 0 T)) /\
    mapr (lt_errors w) ts = Ok (map (fun k => vec_of n (er k)) (seq 0 T)).
Proof.
  intros n G ST LT X.
  destruct (templates_ok w s st G ST) as (ts & E & LTS & TK).
  assert (TE : forall k tm, nth_error ts k = Some tm -> lt_values w tm = Ok (vec_of n (v k)) /\ lt_errors w tm = Ok (vec_of n (er k))).
  { intros k tm K. assert (KL : (k < length ts)%nat) by (apply nth_error_Some; congruence).
    destruct (nth_error (ls_ids st) k) as [t|] eqn:TI; [|apply nth_error_None in TI; unfold ls_ids in TI; rewrite map_length in TI; lia].
    destruct (TK k t TI) as (tm' & K1 & K2). assert (tm' = tm) by congruence. subst tm'.
    destruct (expects_ok w t n (v k) (er k)) as (tm' & K3 & _ & V & R); [apply X; exists st; auto|]. assert (tm' = tm) by congruence. subst tm'. auto. }
  assert (VS : mapr (lt_values w) ts = Ok (map (fun k => vec_of n (v k)) (seq 0 T))).
  { rewrite (mapr_nth _ _ (fun k => vec_of n (v k))); [now rewrite LTS, LT|]. intros k tm K. apply TE; auto. }
  assert (RS : mapr (lt_errors w) ts = Ok (map (fun k => vec_of n (er k)) (seq 0 T))).
  { rewrite (mapr_nth _ _ (fun k => vec_of n (er k))); [now rewrite LTS, LT|]. intros k tm K. apply TE; auto. }
  exists ts. auto.
Qed.
Lemma container_values w s st T (v er : nat -> nat -> R) : GS w -> nth_error (g_stacks w) s = Some st -> length (ls_dict st) = T -> (0 < T)%nat ->
  (forall k t, member w s k t -> expects w t (ls_nb st) (v k) (er k)) -> ls_values w st = Ok (vec_of (ls_nb st) (fun b => sumn T (fun k => v k b))).
Proof.
  intros G ST LT T0 X. destruct (members_values w s st T v er G ST LT X) as (ts & E & VS & _). unfold ls_values. rewrite E. cbn [rbind]. rewrite VS. cbn [rbind].
  now apply col_sums_vecs.
Qed.


(** ** C81: plot_on of a single template *)

(** C81 is false: Template.plot_on never returns normally, whatever the template is. *)
Theorem C81_plot_on_raises_refuted : forall inv l t tm, let w := grun inv g_empty l in
  nth_error (g_tmpls w) t = Some tm -> exists ds e, lt_plot_on w tm = (ds, PErr (Py e)).
Proof.
  intros inv l t tm w TM. unfold lt_plot_on, ldo. destruct (lt_values w tm) as [v|e]; cbn [lget]; [|eauto].
  unfold l_hist. destruct (negb _); [eauto|]. destruct (_ || _); [eauto|]. destruct (lt_errors w tm) as [er|e]; cbn [lget]; eauto.
Qed.
Print Assumptions C81_plot_on_raises_refuted.

(** For a template with valid limits whose expectation exists, the histogram has been drawn before TypeError is
    raised: it shows the expectation; the bars with the errors are missing. *)
Theorem C81_histogram_drawn_partial : forall inv l t tm n v er, let w := grun inv g_empty l in
  nth_error (g_tmpls w) t = Some tm -> fst (lt_limits tm) < snd (lt_limits tm) -> (0 < n)%nat -> expects w t n v er ->
  exists layers es, lt_plot_on w tm = ([DHist layers es], PErr (Py TypeError)) /\
    equal_edges (fst (lt_limits tm)) (snd (lt_limits tm)) n es /\ length layers = 1%nat /\
    forall b, (b < n)%nat -> stack_shows es layers 0 b 0 (v b).
Proof.
  intros inv l t tm n v er w TM LM N0 X. destruct (expects_ok _ _ _ _ _ X) as (tm' & TM' & NB & V & R). assert (tm' = tm) by congruence. subst tm'.
  set (es := np_linspace (fst (lt_limits tm)) (snd (lt_limits tm)) (n + 1)).
  assert (ED : lt_edges tm = es) by (unfold lt_edges; now rewrite NB).
  assert (LE : length es = S n) by (unfold es; rewrite Proof_Hist.linspace_length; lia). assert (VE : valid_edges es) by (apply linspace_valid; auto; lia).
  exists [(mids_of es n, vec_of n v)], es. split; [|split; [apply linspace_equal; lia|split; [reflexivity|]]].
  - unfold lt_plot_on, ldo. rewrite V. cbn [lget]. rewrite ED, (l_mids_ok es n LE), l_hist_ok; auto.
    + rewrite R. reflexivity.
    + constructor; [|constructor]. cbn. now rewrite mids_length, vec_of_length.
  - intros b Hb. now apply (stack_single es (mids_of es n) v n b).
Qed.
Print Assumptions C81_histogram_drawn_partial.

(** ** C82: plot_on of a container *)

(** In every reachable state a container with templates that have an expectation draws its templates on top of each
    other in the order in which they were added, and over each bin a bar around the total with half width sqrt of the
    sum of squared template errors. *)
Theorem C82_stack_plot : forall inv l s st T v er, let w := grun inv g_empty l in let n := ls_nb st in
  nth_error (g_stacks w) s = Some st -> fst (ls_limits st) < snd (ls_limits st) -> num_members w s T -> (0 < T)%nat ->
  (forall k t, member w s k t -> expects w t n (v k) (er k)) ->
  exists layers es bars, ls_plot_on w st = ([DHist layers es; bars], POk tt) /\ length layers = T /\
    equal_edges (fst (ls_limits st)) (snd (ls_limits st)) n es /\
    forall b, (b < n)%nat ->
      (forall k, (k < T)%nat -> stack_shows es layers k b (sumn k (fun j => v j b)) (sumn (S k) (fun j => v j b))) /\
      let total := sumn T (fun k => v k b) in let err := sqrt (sumn T (fun k => (er k b) ^ 2)) in
      bar_shows bars b (nth b es 0) (nth (S b) es 0) (total - err) (total + err).
Proof.
  intros inv l s st T v er w n ST LM (st' & ST' & LT) T0 X. assert (st' = st) by congruence. subst st'.
  assert (G : GS w) by (apply GS_run, GS_empty). assert (GGw : GG w) by (apply GG_run, GG_empty).
  destruct (G s st ST) as (N0 & _ & _). fold n in N0.
  set (es := np_linspace (fst (ls_limits st)) (snd (ls_limits st)) (n + 1)).
  assert (ED : ls_edges st = es) by (unfold es, n; now apply (GGw s)).
  assert (LE : length es = S n) by (unfold es; rewrite Proof_Hist.linspace_length; lia). assert (VE : valid_edges es) by (apply linspace_valid; auto; lia).
  destruct (members_values w s st T v er G ST LT X) as (ts & E & VS & RS). fold n in VS, RS.
  set (err := fun b => sqrt (sumn T (fun k => (er k b) ^ 2))). set (total := fun b => sumn T (fun k => v k b)).
  exists (map (fun k => (mids_of es n, vec_of n (v k))) (seq 0 T)), es,
    (DBars (mids_of es n) (map (xmul (Fin 2)) (vec_of n err)) (widths_of es n) (vec_of n (fun i => total i - err i))).
  split; [|split; [now rewrite map_length, seq_length|split; [apply linspace_equal; lia|]]].
  - unfold ls_plot_on, ldo. rewrite E, ED, (l_mids_ok es n LE). cbn [lget]. rewrite VS. cbn [lget]. rewrite map_map, l_hist_ok; auto.
    2:{ apply Forall_forall. intros p I. apply in_map_iff in I as (k & <- & _). cbn. now rewrite mids_length, vec_of_length. }
    rewrite RS. cbn [lget]. rewrite map_map.
    rewrite (map_ext _ (fun k => vec_of n (fun b => (er k b) ^ 2))).
    2:{ intros k. apply map_vec. intros b _. change (Fin (er k b * er k b) = Fin (er k b ^ 2)). apply f_equal. ring. }
    rewrite !col_sums_vecs by auto. cbn [lget].
    rewrite (map_vec n _ xsqrt err).
    2:{ intros b _. unfold err. cbn -[pow]. destruct (Rltb_spec (sumn T (fun k => er k b ^ 2)) 0) as [H|]; [|reflexivity]. exfalso.
        pose proof (sumn_nonneg T (fun k => er k b ^ 2) ltac:(intros; apply pow2_ge_0)). lra. }
    rewrite (bcast_vec n _ err xsub (fun i => total i - err i)) by reflexivity. cbn [lget].
    unfold l_bar. rewrite map_length, !vec_of_length, mids_length, Nat.eqb_refl. cbn [andb].
    unfold es. rewrite l_widths by lia. reflexivity.
  - intros b Hb. split; [intros k Hk; now apply stack_vec|]. exact (bar_vec es n total err b Hb).
Qed.
Print Assumptions C82_stack_plot.

(** ** C83: generated datasets *)
Lemma binned_ok lo hi n d : (1 <= n)%nat -> (forall b, (b < n)%nat -> 0 <= d b) ->
  exists h, hist1_from_binned (nd1 (vec_of n d)) (mk_edges false (np_linspace lo hi (n + 1))) None = Ok h /\ binned lo hi n h d (fun b => sqrt (d b)).
Proof.
  intros N P. destruct (C09_from_binned_1d (nd1 (vec_of n d)) (mk_edges false (np_linspace lo hi (n + 1))) None) as (h & E & C & ED & _ & _ & ER).
  { cbn [e_vals]. rewrite Proof_Hist.linspace_length. lia. }
  exists h. split; auto. eexists. split; [exact ED|]. split; [now apply linspace_equal|]. split; [rewrite C; unfold nd1; now rewrite vec_of_length|].
  destruct ER as (_ & ER).
  { intros x I. cbn in I. apply in_map_iff in I as (b & <- & I). apply in_seq in I. exists (d b). split; auto. apply P. lia. }
  rewrite ER. cbn. rewrite vec_of_length. f_equal. unfold vec_of. rewrite map_map. apply map_ext_in. intros b I. apply in_seq in I. cbn.
  destruct (Rltb_spec (d b) 0); [|reflexivity]. specialize (P b ltac:(lia)). lra.
Qed.
Lemma nearest_pos r z : 0 <= r -> nearest r z -> 0 <= IZR z.
Proof.
  intros P (A & B). destruct (Z_lt_le_dec z 0) as [L|L]; [|now apply IZR_le in L]. exfalso.
  assert (IZR z <= -1) by (apply IZR_le; lia). destruct (Req_dec (r - IZR z) (1/2)); [lra|].
  rewrite Rabs_right in A by lra. lra.
Qed.
Lemma rounded n v : (forall b, (b < n)%nat -> 0 <= v b) -> exists r, map xrint (vec_of n v) = vec_of n r /\
  forall b, (b < n)%nat -> 0 <= r b /\ exists z, r b = IZR z /\ nearest (v b) z.
Proof.
  intros P. exists (fun b => Rrint (v b)). split; [unfold vec_of; rewrite map_map; reflexivity|].
  intros b Hb. destruct (Prop_Data.C42_rint (v b)) as (z & E & N). cbn in E. injection E as E. rewrite E. split; [|eauto].
  eapply nearest_pos; eauto.
Qed.
Lemma rvs_vec n v draw : length draw = n -> (forall b, (b < n)%nat -> 0 <= v b) ->
  rvs draw (vec_of n v) = Ok (vec_of n (fun b => INR (nth b draw 0%nat))).
Proof.
  intros L P. unfold rvs. replace (existsb (fun m => xisnan m || xltb m (Fin 0)) (vec_of n v)) with false.
  - rewrite vec_of_length, L, Nat.eqb_refl. f_equal. unfold vec_of. subst n. clear P v.
    transitivity (map (fun k => Fin (INR k)) (map (fun b => nth b draw 0%nat) (seq 0 (length draw)))); [|now rewrite map_map].
    f_equal. induction draw as [|a draw IH]; simpl; [reflexivity|]. f_equal. rewrite <- seq_shift, map_map. exact IH.
  - symmetry. apply not_true_is_false. intros H. apply existsb_exists in H as (x & I & H). apply in_map_iff in I as (b & <- & I). apply in_seq in I. cbn in H.
    destruct (Rltb_spec (v b) 0); [|discriminate]. specialize (P b ltac:(lia)). lra.
Qed.
Lemma rvs_neg n v draw b : (b < n)%nat -> v b < 0 -> rvs draw (vec_of n v) = Err ValueError.
Proof.
  intros H P. unfold rvs. replace (existsb (fun m => xisnan m || xltb m (Fin 0)) (vec_of n v)) with true; [reflexivity|].
  symmetry. apply existsb_exists. exists (Fin (v b)). split; [unfold vec_of; apply in_map_iff; exists b; split; [reflexivity|apply in_seq; lia]|]. cbn. now destruct (Rltb_spec (v b) 0).
Qed.

(** A template: the Asimov dataset has the expectation (rounded to the nearest integers if wanted) as contents, a toy
    dataset the numbers that were drawn; the binning is that of the template, the errors are the square roots. *)
Theorem C83_template : forall inv l t tm n v er draw, let w := grun inv g_empty l in
  nth_error (g_tmpls w) t = Some tm -> (0 < n)%nat -> expects w t n v er -> length draw = n ->
  (forall b, (b < n)%nat -> 0 <= v b) ->
  let lo := fst (lt_limits tm) in let hi := snd (lt_limits tm) in
  (exists h, lt_asimov w tm false = Ok h /\ binned lo hi n h v (fun b => sqrt (v b))) /\
  (exists h r, lt_asimov w tm true = Ok h /\ binned lo hi n h r (fun b => sqrt (r b)) /\
     forall b, (b < n)%nat -> exists z, r b = IZR z /\ nearest (v b) z) /\
  (exists h, lt_toy w tm draw = Ok h /\ binned lo hi n h (fun b => INR (nth b draw 0%nat)) (fun b => sqrt (INR (nth b draw 0%nat)))).
Proof.
  intros inv l t tm n v er draw w TM N0 X LD POS lo hi. destruct (expects_ok _ _ _ _ _ X) as (tm' & TM' & NB & V & _). assert (tm' = tm) by congruence. subst tm'.
  assert (ED : lt_edges tm = np_linspace lo hi (n + 1)) by (unfold lt_edges; now rewrite NB).
  unfold lt_asimov, lt_toy. rewrite V, ED. cbn [rbind]. split; [|split].
  - apply binned_ok; auto; lia.
  - destruct (rounded n v POS) as (r & -> & R). destruct (binned_ok lo hi n r) as (h & E & B); [lia|intros; now apply R|]. exists h, r. split; auto. split; auto. intros b Hb. now apply R.
  - rewrite (rvs_vec n v draw LD POS). cbn [rbind]. apply binned_ok; [lia|]. intros. apply pos_INR.
Qed.
Print Assumptions C83_template.

(** A container: the same with the sum of the expectations of its templates. *)
Theorem C83_container : forall inv l s st T v er draw, let w := grun inv g_empty l in let n := ls_nb st in
  nth_error (g_stacks w) s = Some st -> num_members w s T -> (0 < T)%nat ->
  (forall k t, member w s k t -> expects w t n (v k) (er k)) -> length draw = n ->
  let total b := sumn T (fun k => v k b) in (forall b, (b < n)%nat -> 0 <= total b) ->
  let lo := fst (ls_limits st) in let hi := snd (ls_limits st) in
  (exists h, ls_asimov w st false = Ok h /\ binned lo hi n h total (fun b => sqrt (total b))) /\
  (exists h r, ls_asimov w st true = Ok h /\ binned lo hi n h r (fun b => sqrt (r b)) /\
     forall b, (b < n)%nat -> exists z, r b = IZR z /\ nearest (total b) z) /\
  (exists h, ls_toy w st draw = Ok h /\ binned lo hi n h (fun b => INR (nth b draw 0%nat)) (fun b => sqrt (INR (nth b draw 0%nat)))).
Proof.
  intros inv l s st T v er draw w n ST (st' & ST' & LT) T0 X LD total POS lo hi. assert (st' = st) by congruence. subst st'.
  assert (G : GS w) by (apply GS_run, GS_empty). assert (GGw : GG w) by (apply GG_run, GG_empty).
  destruct (G s st ST) as (N0 & _ & _). fold n in N0.
  assert (ED : ls_edges st = np_linspace lo hi (n + 1)) by (unfold n; now apply (GGw s)).
  assert (V : ls_values w st = Ok (vec_of n total)) by (apply (container_values w s st T v er); auto).
  unfold ls_asimov, ls_toy. rewrite V, ED. cbn [rbind]. split; [|split].
  - apply binned_ok; auto; lia.
  - destruct (rounded n total POS) as (r & -> & R). destruct (binned_ok lo hi n r) as (h & E & B); [lia|intros; now apply R|]. exists h, r. split; auto. split; auto. intros b Hb. now apply R.
  - rewrite (rvs_vec n total draw LD POS). cbn [rbind]. apply binned_ok; [lia|]. intros. apply pos_INR.
Qed.
Print Assumptions C83_container.

(** A toy dataset cannot be drawn if the expectation of a bin is negative: ValueError. *)
Theorem C83_negative_expectation : forall inv l s st T v er draw b, let w := grun inv g_empty l in let n := ls_nb st in
  nth_error (g_stacks w) s = Some st -> num_members w s T -> (0 < T)%nat ->
  (forall k t, member w s k t -> expects w t n (v k) (er k)) -> (b < n)%nat -> sumn T (fun k => v k b) < 0 ->
  ls_toy w st draw = Err ValueError.
Proof.
  intros inv l s st T v er draw b w n ST (st' & ST' & LT) T0 X Hb NEG. assert (st' = st) by congruence. subst st'.
  assert (G : GS w) by (apply GS_run, GS_empty). unfold ls_toy.
  rewrite (container_values w s st T v er) by auto. cbn [rbind]. now rewrite (rvs_neg n _ draw b Hb NEG).
Qed.
Print Assumptions C83_negative_expectation.

(** ** Example: one template with the counts 1 and 1 in two bins between 0 and 2 *)
Lemma ex_expects inv : exists st, let w := grun inv g_empty ex_nll1 in nth_error (g_stacks w) 0 = Some st /\ ls_limits st = (0, 2) /\
  ls_nb st = 2%nat /\ num_members w 0 1 /\ (forall k t, member w 0 k t -> t = 0%nat) /\ expects w 0 2 (fun _ => 1) (fun _ => 1) /\
  exists tm, nth_error (g_tmpls w) 0 = Some tm /\ lt_limits tm = (0, 2).
Proof.
  destruct (ex_state_full inv) as (tm & h & c & e & bufs & EW & NB & LE & C0 & C1 & E0 & E1 & HC & P & LIM).
  eexists. rewrite EW in *. split; [reflexivity|]. split; [reflexivity|]. split; [reflexivity|]. split; [eexists; split; reflexivity|]. split.
  - intros k t (st' & S' & K). injection S' as <-. destruct k as [|[|k]]; try discriminate. now injection K as <-.
  - split; [|exists tm; split; [reflexivity|exact LIM]].
    exists tm, c, e, [], 2, (fun _ => 0). pose proof LE as (_ & LC & LQ & _).
    unfold initial in P. rewrite NB, LC, LQ in P.
    assert (S1 : np_sum (vec_of 2 c) = Fin 2) by (rewrite np_sum_vec; cbn [sumn]; rewrite C0, C1; f_equal; lra).
    rewrite S1 in P. do 2 eexists. split; [reflexivity|]. split; [exact LE|]. split; [exact P|]. cbv zeta.
    set (cov := msum (stat_cov_of e :: [])).
    assert (D : cov 0%nat 0%nat = 1 /\ cov 1%nat 1%nat = 1).
    { unfold cov, msum, stat_cov_of. simpl. rewrite E0, E1. destruct (Req_EM_T 1 0); [lra|]. split; lra. }
    assert (RE : rel_error cov c 0%nat = 1 /\ rel_error cov c 1%nat = 1).
    { unfold rel_error. destruct D as (-> & ->). rewrite C0, C1, sqrt_1. destruct (Req_EM_T 1 0); [lra|]. split; lra. }
    destruct RE as (R0 & R1). assert (V0 : varied c (rel_error cov c) (fun _ => 0) 0%nat = 1) by (unfold varied; rewrite C0; ring).
    assert (V1 : varied c (rel_error cov c) (fun _ => 0) 1%nat = 1) by (unfold varied; rewrite C1; ring).
    cbn [sumn]. rewrite V0, V1. split; [lra|]. intros [|[|b]] Hb; [| |lia].
    + rewrite V0, R0. lra.
    + rewrite V1, R1. lra.
Qed.

Theorem C81_example : forall inv, exists tm ds, let w := grun inv g_empty ex_nll1 in
  nth_error (g_tmpls w) 0 = Some tm /\ lt_plot_on w tm = (ds, PErr (Py TypeError)) /\ length ds = 1%nat.
Proof.
  intros inv. destruct (ex_expects inv) as (st & ST & LM & NB & NM & MB & X & tm & TM & LT).
  assert (LL : fst (lt_limits tm) < snd (lt_limits tm)) by (rewrite LT; cbn; lra).
  destruct (C81_histogram_drawn_partial inv ex_nll1 0 tm 2 (fun _ => 1) (fun _ => 1) TM LL Nat.lt_0_2 X) as (ly & es & E & _).
  exists tm. eexists. split; [exact TM|]. split; [exact E|reflexivity].
Qed.
Print Assumptions C81_example.

(** the bars reach from 0 to 2, around the expectation 1 with the error 1 *)
Theorem C82_example : forall inv, exists st ly es bars, let w := grun inv g_empty ex_nll1 in
  nth_error (g_stacks w) 0 = Some st /\ ls_plot_on w st = ([DHist ly es; bars], POk tt) /\
  stack_shows es ly 0 1 0 1 /\ bar_shows bars 1 1 2 0 2.
Proof.
  intros inv. destruct (ex_expects inv) as (st & ST & LM & NB & NM & MB & X & _).
  destruct (C82_stack_plot inv ex_nll1 0 st 1 (fun _ _ => 1) (fun _ _ => 1) ST) as (ly & es & bars & E & _ & (_ & EE) & B); auto.
  { rewrite LM. cbn. lra. }
  { intros k t M. rewrite (MB k t M), NB. exact X. }
  exists st, ly, es, bars. split; [exact ST|]. split; [exact E|]. rewrite NB, LM in *. destruct (B 1%nat) as (B1 & B2); [lia|]. split.
  - specialize (B1 0%nat Nat.lt_0_1). cbn [sumn] in B1. replace (0 + 1) with 1 in B1 by ring. exact B1.
  - cbn zeta in B2. cbn [sumn] in B2. rewrite !EE in B2 by lia. unfold equal_edge in B2. cbn [fst snd INR] in B2.
    replace (sqrt (0 + 1 ^ 2)) with 1 in B2 by (replace (0 + 1 ^ 2) with 1 by ring; now rewrite sqrt_1).
    replace (0 + 1 * ((2 - 0) / (1 + 1))) with 1 in B2 by field. replace (0 + (1 + 1) * ((2 - 0) / (1 + 1))) with 2 in B2 by field.
    replace (0 + 1 + 1) with 2 in B2 by ring. replace (0 + 1 - 1) with 0 in B2 by ring. exact B2.
Qed.
Print Assumptions C82_example.

Theorem C83_example : forall inv, exists st h, let w := grun inv g_empty ex_nll1 in
  nth_error (g_stacks w) 0 = Some st /\ ls_toy w st [3%nat; 0%nat] = Ok h /\ h_counts h = mk_nd [2%nat] [Fin 3; Fin 0].
Proof.
  intros inv. destruct (ex_expects inv) as (st & ST & LM & NB & NM & MB & X & _).
  destruct (C83_container inv ex_nll1 0 st 1 (fun _ _ => 1) (fun _ _ => 1) [3%nat; 0%nat] ST NM) as (_ & _ & h & E & (e & _ & _ & C & _)); auto.
  { intros k t M. rewrite (MB k t M), NB. exact X. }
  { intros b _. cbn [sumn]. lra. }
  exists st, h. split; [exact ST|]. split; [exact E|]. rewrite C, NB. unfold vec_of. cbn. repeat f_equal; lra.
Qed.
Print Assumptions C83_example.
