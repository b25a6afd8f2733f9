(** Property theorems C76-C79: what the plotting methods draw. *)
From Coq Require Import Reals String ZArith Bool Arith List Lra Lia.
From Verif Require Import Model_Num Model_Hist Model_Utility Model_Template Model_World Model_Ops Model_Minimizer Model_Plot
  Spec_Hist Spec_Matrix Spec_Template Spec_World Spec_Nll Spec_Stale Spec_Plot Proof_Hist Proof_Monad Proof_Hist2 Proof_Hist3 Proof_Matrix Proof_Utility Proof_Template Proof_Template2 Proof_Template3 Proof_World
  Proof_Eval Proof_Route Proof_Names Proof_Nll Proof_Data Proof_Plot Proof_Plot2 Proof_Plot3 Prop_World Prop_Stale.
Import ListNotations.
Local Open Scope R_scope.

(** C76: Template1d.plot_on draws one histogram whose bins have the values of the template as contents, and over each
    bin a bar from values - errors to values + errors; nothing else is changed.  Edges given as a numpy array. *)
Theorem C76_template_plot_partial : forall inv l tid t h es n v s, let w := reached inv l in
  nth_error (w_tmpls w) tid = Some t -> nth_error (w_hists w) (t_hist t) = Some h -> h_edges h = [mk_edges false es] ->
  valid_edges es -> length es = S n ->
  t_values t = Ok (vec_of n v) -> t_errors t = Ok (vec_of n s) ->
  exists layers bars, t1_plot_on tid w = ((w, [DHist layers es; bars]), POk tt) /\ length layers = 1%nat /\
    forall b, (b < n)%nat ->
      stack_shows es layers 0 b 0 (v b) /\
      bar_shows bars b (nth b es 0) (nth (S b) es 0) (v b - s b) (v b + s b).
Proof. intros inv l tid t h es n v s w T H E V L TV TE. exact (template_plot w tid t h (mk_edges false es) n v s T H E eq_refl V L TV TE). Qed.
Print Assumptions C76_template_plot_partial.

Lemma ex_edges014 : valid_edges [0; 1; 4].
Proof. split; [simpl; lia|]. intros i Hi. simpl in Hi. destruct i as [|[|i]]; simpl; try lra. lia. Qed.
(** A template of a histogram whose edges were given as a python list cannot be plotted. *)
Theorem C76_list_edges_refuted : forall inv, exists l t h, let w := reached inv l in
  nth_error (w_tmpls w) 0 = Some t /\ nth_error (w_hists w) (t_hist t) = Some h /\ h_edges h = [mk_edges true [0; 1; 4]] /\ valid_edges [0; 1; 4] /\
  t_values t = Ok [Fin 1; Fin 3] /\ t1_plot_on 0 w = ((w, []), PErr (Py TypeError)).
Proof.
  intros inv. exists [OFromBinned K1 (mk_nd [2%nat] [Fin 1; Fin 3]) [mk_edges true [0; 1; 4]] (Some (mk_nd [2%nat] [Fin 1; Fin 1])); OTemplate K1 "t" 0]%string.
  unfold reached, world_init. do 2 run_step. cbv zeta.
  match goal with |- context [t1_plot_on 0 ?w0] => set (w := w0) end.
  assert (T : exists t, nth_error (w_tmpls w) 0 = Some t) by (eexists; reflexivity). destruct T as (t & T).
  assert (H : exists h, nth_error (w_hists w) (t_hist t) = Some h) by (injection T as <-; eexists; reflexivity). destruct H as (h & H).
  exists t, h. split; [exact T|]. split; [exact H|].
  assert (E : h_edges h = [mk_edges true [0; 1; 4]]) by (injection T as <-; injection H as <-; reflexivity). split; [exact E|].
  split; [exact ex_edges014|].
  split; [|exact (template_plot_list w 0 t h _ T H E eq_refl)].
  assert (N : template_new K1 "t" 0 h = Ok t) by (injection T as <-; injection H as <-; reflexivity).
  assert (CO : contents_of h 2 (fun i => nth i [1; 3] 0) (fun _ => 1 * 1)).
  { clear - H T. injection T as <-. injection H as <-. repeat split; intros; lra. }
  destruct (new_values _ _ _ _ _ _ _ _ N CO) as [V _]; [simpl; lra|]. exact V.
Qed.
Print Assumptions C76_list_edges_refuted.

(** ** C77 *)
Theorem C77_stacked_partial : forall inv l i name cid c es n (v s : nat -> nat -> R) d q, let w := reached inv l in
  nth_error (w_channels w) i = Some (name, cid) -> nth_error (w_chans w) cid = Some c ->
  c_dim c = Some 1%nat -> c_tmpls c <> [] -> valid_edges es -> length es = S n ->
  on_templates w c (fun k t h => h_edges h = [mk_edges false es] /\ t_values t = Ok (vec_of n (v k)) /\ t_errors t = Ok (vec_of n (s k))) ->
  has_data_hist w c n es d q ->
  let nt := length (c_tmpls c) in
  exists layers bars pts, plot_stacked_on cid w = ((w, DHist layers es :: bars :: pts), POk tt) /\ length layers = nt /\
    (forall b, (b < n)%nat ->
      (forall k, (k < nt)%nat -> stack_shows es layers k b (sumn k (fun j => v j b)) (sumn (S k) (fun j => v j b))) /\
      let u := sqrt (sumn nt (fun k => s k b ^ 2)) in
      bar_shows bars b (nth b es 0) (nth (S b) es 0) (sumn nt (fun k => v k b) - u) (sumn nt (fun k => v k b) + u)) /\
    data_points c n es d q pts.
Proof. intros inv l i name cid c es n v s d q w _ C D NE V L T HD. exact (channel_plot w cid c es n v s d q C D NE V L T HD). Qed.
Print Assumptions C77_stacked_partial.

(** Channels with templates of two-dimensional histograms are not supported: both methods raise NotImplementedError
    and draw nothing (for whatever uncertainties are asked for); a channel without templates raises TypeError. *)
Lemma plot_dim inv l cid c : inv_spec inv -> let w := reached inv l in nth_error (w_chans w) cid = Some c ->
  match c_tmpls c with
  | [] => True
  | _ => c_dim c = Some (length (c_bins c))
  end.
Proof.
  intros I w C. assert (W : WF w) by now apply reached_wf. pose proof (wf_chans _ W _ _ C) as O.
  destruct (c_tmpls c) as [|[p tid] r] eqn:T; [exact Logic.I|]. rewrite (co_dim _ _ _ _ O).
  destruct (co_tmpl _ _ _ _ O p tid) as (t & _ & _ & _ & ->); [rewrite T; now left|]. reflexivity.
Qed.
Theorem C77_two_dimensional : forall jac inv l cid c p tid t h rp opt, inv_spec inv -> let w := reached inv l in
  nth_error (w_chans w) cid = Some c -> In (p, tid) (c_tmpls c) ->
  nth_error (w_tmpls w) tid = Some t -> nth_error (w_hists w) (t_hist t) = Some h -> length (h_shape h) = 2%nat ->
  plot_stacked_on cid w = ((w, []), PErr NotImplementedError) /\
  plot_post_fit_stacked_on jac cid rp opt w = ((w, []), PErr NotImplementedError).
Proof.
  intros jac inv l cid c p tid t h rp opt I w C IN T H S2. pose proof (plot_dim inv l cid c I C) as D. fold w in D.
  assert (W : WF w) by now apply reached_wf. pose proof (wf_chans _ W _ _ C) as O.
  destruct (co_tmpl _ _ _ _ O p tid IN) as (t' & T' & B & _). assert (t' = t) by congruence. subst t'.
  destruct (to_hist _ _ (wf_tmpls _ W _ _ T)) as (h' & H' & S' & _). assert (h' = h) by congruence. subst h'.
  assert (D2 : c_dim c = Some 2%nat). { destruct (c_tmpls c); [destruct IN|]. rewrite D, <- B, S', S2. reflexivity. }
  unfold plot_stacked_on, plot_post_fit_stacked_on.
  rewrite !(pbind_read _ _ _ _ (pget_chan _ _ _ C)). unfold plot_stack. rewrite D2. split; reflexivity.
Qed.
Print Assumptions C77_two_dimensional.
Theorem C77_no_template : forall jac inv l cid c rp opt, inv_spec inv -> let w := reached inv l in
  nth_error (w_chans w) cid = Some c -> c_tmpls c = [] ->
  plot_stacked_on cid w = ((w, []), PErr (Py TypeError)) /\
  plot_post_fit_stacked_on jac cid rp opt w = ((w, []), PErr (Py TypeError)).
Proof.
  intros jac inv l cid c rp opt I w C E. assert (W : WF w) by now apply reached_wf. pose proof (wf_chans _ W _ _ C) as O.
  assert (D : c_dim c = None) by (rewrite (co_dim _ _ _ _ O), (co_ttype_tmpls _ _ _ _ O E); reflexivity).
  unfold plot_stacked_on, plot_post_fit_stacked_on.
  rewrite !(pbind_read _ _ _ _ (pget_chan _ _ _ C)). unfold plot_stack. rewrite D. split; reflexivity.
Qed.
Print Assumptions C77_no_template.
(** such channels: a template of a 1 x 2 histogram, and a channel without templates *)
Example ex_C77_two_dimensional : forall inv, let w := reached inv
  [OFromBinned K2 (mk_nd [1%nat; 2%nat] [Fin 1; Fin 3]) [mk_edges false [0; 1]; mk_edges false [0; 1; 4]] None; OTemplate K2 "t" 0;
   ODefChannel "A" [1%nat; 2%nat] [(0, 1); (0, 4)]; ODefProcess "s"; OAddTemplate "A" "s" 0 1; ODefChannel "B" [3%nat] [(0, 1)]]%string in
  exists c c' t h, nth_error (w_chans w) 0 = Some c /\ In ("s"%string, 0%nat) (c_tmpls c) /\
    nth_error (w_tmpls w) 0 = Some t /\ nth_error (w_hists w) (t_hist t) = Some h /\ length (h_shape h) = 2%nat /\
    nth_error (w_chans w) 1 = Some c' /\ c_tmpls c' = [].
Proof. intros inv. unfold reached, world_init. do 6 run_step. cbv zeta. do 4 eexists. repeat split. now left. Qed.

(** values and errors of a template made of [ex_binned] *)
Lemma ex_new_values name hid h t c0 c1 : template_new K1 name hid h = Ok t -> c0 <> 0 -> c1 <> 0 -> c0 + c1 <> 0 ->
  contents_of h 2 (fun i => nth i [c0; c1] 0) (fun _ => 1 * 1) ->
  t_values t = Ok (vec_of 2 (fun i => nth i [c0; c1] 0)) /\ t_errors t = Ok (vec_of 2 (fun _ => 1)).
Proof.
  intros N H0 H1 H2 CO. destruct (new_values _ _ _ _ _ _ _ _ N CO) as [V (er & E & EE)]; [simpl; lra|]. split; [exact V|].
  rewrite E. f_equal. apply vec_of_ext. intros i Hi. rewrite EE; [rewrite Rmult_1_l; apply sqrt_1|auto| |lra].
  destruct i as [|[|i]]; simpl; auto; lia.
Qed.

Lemma ex_on w tid t h name c0 c1 (ed : edges) : nth_error (w_tmpls w) tid = Some t -> nth_error (w_hists w) (t_hist t) = Some h ->
  template_new K1 name (t_hist t) h = Ok t -> h_edges h = [ed] -> contents_of h 2 (fun i => nth i [c0; c1] 0) (fun _ => 1 * 1) ->
  c0 <> 0 -> c1 <> 0 -> c0 + c1 <> 0 ->
  exists t h, nth_error (w_tmpls w) tid = Some t /\ nth_error (w_hists w) (t_hist t) = Some h /\ h_edges h = [ed] /\
    t_values t = Ok (vec_of 2 (fun i => nth i [c0; c1] 0)) /\ t_errors t = Ok (vec_of 2 (fun _ => 1)).
Proof. intros T H N E CO H0 H1 H2. exists t, h. do 3 (split; [assumption|]). eapply ex_new_values; eauto. Qed.
Definition ex_plot_ops (e : R) : list op :=
  [ex_binned 1 3 1 4; ex_binned 2 5 e 4; OTemplate K1 "t" 0; OTemplate K1 "t" 1; ODefChannel "A" [2%nat] [(0, 4)];
   ODefProcess "s"; ODefProcess "b"; OAddTemplate "A" "s" 0 1; OAddTemplate "A" "b" 1 1; OAddData [("A", 0%nat)]]%string.
Definition ex_plot_values (k b : nat) : R := nth b (nth k [[1; 3]; [2; 5]] []) 0.
Definition ex_plot_edges (e : R) (k : nat) : list R := match k with O => [0; 1; 4] | _ => [0; e; 4] end.
Lemma ex_plot_state inv e : 0 < e -> e < 4 -> let w := reached inv (ex_plot_ops e) in exists c,
  nth_error (w_channels w) 0 = Some ("A"%string, 0%nat) /\ nth_error (w_chans w) 0 = Some c /\ w_procs w = ["s"; "b"]%string /\
  c_dim c = Some 1%nat /\ length (c_tmpls c) = 2%nat /\ bins_of c = 2%nat /\ c_tmpls c <> [] /\
  on_templates w c (fun k t h => h_edges h = [mk_edges false (ex_plot_edges e k)] /\
    t_values t = Ok (vec_of 2 (ex_plot_values k)) /\ t_errors t = Ok (vec_of 2 (fun _ => 1))) /\
  has_data_hist w c 2 [0; 1; 4] (fun b => nth b [1; 3] 0) (fun _ => 1 * 1).
Proof.
  intros E1 E2. unfold reached, world_init, ex_plot_ops, ex_binned. do 10 run_step.
  cbv zeta.
  eexists. split; [reflexivity|]. split; [reflexivity|]. split; [reflexivity|]. split; [reflexivity|]. split; [reflexivity|]. split; [reflexivity|]. split; [discriminate|]. split.
  - intros k p tid K. destruct k as [|[|k]]; [| |destruct k; discriminate K]; injection K as <- <-.
    + eapply (ex_on _ _ _ _ "t" 1 3); [reflexivity|reflexivity|reflexivity|reflexivity| |lra|lra|lra]. repeat split; intros; lra.
    + eapply (ex_on _ _ _ _ "t" 2 5); [reflexivity|reflexivity|reflexivity|reflexivity| |lra|lra|lra]. repeat split; intros; lra.
  - right. eexists. eexists. split; [reflexivity|]. split; [reflexivity|]. split; [reflexivity|]. split; [reflexivity|]. split; [reflexivity|]. intros; lra.
Qed.

(** the theorem applies: two templates 1, 3 and 2, 5 and the data 1, 3 in the bins 0, 1, 4 *)
Example C77_stacked_example : forall inv, exists layers bars pts,
  plot_stacked_on 0 (reached inv (ex_plot_ops 1)) = ((reached inv (ex_plot_ops 1), [DHist layers [0; 1; 4]; bars; pts]), POk tt) /\
  stack_shows [0; 1; 4] layers 1 1 3 8 /\ bar_shows bars 0 0 1 (3 - sqrt 2) (3 + sqrt 2) /\ point_shows pts 1 (5 / 2) 3 1.
Proof.
  intros inv. destruct (ex_plot_state inv 1 ltac:(lra) ltac:(lra)) as (c & A & C & _ & D & NT & _ & NE & T & HD).
  destruct (C77_stacked_partial inv (ex_plot_ops 1) 0 _ _ c [0; 1; 4] 2 ex_plot_values (fun _ _ => 1) (fun b => nth b [1; 3] 0) (fun _ => 1 * 1) A C D NE ex_edges014 eq_refl) with (2 := HD)
    as (layers & bars & pts & E & _ & B & DP).
  { revert T. apply on_templates_impl. intros [|k] t h X; exact X. }
  destruct DP as [[DN _]|(_ & p & -> & DP)].
  { exfalso. clear - C DN. revert C. unfold reached, world_init, ex_plot_ops, ex_binned. do 10 run_step. intros C. injection C as <-. discriminate DN. }
  exists layers, bars, p. split; [exact E|]. rewrite NT in B. split; [|split].
  - destruct (B 1%nat ltac:(lia)) as [S _]. specialize (S 1%nat ltac:(lia)). unfold ex_plot_values in S. simpl in S.
    replace 3 with (0 + 3) by ring. replace 8 with (0 + 3 + 5) by ring. exact S.
  - destruct (B 0%nat ltac:(lia)) as [_ S]. unfold ex_plot_values in S. simpl in S. 
    replace (0 + 1 * (1 * 1) + 1 * (1 * 1)) with 2 in S by ring. replace (0 + 1 + 2) with 3 in S by ring. exact S.
  - specialize (DP 1%nat ltac:(lia)). simpl in DP. rewrite Rmult_1_l, sqrt_1 in DP. replace ((1 + 4) / 2) with (5 / 2) in DP by lra. exact DP.
Qed.

(** Templates with other edges than the first one (add_template accepts them, C28) are drawn in wrong bins: the stack
    of the first bin does not contain the 2 events that the second template has in its first bin, although the
    error bar of the first bin is drawn around 1 + 2. *)
Theorem C77_edges_refuted : forall inv, exists l layers bars rest t,
  let w := reached inv l in
  nth_error (w_tmpls w) 1 = Some t /\ t_values t = Ok [Fin 2; Fin 5] /\
  plot_stacked_on 0 w = ((w, DHist layers [0; 1; 4] :: bars :: rest), POk tt) /\
  stack_shows [0; 1; 4] layers 0 0 0 1 /\ stack_shows [0; 1; 4] layers 1 0 1 1 /\
  stack_shows [0; 1; 4] layers 1 1 3 10 /\
  bar_shows bars 0 0 1 (3 - sqrt 2) (3 + sqrt 2).
Proof.
  intros inv. exists (ex_plot_ops 2). destruct (ex_plot_state inv 2 ltac:(lra) ltac:(lra)) as (c & A & C & _ & D & NT & _ & NE & T & HD).
  assert (LE : forall k, (k < length (c_tmpls c))%nat -> length (ex_plot_edges 2 k) = 3%nat) by (intros [|k] _; reflexivity).
  destruct (channel_plot_gen _ 0 c (ex_plot_edges 2) 2 ex_plot_values (fun _ _ => 1) _ _ C D NE ex_edges014 LE T HD) as (bars & rest & E & B & _).
  rewrite NT in E, B.
  assert (T1 : exists t, nth_error (w_tmpls (reached inv (ex_plot_ops 2))) 1 = Some t /\ t_values t = Ok [Fin 2; Fin 5]).
  { assert (K : exists p, nth_error (c_tmpls c) 1 = Some (p, 1%nat)).
    { revert C. unfold reached, world_init, ex_plot_ops, ex_binned. do 10 run_step. intros C. injection C as <-. eexists. reflexivity. }
    destruct K as (p & K). destruct (T 1%nat p 1%nat K) as (t & h & T1 & _ & _ & V & _). exists t. split; [exact T1|exact V]. }
  destruct T1 as (t & T1 & TV).
  exists (map (fun k => (mids_of (ex_plot_edges 2 k) 2, vec_of 2 (ex_plot_values k))) (seq 0 2)), bars, rest, t. cbv zeta.
  split; [exact T1|]. split; [exact TV|]. split; [exact E|].
  assert (W1 : forall b s, wsum (in_bin [0; 1; 4] b) [(((2 + 0) / 2)%R, 2); (((4 + 2) / 2)%R, 5)] s ->
    layer_height [0; 1; 4] b (mids_of (ex_plot_edges 2 1) 2, vec_of 2 (ex_plot_values 1)) s).
  { intros b s W. exists [2; 5]. split; [reflexivity|]. split; [reflexivity|]. exact W. }
  assert (H10 : layer_height [0; 1; 4] 0 (mids_of (ex_plot_edges 2 1) 2, vec_of 2 (ex_plot_values 1)) 0).
  { apply W1. apply wsum_out; [unfold in_bin; simpl; intros [_ [X|[X _]]]; [lra|discriminate]|].
    apply wsum_out; [unfold in_bin; simpl; intros [_ [X|[X _]]]; [lra|discriminate]|]. constructor. }
  assert (H11 : layer_height [0; 1; 4] 1 (mids_of (ex_plot_edges 2 1) 2, vec_of 2 (ex_plot_values 1)) 7).
  { apply W1. replace 7 with (2 + (5 + 0)) by ring. apply wsum_in; [unfold in_bin; simpl; lra|]. apply wsum_in; [unfold in_bin; simpl; lra|]. constructor. }
  assert (H0 : forall b, (b < 2)%nat -> layer_height [0; 1; 4] b (mids_of (ex_plot_edges 2 0) 2, vec_of 2 (ex_plot_values 0)) (ex_plot_values 0 b)).
  { intros b Hb. exact (layer_vec [0; 1; 4] 2 (ex_plot_values 0) b ex_edges014 eq_refl Hb). }
  split; [|split; [|split]].
  - exists (fun _ => 1). eexists. split; [reflexivity|]. split; [exact (H0 0%nat ltac:(lia))|]. split; [intros; lia|]. simpl; split; ring.
  - exists (fun k => match k with O => 1 | _ => 0 end). eexists. split; [reflexivity|]. split; [exact H10|]. split.
    + intros j l' Hj X. assert (j = 0)%nat by lia. subst j. injection X as <-. exact (H0 0%nat ltac:(lia)).
    + simpl; split; ring.
  - exists (fun k => match k with O => 3 | _ => 7 end). eexists. split; [reflexivity|]. split; [exact H11|]. split.
    + intros j l' Hj X. assert (j = 0)%nat by lia. subst j. injection X as <-. exact (H0 1%nat ltac:(lia)).
    + simpl; split; ring.
  - specialize (B 0%nat ltac:(lia)). unfold ex_plot_values in B. simpl in B.
    replace (0 + 1 * (1 * 1) + 1 * (1 * 1)) with 2 in B by ring. replace (0 + 1 + 2) with 3 in B by ring. exact B.
Qed.
Print Assumptions C77_edges_refuted.

(** ** C78: plot_post_fit_stacked_on.  [rp] are the fit result parameters (ParameterData); [jac] is what
    numdifftools.Jacobian returns. *)
Lemma bin_counts_hists cid x w : w_hists (fst (bin_counts_from_param_values cid x w)) = w_hists w.
Proof.
  assert (P : pres core_eq (bin_counts_from_param_values cid x)).
  { unfold bin_counts_from_param_values, expected_evts_per_bin, ch_fractions. pres_tac core_po. apply core_effs. }
  destruct (P w). congruence.
Qed.

(** A model with one channel, to which one template of each process was added in the order of the processes. *)
Definition one_channel (w : world) (name : string) (cid : nat) (c : chan) : Prop :=
  w_channels w = [(name, cid)] /\ nth_error (w_chans w) cid = Some c /\ map fst (c_tmpls c) = w_procs w.

(** "propagate": the band has the half width sqrt((J V J^T)_bb) with the covariance matrix V of the fit and the Jacobian J. *)
Theorem C78_propagate_partial : forall jac inv l x name cid c view es (v : nat -> nat -> R) d q rp V J, inv_spec inv -> templates_then_used l ->
  let w := reached inv l in let np := num_params w in let n := v_nb view in
  one_channel w name cid c -> c_dim c = Some 1%nat -> describes w x 0 view -> (0 < n)%nat -> c_tmpls c <> [] ->
  (forall k, (k < v_nt view)%nat -> v_total view k <> 0) ->
  valid_edges es -> length es = S n ->
  on_templates w c (fun k t h => h_edges h = [mk_edges false es] /\ t_values t = Ok (vec_of n (v k))) ->
  has_data_hist w c n es d q ->
  p_values rp = vec_of np x -> p_cov rp = mat_of np V -> symmetric np V -> psd np V -> jac (vec_of np x) = rmat_of n np J ->
  let nt := length (c_tmpls c) in
  exists w' layers bars pts, plot_post_fit_stacked_on jac cid rp UPropagate w = ((w', DHist layers es :: bars :: pts), POk tt) /\ length layers = nt /\
    (forall b, (b < n)%nat ->
      (forall k, (k < nt)%nat -> stack_shows es layers k b (sumn k (fun j => v j b)) (sumn (S k) (fun j => v j b))) /\
      let u := sqrt (sumn np (fun i => sumn np (fun j => J b i * V i j * J b j))) in
      bar_shows bars b (nth b es 0) (nth (S b) es 0) (sumn nt (fun k => v k b) - u) (sumn nt (fun k => v k b) + u)) /\
    data_points c n es d q pts.
Proof.
  intros jac inv l x name cid c view es v d q rp V J I B w np n (CH & CC & PO) D DE N0 NE TN VE LE T HD PV PC SY PS JA nt.
  assert (NT : v_nt view = nt).
  { destruct DE as (n0 & c0 & (cid0 & E1 & E2) & _ & NT & _). rewrite CH in E1. injection E1 as _ <-. unfold nt. congruence. }
  assert (NT0 : (0 < v_nt view)%nat) by (rewrite NT; unfold nt; destruct (c_tmpls c); [congruence|simpl; lia]).
  destruct (C61_bin_counts_partial inv l x name cid c view I B CH CC PO DE N0 NT0 TN) as (w' & E). fold w np n in E.
  assert (HH : w_hists w' = w_hists w) by (pose proof (bin_counts_hists cid (vec_of np x) w) as Q; rewrite E in Q; exact Q).
  assert (HD' : has_data_hist w' c n es d q). { unfold has_data_hist. rewrite HH. exact HD. }
  pose proof (propagate_errors jac w cid c rp n np V J w' (vec_of n (expected view))) as PE.
  rewrite PV, vec_of_length in PE. specialize (PE eq_refl PC SY PS JA E (vec_of_length _ _)).
  destruct (post_fit_plot jac w cid c es n v (fun _ _ => 0) d q rp UPropagate w' _ CC D NE VE LE T HD' PE) as (layers & bars & pts & EQ & LL & BB & DP).
  exists w', layers, bars, pts. split; [exact EQ|]. split; [exact LL|]. split; [|exact DP]. intros b Hb. destruct (BB b Hb) as [S1 S2]. split; [exact S1|].
  cbv zeta. rewrite (sumn_swap np np). 
  rewrite (sumn_ext np _ (fun l => sumn np (fun k => J b k * V k l) * J b l)); [exact S2|].
  intros j Hj. rewrite Rmult_comm, <- sumn_scal. apply sumn_ext. intros; ring.
Qed.
Print Assumptions C78_propagate_partial.

(** "scale": the half width is the quadratic sum over the templates of (error of the nuisance parameter of the bin) * (error of the bin). *)
Theorem C78_scale_partial : forall jac inv l name cid c es (v s : nat -> nat -> R) d q rp er, inv_spec inv ->
  let w := reached inv l in let n := bins_of c in
  one_channel w name cid c -> c_dim c = Some 1%nat -> c_tmpls c <> [] ->
  valid_edges es -> length es = S n ->
  on_templates w c (fun k t h => h_edges h = [mk_edges false es] /\ t_values t = Ok (vec_of n (v k)) /\ t_errors t = Ok (vec_of n (s k))) ->
  has_data_hist w c n es d q ->
  p_errors rp = vec_of (num_params w) er ->
  let nt := length (c_tmpls c) in
  exists layers bars pts, plot_post_fit_stacked_on jac cid rp UScale w = ((w, DHist layers es :: bars :: pts), POk tt) /\ length layers = nt /\
    (forall b, (b < n)%nat ->
      (forall k, (k < nt)%nat -> stack_shows es layers k b (sumn k (fun j => v j b)) (sumn (S k) (fun j => v j b))) /\
      let u := sqrt (sumn nt (fun k => (er (nui_pos w 0 c k b) * s k b) ^ 2)) in
      bar_shows bars b (nth b es 0) (nth (S b) es 0) (sumn nt (fun k => v k b) - u) (sumn nt (fun k => v k b) + u)) /\
    data_points c n es d q pts.
Proof.
  intros jac inv l name cid c es v s d q rp er I w n (CH & CC & PO) D NE VE LE T HD PE nt.
  assert (NP : num_params w = (nt + nt * n)%nat).
  { unfold num_params. rewrite <- PO, map_length. f_equal. unfold nui_offset. rewrite CH. simpl. rewrite CC. unfold list_sum. simpl. unfold nt, n. lia. }
  rewrite NP in PE.
  assert (T1 : on_templates w c (fun k t h => t_errors t = Ok (vec_of n (s k)))) by (revert T; apply on_templates_impl; tauto).
  assert (T2 : on_templates w c (fun k t h => h_edges h = [mk_edges false es] /\ t_values t = Ok (vec_of n (v k)))) by (revert T; apply on_templates_impl; tauto).
  pose proof (scale_errors jac w cid c rp n er s NE T1 PE) as SE.
  destruct (post_fit_plot jac w cid c es n v s d q rp UScale w _ CC D NE VE LE T2 HD SE) as (layers & bars & pts & EQ & LL & BB & DP).
  exists layers, bars, pts. split; [exact EQ|]. split; [exact LL|]. split; [|exact DP]. intros b Hb. destruct (BB b Hb) as [S1 S2]. split; [exact S1|].
  cbv zeta. rewrite (sumn_ext nt (fun k => (er (nui_pos w 0 c k b) * s k b) ^ 2) (fun k => (er (nt + (k * n + b))%nat * s k b) ^ 2)); [exact S2|].
  intros k Hk. unfold nui_pos. rewrite <- PO, map_length. change (nui_offset w 0) with 0%nat. reflexivity.
Qed.
Print Assumptions C78_scale_partial.

(** With any other option the stack is drawn and UnboundLocalError is raised. *)
Theorem C78_unknown_option : forall jac inv l i name cid c es n (v : nat -> nat -> R) rp, let w := reached inv l in
  nth_error (w_channels w) i = Some (name, cid) -> nth_error (w_chans w) cid = Some c ->
  c_dim c = Some 1%nat -> c_tmpls c <> [] -> valid_edges es -> length es = S n ->
  on_templates w c (fun k t h => h_edges h = [mk_edges false es] /\ t_values t = Ok (vec_of n (v k))) ->
  exists layers, plot_post_fit_stacked_on jac cid rp UOther w = ((w, [DHist layers es]), PErr UnboundLocalError).
Proof.
  intros jac inv l i name cid c es n v rp w _ CC D NE VE LE T. eexists. unfold plot_post_fit_stacked_on. rewrite (pbind_read _ _ _ _ (pget_chan _ _ _ CC)).
  erewrite pbind_ok; [|apply (plot_stack_ok w c es n v); auto]. reflexivity.
Qed.
Print Assumptions C78_unknown_option.

(** C78 is false as soon as there is a second channel with a template: the result of the fit has more parameters than the
    plotted channel, and both methods raise ValueError after the stack was drawn.  (Channels with at least two bins.) *)
Lemma list_sum_two l i j a b : nth_error l i = Some a -> nth_error l j = Some b -> i <> j -> (a + b <= list_sum l)%nat.
Proof.
  revert i j. induction l as [|x l IH]; intros i j Hi Hj N; [destruct i; discriminate|]. change (list_sum (x :: l)) with (x + list_sum l)%nat.
  assert (ONE : forall k c, nth_error l k = Some c -> (c <= list_sum l)%nat).
  { clear. induction l as [|y l IH]; intros k c K; [destruct k; discriminate|]. change (list_sum (y :: l)) with (y + list_sum l)%nat.
    destruct k as [|k]; [injection K as ->; lia|]. specialize (IH k c K). lia. }
  destruct i as [|i], j as [|j]; simpl in Hi, Hj; [congruence|injection Hi as ->; specialize (ONE _ _ Hj); lia|injection Hj as ->; specialize (ONE _ _ Hi); lia|].
  specialize (IH i j Hi Hj ltac:(congruence)). lia.
Qed.
Theorem C78_several_channels_refuted : forall jac inv l i j name name' cid c c' es (v s : nat -> nat -> R) rp opt, inv_spec inv ->
  let w := reached inv l in let n := bins_of c in
  nth_error (w_channels w) i = Some (name, cid) -> nth_error (w_chans w) cid = Some c -> c_dim c = Some 1%nat -> c_tmpls c <> [] -> (2 <= n)%nat ->
  channel_at w j name' c' -> j <> i -> c_tmpls c' <> [] -> (0 < bins_of c')%nat ->
  valid_edges es -> length es = S n ->
  on_templates w c (fun k t h => h_edges h = [mk_edges false es] /\ t_values t = Ok (vec_of n (v k)) /\ t_errors t = Ok (vec_of n (s k))) ->
  length (p_values rp) = num_params w -> length (p_errors rp) = num_params w ->
  opt = UPropagate \/ opt = UScale ->
  exists w' layers, plot_post_fit_stacked_on jac cid rp opt w = ((w', [DHist layers es]), PErr (Py ValueError)).
Proof.
  intros jac inv l i j name name' cid c c' es v s rp opt I w n CI CC D NE N2 (cid' & CJ & CC') IJ NE' N1 VE LE T PV PE OPT.
  assert (W : WF w) by now apply reached_wf.
  assert (MORE : (length (c_tmpls c) + length (c_tmpls c) * bins_of c < num_params w)%nat).
  { unfold num_params, nui_offset. rewrite firstn_all.
    set (f := fun nc : string * nat => match nth_error (w_chans w) (snd nc) with Some c => (length (c_tmpls c) * bins_of c)%nat | None => O end).
    assert (FI : nth_error (map f (w_channels w)) i = Some (length (c_tmpls c) * bins_of c)%nat) by (rewrite (map_nth_error f _ _ CI); unfold f; simpl; now rewrite CC).
    assert (FJ : nth_error (map f (w_channels w)) j = Some (length (c_tmpls c') * bins_of c')%nat) by (rewrite (map_nth_error f _ _ CJ); unfold f; simpl; now rewrite CC').
    pose proof (list_sum_two _ _ _ _ _ FI FJ ltac:(congruence)) as LS.
    pose proof (wf_chans w W _ _ CC) as K.
    assert (LP : (length (c_tmpls c) <= length (w_procs w))%nat).
    { replace (length (c_tmpls c)) with (length (c_procs c)) by (rewrite <- (co_keys _ _ _ _ K); unfold keys; apply map_length).
      apply NoDup_incl_length; [apply (co_nodup _ _ _ _ K)|apply (co_incl _ _ _ _ K)]. }
    assert (0 < length (c_tmpls c'))%nat by (destruct (c_tmpls c'); [congruence|simpl; lia]). nia. }
  apply (post_fit_too_many jac w cid c es v s rp opt W CC D NE VE LE N2 T); auto; congruence || lia.
Qed.
Print Assumptions C78_several_channels_refuted.

(** The hypotheses are met: one channel A with the templates 1, 3 (process s) and 2, 5 (process b), all with errors 1. *)
Lemma ex_plot_one inv c : nth_error (w_chans (reached inv (ex_plot_ops 1))) 0 = Some c ->
  one_channel (reached inv (ex_plot_ops 1)) "A" 0 c /\ num_params (reached inv (ex_plot_ops 1)) = 6%nat /\ nui_pos (reached inv (ex_plot_ops 1)) 0 c 0 1 = 3%nat /\ nui_pos (reached inv (ex_plot_ops 1)) 0 c 1 1 = 5%nat.
Proof.
  unfold reached, world_init, ex_plot_ops, ex_binned. do 10 run_step. intros C. injection C as <-. repeat split.
Qed.
Definition ex_plot_rp : pars :=
  mk_pars ["a"; "b"; "c"; "d"; "e"; "f"]%string (vec_of 6 (fun i => nth i [4; 7; 0; 0; 0; 0] 0)) (vec_of 6 (fun i => nth i [1; 1; 1/2; 3; 1; 4] 0))
    (mat_of 6 (fun i j => if Nat.eqb i j then 1 else 0)) (mat_of 6 (fun i j => if Nat.eqb i j then 1 else 0)).
Example C78_scale_example : forall jac inv, inv_spec inv -> exists layers bars pts, let w := reached inv (ex_plot_ops 1) in
  plot_post_fit_stacked_on jac 0 ex_plot_rp UScale w = ((w, DHist layers [0; 1; 4] :: bars :: pts), POk tt) /\ bar_shows bars 1 1 4 (8 - 5) (8 + 5).
Proof.
  intros jac inv I. destruct (ex_plot_state inv 1 ltac:(lra) ltac:(lra)) as (c & A & C & _ & D & NT & NB & NE & T & HD).
  destruct (ex_plot_one inv c C) as (ONE & NP & P1 & P2).
  assert (T' : on_templates (reached inv (ex_plot_ops 1)) c (fun k t h => h_edges h = [mk_edges false [0; 1; 4]] /\
    t_values t = Ok (vec_of (bins_of c) (ex_plot_values k)) /\ t_errors t = Ok (vec_of (bins_of c) (fun _ => 1)))).
  { rewrite NB. revert T. apply on_templates_impl. intros [|k] t h X; exact X. }
  destruct (C78_scale_partial jac inv (ex_plot_ops 1) "A" 0 c [0; 1; 4] ex_plot_values (fun _ _ => 1) (fun b => nth b [1; 3] 0) (fun _ => 1 * 1) ex_plot_rp
    (fun i => nth i [1; 1; 1/2; 3; 1; 4] 0) I ONE D NE ex_edges014) with (2 := T') as (layers & bars & pts & E & _ & B & _).
  { rewrite NB. reflexivity. } { rewrite NB. exact HD. } { rewrite NP. reflexivity. }
  exists layers, bars, pts. split; [exact E|]. destruct (B 1%nat ltac:(rewrite NB; lia)) as [_ S]. cbv zeta in S. rewrite NT in S. cbn [sumn] in S. rewrite P1, P2 in S.
  unfold ex_plot_values in S. cbn [nth] in S. replace (0 + (3 * 1) ^ 2 + (4 * 1) ^ 2) with (5 ^ 2) in S by ring. rewrite sqrt_pow2 in S by lra.
  replace (0 + 3 + 5) with 8 in S by ring. exact S.
Qed.

Lemma ex_plot_describes inv : exists v, describes (reached inv (ex_plot_ops 1)) (fun i => nth i [4; 7; 0; 0; 0; 0] 0) 0 v /\ v_nb v = 2%nat /\ v_nt v = 2%nat /\
  forall k, (k < 2)%nat -> v_total v k <> 0.
Proof.
  assert (ST : exists h0 h1 t0 t1, w_hists (reached inv (ex_plot_ops 1)) = [h0; h1] /\ w_tmpls (reached inv (ex_plot_ops 1)) = [t0; t1] /\
     w_chans (reached inv (ex_plot_ops 1)) = [mk_chan "A" [("s", 0%nat); ("b", 1%nat)] [("s", 1); ("b", 1)] ["s"; "b"] [2%nat] [(0, 4)] (Some 0%nat) (Some 1%nat) (Some K1)]%string /\
     w_channels (reached inv (ex_plot_ops 1)) = [("A", 0%nat)]%string /\ w_procs (reached inv (ex_plot_ops 1)) = ["s"; "b"]%string /\
     template_new K1 "t" 0 h0 = Ok t0 /\ template_new K1 "t" 1 h1 = Ok t1 /\
     contents_of h0 2 (fun i => nth i [1; 3] 0) (fun _ => 1 * 1) /\ contents_of h1 2 (fun i => nth i [2; 5] 0) (fun _ => 1 * 1)).
  { unfold ex_plot_ops, ex_binned, reached, world_init. do 10 run_step. do 4 eexists. do 7 (split; [reflexivity|]).
    split; (split; [reflexivity|]); (split; [reflexivity|]); (split; [reflexivity|]); (split; [reflexivity|]); intros; lra. }
  destruct ST as (h0 & h1 & t0 & t1 & HH & HT & HC & HD & HP & N0 & N1 & O0 & O1).
  destruct (template_new_state _ _ _ _ _ _ _ _ N0 O0) as (ES0 & _). destruct (template_new_state _ _ _ _ _ _ _ _ N1 O1) as (ES1 & _).
  pose proof ES0 as (_ & TC0 & _ & _ & _ & _ & _ & _ & (PP0 & _ & IP0) & _). pose proof ES1 as (_ & TC1 & _ & _ & _ & _ & _ & _ & (PP1 & _ & IP1) & _).
  set (w := reached inv (ex_plot_ops 1)) in *. clearbody w.
  exists (mk_cview 2 2 (fun k => match k with O => 4 | _ => 7 end) (fun _ => 1)
       (fun k => match k with O => (fun i => nth i [1; 3] 0) | _ => (fun i => nth i [2; 5] 0) end)
       (fun _ => msum [stat_cov_of (fun _ => 1 * 1)]) (fun _ _ => 0) (fun k => match k with O => PP0 | _ => PP1 end) (fun _ => 0)).
  split; [|split; [reflexivity|]; split; [reflexivity|]].
  - do 2 eexists. split; [exists 0%nat; rewrite HD, HC; split; reflexivity|]. split; [reflexivity|]. split; [reflexivity|].
    intros k p tid t (K1 & K2). rewrite HT in K2. rewrite HP. destruct k as [|[|k]]; simpl in K1; [| |destruct k; discriminate]; injection K1 as <- <-; simpl in K2; injection K2 as <-; cbn [v_nb v_nt v_yield v_eff v_cnt v_cov v_th v_prec].
    + split; [exists 0%nat; split; reflexivity|]. split; [reflexivity|]. split; [exists (fun _ => 1 * 1), []; split; [exact ES0|reflexivity]|]. split; [exact IP0|].
      intros b Hb. unfold nui_pos. rewrite HP. destruct b as [|[|b]]; [reflexivity|reflexivity|lia].
    + split; [exists 1%nat; split; reflexivity|]. split; [reflexivity|]. split; [exists (fun _ => 1 * 1), []; split; [exact ES1|reflexivity]|]. split; [exact IP1|].
      intros b Hb. unfold nui_pos. rewrite HP. destruct b as [|[|b]]; [reflexivity|reflexivity|lia].
  - intros k Hk. unfold v_total, v_varied. cbn [v_nb v_cnt v_th v_cov sumn]. rewrite !Rmult_0_l, !Rplus_0_r, !Rmult_1_r.
    destruct k as [|[|k]]; [simpl; lra|simpl; lra|lia].
Qed.
Lemma psd_id n : symmetric n (fun i j => if Nat.eqb i j then 1 else 0) /\ psd n (fun i j => if Nat.eqb i j then 1 else 0).
Proof.
  split.
  - intros i j _ _. now rewrite Nat.eqb_sym.
  - intros x. unfold quad. apply sumn_nonneg. intros i Hi. rewrite (sumn_single n i); auto.
    + rewrite Nat.eqb_refl. nra.
    + intros j Hj N. destruct (Nat.eqb_spec i j); [congruence|ring].
Qed.
(** unit covariance matrix and a Jacobian with the rows 3, 4, 0, ...: half width 5 *)
Example C78_propagate_example : forall inv, inv_spec inv -> exists w' layers bars pts, let w := reached inv (ex_plot_ops 1) in
  plot_post_fit_stacked_on (fun _ => rmat_of 2 6 (fun _ i => nth i [3; 4; 0; 0; 0; 0] 0)) 0 ex_plot_rp UPropagate w
  = ((w', DHist layers [0; 1; 4] :: bars :: pts), POk tt) /\ bar_shows bars 1 1 4 (8 - 5) (8 + 5).
Proof.
  intros inv I. destruct (ex_plot_state inv 1 ltac:(lra) ltac:(lra)) as (c & A & C & _ & D & NT & NB & NE & T & HD).
  destruct (ex_plot_one inv c C) as (ONE & NP & P1 & P2). destruct (ex_plot_describes inv) as (view & DE & VB & VT & TOT).
  assert (BT : built_then_used (ex_plot_ops 1)).
  { exists (ex_plot_ops 1), []. rewrite app_nil_r. split; [reflexivity|]. split; [unfold ex_plot_ops, ex_binned; repeat constructor|constructor]. }
  assert (T' : on_templates (reached inv (ex_plot_ops 1)) c (fun k t h => h_edges h = [mk_edges false [0; 1; 4]] /\
    t_values t = Ok (vec_of (v_nb view) (ex_plot_values k)))).
  { rewrite VB. revert T. apply on_templates_impl. intros [|k] t h (X & Y & _); auto. }
  destruct (C78_propagate_partial (fun _ => rmat_of 2 6 (fun _ i => nth i [3; 4; 0; 0; 0; 0] 0)) inv (ex_plot_ops 1) _ "A" 0 c view [0; 1; 4] ex_plot_values
    (fun b => nth b [1; 3] 0) (fun _ => 1 * 1) ex_plot_rp (fun i j => if Nat.eqb i j then 1 else 0) (fun _ i => nth i [3; 4; 0; 0; 0; 0] 0) I (Prop_Params.built_templates _ BT) ONE D DE) with (6 := T')
    as (w' & layers & bars & pts & E & _ & B & _).
  { rewrite VB. lia. } { exact NE. } { rewrite VT. exact TOT. } { exact ex_edges014. } { rewrite VB. reflexivity. } { rewrite VB. exact HD. }
  { rewrite NP. reflexivity. } { rewrite NP. reflexivity. } { apply psd_id. } { apply psd_id. } { rewrite NP, VB. reflexivity. }
  exists w', layers, bars, pts. split; [exact E|]. destruct (B 1%nat ltac:(rewrite VB; lia)) as [_ S]. cbv zeta in S. rewrite NT, NP in S. cbn [sumn nth Nat.eqb] in S.
  unfold ex_plot_values in S. cbn [nth] in S.
  match type of S with bar_shows _ _ _ _ (_ - sqrt ?a) _ => replace a with (5 ^ 2) in S by ring end. rewrite sqrt_pow2 in S by lra.
  replace (0 + 3 + 5) with 8 in S by ring. exact S.
Qed.

(** two channels with a template of the same process *)
Definition ex_two : list op :=
  [ex_binned 1 3 1 4; ex_binned 2 5 1 4; OTemplate K1 "t" 0; OTemplate K1 "t" 1; ODefChannel "A" [2%nat] [(0, 4)]; ODefChannel "B" [2%nat] [(0, 4)];
   ODefProcess "s"; OAddTemplate "A" "s" 0 1; OAddTemplate "B" "s" 1 1]%string.
Example C78_several_channels_example : forall jac inv opt rp, inv_spec inv -> opt = UPropagate \/ opt = UScale ->
  num_params (reached inv ex_two) = 5%nat /\ (length (p_values rp) = 5%nat -> length (p_errors rp) = 5%nat ->
  exists w' layers, plot_post_fit_stacked_on jac 0 rp opt (reached inv ex_two) = ((w', [DHist layers [0; 1; 4]]), PErr (Py ValueError))).
Proof.
  intros jac inv opt rp I OPT.
  assert (ST : exists c c', let w := reached inv ex_two in nth_error (w_channels w) 0 = Some ("A"%string, 0%nat) /\ nth_error (w_chans w) 0 = Some c /\ channel_at w 1 "B"%string c' /\
    c_dim c = Some 1%nat /\ c_tmpls c <> [] /\ c_tmpls c' <> [] /\ bins_of c = 2%nat /\ bins_of c' = 2%nat /\ num_params w = 5%nat /\
    on_templates w c (fun k t h => h_edges h = [mk_edges false [0; 1; 4]] /\ t_values t = Ok (vec_of 2 (fun b => nth b [1; 3] 0)) /\ t_errors t = Ok (vec_of 2 (fun _ => 1)))).
  { unfold reached, world_init, ex_two, ex_binned. do 9 run_step. cbv zeta. eexists. eexists. split; [reflexivity|]. split; [reflexivity|].
    split; [exists 1%nat; split; reflexivity|]. split; [reflexivity|]. split; [discriminate|]. split; [discriminate|]. do 3 (split; [reflexivity|]).
    intros k p tid K. destruct k as [|k]; [|destruct k; discriminate K]; injection K as <- <-.
    eapply (ex_on _ _ _ _ "t" 1 3); [reflexivity|reflexivity|reflexivity|reflexivity| |lra|lra|lra]. repeat split; intros; lra. }
  destruct ST as (c & c' & A & C & A' & D & NE & NE' & NB & NB' & NP & T). split; [exact NP|]. intros LV LEr.
  refine (C78_several_channels_refuted jac inv ex_two 0 1 "A" "B" 0 c c' [0; 1; 4] (fun _ b => nth b [1; 3] 0) (fun _ _ => 1) rp opt I A C D NE _ A' _ NE' _ ex_edges014 _ _ _ _ OPT).
  - rewrite NB. lia. - discriminate. - rewrite NB'. lia. - rewrite NB. reflexivity. - rewrite NB. exact T. - rewrite NP. exact LV. - rewrite NP. exact LEr.
Qed.

(** ** C79: plots of two-dimensional templates *)
Theorem C79_cells : forall inv l tid t h ex ey nx ny v, let w := reached inv l in
  nth_error (w_tmpls w) tid = Some t -> nth_error (w_hists w) (t_hist t) = Some h ->
  h_edges h = [mk_edges false ex; mk_edges false ey] -> valid_edges ex -> valid_edges ey -> length ex = S nx -> length ey = S ny ->
  t_values t = Ok (vec_of (nx * ny) v) ->
  exists d, t2_plot_on tid w = ((w, [d]), POk tt) /\
    forall i j, (i < nx)%nat -> (j < ny)%nat -> cell_shows d i j (v (i * ny + j)%nat).
Proof.
  intros inv l tid t h ex ey nx ny v w T H E VX VY NX NY TV.
  exact (template2d_plot w tid t h (mk_edges false ex) (mk_edges false ey) nx ny v T H E eq_refl eq_refl VX VY NX NY TV).
Qed.
Print Assumptions C79_cells.

(** plot_x_projection_on (axis_x = true) and plot_y_projection_on: sums over the other axis, errors added in quadrature *)
Theorem C79_projections : forall inv l (axis_x : bool) tid t h ex ey nx ny v s, inv_spec inv -> let w := reached inv l in
  nth_error (w_tmpls w) tid = Some t -> nth_error (w_hists w) (t_hist t) = Some h ->
  h_edges h = [mk_edges false ex; mk_edges false ey] -> valid_edges ex -> valid_edges ey -> length ex = S nx -> length ey = S ny ->
  t_bins t = [nx; ny] -> nd_shape (h_counts h) = [nx; ny] -> nd_shape (h_errs_sq h) = [nx; ny] ->
  t_values t = Ok (vec_of (nx * ny) v) -> t_errors t = Ok (vec_of (nx * ny) s) ->
  let es := if axis_x then ex else ey in
  let n := if axis_x then nx else ny in
  let total := fun (f : nat -> R) b => if axis_x then sumn ny (fun j => f (b * ny + j)%nat) else sumn nx (fun i => f (i * ny + b)%nat) in
  exists layers bars, t2_plot_projection_on axis_x tid w = ((w, [DHist layers es; bars]), POk tt) /\ length layers = 1%nat /\
    forall b, (b < n)%nat ->
      stack_shows es layers 0 b 0 (total v b) /\
      exists u, u = sqrt (total (fun k => s k ^ 2) b) /\
      bar_shows bars b (nth b es 0) (nth (S b) es 0) (total v b - u) (total v b + u).
Proof.
  intros inv l axis_x tid t h ex ey nx ny v s I w T H E VX VY NX NY TB SC SE TV TE.
  pose proof (projection_plot axis_x w tid t h (mk_edges false ex) (mk_edges false ey) nx ny v s T H E SC SE TB) as P.
  destruct axis_x; exact (P eq_refl ltac:(assumption) ltac:(assumption) TV TE).
Qed.
Print Assumptions C79_projections.

Definition ex_2d : list op :=
  [OFromBinned K2 (mk_nd [2%nat; 2%nat] [Fin 1; Fin 2; Fin 3; Fin 4]) [mk_edges false [0; 1; 4]; mk_edges false [0; 1; 4]]
     (Some (mk_nd [2%nat; 2%nat] [Fin 1; Fin 1; Fin 1; Fin 1])); OTemplate K2 "t" 0]%string.
Lemma ex_2d_state inv : exists t h, let w := reached inv ex_2d in
  nth_error (w_tmpls w) 0 = Some t /\ nth_error (w_hists w) (t_hist t) = Some h /\ h_edges h = [mk_edges false [0; 1; 4]; mk_edges false [0; 1; 4]] /\
  t_bins t = [2; 2]%nat /\ nd_shape (h_counts h) = [2; 2]%nat /\ nd_shape (h_errs_sq h) = [2; 2]%nat /\
  t_values t = Ok (vec_of 4 (fun k => nth k [1; 2; 3; 4] 0)) /\ t_errors t = Ok (vec_of 4 (fun _ => 1)).
Proof.
  unfold reached, world_init, ex_2d. do 2 run_step. cbv zeta.
  match goal with |- context [w_tmpls ?w0] => set (w := w0) end.
  assert (T : exists t, nth_error (w_tmpls w) 0 = Some t) by (eexists; reflexivity). destruct T as (t & T).
  assert (H : exists h, nth_error (w_hists w) (t_hist t) = Some h) by (injection T as <-; eexists; reflexivity). destruct H as (h & H).
  exists t, h. split; [exact T|]. split; [exact H|].
  assert (N : template_new K2 "t" 0 h = Ok t) by (injection T as <-; injection H as <-; reflexivity).
  assert (CO : contents_of h 4 (fun k => nth k [1; 2; 3; 4] 0) (fun _ => 1 * 1)).
  { clear - H T. injection T as <-. injection H as <-. repeat split; intros; lra. }
  do 4 (split; [injection T as <-; injection H as <-; reflexivity|]).
  destruct (new_values _ _ _ _ _ _ _ _ N CO) as [V (er & E & EE)]; [simpl; lra|]. split; [exact V|].
  rewrite E. f_equal. apply vec_of_ext. intros i Hi. rewrite EE; [rewrite Rmult_1_l; apply sqrt_1|auto| |lra].
  destruct i as [|[|[|[|i]]]]; simpl; try lra; lia.
Qed.
Example C79_example : forall inv, inv_spec inv -> let w := reached inv ex_2d in
  (exists d, t2_plot_on 0 w = ((w, [d]), POk tt) /\ cell_shows d 0 1 2 /\ cell_shows d 1 0 3) /\
  (exists layers bars, t2_plot_projection_on true 0 w = ((w, [DHist layers [0; 1; 4]; bars]), POk tt) /\ stack_shows [0; 1; 4] layers 0 1 0 7 /\
     bar_shows bars 1 1 4 (7 - sqrt 2) (7 + sqrt 2)) /\
  (exists layers bars, t2_plot_projection_on false 0 w = ((w, [DHist layers [0; 1; 4]; bars]), POk tt) /\ stack_shows [0; 1; 4] layers 0 1 0 6).
Proof.
  intros inv I w. destruct (ex_2d_state inv) as (t & h & T & H & E & TB & SC & SE & TV & TE).
  split; [|split].
  - destruct (C79_cells inv ex_2d 0 t h _ _ 2 2 _ T H E ex_edges014 ex_edges014 eq_refl eq_refl TV) as (d & P & Q). exists d. split; [exact P|].
    split; [exact (Q 0%nat 1%nat ltac:(lia) ltac:(lia))|exact (Q 1%nat 0%nat ltac:(lia) ltac:(lia))].
  - destruct (C79_projections inv ex_2d true 0 t h _ _ 2 2 _ _ I T H E ex_edges014 ex_edges014 eq_refl eq_refl TB SC SE TV TE) as (layers & bars & P & _ & Q).
    exists layers, bars. split; [exact P|]. destruct (Q 1%nat ltac:(lia)) as (Q1 & u & U & Q2). cbn [sumn nth Nat.mul Nat.add] in Q1, Q2, U.
    replace (0 + 3 + 4) with 7 in Q1, Q2 by ring. replace (0 + 1 ^ 2 + 1 ^ 2) with 2 in U by ring. subst u. auto.
  - destruct (C79_projections inv ex_2d false 0 t h _ _ 2 2 _ _ I T H E ex_edges014 ex_edges014 eq_refl eq_refl TB SC SE TV TE) as (layers & bars & P & _ & Q).
    exists layers, bars. split; [exact P|]. destruct (Q 1%nat ltac:(lia)) as (Q1 & _). cbn [sumn nth Nat.mul Nat.add] in Q1.
    replace (0 + 2 + 4) with 6 in Q1 by ring. exact Q1.
Qed.

(** C76: a template with the bins 0, 1, 4, the values 1, 3 and the errors 1 *)
Example C76_example : forall inv, exists layers bars, let w := reached inv (ex_plot_ops 1) in
  t1_plot_on 0 w = ((w, [DHist layers [0; 1; 4]; bars]), POk tt) /\ stack_shows [0; 1; 4] layers 0 1 0 3 /\ bar_shows bars 1 1 4 (3 - 1) (3 + 1).
Proof.
  intros inv. destruct (ex_plot_state inv 1 ltac:(lra) ltac:(lra)) as (c & A & C & _ & D & NT & NB & NE & T & HD).
  assert (K : exists p, nth_error (c_tmpls c) 0 = Some (p, 0%nat)).
  { revert C. unfold reached, world_init, ex_plot_ops, ex_binned. do 10 run_step. intros C. injection C as <-. eexists. reflexivity. }
  destruct K as (p & K). destruct (T 0%nat p 0%nat K) as (t & h & T1 & H1 & E1 & V1 & R1).
  destruct (C76_template_plot_partial inv (ex_plot_ops 1) 0 t h [0; 1; 4] 2 _ _ T1 H1 E1 ex_edges014 eq_refl V1 R1) as (layers & bars & P & _ & Q).
  exists layers, bars. split; [exact P|]. exact (Q 1%nat ltac:(lia)).
Qed.
