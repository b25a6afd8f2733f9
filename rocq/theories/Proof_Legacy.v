(** Parameters of the legacy templates: reset and update *)
From Coq Require Import Reals String ZArith Bool Arith List Lra Lia.
From Verif Require Import Model_Num Model_Hist Model_Utility Model_Template Model_World Model_Legacy
  Spec_Hist Spec_Matrix Spec_Template Spec_Nll Spec_Legacy Proof_Hist Proof_HistHeap Proof_LegacyHist.
Import ListNotations.
Local Open Scope R_scope.

(** ** What never changes in a template *)
Definition same_orig (a b : ltmpl) : Prop :=
  lt_name b = lt_name a /\ lt_var b = lt_var a /\ lt_nb b = lt_nb a /\ lt_limits b = lt_limits a /\
  lt_counts b = lt_counts a /\ lt_errs_sq b = lt_errs_sq a /\
  y_orig (lt_yield b) = y_orig (lt_yield a) /\ y_orig_err (lt_yield b) = y_orig_err (lt_yield a) /\
  n_orig (lt_nui b) = n_orig (lt_nui a) /\ n_orig_err (lt_nui b) = n_orig_err (lt_nui a).
Lemma so_refl a : same_orig a a. Proof. unfold same_orig; tauto. Qed.
Lemma so_trans a b c : same_orig a b -> same_orig b c -> same_orig a c.
Proof. unfold same_orig. intros (?&?&?&?&?&?&?&?&?&?) (?&?&?&?&?&?&?&?&?&?). do 9 (split; [congruence|]). congruence. Qed.

(** positions of a list keep their objects up to R *)
Definition keeps {A} (R : A -> A -> Prop) (l l' : list A) : Prop :=
  forall i a, nth_error l i = Some a -> exists a', nth_error l' i = Some a' /\ R a a'.
Lemma keeps_refl {A} (R : A -> A -> Prop) l : (forall a, R a a) -> keeps R l l.
Proof. intros H i a E. eauto. Qed.
Lemma keeps_trans {A} (R : A -> A -> Prop) l1 l2 l3 : (forall a b c, R a b -> R b c -> R a c) -> keeps R l1 l2 -> keeps R l2 l3 -> keeps R l1 l3.
Proof. intros T H1 H2 i a E. destruct (H1 i a E) as (b & E1 & R1). destruct (H2 i b E1) as (c & E2 & R2). eauto. Qed.
Lemma keeps_app {A} (R : A -> A -> Prop) l r : (forall a, R a a) -> keeps R l (l ++ r).
Proof. intros H i a E. exists a. split; auto. rewrite nth_error_app1; auto. apply nth_error_Some. congruence. Qed.
Lemma keeps_upd {A} (R : A -> A -> Prop) l i a : (forall a, R a a) -> (forall b, nth_error l i = Some b -> R b a) -> keeps R l (upd i a l).
Proof.
  intros H HR j b E. destruct (Nat.eq_dec i j) as [->|N].
  - exists a. split; auto. apply upd_same. apply nth_error_Some. congruence.
  - exists b. split; auto. rewrite upd_other; auto.
Qed.

Lemma set_each_keeps {V} (f : V -> ltmpl -> ltmpl) (R : ltmpl -> ltmpl -> Prop) ids vs ts :
  (forall a, R a a) -> (forall a b c, R a b -> R b c -> R a c) -> (forall v t, R t (f v t)) -> keeps R ts (set_each f ids vs ts).
Proof.
  intros HR HT HF. revert vs ts. induction ids as [|t ids IH]; intros [|v vs] ts; simpl; try (apply keeps_refl; auto).
  eapply keeps_trans; [auto| |apply IH].
  destruct (nth_error ts t) as [tm|] eqn:E; [|apply keeps_refl; auto]. apply keeps_upd; auto. intros b Eb. assert (b = tm) by congruence. subst. auto.
Qed.
Lemma set_each_length {V} (f : V -> ltmpl -> ltmpl) ids vs ts : length (set_each f ids vs ts) = length ts.
Proof.
  revert vs ts. induction ids as [|t ids IH]; intros [|v vs] ts; simpl; auto. rewrite IH. destruct (nth_error ts t); auto. apply upd_length.
Qed.
Lemma set_each_other {V} (f : V -> ltmpl -> ltmpl) ids vs ts t : ~ In t ids -> nth_error (set_each f ids vs ts) t = nth_error ts t.
Proof.
  revert vs ts. induction ids as [|i ids IH]; intros [|v vs] ts H; simpl; auto. rewrite IH by (intros Q; apply H; now right).
  destruct (nth_error ts i) as [tm|]; auto. apply upd_other. intros ->. apply H. now left.
Qed.
Lemma set_each_nth {V} (f : V -> ltmpl -> ltmpl) ids vs ts k t v tm : NoDup ids ->
  nth_error ids k = Some t -> nth_error vs k = Some v -> nth_error ts t = Some tm ->
  nth_error (set_each f ids vs ts) t = Some (f v tm).
Proof.
  revert vs ts k. induction ids as [|i ids IH]; intros [|u vs] ts [|k] ND K VK TK; try discriminate; simpl in *.
  - injection K as ->. injection VK as ->. inversion ND; subst. rewrite TK, set_each_other by auto. apply upd_same. apply nth_error_Some. congruence.
  - inversion ND; subst. apply (IH _ _ k); auto. destruct (nth_error ts i) as [tm'|] eqn:E; auto. rewrite upd_other; auto.
    intros ->. apply H1. eapply nth_error_In; eauto.
Qed.

(** ** States *)
Definition same_geom (a b : lstack) : Prop :=
  ls_name b = ls_name a /\ ls_var b = ls_var a /\ ls_nb b = ls_nb a /\ ls_limits b = ls_limits a /\ ls_edges b = ls_edges a.
Lemma sg_refl a : same_geom a a. Proof. unfold same_geom; tauto. Qed.
Lemma sg_trans a b c : same_geom a b -> same_geom b c -> same_geom a c.
Proof. unfold same_geom. intros (?&?&?&?&?) (?&?&?&?&?). do 4 (split; [congruence|]). congruence. Qed.

Record gext (w w' : gworld) : Prop := {
  ge_tmpls : keeps same_orig (g_tmpls w) (g_tmpls w');
  ge_stacks : keeps same_geom (g_stacks w) (g_stacks w');
  ge_nlls : keeps eq (g_nlls w) (g_nlls w');
  ge_bufs : keeps (fun a b => length b = length a) (g_bufs w) (g_bufs w') }.
Lemma gext_refl w : gext w w.
Proof. constructor; apply keeps_refl; auto using so_refl, sg_refl. Qed.
Lemma gext_trans a b c : gext a b -> gext b c -> gext a c.
Proof.
  intros [] []. constructor; (eapply keeps_trans; [|eassumption|eassumption]); eauto using so_trans, sg_trans; intros; congruence.
Qed.

Lemma gext_tmpls w ts : keeps same_orig (g_tmpls w) ts -> gext w (set_gtmpls w ts).
Proof. intros H. constructor; simpl; auto; apply keeps_refl; auto using sg_refl. Qed.
Lemma gext_stacks w ts : keeps same_geom (g_stacks w) ts -> gext w (set_gstacks w ts).
Proof. intros H. constructor; simpl; auto; apply keeps_refl; auto using so_refl. Qed.
Lemma gext_hists w hs : gext w (set_ghists w hs).
Proof. constructor; simpl; apply keeps_refl; auto using so_refl, sg_refl. Qed.
Lemma gext_nlls w n : gext w (set_gnlls w (g_nlls w ++ [n])).
Proof. constructor; simpl; try (apply keeps_refl; auto using so_refl, sg_refl). apply keeps_app; auto. Qed.
Lemma gext_lt_create w n v nb lim d ws : gext w (fst (lt_create w n v nb lim d ws)).
Proof.
  unfold lt_create. destruct (hist1_new _ _ _ _) as [h|e]; [|apply gext_refl]. destruct (Nat.eqb _ _); [apply gext_refl|].
  constructor; simpl; try (apply keeps_app; auto using so_refl); apply keeps_refl; auto using sg_refl.
Qed.
Lemma gext_on_tmpl w t f : (forall tm, same_orig tm (fst (f tm))) -> gext w (fst (on_tmpl w t f)).
Proof.
  intros H. unfold on_tmpl. destruct (nth_error (g_tmpls w) t) as [tm|] eqn:E; [|apply gext_refl].
  specialize (H tm). destruct (f tm) as [tm' r]. simpl in *. apply gext_tmpls. apply keeps_upd; [apply so_refl|]. intros b Eb. congruence.
Qed.
Lemma gext_set_each {V} w st (f : V -> ltmpl -> ltmpl) vs : (forall v t, same_orig t (f v t)) ->
  gext w (set_gtmpls w (set_each f (ls_ids st) vs (g_tmpls w))).
Proof. intros H. apply gext_tmpls. apply set_each_keeps; auto using so_refl. apply so_trans. Qed.

Lemma so_cov inv t c : same_orig t (fst (lt_add_cov inv t c)).
Proof. unfold lt_add_cov. destruct (negb _); [apply so_refl|]. destruct (inv _); unfold same_orig; simpl; tauto. Qed.
Lemma so_set_yield v t : same_orig t (lt_set_yield v t). Proof. unfold same_orig; simpl; tauto. Qed.
Lemma so_set_yield_err v t : same_orig t (lt_set_yield_err v t). Proof. unfold same_orig; simpl; tauto. Qed.
Lemma so_set_nui v t : same_orig t (lt_set_nui v t). Proof. unfold same_orig; simpl; tauto. Qed.
Lemma so_set_nui_err v t : same_orig t (lt_set_nui_err v t). Proof. unfold same_orig; simpl; tauto. Qed.
Lemma so_reset t : same_orig t (lt_reset t). Proof. unfold same_orig; simpl; tauto. Qed.

Lemma gext_upd_stack w s st st' : nth_error (g_stacks w) s = Some st -> same_geom st st' -> gext w (upd_stack w s st').
Proof. intros E H. apply gext_stacks. apply keeps_upd; [apply sg_refl|]. intros b Eb. congruence. Qed.
Lemma gext_set_nuis w st a : gext w (fst (ls_set_nuis w st a)).
Proof. unfold ls_set_nuis. destruct (asplit _ _); [|apply gext_refl]. apply gext_set_each, so_set_nui. Qed.
Lemma gext_set_nui_errs w st a : gext w (fst (ls_set_nui_errs w st a)).
Proof. unfold ls_set_nui_errs. destruct (asplit _ _); [|apply gext_refl]. apply gext_set_each, so_set_nui_err. Qed.
Lemma gext_update w st x e : gext w (fst (ls_update w st x e)).
Proof.
  unfold ls_update. set (w1 := ls_set_yields _ _ _). pose proof (gext_set_nuis w1 st (atail (length (ls_dict st)) x)) as H.
  assert (H1 : gext w w1) by (apply gext_set_each, so_set_yield). destruct (ls_set_nuis _ _ _) as [w2 [[]|er]]; simpl in *.
  - eapply gext_trans; [exact H1|]. eapply gext_trans; [exact H|].
    eapply gext_trans; [apply (gext_set_each w2 st lt_set_yield_err), so_set_yield_err|]. apply gext_set_nui_errs.
  - eapply gext_trans; eauto.
Qed.

Lemma gstep_ext inv w o : gext w (fst (gstep inv w o)).
Proof.
  destruct o; simpl gstep; try (destruct (aref_ok _ _); [|apply gext_refl]).
  - constructor; simpl; try (apply keeps_refl; auto using so_refl, sg_refl). apply keeps_app; auto.
  - unfold awrite. destruct (nth_error (g_bufs w) (a_buf a)) as [b|] eqn:E; [|apply gext_refl]. destruct (Nat.ltb _ _); [|apply gext_refl].
    constructor; simpl; try (apply keeps_refl; auto using so_refl, sg_refl). apply keeps_upd; auto. intros c Ec. rewrite upd_length. congruence.
  - unfold new_hist. destruct (hist1_new _ _ _ _); [apply gext_hists|apply gext_refl].
  - unfold new_hist. destruct (hist1_from_binned _ _ _); [apply gext_hists|apply gext_refl].
  - destruct (nth_error (g_hists w) h) as [h0|]; [|apply gext_refl]. destruct (hist1_fill _ _ _). apply gext_hists.
  - unfold on_stack. destruct (nth_error _ _); [|apply gext_refl]. unfold new_hist. destruct (ls_asimov _ _ _); [apply gext_hists|apply gext_refl].
  - pose proof (gext_lt_create w name var nb limits data ws). destruct (lt_create _ _ _ _ _ _ _) as [w' r]. exact H.
  - apply gext_on_tmpl. intros; apply so_cov.
  - apply gext_on_tmpl. intros; apply so_set_yield.
  - apply gext_on_tmpl. intros; apply so_set_yield_err.
  - apply gext_on_tmpl. intros; apply so_set_nui.
  - apply gext_on_tmpl. intros; apply so_set_nui_err.
  - apply gext_on_tmpl. intros; apply so_reset.
  - unfold ls_create. do 2 (destruct (Z.ltb _ _); [apply gext_refl|]). simpl. apply gext_stacks. apply keeps_app, sg_refl.
  - unfold ls_add_template. destruct (nth_error (g_stacks w) s) as [st|] eqn:E; [|apply gext_refl]. destruct (nth_error (g_tmpls w) t); [|apply gext_refl].
    destruct (_ && _); [|apply gext_refl]. eapply gext_upd_stack; eauto. unfold same_geom; simpl; tauto.
  - unfold ls_create_template. destruct (nth_error (g_stacks w) s) as [st|] eqn:E; [|apply gext_refl].
    pose proof (gext_lt_create w tid (ls_var st) (Z.of_nat (ls_nb st)) (ls_limits st) data ws) as H.
    destruct (lt_create _ _ _ _ _ _ _) as [w' [t|e]] eqn:L; [|exact H]. eapply gext_trans; [exact H|].
    simpl. assert (ES : g_stacks w' = g_stacks w). { unfold lt_create in L. destruct (hist1_new _ _ _ _); [|discriminate]. destruct (Nat.eqb _ _); [discriminate|]. injection L as <- _. reflexivity. }
    apply (gext_upd_stack w' s st); [congruence|unfold same_geom; simpl; tauto].
  - unfold on_stack. destruct (nth_error _ _); [|apply gext_refl]. apply gext_set_each, so_set_yield.
  - unfold on_stack. destruct (nth_error _ _); [|apply gext_refl]. apply gext_set_each, so_set_yield_err.
  - unfold on_stack. destruct (nth_error _ _); [|apply gext_refl]. apply gext_set_nuis.
  - unfold on_stack. destruct (nth_error _ _); [|apply gext_refl]. apply gext_set_nui_errs.
  - destruct (aref_ok w e); [|apply gext_refl]. unfold on_stack. destruct (nth_error _ _); [|apply gext_refl]. apply gext_update.
  - unfold on_stack. destruct (nth_error _ _); [|apply gext_refl]. apply (gext_set_each w l (fun _ : unit => lt_reset)). intros; apply so_reset.
  - unfold nll_create. destruct (nth_error (g_stacks w) s) as [st|]; [|apply gext_refl]. destruct (nth_error (g_hists w) data); [|apply gext_refl].
    destruct (ls_templates w st) as [[|t0 ts]|er]; try apply gext_refl. apply gext_nlls.
Qed.
Lemma grun_ext inv l : forall w, gext w (grun inv w l).
Proof. induction l as [|o l IH]; intros w; simpl; [apply gext_refl|]. eapply gext_trans; [apply gstep_ext|apply IH]. Qed.
Lemma grun_app inv l1 l2 w : grun inv w (l1 ++ l2) = grun inv (grun inv w l1) l2.
Proof. revert w. induction l1; simpl; auto. Qed.

(** ** Buffers: only GWrite changes an existing buffer *)
Definition writes_to (o : gop) (b : nat) : Prop := match o with GWrite a _ _ => a_buf a = b | _ => False end.
Lemma bufs_set_nuis w st a : g_bufs (fst (ls_set_nuis w st a)) = g_bufs w.
Proof. unfold ls_set_nuis. destruct (asplit _ _); reflexivity. Qed.
Lemma bufs_set_nui_errs w st a : g_bufs (fst (ls_set_nui_errs w st a)) = g_bufs w.
Proof. unfold ls_set_nui_errs. destruct (asplit _ _); reflexivity. Qed.
Lemma bufs_update w st x e : g_bufs (fst (ls_update w st x e)) = g_bufs w.
Proof.
  unfold ls_update. pose proof (bufs_set_nuis (ls_set_yields w st (aread w (ahead (length (ls_dict st)) x))) st (atail (length (ls_dict st)) x)) as H.
  destruct (ls_set_nuis _ _ _) as [w2 [[]|er]]; simpl in *; auto. rewrite bufs_set_nui_errs. exact H.
Qed.
Lemma bufs_lt_create w n v nb lim d ws : exists l, g_bufs (fst (lt_create w n v nb lim d ws)) = g_bufs w ++ l.
Proof.
  unfold lt_create. destruct (hist1_new _ _ _ _); [|exists []; simpl; now rewrite app_nil_r]. destruct (Nat.eqb _ _); [exists []; simpl; now rewrite app_nil_r|].
  eexists. reflexivity.
Qed.
Lemma bufs_on_tmpl w t f : g_bufs (fst (on_tmpl w t f)) = g_bufs w.
Proof. unfold on_tmpl. destruct (nth_error _ _); auto. destruct (f _). reflexivity. Qed.

Lemma gstep_buf inv w o b : ~ writes_to o b -> (b < length (g_bufs w))%nat ->
  nth_error (g_bufs (fst (gstep inv w o))) b = nth_error (g_bufs w) b.
Proof.
  intros NW LT. destruct o; simpl gstep; try (destruct (aref_ok _ _); [|reflexivity]); rewrite ?bufs_on_tmpl; try reflexivity.
  - simpl. apply nth_error_app1; auto.
  - unfold awrite. destruct (nth_error (g_bufs w) (a_buf a)) as [c|] eqn:E; [|reflexivity]. destruct (Nat.ltb _ _); [|reflexivity].
    simpl. apply upd_other. intros X. apply NW. simpl. auto.
  - unfold new_hist. destruct (hist1_new _ _ _ _); reflexivity.
  - unfold new_hist. destruct (hist1_from_binned _ _ _); reflexivity.
  - destruct (nth_error (g_hists w) h) as [h0|]; [|reflexivity]. destruct (hist1_fill _ _ _). reflexivity.
  - unfold on_stack. destruct (nth_error (g_stacks w) s); [|reflexivity]. unfold new_hist. destruct (ls_asimov _ _ _); reflexivity.
  - destruct (bufs_lt_create w name var nb limits data ws) as (l & H). destruct (lt_create _ _ _ _ _ _ _) as [w' r]. simpl in *. rewrite H. apply nth_error_app1; auto.
  - unfold ls_create. do 2 (destruct (Z.ltb _ _); [reflexivity|]). reflexivity.
  - unfold ls_add_template. destruct (nth_error (g_stacks w) s); [|reflexivity]. destruct (nth_error (g_tmpls w) t); [|reflexivity]. destruct (_ && _); reflexivity.
  - unfold ls_create_template. destruct (nth_error (g_stacks w) s) as [st|]; [|reflexivity].
    destruct (bufs_lt_create w tid (ls_var st) (Z.of_nat (ls_nb st)) (ls_limits st) data ws) as (l & H).
    destruct (lt_create _ _ _ _ _ _ _) as [w' [t|e]]; simpl in *; rewrite H; apply nth_error_app1; auto.
  - unfold on_stack. destruct (nth_error (g_stacks w) s); reflexivity.
  - unfold on_stack. destruct (nth_error (g_stacks w) s); reflexivity.
  - unfold on_stack. destruct (nth_error (g_stacks w) s); [|reflexivity]. now rewrite bufs_set_nuis.
  - unfold on_stack. destruct (nth_error (g_stacks w) s); [|reflexivity]. now rewrite bufs_set_nui_errs.
  - destruct (aref_ok w e); [|reflexivity]. unfold on_stack. destruct (nth_error (g_stacks w) s); [|reflexivity]. now rewrite bufs_update.
  - unfold on_stack. destruct (nth_error (g_stacks w) s); reflexivity.
  - unfold nll_create. destruct (nth_error (g_stacks w) s) as [st|]; [|reflexivity]. destruct (nth_error (g_hists w) data); [|reflexivity].
    destruct (ls_templates w st) as [[|t0 ts]|er]; reflexivity.
Qed.

(** ** Original parameters *)
Definition orig_ok (w : gworld) (tm : ltmpl) : Prop :=
  y_orig (lt_yield tm) = np_sum (lt_counts tm) /\ y_orig_err (lt_yield tm) = xsqrt (np_sum (lt_errs_sq tm)) /\
  nth_error (g_bufs w) (a_buf (n_orig (lt_nui tm))) = Some (repeat (Fin 0) (lt_nb tm)) /\
  a_off (n_orig (lt_nui tm)) = O /\ a_len (n_orig (lt_nui tm)) = lt_nb tm /\
  nth_error (g_bufs w) (a_buf (n_orig_err (lt_nui tm))) = Some (repeat (Fin 1) (lt_nb tm)) /\
  a_off (n_orig_err (lt_nui tm)) = O /\ a_len (n_orig_err (lt_nui tm)) = lt_nb tm.
Definition GI (w : gworld) : Prop := forall t tm, nth_error (g_tmpls w) t = Some tm -> orig_ok w tm.

Lemma orig_ok_same w a b : same_orig a b -> orig_ok w a -> orig_ok w b.
Proof.
  unfold orig_ok. intros (?&?&E1&?&E2&E3&E4&E5&E6&E7). rewrite E1, E2, E3, E4, E5, E6, E7. tauto.
Qed.
Lemma orig_ok_step inv w o tm : polite_call w o -> In tm (g_tmpls w) -> orig_ok w tm -> orig_ok (fst (gstep inv w o)) tm.
Proof.
  intros P I (A & B & C & D & E & F & G & H). 
  assert (W : forall b, b = a_buf (n_orig (lt_nui tm)) \/ b = a_buf (n_orig_err (lt_nui tm)) -> ~ writes_to o b).
  { intros b Hb. destruct o; simpl; try tauto. intros <-. destruct (P tm I). destruct Hb; auto. }
  unfold orig_ok. rewrite !gstep_buf; auto; try (apply nth_error_Some; congruence). tauto.
Qed.

Lemma new_tmpl_orig w n v nb lim d ws t tm : nth_error (g_tmpls (fst (lt_create w n v nb lim d ws))) t = Some tm ->
  nth_error (g_tmpls w) t = None -> orig_ok (fst (lt_create w n v nb lim d ws)) tm.
Proof.
  unfold lt_create. destruct (hist1_new _ _ _ _) as [h|]; [|simpl; congruence]. destruct (Nat.eqb _ _); [simpl; congruence|].
  simpl. intros H N. apply nth_error_None in N. rewrite nth_error_app2 in H by auto.
  destruct (t - length (g_tmpls w))%nat as [|k] eqn:K; [|destruct k; discriminate]. injection H as <-.
  unfold orig_ok; cbn [lt_yield lt_nui y_orig y_orig_err n_orig n_orig_err lt_nb lt_counts lt_errs_sq a_buf a_off a_len g_bufs]. rewrite !nth_error_app2 by lia. replace (length (g_bufs w) - length (g_bufs w))%nat with O by lia.
  replace (S (length (g_bufs w)) - length (g_bufs w))%nat with 1%nat by lia. simpl. repeat split.
Qed.

(** The only calls that create templates are GTemplate and GCreateTemplate. *)
Lemma tmpls_count inv w o : (forall n v nb lim d ws, o <> GTemplate n v nb lim d ws) -> (forall s i d ws, o <> GCreateTemplate s i d ws) ->
  length (g_tmpls (fst (gstep inv w o))) = length (g_tmpls w).
Proof.
  intros H1 H2. destruct o; simpl gstep; try (destruct (aref_ok _ _); [|reflexivity]); try reflexivity.
  - unfold awrite. destruct (nth_error (g_bufs w) (a_buf a)) as [c|] eqn:E; [|reflexivity]. destruct (Nat.ltb _ _); reflexivity.
  - unfold new_hist. destruct (hist1_new _ _ _ _); reflexivity.
  - unfold new_hist. destruct (hist1_from_binned _ _ _); reflexivity.
  - destruct (nth_error (g_hists w) h) as [h0|]; [|reflexivity]. destruct (hist1_fill _ _ _). reflexivity.
  - unfold on_stack. destruct (nth_error (g_stacks w) s); [|reflexivity]. unfold new_hist. destruct (ls_asimov _ _ _); reflexivity.
  - exfalso. eapply H1; reflexivity.
  - unfold on_tmpl. destruct (nth_error (g_tmpls w) t); [|reflexivity]. destruct (lt_add_cov _ _ _). apply upd_length.
  - unfold on_tmpl. destruct (nth_error (g_tmpls w) t); [|reflexivity]. apply upd_length.
  - unfold on_tmpl. destruct (nth_error (g_tmpls w) t); [|reflexivity]. apply upd_length.
  - unfold on_tmpl. destruct (nth_error (g_tmpls w) t); [|reflexivity]. apply upd_length.
  - unfold on_tmpl. destruct (nth_error (g_tmpls w) t); [|reflexivity]. apply upd_length.
  - unfold on_tmpl. destruct (nth_error (g_tmpls w) t); [|reflexivity]. apply upd_length.
  - unfold ls_create. do 2 (destruct (Z.ltb _ _); [reflexivity|]). reflexivity.
  - unfold ls_add_template. destruct (nth_error (g_stacks w) s); [|reflexivity]. destruct (nth_error (g_tmpls w) t); [|reflexivity]. destruct (_ && _); reflexivity.
  - exfalso. eapply H2; reflexivity.
  - unfold on_stack. destruct (nth_error (g_stacks w) s); [|reflexivity]. apply set_each_length.
  - unfold on_stack. destruct (nth_error (g_stacks w) s); [|reflexivity]. apply set_each_length.
  - unfold on_stack. destruct (nth_error (g_stacks w) s); [|reflexivity]. unfold ls_set_nuis. destruct (asplit _ _); [|reflexivity]. apply set_each_length.
  - unfold on_stack. destruct (nth_error (g_stacks w) s); [|reflexivity]. unfold ls_set_nui_errs. destruct (asplit _ _); [|reflexivity]. apply set_each_length.
  - destruct (aref_ok w e); [|reflexivity]. unfold on_stack. destruct (nth_error (g_stacks w) s) as [st|]; [|reflexivity]. unfold ls_update, ls_set_nuis.
    destruct (asplit _ _) as [ps|]; simpl; [|apply set_each_length]. unfold ls_set_nui_errs. destruct (asplit _ _); simpl; rewrite !set_each_length; reflexivity.
  - unfold on_stack. destruct (nth_error (g_stacks w) s); [|reflexivity]. apply set_each_length.
  - unfold nll_create. destruct (nth_error (g_stacks w) s) as [st|]; [|reflexivity]. destruct (nth_error (g_hists w) data); [|reflexivity].
    destruct (ls_templates w st) as [[|t0 ts]|er]; reflexivity.
Qed.
Lemma new_tmpl_step inv w o t tm : nth_error (g_tmpls (fst (gstep inv w o))) t = Some tm -> nth_error (g_tmpls w) t = None ->
  orig_ok (fst (gstep inv w o)) tm.
Proof.
  intros H N.
  assert (X : length (g_tmpls (fst (gstep inv w o))) <> length (g_tmpls w)).
  { intros X. apply nth_error_None in N. rewrite <- X in N. apply nth_error_None in N. congruence. }
  destruct o; try (exfalso; apply X; apply tmpls_count; intros; discriminate).
  - simpl gstep in *. pose proof (new_tmpl_orig w name var nb limits data ws t tm) as Q. destruct (lt_create _ _ _ _ _ _ _) as [w' r]. apply Q; auto.
  - simpl gstep in *. unfold ls_create_template in *. destruct (nth_error (g_stacks w) s) as [st|]; [|simpl in *; congruence].
    pose proof (new_tmpl_orig w tid (ls_var st) (Z.of_nat (ls_nb st)) (ls_limits st) data ws t tm) as Q.
    destruct (lt_create _ _ _ _ _ _ _) as [w' [t0|e]]; apply Q; auto.
Qed.

Lemma GI_step inv w o : polite_call w o -> GI w -> GI (fst (gstep inv w o)).
Proof.
  intros P G t tm H. destruct (nth_error (g_tmpls w) t) as [tm0|] eqn:E.
  - destruct (ge_tmpls _ _ (gstep_ext inv w o) t tm0 E) as (tm1 & H1 & S1). assert (tm1 = tm) by congruence. subst tm1.
    apply (orig_ok_same _ tm0); auto. apply orig_ok_step; auto; [eapply nth_error_In; eauto|]. eapply G; eauto.
  - eapply new_tmpl_step; eauto.
Qed.
Lemma GI_run inv l : forall w, polite inv w l -> GI w -> GI (grun inv w l).
Proof. induction l as [|o l IH]; intros w; simpl; auto. intros (P & PL) G. apply IH; auto. apply GI_step; auto. Qed.
Lemma GI_empty : GI g_empty. Proof. intros [|t] tm H; discriminate. Qed.
Lemma polite_app inv l1 l2 w : polite inv w (l1 ++ l2) <-> polite inv w l1 /\ polite inv (grun inv w l1) l2.
Proof. revert w. induction l1 as [|o l1 IH]; intros w; simpl; [tauto|]. rewrite IH. tauto. Qed.

(** ** Reset *)
Definition initial (tm : ltmpl) : lparams :=
  mk_lparams (np_sum (lt_counts tm)) (xsqrt (np_sum (lt_errs_sq tm))) (repeat (Fin 0) (lt_nb tm)) (repeat (Fin 1) (lt_nb tm)).

Lemma slice_all {A} (l : list A) : slice 0 (0 + length l) l = l.
Proof. unfold slice. simpl. rewrite Nat.sub_0_r. apply firstn_all. Qed.
Lemma aread_whole w a l : nth_error (g_bufs w) (a_buf a) = Some l -> a_off a = O -> a_len a = length l -> aread w a = l.
Proof. intros H O L. unfold aread. rewrite H, O, L. apply slice_all. Qed.

Lemma reset_params w tm : orig_ok w tm ->
  mk_lparams (y_val (lt_yield (lt_reset tm))) (y_err (lt_yield (lt_reset tm)))
    (aread w (n_val (lt_nui (lt_reset tm)))) (aread w (n_err (lt_nui (lt_reset tm)))) = initial tm.
Proof.
  intros (A & B & C & D & E & F & G & H). unfold initial. simpl.
  rewrite (aread_whole w _ _ C D), (aread_whole w _ _ F G), A, B; rewrite ?repeat_length; auto.
Qed.
