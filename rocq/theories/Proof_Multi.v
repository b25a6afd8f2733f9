(** Several MultiChannelTemplates: frames, caches and the well-formedness invariant *)
From Coq Require Import Reals String ZArith Bool Arith List Lra Lia.
From Verif Require Import Model_Num Model_Hist Model_Utility Model_Template Model_World Model_Ops Model_Multi
  Spec_Matrix Spec_Multi Proof_Hist Proof_Matrix Proof_Template Proof_HistHeap Proof_Monad Proof_World Proof_Eval.
Import ListNotations.
Local Open Scope R_scope.

(** ** Loading and storing *)
Lemma load_store w w' : load (store w) (load w' w) = w. Proof. now destruct w. Qed.
Lemma load_load m m' w : load m (load m' w) = load m w. Proof. reflexivity. Qed.
Lemma load_self w : load (store w) w = w. Proof. now destruct w. Qed.

(** ** Reasoning in a given state *)
Lemma bind_at {A B} (R : world -> world -> Prop) (PO : preorder R) w (m : M A) (k : A -> M B) :
  R w (fst (m w)) -> (forall a, snd (m w) = Ok a -> R (fst (m w)) (fst (k a (fst (m w))))) -> R w (fst (bind m k w)).
Proof. intros H K. unfold bind. destruct (m w) as [w1 [a|e]]; simpl in *; auto. eapply PO; eauto. Qed.
Lemma forM_at {A} (R : world -> world -> Prop) (PO : preorder R) (I : world -> Prop) (f : A -> M unit) l :
  (forall w w', R w w' -> I w -> I w') -> (forall a w, In a l -> I w -> R w (fst (f a w))) -> forall w, I w -> R w (fst (forM f l w)).
Proof.
  intros S. induction l as [|a l IH]; intros H w W; simpl; [apply PO|].
  apply bind_at; auto; [apply H; simpl; auto|]. intros [] _. apply IH; [intros; apply H; simpl; auto|].
  eapply S; [|exact W]. apply H; simpl; auto.
Qed.
Lemma mapM_at {A B} (R : world -> world -> Prop) (PO : preorder R) (I : world -> Prop) (f : A -> M B) l :
  (forall w w', R w w' -> I w -> I w') -> (forall a w, In a l -> I w -> R w (fst (f a w))) -> forall w, I w -> R w (fst (mapM f l w)).
Proof.
  intros S. induction l as [|a l IH]; intros H w W; simpl; [apply PO|].
  assert (R1 : R w (fst (f a w))) by (apply H; simpl; auto).
  apply bind_at; auto. intros b _. apply bind_at; auto; [apply IH; [intros; apply H; simpl; auto|eapply S; eauto]|].
  intros bs _. apply PO.
Qed.

(** ** Frames: only the objects in the given sets change *)
Record frm (Cs Ts Hs : nat -> Prop) (w w' : world) : Prop := {
  f_chans : forall i c, nth_error (w_chans w) i = Some c -> ~ Cs i -> nth_error (w_chans w') i = Some c;
  f_tmpls : forall i t, nth_error (w_tmpls w) i = Some t -> ~ Ts i -> nth_error (w_tmpls w') i = Some t;
  f_hists : forall i h, nth_error (w_hists w) i = Some h -> ~ Hs i -> nth_error (w_hists w') i = Some h }.
Lemma frm_po Cs Ts Hs : preorder (frm Cs Ts Hs).
Proof. split; [intros; constructor; auto|]. intros a b c [] []. constructor; auto. Qed.
Lemma frm_core {Cs Ts Hs A} (m : M A) : pres core_eq m -> pres (frm Cs Ts Hs) m.
Proof. intros H w. destruct (H w) as [E1 E2 E3 _ _ _ _ _]. constructor; rewrite ?E1, ?E2, ?E3; auto. Qed.
Lemma frm_alloc {Cs Ts Hs} h : pres (frm Cs Ts Hs) (alloc_hist h).
Proof. intros w. constructor; simpl; auto. intros. now apply nth_app_some. Qed.
Lemma frm_on_tmpl {Cs Ts Hs : nat -> Prop} {A} i (f : tmpl -> tmpl * res A) : Ts i -> pres (frm Cs Ts Hs) (on_tmpl i f).
Proof.
  intros T w. unfold on_tmpl. destruct (nth_error (w_tmpls w) i); [|apply frm_po]. destruct (f t). constructor; simpl; auto.
  intros j u U N. rewrite upd_other; auto. intros ->. contradiction.
Qed.
Lemma frm_on_hist {Cs Ts Hs : nat -> Prop} {A} i (f : hist -> hist * res A) : Hs i -> pres (frm Cs Ts Hs) (on_hist i f).
Proof.
  intros T w. unfold on_hist. destruct (nth_error (w_hists w) i); [|apply frm_po]. destruct (f h). constructor; simpl; auto.
  intros j u U N. rewrite upd_other; auto. intros ->. contradiction.
Qed.
Lemma frm_on_chan {Cs Ts Hs : nat -> Prop} {A} i (f : chan -> chan * res A) : Cs i -> pres (frm Cs Ts Hs) (on_chan i f).
Proof.
  intros T w. unfold on_chan. destruct (nth_error (w_chans w) i); [|apply frm_po]. destruct (f c). constructor; simpl; auto.
  intros j u U N. rewrite upd_other; auto. intros ->. contradiction.
Qed.
Lemma frm_weaken (Cs Ts Hs Cs' Ts' Hs' : nat -> Prop) w w' : (forall i, Cs i -> Cs' i) -> (forall i, Ts i -> Ts' i) -> (forall i, Hs i -> Hs' i) ->
  frm Cs Ts Hs w w' -> frm Cs' Ts' Hs' w w'.
Proof. intros A B C []. constructor; eauto. Qed.

(** template operations through channels: the channels themselves, the histograms and the model stay the same *)
Record frmT (Ts : nat -> Prop) (w w' : world) : Prop := {
  ft_chans : w_chans w' = w_chans w; ft_hists : w_hists w' = w_hists w; ft_store : store w' = store w;
  ft_tmpls : forall i t, nth_error (w_tmpls w) i = Some t -> ~ Ts i -> nth_error (w_tmpls w') i = Some t }.
Lemma frmT_po Ts : preorder (frmT Ts).
Proof. split; [intros; constructor; auto|]. intros a b c [] []. constructor; try congruence; auto. Qed.
Lemma frmT_frm Ts w w' : frmT Ts w w' -> frm (fun _ => False) Ts (fun _ => False) w w'.
Proof. intros [A B _ D]. constructor; [rewrite A|exact D|rewrite B]; auto. Qed.
Lemma frmT_on_tmpl {Ts : nat -> Prop} {A} i (f : tmpl -> tmpl * res A) : Ts i -> pres (frmT Ts) (on_tmpl i f).
Proof.
  intros T w. unfold on_tmpl. destruct (nth_error (w_tmpls w) i); [|apply frmT_po]. destruct (f t). constructor; simpl; auto.
  intros j u U N. rewrite upd_other; auto. intros ->. contradiction.
Qed.
Lemma frmT_core {Ts A} (m : M A) : pres core_eq m -> pres (frmT Ts) m.
Proof.
  intros H w. destruct (H w) as [E1 E2 E3 E4 E5 E6 E7 E8].
  constructor; auto; [unfold store; congruence|]. rewrite E2; auto.
Qed.
Lemma frmT_tmpl_reset {Ts : nat -> Prop} i : Ts i -> pres (frmT Ts) (tmpl_reset i).
Proof. intros T. unfold tmpl_reset. pres_tac (frmT_po Ts). now apply frmT_on_tmpl. Qed.

(** the templates held by the channel objects in C *)
Definition held (w : world) (C : nat -> Prop) (tid : nat) : Prop :=
  exists cid c p, C cid /\ nth_error (w_chans w) cid = Some c /\ In (p, tid) (c_tmpls c).

Lemma get_chan_at (R : world -> world -> Prop) (PO : preorder R) {B} w cid (k : chan -> M B) :
  (forall c, nth_error (w_chans w) cid = Some c -> R w (fst (k c w))) -> R w (fst (bind (get_chan cid) k w)).
Proof. intros H. unfold bind, get_chan. destruct (nth_error (w_chans w) cid); [now apply H|apply PO]. Qed.

Section Through.
  Variables (w0 : world) (C : nat -> Prop).
  Let Ts := held w0 C.
  Let I (w : world) := w_chans w = w_chans w0.
  Lemma I_step w w' : frmT Ts w w' -> I w -> I w'. Proof. intros [E _ _ _] H. unfold I in *. congruence. Qed.
  Lemma frmT_ch_reset cid w : C cid -> I w -> frmT Ts w (fst (ch_reset cid w)).
  Proof.
    intros CC IW. unfold ch_reset. apply get_chan_at; [apply frmT_po|]. intros c Hc. apply forM_at with (I := I); [apply frmT_po|exact I_step| |exact IW].
    intros [p tid] w1 H I1. apply frmT_tmpl_reset. exists cid, c, p. rewrite <- IW. auto.
  Qed.
  Lemma frmT_ch_update cid y n w : C cid -> I w -> frmT Ts w (fst (ch_update_parameters cid y n w)).
  Proof.
    intros CC IW. unfold ch_update_parameters. apply get_chan_at; [apply frmT_po|]. intros c Hc.
    apply bind_at; [apply frmT_po|apply frmT_po|]. intros ys _. apply bind_at; [apply frmT_po|apply frmT_po|]. intros ns _. cbn [lift fst].
    apply forM_at with (I := I); [apply frmT_po|exact I_step| |exact IW]. intros [[[tid eff] yy] nn] w1 H I1.
    assert (T : Ts tid).
    { apply in_combine_l in H. apply in_combine_l in H. apply in_combine_l in H. apply in_map_iff in H as ([p t'] & E & H). simpl in E. subst t'.
      exists cid, c, p. rewrite <- IW. auto. }
    apply (pres_bind (frmT_po Ts)); intros; now apply frmT_on_tmpl.
  Qed.
End Through.

Lemma dict_in {V} (d : list (string * V)) n v : dget String.eqb d n = Some v -> In (n, v) d.
Proof. apply dget_In. Qed.
Definition dict_ids (w : world) (cid : nat) : Prop := exists n, In (n, cid) (w_channels w).
Lemma dict_ids_in w cid : In cid (map snd (w_channels w)) <-> dict_ids w cid.
Proof.
  rewrite in_map_iff. split.
  - intros ([n i] & <- & H). exists n. exact H.
  - intros (n & H). exists (n, cid). auto.
Qed.

Lemma frmT_reset w : frmT (held w (dict_ids w)) w (fst (reset_parameters w)).
Proof.
  unfold reset_parameters. unfold bind, gets. apply forM_at with (R := frmT (held w (dict_ids w))) (I := fun w1 => w_chans w1 = w_chans w); [apply frmT_po| | |reflexivity].
  - intros w1 w2 [E _ _ _]. congruence.
  - intros cid w1 H E. apply dict_ids_in in H. now apply frmT_ch_reset.
Qed.
Lemma frmT_set_yield p v w : frmT (held w (dict_ids w)) w (fst (set_yield p v w)).
Proof.
  unfold set_yield. unfold bind at 1, gets at 1. destruct (smem p (w_procs w)); [|apply frmT_po].
  unfold bind at 1, gets. apply forM_at with (R := frmT (held w (dict_ids w))) (I := fun w1 => w_chans w1 = w_chans w); [apply frmT_po| | |reflexivity].
  - intros w1 w2 [E _ _ _]. congruence.
  - intros cid w1 H E. apply dict_ids_in in H. apply get_chan_at; [apply frmT_po|]. intros c Hc.
    destruct (dget String.eqb (c_tmpls c) p) as [tid|] eqn:D; [|apply frmT_po]. destruct (dget String.eqb (c_effs c) p); [|apply frmT_po].
    apply frmT_on_tmpl. exists cid, c, p. rewrite <- E. auto using dict_in.
Qed.
Lemma frmT_update x w : frmT (held w (dict_ids w)) w (fst (update_parameters x w)).
Proof.
  unfold update_parameters. apply bind_at with (R := frmT (held w (dict_ids w))); [apply frmT_po|apply frmT_core, core_per_channel|]. intros yn _.
  pose proof (core_per_channel x w) as [_ _ EC ED _ _ _ _]. set (w1 := fst (generate_per_channel_parameters x w)) in *.
  unfold bind, gets. apply forM_at with (R := frmT (held w (dict_ids w))) (I := fun w2 => w_chans w2 = w_chans w); [apply frmT_po| | |exact EC].
  - intros w2 w3 [E _ _ _]. congruence.
  - intros [cid q] w2 H E. apply in_combine_l in H. rewrite ED in H. apply dict_ids_in in H. now apply frmT_ch_update.
Qed.

(** ** The frame of one call *)
Definition step_changes_chan (w : world) (o : op) (cid : nat) : Prop :=
  match o with
  | OAddTemplate n _ _ _ => dget String.eqb (w_channels w) n = Some cid
  | OAddData kw => exists n h, In (n, h) kw /\ dget String.eqb (w_channels w) n = Some cid
  | _ => False
  end.
Definition step_changes_tmpl (w : world) (o : op) (tid : nat) : Prop :=
  match o with
  | OSetParams i _ | OSetYieldParam i _ | OSetNui i _ | OTReset i | OAddCov i _ | OAddVar i _ _ _ => i = tid
  | OSetYield _ _ | OReset | OUpdate _ => held w (dict_ids w) tid
  | _ => False
  end.
Definition step_changes_hist (o : op) (hid : nat) : Prop := match o with OFill1 i _ _ | OFill2 i _ _ _ => i = hid | _ => False end.

Lemma frm_add_template w n p tid eff Ts Hs :
  frm (fun cid => dget String.eqb (w_channels w) n = Some cid) Ts Hs w (fst (mct_add_template n p tid eff w)).
Proof.
  unfold mct_add_template. destruct (dget String.eqb (w_channels w) n) as [cid|] eqn:D; [|apply frm_po]. destruct (smem _ _); [|apply frm_po].
  apply (pres_bind (frm_po _ _ _)); [apply (pres_get_tmpl (frm_po _ _ _))|]. intros t. now apply frm_on_chan.
Qed.
Lemma frm_add_data w kw Ts Hs :
  frm (fun cid => exists n h, In (n, h) kw /\ dget String.eqb (w_channels w) n = Some cid) Ts Hs w (fst (mct_add_data kw w)).
Proof.
  set (Cs := fun cid => exists n h, In (n, h) kw /\ dget String.eqb (w_channels w) n = Some cid).
  unfold mct_add_data.
  assert (X : forall l, incl l kw -> forall w1, w_channels w1 = w_channels w ->
    frm Cs Ts Hs w1 (fst (forM (fun kv w => match dget String.eqb (w_channels w) (fst kv) with None => (w, Err RuntimeError)
       | Some cid => (h <- get_hist (snd kv) ;;; on_chan cid (fun c => ch_add_data c (snd kv) h)) w end) l w1))); [|apply X; auto using incl_refl].
  induction l as [|[n hid] l IH]; intros SI w1 E; [apply frm_po|]. cbn [forM]. apply bind_at; [apply frm_po| |].
  - cbn [fst snd]. destruct (dget String.eqb (w_channels w1) n) as [cid|] eqn:D; [|apply frm_po].
    apply (pres_bind (frm_po _ _ _)); [apply (pres_get_hist (frm_po _ _ _))|]. intros h. apply frm_on_chan. exists n, hid. rewrite <- E. split; auto. apply SI; simpl; auto.
  - intros [] _. apply IH; [intros q Q; apply SI; simpl; auto|]. rewrite <- E. cbn [fst snd].
    destruct (dget String.eqb (w_channels w1) n) as [cid|]; [|reflexivity]. unfold bind, get_hist. destruct (nth_error (w_hists w1) hid); [|reflexivity].
    unfold on_chan. destruct (nth_error (w_chans w1) cid); [|reflexivity]. destruct (ch_add_data _ _ _). reflexivity.
Qed.
Lemma frm_asimov b {Cs Ts Hs} : pres (frm Cs Ts Hs) (generate_asimov_dataset b).
Proof. unfold generate_asimov_dataset. pres_tac (frm_po Cs Ts Hs); [apply frm_core, core_asimov|apply frm_alloc]. Qed.
Lemma frm_toy d {Cs Ts Hs} : pres (frm Cs Ts Hs) (generate_toy_dataset d).
Proof. unfold generate_toy_dataset. pres_tac (frm_po Cs Ts Hs); [apply frm_core, core_toy|apply frm_alloc]. Qed.

Lemma frm_step inv o w : frm (step_changes_chan w o) (step_changes_tmpl w o) (step_changes_hist o) w (fst (step inv o w)).
Proof.
  destruct o; cbn [step step_changes_chan step_changes_tmpl step_changes_hist];
    try (match goal with |- frm ?A ?B ?C _ _ => solve
      [ apply (pres_bind (frm_po A B C)); [apply (pres_lift (frm_po A B C))|intros ?; apply (pres_bind (frm_po A B C)); [apply frm_alloc|intros; apply (pres_ret (frm_po A B C))]]
      | apply frm_on_hist; reflexivity | apply frm_on_tmpl; reflexivity
      | apply (pres_bind (frm_po A B C)); [apply (pres_get_hist (frm_po A B C))|intros ?; apply (pres_bind (frm_po A B C)); [apply (pres_lift (frm_po A B C))|intros ?; apply (pres_bind (frm_po A B C)); [apply frm_alloc|intros; apply (pres_ret (frm_po A B C))]]]
      | apply frm_add_template | apply frm_add_data
      | apply (pres_bind (frm_po A B C)); [apply frm_core, core_nll|intros; apply (pres_ret (frm_po A B C))]
      | apply (pres_bind (frm_po A B C)); [apply frm_asimov|intros; apply (pres_ret (frm_po A B C))]
      | apply (pres_bind (frm_po A B C)); [apply frm_toy|intros; apply (pres_ret (frm_po A B C))]
      | eapply frm_weaken; [| | |apply frmT_frm; first [apply frmT_set_yield|apply frmT_reset|apply frmT_update]]; cbn; tauto
      ] end).
  - apply (pres_bind (frm_po _ _ _)); [apply (pres_get_hist (frm_po _ _ _))|]. intros h. apply (pres_bind (frm_po _ _ _)); [apply (pres_lift (frm_po _ _ _))|].
    intros t w1. constructor; simpl; auto. intros. now apply nth_app_some.
  - eapply frm_weaken; [| | |apply frmT_frm; apply (frmT_tmpl_reset (Ts := fun i => tid = i)); reflexivity]; cbn; tauto.
  - constructor; simpl; auto. intros. now apply nth_app_some.
  - unfold define_process. destruct (smem _ _); constructor; simpl; auto.
  - unfold add_gaussian_constraint. destruct (smem _ _); constructor; simpl; auto.
Qed.
