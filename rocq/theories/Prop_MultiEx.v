(** C102, C103: what goes wrong with shared templates and unknown processes; the theorems of Prop_Multi and Prop_Chan apply. *)
From Coq Require Import Reals String ZArith Bool Arith List Lra Lia.
From Verif Require Import Model_Num Model_Hist Model_Utility Model_Template Model_World Model_Ops Model_Multi
  Spec_Matrix Spec_Template Spec_World Spec_Nll Spec_Multi Proof_Hist Proof_Matrix Proof_Template Proof_HistHeap Proof_Monad Proof_World Proof_Eval
  Proof_Route Proof_Names Proof_Update Proof_Nll Proof_Multi Proof_Multi2 Proof_Multi3 Proof_Multi4 Prop_World Prop_Stale Prop_Multi Prop_Chan.
Import ListNotations.
Local Open Scope R_scope.

Lemma mapr_in_err {A B} (f : A -> res B) l a e : In a l -> f a = Err e -> exists e', mapr f l = Err e'.
Proof.
  induction l as [|b l IH]; intros I E; [destruct I|]. simpl. destruct (f b) as [v|e0] eqn:F; simpl; [|eauto].
  destruct I as [->|I]; [congruence|]. destruct (IH I E) as (e' & ->). simpl. eauto.
Qed.

(** C103: a channel of a model got (directly) a template of a process that the model does not know: every evaluation of the
    likelihood of that model raises an exception. *)
Theorem C103_unknown_process_raises : forall inv l k m n cid c p x, disciplined inv l -> let s := mreached inv l in
  nth_error (mw_models s) k = Some m -> In (n, cid) (m_channels m) -> nth_error (w_chans (mw_heap s)) cid = Some c ->
  In p (map fst (c_tmpls c)) -> ~ In p (m_procs m) -> exists e, ask k (nll x) s = Err e.
Proof.
  intros inv l k m n cid c p x D s M I C P N. pose proof (coh_mreached inv l D) as CH. fold s in CH. unfold ask. rewrite M. rewrite nll_is by now apply coh_load.
  unfold nll_res, per_channel_res. cbn [load w_channels w_chans w_procs].
  destruct (mapr_in_err (fun p => match index_of p (m_procs m) with Some i => Ok i | None => Err ValueError end) (keys (c_tmpls c)) p ValueError P) as (e & E).
  { destruct (index_of p (m_procs m)) as [i|] eqn:X; auto. exfalso. apply N. apply index_of_nth in X. eapply nth_error_In; eauto. }
  match goal with |- context [mapr ?f (map snd (m_channels m))] =>
    destruct (mapr_in_err f (map snd (m_channels m)) cid e) as (e' & E'); [now apply (in_map snd) in I|unfold oget; rewrite C; cbn [rbind]; unfold pi_res; rewrite E; reflexivity|] end.
  rewrite E'. cbn [rbind]. eauto.
Qed.
Print Assumptions C103_unknown_process_raises.

(** ** Concrete programs *)
Ltac mcompute t := eval lazy -[Reqb Rplus Rmult Ropp Rinv IZR sqrt Rdiv Rltb Rleb ln xadd xmul xdiv xsub xopp xlog xlog1p xsqrt xltb xeqb xlogyx relative_errors stat_cov] in t.
Lemma mrun_cons inv o l s : mrun inv (o :: l) s = mrun inv l (fst (mstep inv o s)). Proof. reflexivity. Qed.
Ltac mrun_step := rewrite mrun_cons;
  match goal with |- context [fst (mstep ?i ?o ?w)] => let t := mcompute (fst (mstep i o w)) in
    change (fst (mstep i o w)) with t; rewrite ?Reqb_refl; cbv iota beta delta [andb] end.

(** two models with a channel "A" and a process "s" each *)
Definition ex_two (second : nat) : list mop := [MNew; MNew; MCall 0 (ex_binned 1 3 1 2); MCall 0 (ex_binned 2 2 1 2);
  MCall 0 (OTemplate K1 "t0" 0); MCall 0 (OTemplate K1 "t1" 1);
  MCall 0 (ODefChannel "A" [2%nat] [(0, 2)]); MCall 0 (ODefProcess "s"); MCall 0 (OAddTemplate "A" "s" 0 1); MCall 0 (OAddData [("A", 0%nat)]);
  MCall 1 (ODefChannel "A" [2%nat] [(0, 2)]); MCall 1 (ODefProcess "s"); MCall 1 (OAddTemplate "A" "s" second 1)]%string.

(** C102 needs different template objects: with one template object in two models, set_yield of one model changes the
    yield of the other. *)
Theorem C102_shared_template_refuted : forall inv, let s := mreached inv (ex_two 0) in
  ask 0 (get_yield "s") s = Ok (Fin 4) /\ snd (mstep inv (MCall 1 (OSetYield "s" 8)) s) = Ok tt /\
  ask 0 (get_yield "s") (fst (mstep inv (MCall 1 (OSetYield "s" 8)) s)) = Ok (Fin 8).
Proof.
  intros inv. unfold mreached, ex_two, ex_binned, mworld_init, world_init. do 13 mrun_step. unfold mrun. cbn [fold_left]. cbv zeta.
  split; [|split]; [|reflexivity|]; lazy -[Rplus Rmult IZR]; do 2 f_equal; lra.
Qed.
Print Assumptions C102_shared_template_refuted.

(** A channel object taken from mct.channels accepts a template of a process that the model does not have; the likelihood
    can no longer be evaluated. *)
Theorem C103_unknown_process_refuted : forall inv, let s := mreached inv (ex_two 1) in
  exists s', mstep inv (MChan (CAddTemplate 0 "b" 1 1)) s = (s', Ok tt) /\ forall x, ask 0 (nll x) s' = Err ValueError.
Proof.
  intros inv. unfold mreached, ex_two, ex_binned, mworld_init, world_init. do 13 mrun_step. unfold mrun. cbn [fold_left]. cbv zeta.
  match goal with |- exists s', ?a = _ /\ _ => let t := mcompute a in change a with t end. rewrite ?Reqb_refl. cbv iota beta delta [andb]. eexists. split; [reflexivity|]. intros x. lazy_R. reflexivity.
Qed.
Print Assumptions C103_unknown_process_refuted.

(** ** C102 applies: model 1 is completed after evaluations of model 0 and used between them *)
Lemma complete_mono inv l : forall (ev ev' : nat -> Prop) s, (forall cid, ev cid -> ev' cid) -> complete_when_used inv ev' s l -> complete_when_used inv ev s l.
Proof. induction l as [|o l IH]; intros ev ev' s I H; simpl in *; auto. destruct H as [H1 H2]. split; [intros cid C E; eapply H1; eauto|]. eapply IH; [|exact H2]. intros cid [E|E]; auto. Qed.
Definition madds (o : mop) : bool :=
  match o with MCall _ (OAddTemplate _ _ _ _) | MCall _ (OAddCov _ _) | MCall _ (OAddVar _ _ _ _) | MChan (CAddTemplate _ _ _ _) => true | _ => false end.
Definition muses (o : mop) : bool :=
  match o with MCall _ (OUpdate _) | MCall _ (ONll _) | MChan (CNll _ _ _) | MChan (CBinCounts _ _) => true | _ => false end.
Lemma complete_used inv l : forallb (fun o => negb (madds o)) l = true -> forall ev s, complete_when_used inv ev s l.
Proof.
  induction l as [|o l IH]; intros H ev s; simpl in *; auto. apply andb_prop in H as [H1 H2]. split; [|now apply IH].
  intros cid C. exfalso. destruct o as [|k o|c]; [exact C|destruct o; try exact C; discriminate|destruct c; try exact C; discriminate].
Qed.
Lemma complete_build inv l1 l2 : forallb (fun o => negb (muses o)) l1 = true -> forall (ev : nat -> Prop) s,
  forallb (fun o => negb (madds o)) l1 = true \/ (forall cid, ~ ev cid) -> complete_when_used inv ev (mrun inv l1 s) l2 -> complete_when_used inv ev s (l1 ++ l2).
Proof.
  induction l1 as [|o l1 IH]; intros H ev s A C; [exact C|]. simpl in H. apply andb_prop in H as [H1 H2]. cbn [app complete_when_used]. split.
  - intros cid X E. destruct A as [A|A]; [|now apply (A cid)]. simpl in A. apply andb_prop in A as [A _].
    destruct o as [|k o|c]; [exact X|destruct o; try exact X; discriminate|destruct c; try exact X; discriminate].
  - apply complete_mono with (ev' := ev).
    + intros cid [E|E]; auto. exfalso. destruct o as [|k o|c]; [exact E|destruct o; try exact E; discriminate|destruct c; try exact E; discriminate].
    + apply IH; auto. destruct A as [A|A]; auto. simpl in A. apply andb_prop in A as [_ A]. auto.
Qed.

Definition ex_first : list mop := firstn 10 (ex_two 1).
Definition ex_x : list xr := [Fin 4; Fin 0; Fin 0].
Definition ex_late : list mop := [MCall 1 (ODefProcess "s"); MCall 1 (OAddTemplate "A" "s" 1 1); MCall 1 (OAddData [("A", 1%nat)]);
  MCall 1 (ONll ex_x); MCall 1 (OUpdate ex_x); MCall 1 (OSetYield "s" 8)]%string.
Definition ex_rest : list mop := MCall 0 (ONll ex_x) :: MCall 1 (ODefChannel "A" [2%nat] [(0, 2)])%string :: ex_late.

Definition ids (w : world) : list (list nat) := map (fun c => map snd (c_tmpls c)) (w_chans w).
Definition ex_mA : model := mk_model [("A"%string, 0%nat)] ["s"%string] [] [] [].
(** before and after the definition of the channel of model 1 *)
Definition J0 (s : mworld) : Prop := mw_models s = [ex_mA; model_new] /\ ids (mw_heap s) = [[0%nat]].
Definition J1 (s : mworld) : Prop := exists m l, mw_models s = [ex_mA; m] /\ m_channels m = [("A"%string, 1%nat)] /\ ids (mw_heap s) = [[0%nat]; l] /\ ~ In 0%nat l.

Lemma J_first inv : J0 (mreached inv ex_first).
Proof. unfold J0, mreached, ex_first, ex_two, ex_binned, mworld_init, world_init. cbn [firstn]. do 10 mrun_step. split; reflexivity. Qed.
Lemma ids_core {A} (m : M A) w : pres core_eq m -> ids (fst (m w)) = ids w. Proof. intros H. unfold ids. now rewrite (ce_chans _ _ (H w)). Qed.
Lemma ids_upd i c c' l : nth_error l i = Some c -> map snd (c_tmpls c') = map snd (c_tmpls c) ->
  map (fun c => map snd (c_tmpls c)) (upd i c' l) = map (fun c => map snd (c_tmpls c)) l.
Proof. revert i. induction l as [|d l IH]; intros [|i]; simpl; try discriminate; [intros [= ->] ->; auto|]. intros H E. now rewrite (IH i). Qed.
Lemma J0_nll inv x s : J0 s -> J0 (fst (mstep inv (MCall 0 (ONll x)) s)).
Proof.
  intros [M I]. cbn [mstep]. rewrite M. cbn [nth_error].
  pose proof (sto_step inv (ONll x) eq_refl (load ex_mA (mw_heap s))) as S.
  assert (E : ids (fst (step inv (ONll x) (load ex_mA (mw_heap s)))) = ids (mw_heap s)).
  { cbn [step]. rewrite (ids_core (_ <- nll x ;;; ret tt)); [reflexivity|]. apply (pres_bind core_po); [apply core_nll|intros; apply (pres_ret core_po)]. }
  destruct (step inv (ONll x) (load ex_mA (mw_heap s))) as [w r]. cbn [fst] in *. unfold sto in S. split; cbn [mw_models mw_heap upd]; [rewrite S; reflexivity|]. unfold ids in *. cbn [load w_chans]. congruence.
Qed.
Lemma J0_def inv s : J0 s -> J1 (fst (mstep inv (MCall 1 (ODefChannel "A"%string [2%nat] [(0, 2)])) s)).
Proof.
  intros [M I]. cbn [mstep]. rewrite M. cbn. eexists. exists []. split; [reflexivity|]. unfold ids in *. cbn.
  assert (L : length (w_chans (mw_heap s)) = 1%nat) by (apply (f_equal (@length _)) in I; rewrite map_length in I; exact I).
  rewrite L. split; [reflexivity|]. rewrite map_app, I. split; [reflexivity|auto].
Qed.
Lemma J1_step inv o s : In o ex_late -> J1 s -> J1 (fst (mstep inv o s)).
Proof.
  intros IO (m & l & M & C & I & N).
  assert (X : exists op, o = MCall 1 op /\ m_channels (store (fst (step inv op (load m (mw_heap s))))) = m_channels m /\
    exists l', ids (fst (step inv op (load m (mw_heap s)))) = [[0%nat]; l'] /\ ~ In 0%nat l').
  { repeat (destruct IO as [<-|IO]); try contradiction; (eexists; split; [reflexivity|]).
    - cbn [step]. unfold define_process. destruct (smem _ _); (split; [reflexivity|]); exists l; auto.
    - split; [apply (f_equal m_channels (sto_step inv (OAddTemplate "A"%string "s"%string 1 1) eq_refl (load m (mw_heap s))))|].
      cbn [step]. unfold mct_add_template. cbn [load w_channels w_procs]. rewrite C. cbn [dget]. simpl String.eqb. cbv iota. destruct (smem _ _); [|exists l; auto].
      unfold bind, get_tmpl. cbn [load w_tmpls]. destruct (nth_error (w_tmpls (mw_heap s)) 1) as [t|]; [|exists l; auto].
      unfold on_chan. cbn [load w_chans]. unfold ids in I. destruct (w_chans (mw_heap s)) as [|c0 [|c1 [|c2 r]]] eqn:CC; try discriminate. cbn [nth_error]. injection I as I0 I1.
      assert (A : map snd (c_tmpls (fst (ch_add_template c1 "s"%string 1 t 1))) = l \/ map snd (c_tmpls (fst (ch_add_template c1 "s"%string 1 t 1))) = l ++ [1%nat]).
      { unfold ch_add_template. destruct (check_template c1 t); [|left; exact I1]. unfold add_template_raw. destruct (smem "s"%string (keys (c_tmpls c1))) eqn:SM; [left; exact I1|].
        apply smem_false in SM. destruct (negb _); [left; exact I1|right]. cbn [fst c_tmpls]. rewrite (dset_new _ _ _ SM), map_app, I1. reflexivity. }
      destruct (ch_add_template c1 "s"%string 1 t 1) as [c' r']. cbn [fst] in *. unfold ids, set_chans. cbn [w_chans upd map]. rewrite I0. eexists. split; [reflexivity|].
      destruct A as [-> | ->]; auto. intros H. apply in_app_or in H as [H|[H|[]]]; [auto|discriminate].
    - split; [apply (f_equal m_channels (sto_step inv (OAddData [("A", 1%nat)]%string) eq_refl (load m (mw_heap s))))|]. exists l. split; auto. rewrite <- I.
      cbn [step]. unfold mct_add_data. cbn [forM]. unfold bind at 1. cbn [fst snd load w_channels]. rewrite C. cbn [dget]. simpl String.eqb. cbv iota.
      unfold bind, get_hist. cbn [load w_hists]. destruct (nth_error (w_hists (mw_heap s)) 1) as [h|]; [|reflexivity]. unfold on_chan. cbn [load w_chans].
      destruct (nth_error (w_chans (mw_heap s)) 1) as [c|] eqn:CC; [|reflexivity]. unfold ch_add_data. unfold ids.
      destruct (check_hist c h); cbn [fst ret set_chans w_chans]; now apply (ids_upd 1 c).
    - split; [apply (f_equal m_channels (sto_step inv (ONll ex_x) eq_refl (load m (mw_heap s))))|]. exists l. split; auto. rewrite <- I. cbn [step].
      rewrite (ids_core (_ <- nll ex_x ;;; ret tt)); [reflexivity|]. apply (pres_bind core_po); [apply core_nll|intros; apply (pres_ret core_po)].
    - split; [apply (f_equal m_channels (sto_step inv (OUpdate ex_x) eq_refl (load m (mw_heap s))))|]. exists l. split; auto. rewrite <- I. unfold ids. cbn [step].
      now rewrite (ft_chans _ _ _ (frmT_update ex_x (load m (mw_heap s)))).
    - split; [apply (f_equal m_channels (sto_step inv (OSetYield "s"%string 8) eq_refl (load m (mw_heap s))))|]. exists l. split; auto. rewrite <- I. unfold ids. cbn [step].
      now rewrite (ft_chans _ _ _ (frmT_set_yield "s"%string 8 (load m (mw_heap s)))). }
  destruct X as (op & -> & X1 & l' & X2 & X3). cbn [mstep]. rewrite M. cbn [nth_error]. destruct (step inv op (load m (mw_heap s))) as [w r]. cbn [fst] in *.
  exists (store w), l'. cbn [mw_models mw_heap upd]. repeat split; auto. congruence.
Qed.

Lemma J_in_channel s tid l : ids (mw_heap s) = [[0%nat]; l] -> (in_channel s 0 tid -> tid = O) /\ (in_channel s 1 tid -> In tid l).
Proof.
  unfold ids. intros E. destruct (w_chans (mw_heap s)) as [|c0 [|c1 [|c2 r]]] eqn:C; try discriminate. injection E as E0 E1.
  split; intros (c & p & H & I); rewrite C in H; cbn [nth_error] in H; injection H as H; subst c; apply (in_map snd) in I; [rewrite E0 in I|rewrite E1 in I; exact I]. destruct I as [I|[]]; auto.
Qed.
Lemma J1_untouched s o : In o ex_late -> J1 s -> ~ touches s o 0.
Proof.
  intros IO (m & l & M & C & E & N).
  assert (IM0 : forall cid, in_model s 0 cid -> cid = O) by (intros cid (m0 & n & M0 & H); rewrite M in M0; injection M0 as <-; destruct H as [H|[]]; now injection H).
  assert (IM1 : forall cid, in_model s 1 cid -> cid = 1%nat) by (intros cid (m0 & n & M0 & H); rewrite M in M0; injection M0 as <-; rewrite C in H; destruct H as [H|[]]; now injection H).
  assert (MT : forall tid, model_template s 0 tid -> model_template s 1 tid -> False).
  { intros tid (cid & A & B) (cid' & A' & B'). apply IM0 in A as ->. apply IM1 in A' as ->. destruct (J_in_channel s tid l E) as [Z0 Z1]. apply Z0 in B as ->. apply Z1 in B'. contradiction. }
  assert (NM : forall cid, in_model s 0 cid -> named s 1 "A"%string cid -> False).
  { intros cid A (m0 & M0 & D). apply IM0 in A as ->. rewrite M in M0. injection M0 as <-. rewrite C in D. discriminate. }
  intros [T|[(cid & A & T)|[(tid & A & T)|(hid & A & T)]]]; repeat (destruct IO as [<-|IO]); try contradiction; simpl in T; try contradiction; try discriminate.
  - now apply (NM cid). - destruct T as (n & h & [T|[]] & B). injection T as <- <-. now apply (NM cid).
  - now apply (MT tid). - now apply (MT tid).
Qed.
Lemma ex_leaves inv : leaves inv 0 (mreached inv ex_first) ex_rest.
Proof.
  pose proof (J_first inv) as J. unfold ex_rest. split; [intros [[]|[(? & _ & [])|[(? & _ & [])|(? & _ & [])]]]|]. apply (J0_nll inv ex_x) in J. revert J. generalize (fst (mstep inv (MCall 0 (ONll ex_x)) (mreached inv ex_first))). intros s J.
  split; [intros [T|[(? & _ & [])|[(? & _ & [])|(? & _ & [])]]]; discriminate T|]. apply (J0_def inv) in J. revert J. generalize (fst (mstep inv (MCall 1 (ODefChannel "A"%string [2%nat] [(0, 2)])) s)). clear s. intros s J.
  assert (G : forall l, incl l ex_late -> forall s, J1 s -> leaves inv 0 s l).
  { induction l as [|o l IH]; intros SI s0 J0; [exact I|]. split; [apply J1_untouched; auto; apply SI; simpl; auto|]. apply IH; [intros y Y; apply SI; simpl; auto|]. apply J1_step; auto. apply SI; simpl; auto. }
  apply G; auto. apply incl_refl.
Qed.
Lemma complete_cons inv (ev ev' : nat -> Prop) s o l : (forall cid, completes_channel s o cid -> ~ ev cid) -> (forall cid, ev cid \/ evaluates_channel s o cid -> ev' cid) ->
  complete_when_used inv ev' (fst (mstep inv o s)) l -> complete_when_used inv ev s (o :: l).
Proof. intros H E C. split; auto. eapply complete_mono; eauto. Qed.
Lemma disciplined_build inv l1 l2 : forallb (fun o => negb (muses o)) l1 = true -> complete_when_used inv (fun _ => False) (mreached inv l1) l2 -> disciplined inv (l1 ++ l2).
Proof. intros H C. unfold disciplined. apply complete_build; auto. Qed.
Lemma ex_disciplined inv : disciplined inv (ex_first ++ ex_rest).
Proof.
  apply disciplined_build; [reflexivity|]. pose proof (J_first inv) as J. revert J. generalize (mreached inv ex_first). intros s0 J. unfold ex_rest. apply complete_cons with (ev' := fun cid => cid = O); [intros cid []| |].
  - intros cid [[]|H]. destruct H as (m & n & M & I). rewrite (proj1 J) in M. injection M as <-. destruct I as [I|[]]. now injection I.
  - apply complete_cons with (ev' := fun cid => cid = O); [intros cid []|intros cid [H|[]]; auto|]. apply (J0_nll inv ex_x), (J0_def inv) in J. revert J. generalize (fst (mstep inv (MCall 1 (ODefChannel "A"%string [2%nat] [(0, 2)])) (fst (mstep inv (MCall 0 (ONll ex_x)) s0)))). intros s J.
    unfold ex_late. apply complete_cons with (ev' := fun cid => cid = O); [intros cid []|intros cid [H|[]]; auto|].
    apply (J1_step inv (MCall 1 (ODefProcess "s"%string))) in J; [|simpl; auto]. apply complete_cons with (ev' := fun cid => cid = O \/ True); [|auto|].
    + intros cid (m & M & D) ->. destruct J as (m1 & l & M1 & C & _). rewrite M1 in M. injection M as <-. rewrite C in D. discriminate.
    + apply complete_used. reflexivity.
Qed.
(** C102_fresh, C102_independent and C103_values apply to it, and the likelihood of model 0 is defined. *)
Example C102_example : forall inv, disciplined inv (ex_first ++ ex_rest) /\ (0 < length (mw_models (mreached inv ex_first)))%nat /\
  leaves inv 0 (mreached inv ex_first) ex_rest /\ (exists r, ask 0 (nll ex_x) (mreached inv ex_first) = Ok r) /\
  in_model (mreached inv ex_first) 0 0.
Proof.
  intros inv. split; [apply ex_disciplined|]. split; [rewrite (proj1 (J_first inv)); simpl; lia|]. split; [apply ex_leaves|].
  split; [|exists ex_mA, "A"%string; rewrite (proj1 (J_first inv)); simpl; auto].
  unfold mreached, ex_first, ex_two, ex_binned, mworld_init, world_init. cbn [firstn app]. do 10 mrun_step. unfold mrun. cbn [fold_left]. eexists. lazy_R. reflexivity.
Qed.

(** C103 applies: the channel of model 0 after the ten calls of ex_first, and template and histogram 1 *)
Lemma ex_channel inv : let s := mreached inv ex_first in exists c t h, nth_error (w_chans (mw_heap s)) 0 = Some c /\
  nth_error (w_tmpls (mw_heap s)) 0 = Some t /\ nth_error (w_hists (mw_heap s)) 0 = Some h /\ template_new K1 "t0" 0 h = Ok t /\
  h_num_bins h = [2%nat] /\ h_shape h = [2%nat] /\ nd_flat (h_counts h) = [Fin 1; Fin 3] /\ nd_flat (h_errs_sq h) = [Fin (1 * 1); Fin (1 * 1)] /\
  c_tmpls c = [("s"%string, 0%nat)] /\ c_effs c = [("s"%string, 1)] /\ c_data c = Some 0%nat /\ c_bins c = [2%nat].
Proof.
  unfold mreached, ex_first, ex_two, ex_binned, mworld_init, world_init. cbn [firstn]. do 10 mrun_step. unfold mrun. cbn [fold_left].
  eexists. eexists. eexists. split; [reflexivity|]. split; [reflexivity|]. split; [reflexivity|]. repeat split; reflexivity.
Qed.
Example C103_values_example : forall inv, let s := mreached inv ex_first in exists c v th,
  nth_error (w_chans (mw_heap s)) 0 = Some c /\ channel_reads (mw_heap s) c v /\ in_domain v /\
  (forall k b, (k < v_nt v)%nat -> (b < v_nb v)%nat -> v_th v k b = th (k * v_nb v + b)%nat) /\
  c_tmpls c <> [] /\ NoDup (map snd (c_tmpls c)) /\
  snd (mstep inv (MChan (CAddTemplate 0 "b" 1 1)) s) = Ok tt /\ snd (mstep inv (MChan (CAddTemplate 0 "s" 1 1)) s) = Err RuntimeError /\
  snd (mstep inv (MChan (CAddData 0 1)) s) = Ok tt.
Proof.
  intros inv s. destruct (ex_channel inv) as (c & t & h & C & T & H & TN & B1 & B2 & HC & HE & CT & CE & CD & CB). fold s in C, T, H.
  set (cn := fun i : nat => match i with O => 1 | _ => 3 end).
  assert (CO : contents_of h 2 cn (fun _ => 1 * 1)) by (unfold contents_of; rewrite B1, B2, HC, HE; repeat split; intros; lra).
  destruct (template_new_state _ _ _ _ _ _ _ _ TN CO) as (ES & _). pose proof ES as (_ & _ & _ & _ & _ & _ & _ & _ & (P & _ & PI) & _).
  exists c, (mk_cview 2 1 (fun _ => 4) (fun _ => 1) (fun _ => cn) (fun _ => msum [stat_cov_of (fun _ => 1 * 1)]) (fun _ _ => 0) (fun _ => P) cn), (fun _ => 0).
  split; [exact C|]. split.
  { unfold channel_reads. cbn [v_nb v_nt v_yield v_eff v_cnt v_cov v_th v_prec v_data]. rewrite CT, CE, CD. unfold bins_of. rewrite CB. split; [reflexivity|]. split; [reflexivity|]. split.
    - intros k p tid t' (K & T'). rewrite CT in K. destruct k as [|[|k]]; try discriminate K. injection K as K1 K2. subst p tid. rewrite T in T'. injection T' as T'. subst t'.
      split; [reflexivity|]. split; [|exact PI]. exists (fun _ => 1 * 1), []. split; auto.
    - exists 0%nat, h. repeat split; auto. }
  split.
  { split; [cbn; lia|]. split; [cbn; lia|]. cbn. unfold v_varied, v_total, expected, v_total, v_varied. cbn. split.
    - intros k K. lra.
    - intros b Hb. right. assert (/ 10 ^ 100 <= 1). { rewrite <- Rinv_1. apply Rinv_le_contravar; [lra|]. apply pow_R1_Rle. lra. }
      destruct b as [|[|b]]; [| |lia]; cbn -[pow]; (split; [lra|]); unfold Rdiv; rewrite !Rmult_0_l, !Rplus_0_r, !Rmult_1_r; lra. }
  split; [reflexivity|]. split; [rewrite CT; discriminate|]. split; [rewrite CT; repeat constructor; auto|].
  unfold s, mreached, ex_first, ex_two, ex_binned, mworld_init, world_init. cbn [firstn]. do 10 mrun_step. unfold mrun. cbn [fold_left].
  split; [|split]; match goal with |- snd ?a = _ => let t := mcompute a in change a with t end; rewrite ?Reqb_refl; reflexivity.
Qed.
