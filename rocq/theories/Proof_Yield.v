(** set_yield, get_yield *)
From Coq Require Import Reals String Ascii ZArith Bool Arith List Lra Lia.
From Verif Require Import Model_Num Model_Hist Model_Utility Model_Template Model_World Model_Ops
  Spec_Matrix Spec_World Proof_Hist Proof_Matrix Proof_Template Proof_HistHeap Proof_Monad Proof_World Proof_Eval Proof_Route Proof_Names Proof_Update.
Import ListNotations.
Local Open Scope R_scope.

Definition sy_assign (ts : list tmpl) (p : string) (v : R) (c : chan) : list (nat * list xr) :=
  match dget String.eqb (c_tmpls c) p, dget String.eqb (c_effs c) p with
  | Some tid, Some eff => match nth_error ts tid with Some t => [(tid, Fin (v * eff) :: t_nui t)] | None => [] end
  | _, _ => []
  end.

(** ts' has the same templates as ts up to the yield parameter *)
Definition same_nui (ts ts' : list tmpl) : Prop :=
  forall i, match nth_error ts i with
            | None => nth_error ts' i = None
            | Some t => exists t', nth_error ts' i = Some t' /\ t_nui t' = t_nui t /\ length (t_params t') = length (t_params t)
            end.
Lemma same_nui_refl ts : same_nui ts ts. Proof. intros i. destruct (nth_error ts i); eauto. Qed.
Lemma upd_none {A} i (a : A) l : nth_error l i = None -> upd i a l = l.
Proof. revert i; induction l; intros [|i]; simpl; try discriminate; auto. intros; f_equal; auto. Qed.

Lemma set_yield_loop w p v : WF w -> forall (chs : list (string * nat)) cs w1,
  Forall2 (fun nc c => nth_error (w_chans w) (snd nc) = Some c) chs cs -> w_chans w1 = w_chans w -> same_nui (w_tmpls w) (w_tmpls w1) ->
  forM (fun cid =>
            c <- get_chan cid ;;;
            match dget String.eqb (c_tmpls c) p, dget String.eqb (c_effs c) p with
            | Some tid, Some eff => on_tmpl tid (fun t => yield_setter t (VFloat (Fin (v * eff))))
            | _, _ => ret tt
            end) (map snd chs) w1 =
  (set_tmpls w1 (assigns (w_tmpls w1) (flat_map (sy_assign (w_tmpls w) p v) cs)), Ok tt).
Proof.
  intros W chs cs w1 F. revert w1. induction F as [|[n cid] c chs cs H1 H2 IH]; intros w1 CE SN.
  - simpl. unfold ret, assigns. simpl. destruct w1; reflexivity.
  - simpl in *. unfold bind at 1. unfold bind at 1. unfold get_chan at 1. rewrite CE, H1.
    pose proof (wf_chans w W _ _ H1) as O. unfold sy_assign at 1.
    destruct (dget String.eqb (c_tmpls c) p) as [tid|] eqn:D.
    2:{ unfold ret. rewrite IH; auto. }
    destruct (dget String.eqb (c_effs c) p) as [eff|] eqn:De.
    2:{ unfold ret. rewrite IH; auto. }
    apply dget_In in D. destruct (co_tmpl _ _ _ _ O _ _ D) as (t & T & _). rewrite T.
    pose proof (SN tid) as S. rewrite T in S. destruct S as (t' & T' & N' & L').
    unfold on_tmpl at 1. rewrite T'. unfold yield_setter. pose proof (to_params _ _ (wf_tmpls w W _ _ T)) as LP.
    unfold t_nui in N'. destruct (t_params t') as [|p0 nui] eqn:P; [simpl in L'; lia|]. simpl in N'. rewrite IH; auto.
    + simpl. f_equal. change (t_nui t) with (tl (t_params t)). rewrite <- N'. unfold assigns. simpl. unfold assign1 at 3. simpl. rewrite T'. reflexivity.
    + intros i. destruct (nth_error (w_tmpls w) i) as [ti|] eqn:Ti; pose proof (SN i) as S; rewrite Ti in S.
      * destruct S as (ti' & Ti' & Ni' & Li'). simpl. destruct (Nat.eq_dec tid i) as [<-|NE].
        -- exists (set_params t' (Fin (v * eff) :: nui)). rewrite upd_same by (apply nth_error_Some; congruence).
           assert (ti = t) by congruence. subst ti. split; [reflexivity|]. split; [exact N'|]. simpl in *. lia.
        -- exists ti'. rewrite upd_other; auto.
      * simpl. destruct (Nat.eq_dec tid i) as [<-|NE]; [congruence|]. rewrite upd_other; auto.
Qed.

Lemma set_yield_spec w p v : WF w -> In p (w_procs w) ->
  set_yield p v w = (set_tmpls w (assigns (w_tmpls w) (flat_map (sy_assign (w_tmpls w) p v) (mct_chans w))), Ok tt).
Proof.
  intros W P. unfold set_yield, bind, gets. rewrite (proj2 (smem_In p (w_procs w)) P).
  apply (set_yield_loop w p v W (w_channels w) (mct_chans w) w); auto using same_nui_refl. now apply chans_forall2.
Qed.
Lemma set_yield_unknown w p v : ~ In p (w_procs w) -> set_yield p v w = (w, Err RuntimeError).
Proof. intros P. unfold set_yield, bind, gets. rewrite (proj2 (smem_false p (w_procs w)) P). reflexivity. Qed.

Lemma sy_assign_in w c k p tid t eff v i n : WF w -> channel_at w i n c -> template_at w c k p tid t -> nth_error (c_effs c) k = Some (p, eff) ->
  sy_assign (w_tmpls w) p v c = [(tid, Fin (v * eff) :: t_nui t)].
Proof.
  intros W H (K & T) E. pose proof (chan_ok_at w i n c W H) as O. unfold sy_assign.
  rewrite (dget_nth (c_tmpls c) k p tid); auto; [|unfold keys; pose proof (co_keys _ _ _ _ O) as X; unfold keys in X; rewrite X; apply (co_nodup _ _ _ _ O)].
  rewrite (dget_nth (c_effs c) k p eff); auto; [|pose proof (co_ekeys _ _ _ _ O) as X; rewrite X; apply (co_nodup _ _ _ _ O)].
  rewrite T. reflexivity.
Qed.
Lemma sy_assign_fst w p v c tid : In tid (map fst (sy_assign (w_tmpls w) p v c)) -> In (p, tid) (c_tmpls c).
Proof.
  unfold sy_assign. destruct (dget String.eqb (c_tmpls c) p) as [tid'|] eqn:D; [|intros []]. destruct (dget String.eqb (c_effs c) p); [|intros []].
  destruct (nth_error (w_tmpls w) tid'); [|intros []]. simpl. intros [<-|[]]. now apply dget_In.
Qed.

Lemma distinct_nodup w : WF w -> distinct_templates w -> NoDup (concat (map (fun c => map snd (c_tmpls c)) (mct_chans w))).
Proof.
  intros W D. apply NoDup_concat. intros i i' k k' l l' tid L L' K K'.
  apply nth_error_In in L as I1. 
  assert (X : forall i l k, nth_error (map (fun c => map snd (c_tmpls c)) (mct_chans w)) i = Some l -> nth_error l k = Some tid ->
     exists n c p t, channel_at w i n c /\ template_at w c k p tid t).
  { clear -W. intros i l k L K. destruct (nth_error (mct_chans w) i) as [c|] eqn:C.
    - pose proof (map_nth_error (fun c => map snd (c_tmpls c)) _ _ C) as E. rewrite E in L. assert (l = map snd (c_tmpls c)) by congruence. subst l.
      apply (chans_channel_at w i c W) in C as (n & C). exists n, c.
      destruct (nth_error (c_tmpls c) k) as [[p tid']|] eqn:T.
      + apply (map_nth_error snd) in T as T'. rewrite K in T'. injection T' as ->. simpl in T.
        destruct (template_at_ok w i n c k p _ W C T) as (t & TA & _). eauto.
      + apply nth_error_None in T. assert (nth_error (map snd (c_tmpls c)) k <> None) by congruence. apply nth_error_Some in H. rewrite map_length in H. lia.
    - apply nth_error_None in C. assert (nth_error (map (fun c => map snd (c_tmpls c)) (mct_chans w)) i <> None) by congruence.
      apply nth_error_Some in H. rewrite map_length in H. lia. }
  destruct (X _ _ _ L K) as (n & c & p & t & A & B), (X _ _ _ L' K') as (n' & c' & p' & t' & A' & B').
  destruct (D i i' n n' c c' k k' p p' tid t t'); auto.
Qed.

Lemma NoDup_sub {A B} (f g : A -> list B) l : (forall a, In a l -> incl (f a) (g a) /\ NoDup (f a)) -> NoDup (concat (map g l)) -> NoDup (concat (map f l)).
Proof.
  induction l as [|a l IH]; simpl; intros H N; [constructor|].
  assert (N1 : NoDup (concat (map g l)) /\ forall x, In x (g a) -> ~ In x (concat (map g l))).
  { clear -N. induction (g a) as [|b r IH]; simpl in *; [split; auto|]. inversion N; subst. destruct (IH H2) as [A1 A2]. split; auto.
    intros x [<-|X]; auto. intros I. apply H1. apply in_or_app. auto. }
  destruct N1 as [N1 N2]. destruct (H a (or_introl eq_refl)) as [I ND].
  assert (IN : incl (concat (map f l)) (concat (map g l))).
  { intros x X. apply in_concat in X as (y & Y & X). apply in_map_iff in Y as (a' & <- & A'). apply in_concat. exists (g a'). split; [now apply in_map|].
    apply (H a' (or_intror A')); auto. }
  assert (NF : NoDup (concat (map f l))) by (apply IH; auto; intros; apply H; right; auto).
  clear -I ND NF N2 IN. induction ND as [|b r NI ND IH]; simpl; auto. constructor.
  - intros X. apply in_app_or in X as [X|X]; auto. apply (N2 b); [apply I; left; auto|]. now apply IN.
  - apply IH. intros x X. apply I. right; auto.
Qed.

Lemma sy_nodup w p v : WF w -> distinct_templates w -> NoDup (map fst (flat_map (sy_assign (w_tmpls w) p v) (mct_chans w))).
Proof.
  intros W D. rewrite flat_map_concat_map, concat_map, map_map. eapply NoDup_sub; [|apply (distinct_nodup w W D)].
  intros c C. split.
  - intros tid T. apply sy_assign_fst in T. apply (in_map snd) in T. exact T.
  - unfold sy_assign. destruct (dget _ _ _); [|constructor]. destruct (dget _ _ _); [|constructor]. destruct (nth_error _ _); simpl; repeat constructor; auto.
Qed.
Lemma all_assigns_fst w ys ns : WF w -> length ys = length (mct_chans w) -> length ns = length (mct_chans w) ->
  map fst (all_assigns w ys ns) = concat (map (fun c => map snd (c_tmpls c)) (mct_chans w)).
Proof.
  intros W LY LN. unfold all_assigns. rewrite concat_map, map_map. f_equal.
  assert (E : forall c, In c (mct_chans w) -> length (c_effs c) = length (c_tmpls c)) by (intros c C; eapply effs_length, chan_ok_in; eauto).
  revert ys ns LY LN. induction (mct_chans w) as [|c cs IH]; intros [|y ys] [|n ns] LY LN; simpl; try discriminate; auto.
  rewrite ch_assign_fst by (apply E; left; auto). f_equal. apply IH; auto. intros; apply E; right; auto.
Qed.

(** ** yields *)
(** the efficiency of process p in channel c, 0 if it has no template there *)
Definition eff_of (c : chan) (p : string) : R := match dget String.eqb (c_effs c) p with Some e => e | None => 0 end.
Fixpoint sum_effs (cs : list chan) (p : string) : R := match cs with [] => 0 | c :: r => eff_of c p + sum_effs r p end.

Lemma process_yield_scaled w p v : WF w ->
  (forall i n c k tid t eff, channel_at w i n c -> template_at w c k p tid t -> nth_error (c_effs c) k = Some (p, eff) -> t_yield t = Fin (v * eff)) ->
  process_yield w p = Fin (v * sum_effs (mct_chans w) p).
Proof.
  intros W H. unfold process_yield.
  assert (X : forall cs a, incl cs (mct_chans w) ->
    fold_left (fun acc c => match dget String.eqb (c_tmpls c) p with None => acc | Some tid => match nth_error (w_tmpls w) tid with Some t => xadd acc (t_yield t) | None => NaN end end) cs (Fin a)
    = Fin (a + v * sum_effs cs p)).
  { induction cs as [|c cs IH]; intros a I; simpl; [f_equal; ring|].
    assert (C : In c (mct_chans w)) by (apply I; left; auto). pose proof (chan_ok_in w c W C) as O.
    apply In_nth_error in C as (i & C). apply (chans_channel_at w i c W) in C as (n & C).
    assert (I' : incl cs (mct_chans w)) by (intros x X; apply I; right; auto).
    destruct (dget String.eqb (c_tmpls c) p) as [tid|] eqn:D.
    - apply dget_In in D. apply In_nth_error in D as (k & K). destruct (template_at_ok w i n c k p tid W C K) as (t & (_ & T) & _).
      destruct (effs_nth _ _ _ c k p tid O K) as (eff & E). rewrite T, (H i n c k tid t eff); auto; [|split; auto]. simpl. rewrite IH by auto. f_equal.
      unfold eff_of. rewrite (dget_nth (c_effs c) k p eff); auto; [ring|]. rewrite (co_ekeys _ _ _ _ O). apply (co_nodup _ _ _ _ O).
    - rewrite IH by auto. f_equal. unfold eff_of. apply dget_None in D.
      assert (E : dget String.eqb (c_effs c) p = None) by (apply dget_None; rewrite (co_ekeys _ _ _ _ O), <- (co_keys _ _ _ _ O); auto). rewrite E. ring. }
  rewrite (X (mct_chans w) 0 (incl_refl _)). f_equal. ring.
Qed.
Lemma get_yield_value w p : In p (w_procs w) -> NoDup (w_procs w) -> get_yield p w = (w, Ok (process_yield w p)).
Proof.
  intros P N. apply In_nth_error in P as (q & Q). unfold get_yield, bind, gets, lift. rewrite (index_of_nodup _ _ _ N Q).
  unfold process_yields. rewrite (map_nth_error _ _ _ Q). reflexivity.
Qed.
Lemma wf_set_tmpls_assigns w L : WF w -> (forall a, In a L -> exists nb, tv (w_tmpls w) (fst a) nb /\ length (snd a) = S nb) -> WF (set_tmpls w (assigns (w_tmpls w) L)).
Proof.
  intros W. assert (X : forall L ts, (forall a, In a L -> exists nb, tv ts (fst a) nb /\ length (snd a) = S nb) ->
     text (w_tmpls w) ts -> (forall i t, nth_error ts i = Some t -> tmpl_ok (w_hists w) t) ->
     text (w_tmpls w) (assigns ts L) /\ forall i t, nth_error (assigns ts L) i = Some t -> tmpl_ok (w_hists w) t).
  { clear L. induction L as [|a L IH]; intros ts H TX TO; auto. unfold assigns. simpl.
    destruct (H a (or_introl eq_refl)) as (nb & TV & LA). apply IH.
    - intros b B. destruct (H b (or_intror B)) as (nb' & TV' & LB). exists nb'. split; auto. eapply tv_assign1; eauto.
    - destruct TV as (t & T & _ & _). unfold assign1. rewrite T. intros i u U. destruct (TX _ _ U) as (u' & U' & B).
      destruct (Nat.eq_dec (fst a) i) as [<-|NE].
      + exists (set_params t (snd a)). rewrite upd_same by (apply nth_error_Some; congruence). split; auto. assert (u' = t) by congruence. subst. exact B.
      + exists u'. rewrite upd_other; auto.
    - destruct TV as (t & T & LT & NT). unfold assign1. rewrite T. intros i u U. apply upd_some in U as [[_ ->]|[_ U]]; [|eauto].
      apply set_params_ok; [eauto|]. congruence. }
  intros H. destruct (X L (w_tmpls w) H (text_refl _) (wf_tmpls w W)) as [A B]. now apply wf_set_tmpls.
Qed.
