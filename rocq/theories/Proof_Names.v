(** Parameter vectors and parameter names of a state *)
From Coq Require Import Reals String Ascii ZArith Bool Arith List Lra Lia.
From Verif Require Import Model_Num Model_Hist Model_Utility Model_Template Model_World Model_Ops
  Spec_Matrix Spec_World Proof_Hist Proof_Matrix Proof_Template Proof_HistHeap Proof_Monad Proof_World Proof_Eval Proof_Route.
Import ListNotations.
Local Open Scope R_scope.

Lemma Reqb_refl r : Reqb r r = true.
Proof. unfold Reqb. destruct (Req_EM_T r r); congruence. Qed.
Lemma run_cons inv o l w : run inv (o :: l) w = run inv l (fst (step inv o w)).
Proof. reflexivity. Qed.
Lemma reached_wf inv l : inv_spec inv -> WF (reached inv l). Proof. apply wf_run. Qed.

(** ** Concatenations of blocks *)
Lemma concat_nth {A} (ls : list (list A)) i l b : nth_error ls i = Some l -> (b < length l)%nat ->
  nth_error (concat ls) (list_sum (map (@length A) (firstn i ls)) + b) = nth_error l b.
Proof.
  revert i. induction ls as [|l0 ls IH]; intros [|i]; simpl; try discriminate.
  - intros [= ->] H. apply nth_error_app1. auto.
  - intros H L. rewrite nth_error_app2 by lia. rewrite <- (IH i H L). f_equal. lia.
Qed.
Lemma concat_length {A} (ls : list (list A)) : length (concat ls) = list_sum (map (@length A) ls).
Proof. induction ls as [|a ls IH]; simpl; [auto|]. rewrite app_length, IH. reflexivity. Qed.
Lemma sum_const {A} (f : A -> nat) l n : (forall a, In a l -> f a = n) -> list_sum (map f l) = (length l * n)%nat.
Proof. induction l as [|a l IH]; simpl; intros H; [reflexivity|]. rewrite (H a) by (left; auto). rewrite IH; [reflexivity|auto]. Qed.
Lemma firstn_incl {A} n (l : list A) : incl (firstn n l) l.
Proof. intros x H. eapply firstn_in; eauto. Qed.
Lemma sum_ext {A} (f g : A -> nat) l : (forall a, In a l -> f a = g a) -> list_sum (map f l) = list_sum (map g l).
Proof. induction l as [|a l IH]; simpl; intros H; [reflexivity|]. rewrite (H a) by (left; auto). rewrite IH; [reflexivity|auto]. Qed.

(** blocks of one channel *)
Section ChannelBlocks.
  Context {A : Type} (w : world) (W : WF w) (F : string -> string -> tmpl -> list A).
  Hypothesis FL : forall n p t, tmpl_ok (w_hists w) t -> length (F n p t) = t_nb t.

  Definition tblock (n : string) (pt : string * nat) : list A :=
    match nth_error (w_tmpls w) (snd pt) with None => [] | Some t => F n (fst pt) t end.
  Definition cblock (nc : string * nat) : list A :=
    match nth_error (w_chans w) (snd nc) with None => [] | Some c => flat_map (tblock (fst nc)) (c_tmpls c) end.

  Lemma tblock_length i n c pt : channel_at w i n c -> In pt (c_tmpls c) -> length (tblock n pt) = bins_of c.
  Proof.
    intros H I. destruct pt as [p tid]. pose proof I as I'. apply In_nth_error in I' as (k & K).
    destruct (template_at_ok w i n c k p tid W H K) as (t & (T1 & T2) & T3 & T4 & T5).
    unfold tblock. simpl. rewrite T2, FL; auto.
  Qed.
  Lemma cblock_length i n cid c : nth_error (w_channels w) i = Some (n, cid) -> nth_error (w_chans w) cid = Some c ->
    length (cblock (n, cid)) = (length (c_tmpls c) * bins_of c)%nat.
  Proof.
    intros H C. unfold cblock. simpl. rewrite C, flat_map_concat_map, concat_length, map_map.
    apply sum_const. intros pt I. apply (tblock_length i n c); auto. exists cid. auto.
  Qed.
  Lemma cblock_nth i n c k p tid t b : channel_at w i n c -> template_at w c k p tid t -> (b < bins_of c)%nat ->
    nth_error (flat_map cblock (w_channels w)) (nui_offset w i + k * bins_of c + b) = nth_error (F n p t) b.
  Proof.
    intros (cid & H & C) (K & T) B.
    assert (CA : channel_at w i n c) by (exists cid; auto).
    assert (kl : (k < length (c_tmpls c))%nat) by (apply nth_error_Some; congruence).
    assert (E : nth_error (cblock (n, cid)) (k * bins_of c + b) = nth_error (F n p t) b).
    { unfold cblock. simpl. rewrite C, flat_map_concat_map.
      rewrite <- (concat_nth (map (tblock n) (c_tmpls c)) k (F n p t) b).
      - f_equal. rewrite firstn_map, map_map. f_equal.
        rewrite (sum_const _ _ (bins_of c)); [rewrite firstn_length_le by lia; reflexivity|].
        intros pt I. apply (tblock_length i n c); auto. apply firstn_in in I; auto.
      - rewrite (map_nth_error _ _ _ K). f_equal. unfold tblock. simpl. rewrite T. reflexivity.
      - destruct (template_at_ok w i n c k p tid W CA K) as (t' & (_ & T2) & T3 & T4 & _).
        assert (t' = t) by congruence. subst. rewrite FL; auto. lia. }
    rewrite <- E. rewrite <- (concat_nth (map cblock (w_channels w)) i (cblock (n, cid)) (k * bins_of c + b)).
    - rewrite flat_map_concat_map. f_equal. rewrite <- Nat.add_assoc. f_equal. unfold nui_offset. rewrite firstn_map, map_map.
      apply sum_ext. intros [n' cid'] I. simpl. apply In_nth_error in I as (j & J).
      assert (J' : nth_error (w_channels w) j = Some (n', cid')).
      { assert (j < i)%nat. { assert (j < length (firstn i (w_channels w)))%nat by (apply nth_error_Some; congruence). rewrite firstn_length in H0. lia. }
        rewrite nth_firstn in J; auto. }
      destruct (wf_dict w W n' cid') as (c' & C' & _); [eapply nth_error_In; eauto|]. rewrite C'.
      rewrite (cblock_length j n' cid' c' J' C'). reflexivity.
    - now apply map_nth_error.
    - rewrite (cblock_length i n cid c H C). nia.
  Qed.
  Lemma blocks_total : length (flat_map cblock (w_channels w)) = nui_offset w (length (w_channels w)).
  Proof.
    rewrite flat_map_concat_map, concat_length, map_map. unfold nui_offset. rewrite firstn_all. apply sum_ext.
    intros [n cid] I. apply In_nth_error in I as (j & J). destruct (wf_dict w W n cid) as (c & C & _); [eapply nth_error_In; eauto|].
    simpl. rewrite C. apply (cblock_length j); auto.
  Qed.
End ChannelBlocks.

Definition name_block (n p : string) (t : tmpl) : list string := map (nui_name n p) (seq 0 (t_nb t)).
Lemma param_names_blocks w : param_names w = map yield_name (w_procs w) ++ flat_map (cblock w name_block) (w_channels w).
Proof. reflexivity.
Qed.
Definition value_block (n p : string) (t : tmpl) : list xr := t_nui t.
Lemma nui_blocks_concat w : WF w -> concat (nui_blocks w) = flat_map (cblock w value_block) (w_channels w).
Proof.
  intros W. unfold nui_blocks. pose proof (chans_forall2 w W) as H.
  induction H as [|[n cid] c l l' H1 H2 IH]; [reflexivity|]. simpl flat_map. rewrite concat_app, IH. f_equal.
  unfold cblock. simpl in *. rewrite H1. clear. induction (c_tmpls c) as [|[p tid] l IH]; simpl; auto. now rewrite IH.
Qed.
