(** Reasoning about programs of the state and exception monad *)
From Coq Require Import Reals String ZArith Bool Arith List Lra Lia.
From Verif Require Import Model_Num Model_Hist Model_Utility Model_Template Model_World Model_Ops.
Import ListNotations.
Local Open Scope R_scope.

(** every run of m relates its first and last state by R *)
Definition pres {A} (R : world -> world -> Prop) (m : M A) : Prop := forall w, R w (fst (m w)).

Record preorder (R : world -> world -> Prop) : Prop := {
  po_refl : forall w, R w w;
  po_trans : forall a b c, R a b -> R b c -> R a c }.

Section Pres.
  Context {R : world -> world -> Prop} (PO : preorder R).

  Lemma pres_ret {A} (a : A) : pres R (ret a). Proof. intros w. apply PO. Qed.
  Lemma pres_raise {A} e : pres R (@raise A e). Proof. intros w. apply PO. Qed.
  Lemma pres_lift {A} (r : res A) : pres R (lift r). Proof. intros w. apply PO. Qed.
  Lemma pres_gets {A} (f : world -> A) : pres R (gets f). Proof. intros w. apply PO. Qed.
  Lemma pres_read {A} (f : world -> res A) : pres R (fun w => (w, f w)). Proof. intros w. apply PO. Qed.
  Lemma pres_get_hist i : pres R (get_hist i). Proof. intros w. apply PO. Qed.
  Lemma pres_get_tmpl i : pres R (get_tmpl i). Proof. intros w. apply PO. Qed.
  Lemma pres_get_chan i : pres R (get_chan i). Proof. intros w. apply PO. Qed.
  Lemma pres_bind {A B} (m : M A) (k : A -> M B) : pres R m -> (forall a, pres R (k a)) -> pres R (bind m k).
  Proof.
    intros Hm Hk w. unfold bind. specialize (Hm w). destruct (m w) as [w' [a|e]]; simpl in *; auto.
    eapply PO; eauto. apply Hk.
  Qed.
  Lemma pres_mapM {A B} (f : A -> M B) l : (forall a, pres R (f a)) -> pres R (mapM f l).
  Proof.
    intros H. induction l as [|a l IH]; simpl; [apply pres_ret|].
    apply pres_bind; auto. intros b. apply pres_bind; auto. intros bs. apply pres_ret.
  Qed.
  Lemma pres_forM {A} (f : A -> M unit) l : (forall a, pres R (f a)) -> pres R (forM f l).
  Proof. intros H. induction l as [|a l IH]; simpl; [apply pres_ret|]. apply pres_bind; auto. Qed.
  Lemma pres_forM_in {A} (f : A -> M unit) l : (forall a, In a l -> pres R (f a)) -> pres R (forM f l).
  Proof.
    intros H. induction l as [|a l IH]; simpl; [apply pres_ret|]. apply pres_bind; [apply H; left; auto|].
    intros _. apply IH. intros b Hb. apply H; right; auto.
  Qed.
End Pres.

Ltac pres_tac PO :=
  repeat match goal with
    | |- pres _ (ret _) => apply (pres_ret PO)
    | |- pres _ (raise _) => apply (pres_raise PO)
    | |- pres _ (lift _) => apply (pres_lift PO)
    | |- pres _ (gets _) => apply (pres_gets PO)
    | |- pres _ (get_hist _) => apply (pres_get_hist PO)
    | |- pres _ (get_tmpl _) => apply (pres_get_tmpl PO)
    | |- pres _ (get_chan _) => apply (pres_get_chan PO)
    | |- pres _ (mapM _ _) => apply (pres_mapM PO); intros ?
    | |- pres _ (forM _ _) => apply (pres_forM PO); intros ?
    | |- pres _ (bind _ _) => apply (pres_bind PO); [|intros ?]
    end.

(** ** Evaluations change caches only *)
Record core_eq (w w' : world) : Prop := {
  ce_hists : w_hists w' = w_hists w; ce_tmpls : w_tmpls w' = w_tmpls w; ce_chans : w_chans w' = w_chans w;
  ce_channels : w_channels w' = w_channels w; ce_procs : w_procs w' = w_procs w;
  ce_cnames : w_cnames w' = w_cnames w; ce_cvals : w_cvals w' = w_cvals w; ce_cerrs : w_cerrs w' = w_cerrs w }.

Lemma core_po : preorder core_eq.
Proof. split; [intros; constructor; auto|]. intros a b c [] []. constructor; congruence. Qed.

Lemma core_process_indices cid o : pres core_eq (process_indices cid o).
Proof.
  unfold process_indices. pres_tac core_po. intros w. destruct (lru_call _ _ _ _). constructor; auto.
Qed.
Lemma core_effs cid : pres core_eq (efficiencies_as_array cid).
Proof.
  unfold efficiencies_as_array. pres_tac core_po. intros w. destruct (lru_call _ _ _ _). constructor; auto.
Qed.
Lemma core_inv cid : pres core_eq (block_diag_inv_corr_mat cid).
Proof.
  unfold block_diag_inv_corr_mat. pres_tac core_po. intros w. destruct (lru_call _ _ _ _). constructor; auto.
Qed.
Lemma core_per_channel x : pres core_eq (generate_per_channel_parameters x).
Proof. unfold generate_per_channel_parameters. pres_tac core_po. apply core_process_indices. Qed.
Lemma core_nll_contribution cid y n : pres core_eq (nll_contribution cid y n).
Proof.
  unfold nll_contribution. pres_tac core_po. destruct (c_data _); [|apply (pres_raise core_po)].
  pres_tac core_po.
  - unfold expected_evts_per_bin, ch_fractions. pres_tac core_po. apply core_effs.
  - unfold gauss_term. pres_tac core_po. apply core_inv.
Qed.
Lemma core_nll x : pres core_eq (nll x).
Proof.
  unfold nll. pres_tac core_po. apply core_per_channel. apply core_nll_contribution. apply (pres_read core_po).
Qed.
