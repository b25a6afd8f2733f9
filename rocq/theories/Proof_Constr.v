(** The evaluation of the channels does not depend on the constraints. *)
From Coq Require Import Reals String ZArith Bool Arith List Lra Lia.
From Verif Require Import Model_Num Model_Hist Model_Utility Model_Template Model_World Model_Ops Proof_Monad Proof_World Proof_Eval.
Import ListNotations.
Local Open Scope R_scope.

Section Comm.
  Variables (a : list string) (b c : list (string * R)).
  Definition sc (w : world) : world := set_constr w a b c.
  Definition comm {A} (m : M A) : Prop := forall w, m (sc w) = (sc (fst (m w)), snd (m w)).
  Lemma comm_ret {A} (x : A) : comm (ret x). Proof. intros w. reflexivity. Qed.
  Lemma comm_raise {A} e : comm (@raise A e). Proof. intros w. reflexivity. Qed.
  Lemma comm_lift {A} (x : res A) : comm (lift x). Proof. intros w. reflexivity. Qed.
  Lemma comm_gets {A} (f : world -> A) : (forall w, f (sc w) = f w) -> comm (gets f).
  Proof. intros H w. unfold gets. now rewrite H. Qed.
  Lemma comm_get_chan i : comm (get_chan i). Proof. intros w. reflexivity. Qed.
  Lemma comm_get_tmpl i : comm (get_tmpl i). Proof. intros w. reflexivity. Qed.
  Lemma comm_get_hist i : comm (get_hist i). Proof. intros w. reflexivity. Qed.
  Lemma comm_bind {A B} (m : M A) (k : A -> M B) : comm m -> (forall x, comm (k x)) -> comm (bind m k).
  Proof. intros H K w. unfold bind. rewrite H. destruct (m w) as [w' [x|e]]; simpl; auto. apply K. Qed.
  Lemma comm_mapM {A B} (f : A -> M B) l : (forall x, comm (f x)) -> comm (mapM f l).
  Proof. intros H. induction l; simpl; [apply comm_ret|]. apply comm_bind; auto. intros. apply comm_bind; auto. intros. apply comm_ret. Qed.
  Lemma comm_pi cid o : comm (process_indices cid o).
  Proof. apply comm_bind; [apply comm_get_chan|]. intros ch w. cbn [w_cache_pi sc set_constr]. destruct (lru_call _ _ _ _) as [k r]. reflexivity. Qed.
  Lemma comm_eff cid : comm (efficiencies_as_array cid).
  Proof. apply comm_bind; [apply comm_get_chan|]. intros ch w. cbn [w_cache_eff sc set_constr]. destruct (lru_call _ _ _ _) as [k r]. reflexivity. Qed.
  Lemma comm_inv cid : comm (block_diag_inv_corr_mat cid).
  Proof.
    apply comm_bind; [apply comm_get_chan|]. intros ch. apply comm_bind; [apply comm_mapM; intros; apply comm_get_tmpl|]. intros ts w.
    cbn [w_cache_inv sc set_constr]. destruct (lru_call _ _ _ _) as [k r]. reflexivity.
  Qed.
  Ltac comm_tac := repeat first
    [ apply comm_pi | apply comm_eff | apply comm_inv | apply comm_bind; [|intros ?] | apply comm_mapM; intros ? | apply comm_ret | apply comm_raise | apply comm_lift | apply comm_get_chan
    | apply comm_get_tmpl | apply comm_get_hist | (apply comm_gets; reflexivity) ].
  Lemma comm_per_channel x : comm (generate_per_channel_parameters x).
  Proof. unfold generate_per_channel_parameters. cbv zeta. comm_tac. Qed.
  Lemma comm_contribution cid y n : comm (nll_contribution cid y n).
  Proof.
    unfold nll_contribution. apply comm_bind; [apply comm_get_chan|]. intros ch. destruct (c_data ch); [|apply comm_raise].
    unfold expected_evts_per_bin, ch_fractions, gauss_term. comm_tac.
  Qed.
  Definition contributions (x : list xr) : M (list xr) :=
    yn <- generate_per_channel_parameters x ;;;
    chs <- gets (fun w => map snd (w_channels w)) ;;;
    mapM (fun q => nll_contribution (fst q) (fst (snd q)) (snd (snd q))) (combine chs (combine (fst yn) (snd yn))).
  Lemma comm_contributions x : comm (contributions x).
  Proof. unfold contributions. apply comm_bind; [apply comm_per_channel|intros yn]. apply comm_bind; [apply comm_gets; reflexivity|intros chs]. apply comm_mapM. intros q. apply comm_contribution. Qed.
End Comm.

Lemma mapM_read {A B} (f : world -> A -> res B) l w : mapM (fun p => (fun w => (w, f w p))) l w = (w, mapr (f w) l).
Proof. induction l as [|p l IH]; auto. simpl. unfold bind at 1. destruct (f w p) as [b|]; auto. unfold bind. rewrite IH. destruct (mapr (f w) l); reflexivity. Qed.
Lemma nll_split x w : nll x w =
  let '(w', r) := contributions x w in
  (w', cs <- r ;; ts <- mapr (constraint_term w' x) (w_cnames w') ;; Ok (fold_left xadd (cs ++ ts) (Fin 0))).
Proof.
  unfold nll, contributions. unfold bind at 1. unfold bind at 5. destruct (generate_per_channel_parameters x w) as [w1 [yn|e]]; auto.
  unfold bind at 1. unfold bind at 4. unfold gets at 1 3. unfold bind at 1.
  destruct (mapM _ _ w1) as [w2 [cs|e]]; auto. unfold bind at 1. unfold gets at 1. unfold bind at 1. rewrite mapM_read.
  cbn [rbind]. destruct (mapr (constraint_term w2 x) (w_cnames w2)) as [ts|]; reflexivity.
Qed.
Lemma core_contributions x w : core_eq w (fst (contributions x w)).
Proof.
  unfold contributions. apply (pres_bind core_po); [apply core_per_channel|]. intros yn. apply (pres_bind core_po); [apply (pres_gets core_po)|]. intros chs.
  apply (pres_mapM core_po). intros q. apply core_nll_contribution.
Qed.
