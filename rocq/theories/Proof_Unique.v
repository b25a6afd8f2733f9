(** Uniqueness of parameter names *)
From Coq Require Import Reals String Ascii ZArith Bool Arith List Lra Lia.
From Verif Require Import Model_Num Model_Hist Model_Utility Model_Template Model_World Model_Ops
  Spec_Matrix Spec_World Proof_Hist Proof_Matrix Proof_Template Proof_HistHeap Proof_Monad Proof_World Proof_Eval Proof_Route Proof_Names.
Import ListNotations.
Local Open Scope string_scope.

Definition la := list_ascii_of_string.
Lemma la_app a b : la (a ++ b) = (la a ++ la b)%list.
Proof. induction a; simpl; auto. now rewrite IHa. Qed.
Lemma la_inj a b : la a = la b -> a = b.
Proof. intros H. apply (f_equal string_of_list_ascii) in H. unfold la in H. now rewrite !string_of_list_ascii_of_string in H. Qed.
Lemma split_at (x : ascii) a b a' b' : ~ In x a -> ~ In x a' -> (a ++ x :: b = a' ++ x :: b')%list -> a = a' /\ b = b'.
Proof.
  revert a'. induction a as [|y a IH]; intros [|y' a'] N N' H; simpl in *; inversion H; subst; auto; try tauto.
  destruct (IH a') as [-> ->]; auto.
Qed.

(** decimal numbers *)
Definition digit_char (c : ascii) : Prop := (48 <= nat_of_ascii c <= 57)%nat.
Fixpoint undec (acc : nat) (s : string) : nat :=
  match s with EmptyString => acc | String c s' => undec (10 * acc + (nat_of_ascii c - 48)) s' end.
Lemma undec_app a s s' : undec a (s ++ s') = undec (undec a s) s'.
Proof. revert a; induction s; simpl; auto. Qed.
Lemma digit_spec n : (n < 10)%nat -> exists c, digit n = String c "" /\ nat_of_ascii c = (48 + n)%nat.
Proof. intros H. do 10 (destruct n as [|n]; [eexists; split; [reflexivity|reflexivity]|]). lia. Qed.
Lemma app_assoc_s a b c : (a ++ b) ++ c = a ++ (b ++ c).
Proof. induction a; simpl; auto. now rewrite IHa. Qed.
Lemma decimal_aux_spec fuel : forall n acc, (n <= fuel)%nat -> exists s, decimal_aux fuel n acc = s ++ acc /\ undec 0 s = n /\ s <> "" /\ Forall digit_char (la s).
Proof.
  induction fuel as [|f IH]; intros n acc H.
  - assert (n = 0)%nat by lia. subst. exists "0". repeat split; try discriminate. repeat constructor; cbv; lia.
  - assert (ND : (n mod 10 < 10)%nat) by (apply Nat.mod_upper_bound; lia). destruct (digit_spec _ ND) as (c & D & C).
    assert (DC : digit_char c) by (unfold digit_char; lia). cbn [decimal_aux].
    destruct (Nat.eqb_spec (n / 10) 0) as [Z|Z].
    + exists (digit (n mod 10)). rewrite D. cbn [undec]. rewrite C. split; [reflexivity|]. split.
      * pose proof (Nat.div_mod n 10 ltac:(lia)). replace (48 + n mod 10 - 48)%nat with (n mod 10)%nat by lia. lia.
      * split; [discriminate|]. simpl. constructor; [exact DC|constructor].
    + destruct (IH (n / 10)%nat (digit (n mod 10) ++ acc)) as (s & E & U & NE & F).
      { assert (n <> 0)%nat by (intros ->; apply Z; reflexivity). assert (n / 10 < n)%nat by (apply Nat.div_lt; lia). lia. }
      exists (s ++ digit (n mod 10)). rewrite E, app_assoc_s. split; auto. rewrite undec_app, U, D. cbn [undec]. rewrite C. split; [|split].
      * pose proof (Nat.div_mod n 10 ltac:(lia)). replace (48 + n mod 10 - 48)%nat with (n mod 10)%nat by lia. lia.
      * destruct s; discriminate.
      * rewrite la_app. apply Forall_app. split; auto. simpl. constructor; auto.
Qed.
Lemma decimal_spec n : undec 0 (decimal n) = n /\ decimal n <> "" /\ Forall digit_char (la (decimal n)).
Proof.
  destruct (decimal_aux_spec n n "" (le_n n)) as (s & E & U & N & F). unfold decimal. rewrite E.
  assert (s ++ "" = s) as -> by (clear; induction s; simpl; congruence). auto.
Qed.
Lemma no_us n : ~ In "_"%char (rev (la (decimal n))).
Proof.
  intros I. apply in_rev in I. destruct (decimal_spec n) as (_ & _ & F). rewrite Forall_forall in F. apply F in I.
  unfold digit_char in I. cbv in I. lia.
Qed.

(** the name of a nuisance parameter determines channel_process and the bin *)
Lemma nui_name_inj n p b n' p' b' : nui_name n p b = nui_name n' p' b' -> n ++ "_" ++ p = n' ++ "_" ++ p' /\ b = b'.
Proof.
  intros H. apply (f_equal la) in H. apply (f_equal (@rev ascii)) in H. unfold nui_name in H.
  assert (X : forall n p b, rev (la (n ++ "_" ++ p ++ "_bin_" ++ decimal b)) =
      (rev (la (decimal b)) ++ "_"%char :: (["n"; "i"; "b"; "_"]%char ++ rev (la (n ++ "_" ++ p))))%list).
  { intros. rewrite !la_app, !rev_app_distr. rewrite <- !app_assoc. reflexivity. }
  rewrite !X in H. apply split_at in H as [H1 H2]; try apply no_us. split.
  - apply app_inv_head in H2. apply la_inj. rewrite <- (rev_involutive (la (n ++ "_" ++ p))), H2, rev_involutive. reflexivity.
  - apply (f_equal (@rev ascii)) in H1. rewrite !rev_involutive in H1. apply la_inj in H1.
    rewrite <- (proj1 (decimal_spec b)), H1. apply decimal_spec.
Qed.
Lemma append_inj_l a b b' : a ++ b = a ++ b' -> b = b'.
Proof. induction a; simpl; auto. intros [= H]; auto. Qed.
Lemma yield_name_inj p p' : yield_name p = yield_name p' -> p = p'.
Proof.
  intros H. apply (f_equal la) in H. unfold yield_name in H. rewrite !la_app in H. apply app_inv_tail in H. now apply la_inj.
Qed.
Lemma yield_nui_name p n q b : yield_name p <> nui_name n q b.
Proof.
  intros H. apply (f_equal la) in H. apply (f_equal (@rev ascii)) in H. unfold yield_name, nui_name in H.
  rewrite !la_app, !rev_app_distr in H. simpl in H. destruct (decimal_spec b) as (_ & N & F).
  destruct (rev (la (decimal b))) as [|c l] eqn:E.
  - apply N. apply la_inj. apply (f_equal (@rev ascii)) in E. rewrite rev_involutive in E. exact E.
  - simpl in H. injection H as C _. rewrite Forall_forall in F. assert (I : In c (la (decimal b))) by (rewrite in_rev, E; left; auto).
    apply F in I. subst c. unfold digit_char in I. cbv in I. lia.
Qed.
Lemma has_char_in a s : has_char a s <-> In a (la s).
Proof. induction s; simpl; [tauto|]. rewrite IHs. intuition. Qed.
Lemma no_us_prefix n p n' p' : ~ has_char "_" n -> ~ has_char "_" n' -> n ++ "_" ++ p = n' ++ "_" ++ p' -> n = n'.
Proof.
  intros H H' E. apply (f_equal la) in E. rewrite !la_app in E. simpl in E. rewrite has_char_in in *.
  apply split_at in E as [E _]; auto. now apply la_inj.
Qed.

Lemma NoDup_app_intro {A} (a b : list A) : NoDup a -> NoDup b -> (forall x, In x a -> ~ In x b) -> NoDup (a ++ b).
Proof.
  induction 1 as [|x a N NA IH]; simpl; intros B D; auto. constructor.
  - intros I. apply in_app_or in I as [I|I]; auto. apply (D x); auto.
  - apply IH; auto.
Qed.
Lemma NoDup_flat_map_intro {A B} (f : A -> list B) l : NoDup l -> (forall a, In a l -> NoDup (f a)) ->
  (forall a a' x, In a l -> In a' l -> In x (f a) -> In x (f a') -> a = a') -> NoDup (flat_map f l).
Proof.
  induction 1 as [|a l N NL IH]; simpl; intros F D; [constructor|]. apply NoDup_app_intro; [apply F; auto| |].
  - apply IH; [intros; apply F; auto|]. intros; eapply D; eauto.
  - intros x X Y. apply in_flat_map in Y as (a' & A' & Y). apply N. rewrite (D a a' x); auto.
Qed.
Lemma NoDup_map_inj {A B} (f : A -> B) l : NoDup l -> (forall a a', In a l -> In a' l -> f a = f a' -> a = a') -> NoDup (map f l).
Proof.
  induction 1 as [|a l N NL IH]; simpl; intros F; constructor.
  - intros I. apply in_map_iff in I as (a' & E & I). apply N. rewrite (F a a'); auto.
  - apply IH. intros; apply F; auto.
Qed.
Lemma NoDup_of_map {A B} (f : A -> B) l : NoDup (map f l) -> NoDup l.
Proof. induction l; simpl; intros H; inversion H; subst; constructor; auto. intros I. apply H2. now apply in_map. Qed.

Lemma in_tblock w n pt x : In x (tblock w name_block n pt) -> exists b, x = nui_name n (fst pt) b.
Proof.
  unfold tblock, name_block. destruct (nth_error (w_tmpls w) (snd pt)); [|intros []]. intros I. apply in_map_iff in I as (b & <- & _). eauto.
Qed.
Lemma in_cblock w nc x : In x (cblock w name_block nc) -> exists c p b, nth_error (w_chans w) (snd nc) = Some c /\ In p (map fst (c_tmpls c)) /\ x = nui_name (fst nc) p b.
Proof.
  unfold cblock. destruct (nth_error (w_chans w) (snd nc)) as [c|]; [|intros []]. intros I. apply in_flat_map in I as (pt & P & I).
  apply in_tblock in I as (b & ->). exists c, (fst pt), b. repeat split. now apply in_map.
Qed.

Theorem names_unique w : WF w -> unambiguous w -> NoDup (param_names w).
Proof.
  intros W U. rewrite param_names_blocks. apply NoDup_app_intro.
  - apply NoDup_map_inj; [apply wf_procs; auto|]. intros; now apply yield_name_inj.
  - apply NoDup_flat_map_intro.
    + apply (NoDup_of_map fst). apply (wf_names w W).
    + intros [n cid] I. unfold cblock. simpl. destruct (nth_error (w_chans w) cid) as [c|] eqn:C; [|constructor].
      pose proof (wf_chans w W _ _ C) as O. assert (N : NoDup (map fst (c_tmpls c))).
      { change (map fst (c_tmpls c)) with (keys (c_tmpls c)). rewrite (co_keys _ _ _ _ O). apply (co_nodup _ _ _ _ O). }
      apply NoDup_flat_map_intro.
      * apply (NoDup_of_map fst). exact N.
      * intros pt P. unfold tblock, name_block. destruct (nth_error (w_tmpls w) (snd pt)); [|constructor].
        apply NoDup_map_inj; [apply seq_NoDup|]. intros a a' _ _ E. apply nui_name_inj in E. tauto.
      * intros [p tid] [p' tid'] x P P' X X'. apply in_tblock in X as (b & ->), X' as (b' & E). simpl in E. apply nui_name_inj in E as [E _].
        apply append_inj_l in E. injection E as <-. f_equal.
        assert (T : dget String.eqb (c_tmpls c) p = Some tid) by (apply In_dget; auto).
        assert (T' : dget String.eqb (c_tmpls c) p = Some tid') by (apply In_dget; auto). congruence.
    + intros [n cid] [n' cid'] x I I' X X'. pose proof I as J. pose proof I' as J'.
      apply In_nth_error in J as (i & J), J' as (i' & J').
      apply in_cblock in X as (c & p & b & C & P & ->), X' as (c' & p' & b' & C' & P' & E). simpl in *.
      apply nui_name_inj in E as [E _]. assert (n = n').
      { apply (U i n c p i' n' c' p'); auto; [exists cid|exists cid']; auto. }
      subst n'. f_equal.
      pose proof (In_dget _ _ _ (wf_names w W) I). pose proof (In_dget _ _ _ (wf_names w W) I'). congruence.
  - intros x X Y. apply in_map_iff in X as (p & <- & _). apply in_flat_map in Y as (nc & _ & Y).
    apply in_cblock in Y as (c & q & b & _ & _ & E). now apply yield_nui_name in E.
Qed.
