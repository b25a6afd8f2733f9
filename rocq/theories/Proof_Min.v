(** Proofs about Parameters and minimizers. *)
From Coq Require Import Reals String ZArith Bool Arith List Lra Lia.
From Verif Require Import Model_Num Model_Utility Model_World Model_Minimizer Spec_Min Proof_HistHeap Proof_Route.
Import ListNotations.
Local Open Scope R_scope.

Lemma index_first s l k : index_of s l = Some k <-> nth_error l k = Some s /\ forall j, (j < k)%nat -> nth_error l j <> Some s.
Proof.
  revert k. induction l as [|a l IH]; intros k; simpl.
  - split; [discriminate|]. intros (H & _). destruct k; discriminate.
  - destruct (String.eqb_spec s a) as [->|N].
    + split; [intros [= <-]; split; [reflexivity|lia]|]. intros (H & F). destruct k; [reflexivity|]. exfalso. apply (F 0%nat); [lia|reflexivity].
    + destruct (index_of s l) as [i|] eqn:E; simpl.
      * split.
        -- intros [= <-]. destruct (proj1 (IH i) eq_refl) as (A & B). split; [exact A|]. intros [|j] J; simpl; [congruence|apply B; lia].
        -- intros (A & B). destruct k as [|k]; simpl in A; [congruence|]. f_equal. f_equal. 
           assert (X : Some i = Some k); [|congruence]. apply (proj2 (IH k)). split; [exact A|]. intros j J. apply (B (S j)). lia.
      * split; [discriminate|]. intros (A & B). destruct k as [|k]; simpl in A; [congruence|]. exfalso.
        assert (X : @None nat = Some k); [|discriminate]. apply (proj2 (IH k)). split; [exact A|]. intros j J. apply (B (S j)). lia.
Qed.

Lemma resolve_iff names i k : id_to_index names i = Ok k <-> resolves names i k.
Proof.
  destruct i as [s|z|b|]; simpl.
  - destruct (index_of s names) as [j|] eqn:E.
    + pose proof (index_first s names k) as X. rewrite E in X. split; intros H; [apply X; congruence|apply X in H; congruence].
    + pose proof (index_first s names k) as X. rewrite E in X. split; intros H; [discriminate|apply X in H; congruence].
  - destruct (Z.leb_spec 0 z), (Z.ltb_spec z (Z.of_nat (length names))); simpl; (split; [|intros (-> & ?)]); try discriminate; try lia.
    + intros [= <-]. lia. 
    + f_equal. lia.
  - destruct b; simpl.
    + destruct (Z.ltb_spec 1 (Z.of_nat (length names))); (split; [intros X|intros (-> & ?)]); try discriminate; try lia; [|reflexivity].
      injection X as X. change (Pos.to_nat 1) with 1%nat in X. lia.
    + destruct (Z.ltb_spec 0 (Z.of_nat (length names))); (split; [intros X|intros (-> & ?)]); try discriminate; try lia; [|reflexivity].
      injection X as X. lia.
  - split; [discriminate|tauto].
Qed.
Lemma resolve_err names i e : id_to_index names i = Err e -> e = ValueError.
Proof.
  destruct i as [s|z|b|]; simpl; try (intros [= <-]; reflexivity).
  - destruct (index_of s names); [discriminate|intros [= <-]; reflexivity].
  - destruct (_ && _); [discriminate|intros [= <-]; reflexivity].
  - destruct (_ && _); [discriminate|intros [= <-]; reflexivity].
Qed.
Lemma resolves_lt names i k : resolves names i k -> (k < length names)%nat.
Proof. destruct i as [s|z|b|]; simpl; try tauto. intros (H & _). apply nth_error_Some. congruence. Qed.
Lemma resolves_fun names i k k' : resolves names i k -> resolves names i k' -> k = k'.
Proof. intros A B. apply resolve_iff in A, B. congruence. Qed.

Lemma snoc_split {A} (l l1 l2 : list A) a b : l ++ [a] = l1 ++ b :: l2 -> (l2 = [] /\ a = b /\ l = l1) \/ exists l3, l2 = l3 ++ [a] /\ l = l1 ++ b :: l3.
Proof.
  intros E. destruct (exists_last (l:=b :: l2) ltac:(discriminate)) as (l3 & c & E3). rewrite E3 in E. rewrite app_assoc in E.
  apply app_inj_tail in E as (E1 & <-). destruct l3 as [|d l3]; simpl in E3.
  - injection E3 as -> ->. left. rewrite app_nil_r in E1. auto.
  - injection E3 as <- ->. right. exists l3. auto.
Qed.

Lemma fixed_by_nil names k : ~ fixed_by names [] k.
Proof. intros (l1 & i & l2 & E & _). destruct l1; discriminate. Qed.
Lemma fixed_by_snoc names l c k : fixed_by names (l ++ [c]) k <->
  match c with CFix i => resolves names i k \/ fixed_by names l k | CBounds _ _ => fixed_by names l k | CRelease => False end.
Proof.
  split.
  - intros (l1 & i & l2 & E & R & N). apply snoc_split in E as [(-> & -> & ->)|(l3 & -> & ->)]; [auto|].
    assert (F : fixed_by names (l1 ++ CFix i :: l3) k). { exists l1, i, l3. repeat split; auto. intros H. apply N. apply in_or_app. auto. }
    destruct c; auto. apply N. apply in_or_app. right. left. reflexivity.
  - assert (K : fixed_by names l k -> c <> CRelease -> fixed_by names (l ++ [c]) k).
    { intros (l1 & i & l2 & -> & R & N) C. exists l1, i, (l2 ++ [c]). split; [now rewrite <- app_assoc|]. split; [exact R|]. intros H. apply in_app_or in H as [H|[H|[]]]; auto. }
    destruct c as [i|i b|]; [intros [R|H]|intros H|tauto].
    + exists l, i, []. auto.
    + apply K; [auto|discriminate].
    + apply K; [auto|discriminate].
Qed.
Lemma bounds_by_nil names k b : bounds_by names [] k b <-> b = (None, None).
Proof. split; [intros [(l1 & i & l2 & E & _)|(_ & H)]; [destruct l1; discriminate|exact H]|]. intros ->. right. split; [intros ? ? []|reflexivity]. Qed.
Lemma bounds_by_snoc names l c k b : bounds_by names (l ++ [c]) k b <->
  match c with CBounds i b' => (resolves names i k /\ b = b') \/ (~ resolves names i k /\ bounds_by names l k b) | _ => bounds_by names l k b end.
Proof.
  split.
  - intros [(l1 & i & l2 & E & R & N)|(N & ->)].
    + apply snoc_split in E as [(-> & -> & ->)|(l3 & -> & ->)]; [auto|].
      assert (K : bounds_by names (l1 ++ CBounds i b :: l3) k b). { left. exists l1, i, l3. repeat split; auto. intros i' b' H. apply (N i' b'). apply in_or_app. auto. }
      destruct c as [|i' b'|]; auto. right. split; [|exact K]. apply (N i' b'). apply in_or_app. right. left. reflexivity.
    + assert (K : bounds_by names l k (None, None)). { right. split; [|reflexivity]. intros i' b' H. apply (N i' b'). apply in_or_app. auto. }
      destruct c as [|i' b'|]; auto. right. split; [|exact K]. apply (N i' b'). apply in_or_app. right. left. reflexivity.
  - assert (K : bounds_by names l k b -> (forall i' b', c = CBounds i' b' -> ~ resolves names i' k) -> bounds_by names (l ++ [c]) k b).
    { intros [(l1 & i & l2 & -> & R & N)|(N & ->)] C.
      - left. exists l1, i, (l2 ++ [c]). split; [now rewrite <- app_assoc|]. split; [exact R|]. intros i' b' H. apply in_app_or in H as [H|[H|[]]]; eauto.
      - right. split; [|reflexivity]. intros i' b' H. apply in_app_or in H as [H|[H|[]]]; eauto. }
    destruct c as [i|i b'|]; [intros H|intros [(R & <-)|(R & H)]|intros H].
    + apply K; [auto|discriminate].
    + left. exists l, i, []. repeat split; auto.
    + apply K; [auto|]. intros ? ? [= <- <-]. exact R.
    + apply K; [auto|discriminate].
Qed.

(** the state of a minimizer agrees with the calls made *)
Definition agrees (names : list string) (l : list mcall) (m : minimizer) : Prop :=
  length (m_bounds m) = length names /\
  (forall k b, (k < length names)%nat -> nth_error (m_bounds m) k = Some b <-> bounds_by names l k b) /\
  match m_fixed m with
  | Flags f => length f = length names /\ forall k, (k < length names)%nat -> nth_error f k = Some true <-> fixed_by names l k
  | Indices f => forall k, In k f <-> fixed_by names l k
  end.
Lemma upd_length {A} i (a : A) l : length (upd i a l) = length l.
Proof. revert i. induction l as [|b l IH]; intros [|i]; simpl; auto. Qed.
Lemma agrees_new k names a : agrees names [] (min_new k names a).
Proof.
  unfold agrees, min_new. simpl. rewrite repeat_length. split; [reflexivity|]. split.
  - intros j b J. rewrite bounds_by_nil. rewrite nth_repeat_some by exact J. split; congruence.
  - destruct k; simpl.
    + rewrite repeat_length. split; [reflexivity|]. intros j J. rewrite nth_repeat_some by exact J. split; [discriminate|]. intros H. destruct (fixed_by_nil _ _ H).
    + intros j. split; [tauto|]. intros H. destruct (fixed_by_nil _ _ H).
Qed.
Lemma agrees_call names l m c : agrees names l m -> agrees names (l ++ [c]) (call names m c).
Proof.
  intros (LB & B & FX). destruct c as [i|i b|]; simpl.
  - unfold set_param_fixed. destruct (id_to_index names i) as [k|e] eqn:E; simpl.
    + pose proof (proj1 (resolve_iff _ _ _) E) as R. split; [exact LB|]. split. { intros j b J. rewrite bounds_by_snoc. auto. }
      simpl. destruct (m_fixed m) as [f|f]; simpl in *.
      * destruct FX as (LF & FX). rewrite upd_length. split; [exact LF|]. intros j J. rewrite fixed_by_snoc. destruct (Nat.eq_dec j k) as [->|N].
        -- rewrite upd_same by lia. split; auto.
        -- rewrite upd_other by auto. rewrite FX by exact J. split; [auto|]. intros [H|H]; [|exact H]. destruct N. eapply resolves_fun; eauto.
      * intros j. rewrite in_app_iff, FX, fixed_by_snoc. simpl. split; [intros [H|[->|[]]]; auto|]. intros [H|H]; [|auto]. right. left. eapply resolves_fun; eauto.
    + assert (R : forall k, ~ resolves names i k). { intros k H. apply resolve_iff in H. congruence. }
      split; [exact LB|]. split. { intros j b J. rewrite bounds_by_snoc. auto. }
      destruct (m_fixed m) as [f|f].
      * destruct FX as (LF & FX). split; [exact LF|]. intros j J. rewrite fixed_by_snoc, FX by exact J. split; [auto|]. intros [H|H]; [|exact H]. destruct (R _ H).
      * intros j. rewrite FX, fixed_by_snoc. split; [auto|]. intros [H|H]; [|exact H]. destruct (R _ H).
  - unfold set_param_bounds. destruct (id_to_index names i) as [k|e] eqn:E; simpl.
    + pose proof (proj1 (resolve_iff _ _ _) E) as R. split; [simpl; rewrite upd_length; exact LB|]. split; simpl.
      * intros j b' J. rewrite bounds_by_snoc. destruct (Nat.eq_dec j k) as [->|N].
        -- rewrite upd_same by lia. split; [intros [= <-]; auto|]. intros [(_ & ->)|(H & _)]; [reflexivity|tauto].
        -- rewrite upd_other by auto. rewrite B by exact J. assert (~ resolves names i j) by (intros H; destruct N; eapply resolves_fun; eauto). split; [auto|]. tauto.
      * destruct (m_fixed m) as [f|f]; [destruct FX as (LF & FX); split; [exact LF|]; intros j J|intros j]; rewrite fixed_by_snoc; auto.
    + assert (R : forall k, ~ resolves names i k). { intros k H. apply resolve_iff in H. congruence. }
      split; [exact LB|]. split.
      * intros j b' J. rewrite bounds_by_snoc. rewrite B by exact J. specialize (R j). tauto.
      * destruct (m_fixed m) as [f|f]; [destruct FX as (LF & FX); split; [exact LF|]; intros j J|intros j]; rewrite fixed_by_snoc; auto.
  - split; [exact LB|]. split. { intros j b J. rewrite bounds_by_snoc. auto. }
    simpl. destruct (m_fixed m) as [f|f]; simpl.
    + rewrite repeat_length. split; [reflexivity|]. intros j J. rewrite nth_repeat_some by exact J. rewrite fixed_by_snoc. split; [discriminate|tauto].
    + intros j. rewrite fixed_by_snoc. tauto.
Qed.
Lemma agrees_calls names l0 m l : agrees names l0 m -> agrees names (l0 ++ l) (calls names m l).
Proof.
  revert l0 m. induction l as [|c l IH]; intros l0 m A; simpl; [now rewrite app_nil_r|].
  replace (l0 ++ c :: l) with ((l0 ++ [c]) ++ l) by now rewrite <- app_assoc. apply IH. now apply agrees_call.
Qed.
Lemma call_params names m c : m_params (call names m c) = m_params m.
Proof. destruct c; simpl; unfold set_param_fixed, set_param_bounds; try destruct (id_to_index _ _); reflexivity. Qed.
Lemma calls_params names m l : m_params (calls names m l) = m_params m.
Proof. revert m. induction l; intros m; simpl; auto. rewrite IHl. apply call_params. Qed.
Lemma call_kind names m c : match m_fixed m, m_fixed (call names m c) with Flags _, Flags _ => True | Indices _, Indices _ => True | _, _ => False end.
Proof. destruct c; simpl; unfold set_param_fixed, set_param_bounds; try destruct (id_to_index _ _); simpl; destruct (m_fixed m); simpl; auto. Qed.
Lemma calls_kind names m l : match m_fixed m, m_fixed (calls names m l) with Flags _, Flags _ => True | Indices _, Indices _ => True | _, _ => False end.
Proof.
  revert m. induction l as [|c l IH]; intros m; simpl; [destruct (m_fixed m); auto|]. pose proof (call_kind names m c). specialize (IH (call names m c)).
  destruct (m_fixed m), (m_fixed (call names m c)), (m_fixed (calls names (call names m c) l)); tauto.
Qed.

(** ** constraints *)
Definition late (init : list xr) (i : nat) : constr := fun x => a <- at_ x i ;; b <- at_ init i ;; Ok (xsub a b).
Lemma create_constraints_last init l k : create_constraints init (l ++ [k]) = repeat (late init k) (S (length l)).
Proof.
  unfold create_constraints. 
  set (g := fun (st : option nat * list closure) fp => _).
  assert (G : forall (l : list nat) (st : option nat * list closure), (forall c : closure, In c (snd st) -> forall i, c (Some i) = late init i) ->
     (forall c, In c (snd (fold_left g l st)) -> forall i, c (Some i) = late init i) /\ length (snd (fold_left g l st)) = (length (snd st) + length l)%nat).
  { clear. induction l as [|k l IH]; intros st H; simpl; [split; auto|].
    destruct (IH (g st k)) as (A & B). { intros c C. unfold g in C. simpl in C. apply in_app_or in C as [C|[<-|[]]]; auto. }
    split; [exact A|]. rewrite B. replace (length (snd (g st k))) with (length (snd st) + 1)%nat by (unfold g; cbn [snd]; rewrite app_length; reflexivity). lia. }
  rewrite fold_left_app. simpl. destruct (G l (None, [])) as (A & B); [intros c []|]. simpl in B.
  set (st := fold_left g l (None, [])) in *. rewrite map_app. simpl. 
  change closure with (option nat -> constr) in *. replace (map (fun c : option nat -> constr => c (Some k)) (snd st)) with (repeat (late init k) (length l)).
  - change (fun x : list xr => a <- at_ x k ;; b <- at_ init k ;; Ok (xsub a b)) with (late init k). change (repeat (late init k) (length l) ++ [late init k] = repeat (late init k) (S (length l))). rewrite <- repeat_cons. reflexivity.
  - rewrite <- B. clear - A. induction (snd st) as [|c r IH]; simpl; [reflexivity|]. f_equal; [symmetry; apply A; left; reflexivity|]. apply IH. intros c' C. apply A. now right.
Qed.
Lemma satisfied_repeat c n x : satisfied (repeat c (S n)) x <-> c x = Ok (Fin 0).
Proof.
  unfold satisfied. split; [intros H; inversion H; auto|]. intros H. induction n; simpl; constructor; auto.
Qed.

Lemma play_pbind {S A B} (fcn : list xr -> S -> S * res xr) (p : prog A) (f : A -> prog B) w :
  play fcn (pbind p f) w = let (w1, a) := play fcn p w in play fcn (f a) w1.
Proof. revert w. induction p as [a|x k IH]; intros w; simpl; [reflexivity|]. apply IH. Qed.
Lemma pbind_assoc {A B C} (p : prog A) (f : A -> prog B) (g : B -> prog C) : pbind (pbind p f) g = pbind p (fun a => pbind (f a) g).
Proof.
  induction p as [a|x k IH]; simpl; [reflexivity|]. f_equal. apply FunctionalExtensionality.functional_extensionality. intros v. apply IH.
Qed.
