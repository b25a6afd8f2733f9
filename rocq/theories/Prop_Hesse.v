(** C90: ScipyMinimizer.calculate_hesse_matrix. *)
From Coq Require Import Reals String ZArith Bool Arith List Lra Lia.
From Verif Require Import Model_Num Model_Minimizer Model_Hesse Spec_Hesse Proof_HistHeap Proof_Eval.
Import ListNotations.
Local Open Scope R_scope.

Lemma rlist_eqb_eq a b : rlist_eqb a b = true <-> a = b.
Proof.
  revert b. induction a as [|x a IH]; intros [|y b]; simpl; split; intros H; try reflexivity; try discriminate.
  - apply andb_prop in H as (H1 & H2). unfold Reqb in H1. destruct (Req_EM_T x y); [|discriminate]. apply IH in H2. congruence.
  - injection H as -> ->. unfold Reqb. destruct (Req_EM_T y y); [|tauto]. apply IH. reflexivity.
Qed.
Lemma hkey_eqb_eq p q : hkey_eqb p q = true <-> p = q.
Proof.
  destruct p as [[f x] a], q as [[g y] b]. simpl. rewrite !andb_true_iff, Nat.eqb_eq, !rlist_eqb_eq.
  split; [intros ((-> & ->) & ->); reflexivity|]. intros H. injection H. auto.
Qed.
Lemma play_finds {S A} (g : S -> list xr -> res xr) (p : prog A) s a :
  snd (play (fun x s => (s, g s x)) p s) = a <-> finds (g s) p a.
Proof.
  induction p as [b|x k IH]; simpl.
  - split; [intros ->; constructor|]. intros H. inversion H. reflexivity.
  - rewrite IH. split; [intros H; now constructor|]. intros H. inversion H. assumption.
Qed.

Section C90.
  Context {S : Type} (obj : nat -> S -> list xr -> list R -> res xr) (hessian : list xr -> prog (res mat)).
  Notation call := (calculate_hesse_matrix obj hessian).
  Notation run := (hrun obj hessian).

  (** The documented kind of argument, an array, is always refused. *)
  Lemma c90_arrays_refuted : forall s l f x args, let st := run (hstate_init s) l in
    call st f (HArray x) args = (st, Err TypeError).
  Proof. reflexivity. Qed.


  (** ** Cached addresses are addresses of arrays *)
  Definition HA (st : hstate S) : Prop := forall k i, In (k, i) (h_cache st) -> (i < length (h_heap st))%nat.
  Lemma compute_finds st f x args m : compute_hesse obj hessian st f x args = Ok m <->
    finds (fun p => obj f (h_fun st f) p args) (hessian (map Fin x)) (Ok m).
  Proof. apply (play_finds (fun s p => obj f s p args)). Qed.
  Lemma call_cases st f x args : HA st ->
    (exists i, dget hkey_eqb (h_cache st) (f, x, args) = Some i /\ In ((f, x, args), i) (h_cache st) /\
       call st f (HTuple x) args = (mk_hstate (h_fun st) (h_heap st) (((f, x, args), i) :: lru_del hkey_eqb (h_cache st) (f, x, args)), Ok i)) \/
    (dget hkey_eqb (h_cache st) (f, x, args) = None /\ exists m, compute_hesse obj hessian st f x args = Ok m /\
       call st f (HTuple x) args =
       (mk_hstate (h_fun st) (h_heap st ++ [m]) (firstn lru_maxsize (((f, x, args), length (h_heap st)) :: h_cache st)), Ok (length (h_heap st)))) \/
    (dget hkey_eqb (h_cache st) (f, x, args) = None /\ exists e, compute_hesse obj hessian st f x args = Err e /\ call st f (HTuple x) args = (st, Err e)).
  Proof.
    intros A. unfold calculate_hesse_matrix, lru_call. cbv zeta. destruct (dget hkey_eqb (h_cache st) (f, x, args)) as [i|] eqn:D.
    - left. exists i. split; [reflexivity|]. apply (dget_in hkey_eqb hkey_eqb_eq) in D. split; [exact D|]. apply A in D.
      destruct (compute_hesse _ _ _ _ _ _); [|reflexivity]. destruct (Nat.eqb_spec i (length (h_heap st))); [lia|reflexivity].
    - right. destruct (compute_hesse obj hessian st f x args) as [m|e]; cbn [rbind]; [left|right]; (split; [reflexivity|]).
      + exists m. split; [reflexivity|]. rewrite Nat.eqb_refl. reflexivity.
      + exists e. split; [reflexivity|]. destruct st. reflexivity.
  Qed.
  Lemma HA_step st o : HA st -> HA (hstep obj hessian st o).
  Proof.
    intros A. destruct o as [f [x|x] args|f s|i m]; cbn [hstep]; [exact A| | exact A |].
    - destruct (call_cases st f x args A) as [(i & _ & I & ->)|[(_ & m & _ & ->)|(_ & e & _ & ->)]]; cbn [fst]; [| |exact A].
      + intros k j [Q|Q]; cbn [h_heap]; [injection Q as <- <-; eapply A; eauto|]. apply (A k). eapply lru_del_in; eauto.
      + intros k j Q. cbn [h_heap h_cache] in *. rewrite app_length. cbn [length].
        assert (I : In (k, j) (((f, x, args), length (h_heap st)) :: h_cache st)) by (eapply firstn_in; exact Q).
        destruct I as [I|I]; [injection I as <- <-; lia|]. apply A in I. lia.
    - intros k j Q. cbn [h_heap h_cache] in *. rewrite upd_length. eapply A; eauto.
  Qed.
  Lemma HA_run l s : HA (run (hstate_init s) l).
  Proof.
    unfold hrun. assert (G : forall st, HA st -> HA (fold_left (hstep obj hessian) l st)).
    { induction l as [|o l IH]; intros st A; [exact A|]. cbn [fold_left]. apply IH. now apply HA_step. }
    apply G. intros k i [].
  Qed.

  (** ** As long as the function does not change and nobody writes to a returned array, calls with a tuple
      give the Hesse matrix of the function at the point (or the exception the differentiation raised) *)
  Definition HC (f : nat) (st : hstate S) : Prop :=
    forall x args i, In ((f, x, args), i) (h_cache st) -> is_hesse obj hessian st i f x args.
  Lemma is_hesse_more fn h h' c c' i f x args : (forall j m, nth_error h j = Some m -> nth_error h' j = Some m) ->
    is_hesse obj hessian (mk_hstate fn h c) i f x args -> is_hesse obj hessian (mk_hstate fn h' c') i f x args.
  Proof. intros E (m & N & F). exists m. split; [apply E; exact N|exact F]. Qed.
  Lemma more_app {A} (h t : list A) j m : nth_error h j = Some m -> nth_error (h ++ t) j = Some m.
  Proof. intros N. rewrite nth_error_app1; [exact N|]. apply nth_error_Some. congruence. Qed.
  Lemma call_HC st f g x args : HA st -> HC f st ->
    HC f (fst (call st g (HTuple x) args)) /\
    (g = f -> match call st g (HTuple x) args with
     | (st', Ok i) => is_hesse obj hessian st' i f x args
     | (st', Err e) => finds (fun p => obj f (h_fun st f) p args) (hessian (map Fin x)) (Err e)
     end).
  Proof.
    intros A H. destruct (call_cases st g x args A) as [(i & _ & I & ->)|[(_ & m & C & ->)|(_ & e & C & ->)]]; cbn [fst].
    - split.
      + intros y b j [Q|Q].
        * injection Q as -> <- <- <-. destruct st. eapply is_hesse_more; [|apply H; exact I]. auto.
        * destruct st. eapply is_hesse_more; [|apply H; eapply lru_del_in; exact Q]. auto.
      + intros ->. destruct st. eapply is_hesse_more; [|apply H; exact I]. auto.
    - assert (N : g = f -> is_hesse obj hessian (mk_hstate (h_fun st) (h_heap st ++ [m]) (firstn lru_maxsize (((g, x, args), length (h_heap st)) :: h_cache st))) (length (h_heap st)) f x args).
      { intros ->. exists m. split; [cbn [h_heap]; rewrite nth_error_app2, Nat.sub_diag; [reflexivity|lia]|]. apply compute_finds. exact C. }
      split; [|exact N]. intros y b j Q. cbn [h_cache] in Q.
      assert (I : In ((f, y, b), j) (((g, x, args), length (h_heap st)) :: h_cache st)) by (eapply firstn_in; exact Q).
      destruct I as [I|I].
      + injection I as Ef <- <- <-. apply N. exact Ef.
      + destruct st. eapply is_hesse_more; [|apply H; exact I]. intros. now apply more_app.
    - split; [exact H|]. intros ->. apply (play_finds (fun s p => obj f s p args)). exact C.
  Qed.
  Lemma c90_unchanged_partial : forall s l f x args,
    (forall s', ~ In (HChange f s') l) -> (forall i m, ~ In (HWrite i m) l) ->
    let st := run (hstate_init s) l in
    match call st f (HTuple x) args with
    | (st', Ok i) => is_hesse obj hessian st' i f x args
    | (st', Err e) => finds (fun p => obj f (h_fun st f) p args) (hessian (map Fin x)) (Err e)
    end.
  Proof.
    intros s l f x args N1 N2. cbv zeta. apply (call_HC _ f f x args); [apply HA_run| |reflexivity].
    unfold hrun. assert (G : forall st, HA st -> HC f st -> HC f (fold_left (hstep obj hessian) l st)).
    { induction l as [|o l IH]; intros st A H; [exact H|]. cbn [fold_left]. apply IH.
      - intros s' I. apply (N1 s'). now right.
      - intros i m I. apply (N2 i m). now right.
      - now apply HA_step.
      - destruct o as [g [y|y] b|g s'|i m]; cbn [hstep].
        + exact H.
        + now apply call_HC.
        + destruct (Nat.eq_dec g f) as [->|D]; [destruct (N1 s'); now left|].
          intros y b i I. destruct (H y b i I) as (m & M & F). exists m. split; [exact M|]. cbn [h_fun].
          destruct (Nat.eqb_spec f g); [congruence|exact F].
        + destruct (N2 i m). now left. }
    apply G; [intros k i []|intros y b i []].
  Qed.

  (** ** Otherwise the stored array object comes back: after a successful call and fewer than 128 further
      operations of any kind, the same call returns the same array, which still has its content (unless
      it was written), whatever the function computes now *)
  Definition front (st : hstate S) (k : hkey) (i n : nat) : Prop :=
    exists a b, h_cache st = a ++ (k, i) :: b /\ ~ In k (map fst a) /\ (length a <= n)%nat.
  Lemma front_dget st k i n : front st k i n -> dget hkey_eqb (h_cache st) k = Some i.
  Proof.
    intros (a & b & -> & N & _). induction a as [|[k' v] a IH]; simpl in *.
    - replace (hkey_eqb k k) with true; [reflexivity|]. symmetry. now apply hkey_eqb_eq.
    - destruct (hkey_eqb k k') eqn:E; [apply hkey_eqb_eq in E; subst; tauto|]. apply IH. tauto.
  Qed.
  Lemma front_call st g x args k i n : HA st -> front st k i n -> (n < 127)%nat -> front (fst (call st g (HTuple x) args)) k i (n + 1).
  Proof.
    intros A F L. destruct (call_cases st g x args A) as [(j & D & I & ->)|[(D & m & C & ->)|(_ & e & C & ->)]]; cbn [fst].
    - destruct (hkey_eqb (g, x, args) k) eqn:E.
      + apply hkey_eqb_eq in E. rewrite E in *. rewrite (front_dget _ _ _ _ F) in D. injection D as <-.
        exists [], (lru_del hkey_eqb (h_cache st) k). cbn [h_cache app map length]. split; [reflexivity|]. split; [tauto|lia].
      + assert (NE : (g, x, args) <> k) by (intros Q; apply hkey_eqb_eq in Q; congruence).
        destruct F as (a & b & EC & N & LA). unfold front. cbn [h_cache]. rewrite EC. clear EC D I.
        assert (G : exists a' b', lru_del hkey_eqb (a ++ (k, i) :: b) (g, x, args) = a' ++ (k, i) :: b' /\ ~ In k (map fst a') /\ (length a' <= length a)%nat).
        { clear LA. induction a as [|[k' v] a IH].
          - cbn [app lru_del]. rewrite E. exists [], (lru_del hkey_eqb b (g, x, args)). cbn [app map length]. split; [reflexivity|]. split; [tauto|lia].
          - cbn [app lru_del]. cbn [map fst In] in N. destruct (hkey_eqb (g, x, args) k').
            + exists a, b. split; [reflexivity|]. split; [tauto|cbn [length]; lia].
            + destruct IH as (a' & b' & -> & N' & L'); [tauto|]. exists ((k', v) :: a'), b'. cbn [app map fst In length]. split; [reflexivity|].
              split; [tauto|lia]. }
        destruct G as (a' & b' & -> & N' & L'). exists (((g, x, args), j) :: a'), b'. cbn [app map fst In length]. split; [reflexivity|].
        split; [tauto|lia].
    - assert (NE : (g, x, args) <> k) by (intros Q; rewrite Q, (front_dget _ _ _ _ F) in D; discriminate).
      destruct F as (a & b & EC & N & LA). cbn [h_cache]. unfold front. cbn [h_cache]. rewrite EC.
      exists (((g, x, args), length (h_heap st)) :: a), (firstn (126 - length a) b). cbn [map fst In length]. split.
      + change lru_maxsize with 128%nat. rewrite app_comm_cons, firstn_app, firstn_all2 by (cbn [length]; lia).
        cbn [length]. replace (128 - Datatypes.S (length a))%nat with (Datatypes.S (126 - length a)) by lia. reflexivity.
      + split; [tauto|lia].
    - destruct F as (a & b & EC & N & LA). exists a, b. repeat split; auto. lia.
  Qed.
  Lemma front_step st o k i n : HA st -> front st k i n -> (n < 127)%nat -> front (hstep obj hessian st o) k i (n + 1).
  Proof.
    intros A F L. destruct o as [g [x|x] args|g s|j m]; cbn [hstep].
    2: now apply front_call.
    all: destruct F as (a & b & EC & N & LA); exists a, b; repeat split; auto; lia.
  Qed.
  Lemma heap_step st o i m : HA st -> nth_error (h_heap st) i = Some m -> (forall m', o <> HWrite i m') ->
    nth_error (h_heap (hstep obj hessian st o)) i = Some m.
  Proof.
    intros A N W. destruct o as [g [x|x] args|g s|j m']; cbn [hstep]; [exact N| |exact N|].
    - destruct (call_cases st g x args A) as [(j & D & I & ->)|[(D & m' & C & ->)|(_ & e & C & ->)]]; cbn [fst h_heap]; auto. now apply more_app.
    - cbn [h_heap]. rewrite upd_other; [exact N|]. intros ->. now apply (W m').
  Qed.
  Lemma c90_stored_array_returned : forall s l f x args st1 i l2,
    call (run (hstate_init s) l) f (HTuple x) args = (st1, Ok i) -> (length l2 < 128)%nat ->
    let st2 := run st1 l2 in
    snd (call st2 f (HTuple x) args) = Ok i /\
    ((forall m, ~ In (HWrite i m) l2) -> nth_error (h_heap (fst (call st2 f (HTuple x) args))) i = nth_error (h_heap st1) i) /\
    (forall l3 m l4, l2 = l3 ++ HWrite i m :: l4 -> (forall m', ~ In (HWrite i m') l4) ->
       nth_error (h_heap (fst (call st2 f (HTuple x) args))) i = Some m).
  Proof.
    intros s l f x args st1 i l2 C L. cbv zeta. pose proof (HA_run l s) as A0. set (st0 := run (hstate_init s) l) in *. clearbody st0.
    assert (A1 : HA st1). { change st1 with (fst (st1, Ok i : res nat)). rewrite <- C. apply (HA_step st0 (HCall f (HTuple x) args)). exact A0. }
    assert (F : front st1 (f, x, args) i 0 /\ (i < length (h_heap st1))%nat).
    { destruct (call_cases st0 f x args A0) as [(j & D & I & E)|[(D & m & Cm & E)|(_ & e & _ & E)]]; rewrite E in C; [| |discriminate].
      - injection C as <- <-. split; [|apply A0 in I; exact I]. eexists [], _. cbn [h_cache app map length]. split; [reflexivity|]. split; [tauto|lia].
      - injection C as <- <-. split; [|cbn [h_heap]; rewrite app_length; cbn [length]; lia].
        exists [], (firstn 127 (h_cache st0)). cbn [h_cache app map length]. split; [reflexivity|]. split; [tauto|lia]. }
    destruct F as (F & LI). clear C A0 st0.
    assert (G : forall l st n, HA st -> front st (f, x, args) i n -> (length l + n < 128)%nat ->
              HA (run st l) /\ front (run st l) (f, x, args) i (n + length l)).
    { unfold hrun. clear. induction l as [|o l IH]; intros st n A F L; cbn [fold_left length].
      - rewrite Nat.add_0_r. auto.
      - cbn [length] in L. replace (n + Datatypes.S (length l))%nat with (n + 1 + length l)%nat by lia. apply IH; [now apply HA_step| |lia].
        apply front_step; auto. lia. }
    destruct (G l2 st1 0%nat A1 F) as (A2 & F2); [lia|].
    assert (HX : h_heap (fst (call (run st1 l2) f (HTuple x) args)) = h_heap (run st1 l2) /\ snd (call (run st1 l2) f (HTuple x) args) = Ok i).
    { apply front_dget in F2. destruct (call_cases (run st1 l2) f x args A2) as [(j & D & I & E)|[(D & _)|(D & _)]]; [|congruence|congruence].
      rewrite E. cbn [fst snd h_heap]. split; [reflexivity|]. congruence. }
    destruct HX as (-> & ->). split; [reflexivity|].
    assert (K : forall l st m, HA st -> nth_error (h_heap st) i = Some m -> (forall m', ~ In (HWrite i m') l) -> nth_error (h_heap (run st l)) i = Some m).
    { unfold hrun. clear. induction l as [|o l IH]; intros st m A N W; [exact N|]. cbn [fold_left]. apply IH; [now apply HA_step| |].
      - apply heap_step; auto. intros m' ->. apply (W m'). now left.
      - intros m' I. apply (W m'). now right. }
    split.
    - intros W. destruct (nth_error (h_heap st1) i) as [m|] eqn:E; [|apply nth_error_None in E; lia]. now apply K.
    - intros l3 m l4 -> W. unfold hrun. rewrite fold_left_app. cbn [fold_left].
      assert (A3 : HA (fold_left (hstep obj hessian) l3 st1) /\ (i < length (h_heap (fold_left (hstep obj hessian) l3 st1)))%nat).
      { clear -A1 LI. revert st1 A1 LI. induction l3 as [|o l3 IH]; intros st1 A1 LI; [auto|]. cbn [fold_left]. apply IH; [now apply HA_step|].
        destruct o as [g [y|y] b|g s|j m]; cbn [hstep]; [exact LI| |exact LI|cbn [h_heap]; rewrite upd_length; exact LI].
        destruct (call_cases st1 g y b A1) as [(j & D & I & ->)|[(D & m' & C & ->)|(_ & e & C & ->)]]; cbn [fst h_heap]; auto. rewrite app_length. lia. }
      destruct A3 as (A3 & LI3). apply K; [|cbn [hstep h_heap]; apply upd_same; exact LI3|exact W].
      apply (HA_step _ (HWrite i m)). exact A3.
  Qed.
End C90.
(** The documented kind of argument, an array, is always refused. *)
Theorem C90_arrays_refuted : forall (S : Type) (obj : nat -> S -> list xr -> list R -> res xr) (hessian : list xr -> prog (res mat)) s l f x args,
  let st := hrun obj hessian (hstate_init s) l in
  calculate_hesse_matrix obj hessian st f (HArray x) args = (st, Err TypeError).
Proof. intros S obj hessian. apply c90_arrays_refuted. Qed.
Print Assumptions C90_arrays_refuted.
(** As long as the function does not change and nobody writes to a returned array, calls with a tuple give
    the Hesse matrix of the function at the point (or the exception the differentiation raised). *)
Theorem C90_unchanged_partial : forall (S : Type) (obj : nat -> S -> list xr -> list R -> res xr) (hessian : list xr -> prog (res mat)) s l f x args,
  (forall s', ~ In (HChange f s') l) -> (forall i m, ~ In (HWrite i m) l) ->
  let st := hrun obj hessian (hstate_init s) l in
  match calculate_hesse_matrix obj hessian st f (HTuple x) args with
  | (st', Ok i) => is_hesse obj hessian st' i f x args
  | (st', Err e) => finds (fun p => obj f (h_fun st f) p args) (hessian (map Fin x)) (Err e)
  end.
Proof. intros S obj hessian. apply c90_unchanged_partial. Qed.
Print Assumptions C90_unchanged_partial.
(** Otherwise the stored array object comes back: after a successful call and fewer than 128 further
    operations of any kind, the same call returns the same array; its content is that of the first call, or
    what was written last, whatever the function computes now. *)
Theorem C90_stored_array_returned : forall (S : Type) (obj : nat -> S -> list xr -> list R -> res xr) (hessian : list xr -> prog (res mat)) s l f x args st1 i l2,
  calculate_hesse_matrix obj hessian (hrun obj hessian (hstate_init s) l) f (HTuple x) args = (st1, Ok i) -> (length l2 < 128)%nat ->
  let st2 := hrun obj hessian st1 l2 in
  snd (calculate_hesse_matrix obj hessian st2 f (HTuple x) args) = Ok i /\
  ((forall m, ~ In (HWrite i m) l2) -> nth_error (h_heap (fst (calculate_hesse_matrix obj hessian st2 f (HTuple x) args))) i = nth_error (h_heap st1) i) /\
  (forall l3 m l4, l2 = l3 ++ HWrite i m :: l4 -> (forall m', ~ In (HWrite i m') l4) ->
     nth_error (h_heap (fst (calculate_hesse_matrix obj hessian st2 f (HTuple x) args))) i = Some m).
Proof. intros S obj hessian. apply c90_stored_array_returned. Qed.
Print Assumptions C90_stored_array_returned.

(** The objective a*x^2 with a state a, and a program finding its second derivative exactly from three
    points.  The matrix of the first call (2) comes back although the function is now 3*x^2. *)
Definition ex_obj (f : nat) (a : R) (x : list xr) (args : list R) : res xr :=
  match x with [Fin y] => Ok (Fin (a * y * y)) | _ => Err ValueError end.
Definition ex_hessian (x : list xr) : prog (res mat) :=
  match x with
  | [Fin y] => Ask [Fin (y - 1)] (fun r1 => Ask [Fin y] (fun r2 => Ask [Fin (y + 1)] (fun r3 =>
      match r1, r2, r3 with Ok (Fin a), Ok (Fin b), Ok (Fin c) => Stop (Ok [[Fin (a - 2 * b + c)]]) | _, _, _ => Stop (Err ValueError) end)))
  | _ => Stop (Err ValueError)
  end.
Lemma ex_finds f a x args m : finds (fun p => ex_obj f a p args) (ex_hessian (map Fin [x])) (Ok m) <-> m = [[Fin (2 * a)]].
Proof.
  rewrite <- (play_finds (fun s p => ex_obj f s p args)). cbn.
  replace (a * (x - 1) * (x - 1) - 2 * (a * x * x) + a * (x + 1) * (x + 1)) with (2 * a) by ring. split; [intros H; injection H; congruence|intros ->; reflexivity].
Qed.
Theorem C90_stale_refuted : exists l st i, calculate_hesse_matrix ex_obj ex_hessian (hrun ex_obj ex_hessian (hstate_init (fun _ => 1)) l) 0 (HTuple [5]) [] = (st, Ok i) /\
  h_fun st 0%nat = 3 /\ nth_error (h_heap st) i = Some [[Fin 2]] /\ ~ is_hesse ex_obj ex_hessian st i 0 [5] [].
Proof.
  pose proof (C90_unchanged_partial R ex_obj ex_hessian (fun _ => 1) [] 0 [5] []) as U. cbv zeta in U.
  destruct (calculate_hesse_matrix ex_obj ex_hessian (hrun ex_obj ex_hessian (hstate_init (fun _ => 1)) []) 0 (HTuple [5]) []) as [st1 [i|e]] eqn:E; [|discriminate E].
  specialize (U ltac:(easy) ltac:(easy)). pose proof (C90_stored_array_returned R ex_obj ex_hessian (fun _ => 1) [] 0 [5] [] st1 i [HChange 0%nat 3] E ltac:(cbn [length]; lia)) as K.
  cbv zeta in K. destruct K as (K1 & K2 & _). specialize (K2 ltac:(cbn [In]; intros m [Q|[]]; discriminate)).
  exists [HCall 0%nat (HTuple [5]) []; HChange 0%nat 3].
  change (hrun ex_obj ex_hessian (hstate_init (fun _ => 1)) [HCall 0%nat (HTuple [5]) []; HChange 0%nat 3]) with
    (hstep ex_obj ex_hessian (hstep ex_obj ex_hessian (hrun ex_obj ex_hessian (hstate_init (fun _ => 1)) []) (HCall 0%nat (HTuple [5]) [])) (HChange 0%nat 3)).
  cbn [hstep] in *. rewrite E. cbn [fst]. change (hrun ex_obj ex_hessian st1 [HChange 0%nat 3]) with (hstep ex_obj ex_hessian st1 (HChange 0%nat 3)) in *. cbn [hstep] in *.
  set (st2 := mk_hstate _ _ _) in *. destruct (calculate_hesse_matrix ex_obj ex_hessian st2 0 (HTuple [5]) []) as [st3 r] eqn:E3. cbn [fst snd] in K1, K2. subst r.
  exists st3, i. split; [reflexivity|].
  assert (F1 : h_fun st1 0%nat = 1). { unfold calculate_hesse_matrix in E. destruct (lru_call _ _ _ _). injection E as <- _. reflexivity. }
  assert (F3 : h_fun st3 0%nat = 3). { unfold calculate_hesse_matrix in E3. destruct (lru_call _ _ _ _). injection E3 as <- _. reflexivity. }
  destruct U as (m & M & F). rewrite F1 in F. apply ex_finds in F. subst m. rewrite M in K2. replace (2 * 1) with 2 in K2 by lra.
  split; [exact F3|]. split; [exact K2|]. intros (m & M' & F). rewrite F3 in F. apply ex_finds in F. rewrite K2 in M'. injection M' as <-. injection F. lra.
Qed.
Print Assumptions C90_stale_refuted.
