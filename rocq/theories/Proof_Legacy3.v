(** reset_parameters and update_parameters *)
From Coq Require Import Reals String ZArith Bool Arith List Lra Lia.
From Verif Require Import Model_Num Model_Hist Model_Utility Model_Template Model_World Model_Legacy
  Spec_Hist Spec_Matrix Spec_Template Spec_Nll Spec_Legacy Proof_Hist Proof_HistHeap Proof_LegacyHist Proof_World Proof_Route Proof_Legacy Proof_Legacy2.
Import ListNotations.
Local Open Scope R_scope.

Definition pview (w : gworld) (tm : ltmpl) : lparams :=
  mk_lparams (y_val (lt_yield tm)) (y_err (lt_yield tm)) (aread w (n_val (lt_nui tm))) (aread w (n_err (lt_nui tm))).
Lemma params_of_some w t tm : nth_error (g_tmpls w) t = Some tm -> params_of w t = Some (pview w tm).
Proof. unfold params_of, pview. intros ->. reflexivity. Qed.
Lemma aread_bufs w w' a : g_bufs w' = g_bufs w -> aread w' a = aread w a.
Proof. unfold aread. intros ->. reflexivity. Qed.
Lemma pview_bufs w w' tm : g_bufs w' = g_bufs w -> pview w' tm = pview w tm.
Proof. intros H. unfold pview. rewrite !(aread_bufs w w') by auto. reflexivity. Qed.
Lemma params_of_other w w' t : g_bufs w' = g_bufs w -> nth_error (g_tmpls w') t = nth_error (g_tmpls w) t -> params_of w' t = params_of w t.
Proof. intros B H. unfold params_of. rewrite H. destruct (nth_error (g_tmpls w) t); auto. rewrite !(aread_bufs w w') by auto. reflexivity. Qed.

(** parameters of a template right after its creation *)
Lemma lt_create_params w name var nb lim data ws t tm : nth_error (g_tmpls w) t = None ->
  nth_error (g_tmpls (fst (lt_create w name var nb lim data ws))) t = Some tm ->
  params_of (fst (lt_create w name var nb lim data ws)) t = Some (initial tm).
Proof.
  intros N H. apply nth_error_None in N. destruct (snd (lt_create w name var nb lim data ws)) as [t'|er] eqn:S.
  - destruct (lt_create_new _ _ _ _ _ _ _ _ S) as (tm' & n & c & e & ET & -> & _ & _ & _ & _ & _ & _ & _ & _ & _ & _ & PO).
    assert (t = length (g_tmpls w)). { assert (t < length (g_tmpls w ++ [tm']))%nat by (rewrite <- ET; apply nth_error_Some; congruence). rewrite app_length in H0. simpl in H0. lia. }
    subst t. rewrite ET, nth_error_app2, Nat.sub_diag in H by lia. injection H as ->. exact PO.
  - exfalso. assert (E : fst (lt_create w name var nb lim data ws) = w).
    { unfold lt_create in *. destruct (hist1_new _ _ _ _); [|reflexivity]. destruct (Nat.eqb _ _); [reflexivity|discriminate]. }
    rewrite E in H. apply nth_error_None in N. congruence.
Qed.
Lemma params_new_step inv w o t tm : nth_error (g_tmpls w) t = None -> nth_error (g_tmpls (fst (gstep inv w o))) t = Some tm ->
  params_of (fst (gstep inv w o)) t = Some (initial tm).
Proof.
  intros N H. pose proof (new_tmpl_step inv w o t tm H N) as O.
  assert (D : (exists n v nb lim d ws, o = GTemplate n v nb lim d ws) \/ (exists s i d ws, o = GCreateTemplate s i d ws)).
  { clear O. assert (X : length (g_tmpls (fst (gstep inv w o))) <> length (g_tmpls w)).
    { intros X. apply nth_error_None in N. rewrite <- X in N. apply nth_error_None in N. congruence. }
    destruct o; eauto 10; exfalso; apply X; apply tmpls_count; intros; discriminate. }
  destruct D as [(n & v & nb & lim & d & ws & ->)|(s & i & d & ws & ->)].
  - simpl gstep in *. pose proof (lt_create_params w n v nb lim d ws t tm N) as Q. destruct (lt_create _ _ _ _ _ _ _). auto.
  - simpl gstep in *. unfold ls_create_template in *. destruct (nth_error (g_stacks w) s) as [st|]; [|simpl in *; congruence].
    pose proof (lt_create_params w i (ls_var st) (Z.of_nat (ls_nb st)) (ls_limits st) d ws t tm N) as Q.
    destruct (lt_create _ _ _ _ _ _ _) as [w' [t'|er]]; cbn [fst] in *; auto.
Qed.

(** ** reset_parameters *)
Lemma reset_one inv w t tm : orig_ok w tm -> nth_error (g_tmpls w) t = Some tm ->
  params_of (fst (gstep inv w (GReset t))) t = Some (initial tm).
Proof.
  intros O E. simpl gstep. unfold on_tmpl. rewrite E. cbn [fst]. unfold params_of. simpl g_tmpls.
  rewrite upd_same by (apply nth_error_Some; congruence). f_equal. rewrite <- (reset_params w tm O). reflexivity.
Qed.
Lemma reset_one_others inv w t t' : t' <> t -> params_of (fst (gstep inv w (GReset t))) t' = params_of w t'.
Proof.
  intros N. simpl gstep. unfold on_tmpl. destruct (nth_error (g_tmpls w) t); [|reflexivity]. cbn [fst]. apply params_of_other; auto. simpl. apply upd_other. auto.
Qed.

(** a template reset any number of times is reset *)
Lemma set_each_reset ids vs ts t tm : length vs = length ids -> nth_error ts t = Some tm ->
  nth_error (set_each (fun _ : unit => lt_reset) ids vs ts) t = Some (if in_dec Nat.eq_dec t ids then lt_reset tm else tm).
Proof.
  revert vs ts tm. induction ids as [|i ids IH]; intros [|v vs] ts tm L E; try discriminate; simpl; auto.
  injection L as L. destruct (nth_error ts i) as [ti|] eqn:EI.
  - destruct (Nat.eq_dec i t) as [->|N].
    + assert (ti = tm) by congruence. subst ti. rewrite (IH vs _ (lt_reset tm)); auto.
      * destruct (in_dec _ _ _); reflexivity.
      * apply upd_same. apply nth_error_Some. congruence.
    + rewrite (IH vs _ tm); auto; [|now rewrite upd_other]. destruct (in_dec _ _ _); reflexivity.
  - destruct (Nat.eq_dec i t) as [->|N]; [congruence|]. rewrite (IH vs _ tm); auto. destruct (in_dec _ _ _); reflexivity.
Qed.
Lemma reset_container inv w s t tm : orig_ok w tm -> nth_error (g_tmpls w) t = Some tm ->
  ((exists k, member w s k t) -> params_of (fst (gstep inv w (GSReset s))) t = Some (initial tm)) /\
  (~ (exists k, member w s k t) -> params_of (fst (gstep inv w (GSReset s))) t = params_of w t).
Proof.
  intros O E. simpl gstep. unfold on_stack. unfold member. destruct (nth_error (g_stacks w) s) as [st|] eqn:S.
  2:{ split; [intros (k & st & H & _); discriminate|reflexivity]. }
  cbn [fst]. unfold ls_reset. set (ts := set_each _ _ _ _).
  assert (T : nth_error ts t = Some (if in_dec Nat.eq_dec t (ls_ids st) then lt_reset tm else tm)).
  { apply set_each_reset; auto. unfold ls_ids. now rewrite repeat_length, map_length. }
  split.
  - intros (k & st' & H & K). assert (st' = st) by congruence. subst st'. apply nth_error_In in K. fold (ls_ids st) in K.
    destruct (in_dec _ _ _) as [_|X] in T; [|contradiction]. unfold params_of. simpl g_tmpls. rewrite T. f_equal. rewrite <- (reset_params w tm O). reflexivity.
  - intros N. destruct (in_dec _ _ _) as [X|_] in T.
    + exfalso. apply N. apply In_nth_error in X as (k & X). exists k, st. auto.
    + apply params_of_other; auto. simpl. congruence.
Qed.

(** ** update_parameters *)
Lemma aread_ahead w a T : aread w (ahead T a) = firstn T (aread w a).
Proof.
  unfold aread, ahead; simpl. destruct (nth_error _ _); [|now rewrite firstn_nil]. unfold slice.
  replace (a_off a + Nat.min T (a_len a) - a_off a)%nat with (Nat.min T (a_len a)) by lia.
  replace (a_off a + a_len a - a_off a)%nat with (a_len a) by lia. now rewrite firstn_firstn.
Qed.
Lemma aread_length w a : aref_ok w a = true -> length (aread w a) = a_len a.
Proof.
  unfold aref_ok, aread. destruct (nth_error _ _); [|discriminate]. intros H. apply Nat.leb_le in H. unfold slice. rewrite firstn_length, skipn_length. lia.
Qed.
Lemma aread_part w a b off len : a_buf b = a_buf a -> a_off b = (a_off a + off)%nat -> a_len b = len -> (off + len <= a_len a)%nat ->
  aread w b = part off len (aread w a).
Proof.
  intros B O L H. unfold aread, part. rewrite B, O, L. destruct (nth_error _ _) as [l|]; [|now rewrite skipn_nil, firstn_nil]. unfold slice.
  rewrite skipn_firstn_comm, firstn_firstn, skipn_skipn. replace (off + a_off a)%nat with (a_off a + off)%nat by lia. f_equal. lia.
Qed.
Lemma asplit_ok a T m : (0 < T)%nat -> a_len a = (T * m)%nat ->
  asplit a T = Ok (map (fun j => mk_aref (a_buf a) (a_off a + j * m) m) (seq 0 T)).
Proof.
  intros H L. unfold asplit. destruct T as [|T]; [lia|]. rewrite L. replace (S T * m)%nat with (m * S T)%nat by lia.
  rewrite Nat.mod_mul, Nat.div_mul by lia. reflexivity.
Qed.
Lemma asplit_bad a T : (0 < T)%nat -> (a_len a mod T)%nat <> O -> asplit a T = Err ValueError.
Proof. intros H N. unfold asplit. destruct T; [lia|]. destruct (Nat.eqb_spec (a_len a mod S T) 0); [contradiction|reflexivity]. Qed.
Lemma map_seq_nth {A} (f : nat -> A) T k : (k < T)%nat -> nth_error (map f (seq 0 T)) k = Some (f k).
Proof. intros H. rewrite (map_nth_error f k (seq 0 T) (d := k)); auto. rewrite (nth_error_nth' _ O) by (rewrite seq_length; auto). now rewrite seq_nth. Qed.

(** the three stages as functions of a template *)
Section Update.
  Variables (inv : mat -> res mat) (w : gworld) (s : nat) (st : lstack) (x e : aref) (T m m' : nat).
  Hypothesis ST : nth_error (g_stacks w) s = Some st.
  Hypothesis LT : length (ls_dict st) = T.
  Hypothesis T0 : (0 < T)%nat.
  Hypothesis ND : NoDup (ls_ids st).
  Hypothesis OX : aref_ok w x = true.
  Hypothesis OE : aref_ok w e = true.

  Lemma ids_length : length (ls_ids st) = T. Proof. unfold ls_ids. now rewrite map_length. Qed.
  Lemma len_split n a : a_len a = (T + T * n)%nat -> asplit (atail T a) (length (ls_dict st)) =
    Ok (map (fun j => mk_aref (a_buf a) (a_off a + (T + j * n)) n) (seq 0 T)).
  Proof.
    intros L. rewrite LT, (asplit_ok _ T n); auto; unfold atail; simpl; rewrite L.
    - f_equal. apply map_ext. intros j. f_equal. lia.
    - lia.
  Qed.
  Lemma firstn_nth (l : list xr) k : (k < T)%nat -> (T <= length l)%nat -> nth_error (firstn T l) k = Some (nth k l NaN).
  Proof. intros K L. rewrite nth_firstn by auto. apply nth_error_nth'. lia. Qed.

  Lemma update_full : a_len x = (T + T * m)%nat -> a_len e = (T + T * m')%nat ->
    snd (gstep inv w (GUpdate s x e)) = Ok tt /\ g_bufs (fst (gstep inv w (GUpdate s x e))) = g_bufs w /\
    (forall k t tm, nth_error (ls_ids st) k = Some t -> nth_error (g_tmpls w) t = Some tm ->
       nth_error (g_tmpls (fst (gstep inv w (GUpdate s x e)))) t =
         Some (lt_set_nui_err (mk_aref (a_buf e) (a_off e + (T + k * m')) m')
                (lt_set_yield_err (nth k (aread w e) NaN)
                   (lt_set_nui (mk_aref (a_buf x) (a_off x + (T + k * m)) m) (lt_set_yield (nth k (aread w x) NaN) tm))))) /\
    (forall t, ~ In t (ls_ids st) -> nth_error (g_tmpls (fst (gstep inv w (GUpdate s x e)))) t = nth_error (g_tmpls w) t).
  Proof.
    intros LX LE. simpl gstep. rewrite OX, OE. unfold on_stack. rewrite ST. unfold ls_update; cbv zeta. rewrite LT.
    unfold ls_set_nuis. rewrite (len_split m x LX). unfold ls_set_nui_errs. rewrite (len_split m' e LE). cbn [fst snd].
    split; [reflexivity|]. split; [reflexivity|]. split.
    - intros k t tm K TM. assert (KT : (k < T)%nat) by (rewrite <- ids_length; apply nth_error_Some; congruence). simpl.
      rewrite !aread_ahead.
      apply (set_each_nth _ _ _ _ k t _ _ ND K).
      { rewrite map_seq_nth; auto. }
      apply (set_each_nth _ _ _ _ k t _ _ ND K).
      { match goal with |- nth_error (firstn T ?l) k = _ => replace l with (aread w e) by (symmetry; apply aread_bufs; reflexivity) end.
        apply firstn_nth; auto. rewrite aread_length; auto. lia. }
      apply (set_each_nth _ _ _ _ k t _ _ ND K).
      { rewrite map_seq_nth; auto. }
      apply (set_each_nth _ _ _ _ k t _ _ ND K); auto. apply firstn_nth; auto. rewrite aread_length; auto. lia.
    - intros t NI. simpl. rewrite !set_each_other by auto. reflexivity.
  Qed.

  Lemma update_params k t : a_len x = (T + T * m)%nat -> a_len e = (T + T * m')%nat ->
    nth_error (ls_ids st) k = Some t -> (exists tm, nth_error (g_tmpls w) t = Some tm) ->
    params_of (fst (gstep inv w (GUpdate s x e))) t =
      Some (mk_lparams (nth k (aread w x) NaN) (nth k (aread w e) NaN)
              (part (T + k * m) m (aread w x)) (part (T + k * m') m' (aread w e))).
  Proof.
    intros LX LE K (tm & TM). destruct (update_full LX LE) as (_ & B & U & _). rewrite (params_of_some _ _ _ (U k t tm K TM)). f_equal.
    assert (KT : (k < T)%nat) by (rewrite <- ids_length; apply nth_error_Some; congruence).
    unfold pview. simpl. f_equal; rewrite (aread_bufs w) by exact B; apply aread_part; auto; simpl; nia.
  Qed.

  (** a values array that cannot be split *)
  Lemma update_bad : (a_len x - Nat.min T (a_len x)) mod T <> O -> 
    snd (gstep inv w (GUpdate s x e)) = Err ValueError /\ g_bufs (fst (gstep inv w (GUpdate s x e))) = g_bufs w /\
    (forall k t tm, nth_error (ls_ids st) k = Some t -> nth_error (g_tmpls w) t = Some tm ->
       nth_error (g_tmpls (fst (gstep inv w (GUpdate s x e)))) t = Some (lt_set_yield (nth k (aread w x) NaN) tm)) /\
    (forall t, ~ In t (ls_ids st) -> nth_error (g_tmpls (fst (gstep inv w (GUpdate s x e)))) t = nth_error (g_tmpls w) t).
  Proof.
    intros LX.
    assert (TX : (T <= a_len x)%nat). { destruct (Nat.le_gt_cases T (a_len x)); auto. exfalso. apply LX. rewrite Nat.min_r, Nat.sub_diag by lia. apply Nat.mod_0_l. lia. }
    simpl gstep. rewrite OX, OE. unfold on_stack. rewrite ST. unfold ls_update; cbv zeta. rewrite LT.
    unfold ls_set_nuis. rewrite LT, (asplit_bad (atail T x)) by auto. cbn [fst snd].
    split; [reflexivity|]. split; [reflexivity|]. split.
    - intros k t tm K TM. assert (KT : (k < T)%nat) by (rewrite <- ids_length; apply nth_error_Some; congruence). simpl.
      rewrite !aread_ahead. apply (set_each_nth _ _ _ _ k t _ _ ND K); auto. apply firstn_nth; auto. rewrite aread_length; auto.
    - intros t NI. simpl. rewrite !set_each_other by auto. reflexivity.
  Qed.
End Update.

(** ** In-place writes *)
Lemma write_read w a b i j v : aref_ok w a = true -> aref_ok w b = true -> a_buf b = a_buf a -> (i < a_len a)%nat -> (j < a_len b)%nat ->
  (a_off b + j = a_off a + i)%nat -> nth_error (aread (fst (awrite w a i v)) b) j = Some v.
Proof.
  intros OA OB B I J E. unfold aref_ok in *. rewrite B in OB. unfold awrite, aread. destruct (nth_error (g_bufs w) (a_buf a)) as [l|] eqn:L; [|discriminate].
  apply Nat.leb_le in OA. apply Nat.leb_le in OB. destruct (Nat.ltb_spec i (a_len a)); [|lia]. simpl. rewrite B, upd_same by (apply nth_error_Some; congruence).
  unfold slice. rewrite nth_firstn, nth_skipn by lia. rewrite E. apply upd_same. lia.
Qed.
Lemma write_tmpls w a i v : g_tmpls (fst (awrite w a i v)) = g_tmpls w.
Proof. unfold awrite. destruct (nth_error _ _); [|reflexivity]. destruct (Nat.ltb _ _); reflexivity. Qed.
