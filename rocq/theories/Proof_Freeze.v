(** Evaluation with arbitrary caches: every evaluation uses the cached value or computes it, and with at
    most 128 channel objects no value that is still needed is evicted. *)
From Coq Require Import Reals String ZArith Bool Arith List Lra Lia.
From Verif Require Import Model_Num Model_Hist Model_Utility Model_Template Model_World Model_Ops
  Spec_Matrix Spec_World Proof_Hist Proof_Matrix Proof_Template Proof_HistHeap Proof_Monad Proof_World Proof_Eval.
Import ListNotations.
Local Open Scope R_scope.

(** ** The least recently used cache, split into a recent part and an old one *)
Section Lru.
  Context {K V : Type} (eqb : K -> K -> bool) (eqb_eq : forall a b, eqb a b = true <-> a = b).
  Lemma eqb_rf k : eqb k k = true. Proof. now apply eqb_eq. Qed.
  Lemma dget_app (a b : list (K * V)) k : dget eqb (a ++ b) k = match dget eqb a k with Some v => Some v | None => dget eqb b k end.
  Proof. induction a as [|[k' v] a IH]; simpl; auto. destruct (eqb k k'); auto. Qed.
  Lemma dget_none (a : list (K * V)) k : dget eqb a k = None <-> ~ In k (map fst a).
  Proof.
    induction a as [|[k' v] a IH]; simpl; [tauto|]. destruct (eqb k k') eqn:E.
    - apply eqb_eq in E as ->. split; [discriminate|tauto].
    - rewrite IH. assert (k' <> k) by (intros ->; rewrite eqb_rf in E; discriminate). tauto.
  Qed.
  Lemma del_app_l (a b : list (K * V)) k : In k (map fst a) -> lru_del eqb (a ++ b) k = lru_del eqb a k ++ b.
  Proof.
    induction a as [|[k' v] a IH]; simpl; [tauto|]. destruct (eqb k k') eqn:E; auto. intros [->|H]; [rewrite eqb_rf in E; discriminate|].
    simpl. now rewrite IH.
  Qed.
  Lemma del_keys (a : list (K * V)) k : incl (map fst (lru_del eqb a k)) (map fst a).
  Proof. induction a as [|[k' v] a IH]; simpl; [apply incl_refl|]. destruct (eqb k k'); [apply incl_tl, incl_refl|]. simpl. intros x [<-|H]; simpl; auto. Qed.
  Lemma del_nodup (a : list (K * V)) k : NoDup (map fst a) -> NoDup (map fst (lru_del eqb a k)) /\ ~ In k (map fst (lru_del eqb a k)).
  Proof.
    induction a as [|[k' v] a IH]; simpl; intros N; [split; [constructor|tauto]|]. inversion N as [|? ? N1 N2]; subst. destruct (eqb k k') eqn:E.
    - apply eqb_eq in E as ->. auto.
    - destruct (IH N2) as (A & B). simpl. split.
      + constructor; auto. intros H. apply N1. now apply (del_keys a k).
      + intros [->|H]; [rewrite eqb_rf in E; discriminate|tauto].
  Qed.
  Lemma dget_del (a : list (K * V)) k k' : k <> k' -> dget eqb (lru_del eqb a k) k' = dget eqb a k'.
  Proof.
    intros N. induction a as [|[k1 v] a IH]; simpl; auto. destruct (eqb k k1) eqn:E; simpl.
    - apply eqb_eq in E as ->. destruct (eqb k' k1) eqn:E2; auto. apply eqb_eq in E2. congruence.
    - destruct (eqb k' k1); auto.
  Qed.
  Definition hit (c : list (K * V)) (k : K) (compute : res V) : res V := match dget eqb c k with Some v => Ok v | None => compute end.

  Lemma lru_seg (rel : K -> Prop) a b k compute : NoDup (map fst a) -> (forall k', In k' (map fst b) -> ~ rel k') -> rel k ->
    (~ In k (map fst a) -> length a < lru_maxsize)%nat ->
    exists a' b', lru_call eqb (a ++ b) k compute = (a' ++ b', hit (a ++ b) k compute) /\
      NoDup (map fst a') /\ incl (map fst a') (k :: map fst a) /\ incl (map fst b') (map fst b) /\
      (forall k', rel k' -> dget eqb (a' ++ b') k' = if eqb k k' then (match hit (a ++ b) k compute with Ok v => Some v | Err _ => None end) else dget eqb (a ++ b) k').
  Proof.
    intros N NB RK LA. unfold lru_call, hit.
    assert (DB : forall k', rel k' -> dget eqb b k' = None) by (intros k' R; apply dget_none; intros H; exact (NB _ H R)).
    destruct (dget eqb (a ++ b) k) as [v|] eqn:D.
    - assert (IA : In k (map fst a)).
      { rewrite dget_app, (DB k RK) in D. destruct (dget eqb a k) eqn:D'; [|discriminate]. destruct (in_dec (fun x y => match bool_dec (eqb x y) true with left e => left (proj1 (eqb_eq x y) e) | right ne => right (fun e => ne (proj2 (eqb_eq x y) e)) end) k (map fst a)) as [H|H]; auto. apply dget_none in H. congruence. }
      exists ((k, v) :: lru_del eqb a k), b. rewrite del_app_l by auto. split; [reflexivity|]. destruct (del_nodup a k N) as (N1 & N2). simpl. split; [constructor; auto|].
      split; [intros x [<-|H]; [now left|right; now apply (del_keys a k)]|]. split; [apply incl_refl|].
      intros k' R. destruct (eqb k' k) eqn:E.
      + apply eqb_eq in E as ->. now rewrite eqb_rf.
      + destruct (eqb k k') eqn:E'; [apply eqb_eq in E' as ->; rewrite eqb_rf in E; discriminate|]. rewrite !dget_app, dget_del; auto.
        intros ->. rewrite eqb_rf in E. discriminate.
    - destruct compute as [v|e].
      + assert (IA : ~ In k (map fst a)). { rewrite dget_app in D. apply dget_none. destruct (dget eqb a k); congruence. }
        specialize (LA IA). exists ((k, v) :: a), (firstn (lru_maxsize - S (length a)) b). split.
        { f_equal. change ((k, v) :: a ++ b) with (((k, v) :: a) ++ b). rewrite firstn_app, firstn_all2 by (simpl; lia). reflexivity. }
        split; [simpl; constructor; auto|]. split; [simpl; apply incl_refl|].
        split; [intros y H; apply in_map_iff in H as (q & <- & H); apply in_map; now apply firstn_in in H|].
        intros k' R. cbn [app dget]. destruct (eqb k' k) eqn:E.
        * apply eqb_eq in E as ->. now rewrite eqb_rf.
        * destruct (eqb k k') eqn:E'; [apply eqb_eq in E' as ->; rewrite eqb_rf in E; discriminate|]. rewrite !dget_app, (DB k' R).
          assert (Z : dget eqb (firstn (lru_maxsize - S (length a)) b) k' = None).
          { apply dget_none. intros H. apply (NB k'); auto. apply in_map_iff in H as (q & <- & H). apply in_map. now apply firstn_in in H. }
          now rewrite Z.
      + exists a, b. split; [reflexivity|]. split; auto. split; [apply incl_tl, incl_refl|]. split; [apply incl_refl|].
        intros k' R. destruct (eqb k k') eqn:E'; auto. apply eqb_eq in E' as <-. exact D.
  Qed.
End Lru.

Lemma nodup_bound (l : list nat) n : NoDup l -> (forall k, In k l -> (k < n)%nat) -> (length l <= n)%nat.
Proof. intros N B. rewrite <- (seq_length n 0). apply NoDup_incl_length; auto. intros k H. apply in_seq. specialize (B k H). lia. Qed.
Lemma nodup_room (l : list nat) n k : NoDup l -> (forall j, In j l -> (j < n)%nat) -> (k < n)%nat -> ~ In k l -> (length l < n)%nat.
Proof. intros N B K NI. apply (nodup_bound (k :: l) n); [constructor; auto|]. intros j [<-|H]; auto. Qed.

(** ** The caches of a world *)
Record CI (w : world) : Prop := {
  ci_eff : NoDup (map fst (w_cache_eff w)) /\ forall k, In k (map fst (w_cache_eff w)) -> (k < length (w_chans w))%nat;
  ci_inv : NoDup (map fst (w_cache_inv w)) /\ forall k, In k (map fst (w_cache_inv w)) -> (k < length (w_chans w))%nat;
  ci_pi : exists a b, w_cache_pi w = a ++ b /\ NoDup (map fst a) /\
     (forall k, In k (map fst a) -> snd k = w_procs w /\ (fst k < length (w_chans w))%nat) /\
     (forall k, In k (map fst b) -> (length (snd k) < length (w_procs w))%nat) }.

(** what an evaluation would use now *)
Definition pi_now (w : world) (cid : nat) : res (list nat) :=
  c <- oget (w_chans w) cid ;; hit pi_key_eqb (w_cache_pi w) (cid, w_procs w) (pi_res (w_procs w) c).
Definition eff_now (w : world) (cid : nat) : res (list xr) :=
  c <- oget (w_chans w) cid ;; hit Nat.eqb (w_cache_eff w) cid (Ok (eff_vec c)).
Definition inv_now (w : world) (cid : nat) : res mat :=
  c <- oget (w_chans w) cid ;; ts <- mapr (fun p => oget (w_tmpls w) (snd p)) (c_tmpls c) ;;
  hit Nat.eqb (w_cache_inv w) cid (match ts with [] => Err OutOfModel | _ => Ok (block_diag (map t_inv ts)) end).

Record NOW (w w' : world) : Prop := {
  now_pi : forall cid, pi_now w' cid = pi_now w cid;
  now_eff : forall cid, eff_now w' cid = eff_now w cid;
  now_inv : forall cid, inv_now w' cid = inv_now w cid }.
Lemma NOW_refl w : NOW w w. Proof. constructor; auto. Qed.
Lemma NOW_trans a b c : NOW a b -> NOW b c -> NOW a c. Proof. intros [] []. constructor; intros; congruence. Qed.

(** cached matrices and efficiencies stay *)
Definition KEEP (w w' : world) : Prop :=
  (forall cid m, dget Nat.eqb (w_cache_inv w) cid = Some m -> dget Nat.eqb (w_cache_inv w') cid = Some m) /\
  (forall cid m, dget Nat.eqb (w_cache_eff w) cid = Some m -> dget Nat.eqb (w_cache_eff w') cid = Some m).
Lemma KEEP_refl w : KEEP w w. Proof. split; auto. Qed.
Lemma KEEP_trans a b c : KEEP a b -> KEEP b c -> KEEP a c. Proof. intros [] []. split; auto. Qed.
Global Hint Resolve KEEP_refl : core.

(** m run in any state that differs from w in the caches only and would use the same values returns r *)
Definition pureN {A} (w : world) (m : M A) (r : res A) : Prop :=
  forall w', core_eq w w' -> CI w' -> NOW w w' -> exists w'', m w' = (w'', r) /\ core_eq w w'' /\ CI w'' /\ NOW w w'' /\ KEEP w' w''.
Lemma pn_ret {A} w (a : A) : pureN w (ret a) (Ok a). Proof. intros w' C I N. exists w'. auto. Qed.
Lemma pn_raise {A} w e : pureN w (@raise A e) (Err e). Proof. intros w' C I N. exists w'. auto. Qed.
Lemma pn_lift {A} w (r : res A) : pureN w (lift r) r. Proof. intros w' C I N. exists w'. auto. Qed.
Lemma pn_gets {A} w (f : world -> A) : (forall w', core_eq w w' -> f w' = f w) -> pureN w (gets f) (Ok (f w)).
Proof. intros E w' C I N. exists w'. unfold gets. rewrite E; auto. Qed.
Lemma pn_read {A} w (f : world -> res A) : (forall w', core_eq w w' -> f w' = f w) -> pureN w (fun w => (w, f w)) (f w).
Proof. intros E w' C I N. exists w'. rewrite E; auto. Qed.
Lemma pn_get_hist w i : pureN w (get_hist i) (oget (w_hists w) i).
Proof. intros w' C I N. exists w'. unfold get_hist. rewrite (ce_hists _ _ C). auto. Qed.
Lemma pn_get_tmpl w i : pureN w (get_tmpl i) (oget (w_tmpls w) i).
Proof. intros w' C I N. exists w'. unfold get_tmpl. rewrite (ce_tmpls _ _ C). auto. Qed.
Lemma pn_get_chan w i : pureN w (get_chan i) (oget (w_chans w) i).
Proof. intros w' C I N. exists w'. unfold get_chan. rewrite (ce_chans _ _ C). auto. Qed.
Lemma pn_bind {A B} w (m : M A) (k : A -> M B) r rk :
  pureN w m r -> (forall a, r = Ok a -> pureN w (k a) (rk a)) -> pureN w (bind m k) (rbind r rk).
Proof.
  intros Hm Hk w' C I N. destruct (Hm w' C I N) as (w1 & E & C1 & I1 & N1 & K1). unfold bind. rewrite E.
  destruct r as [a|e]; simpl; eauto 8. destruct (Hk a eq_refl w1 C1 I1 N1) as (w2 & E2 & C2 & I2 & N2 & K2). exists w2. eauto 8 using KEEP_trans.
Qed.
Lemma pn_mapM {A B} w (f : A -> M B) g l : (forall a, In a l -> pureN w (f a) (g a)) -> pureN w (mapM f l) (mapr g l).
Proof.
  intros H. induction l as [|a l IH]; simpl; [apply pn_ret|].
  apply pn_bind; [apply H; left; auto|]. intros b _. apply pn_bind; [apply IH; intros; apply H; right; auto|].
  intros bs _. apply pn_ret.
Qed.
Lemma pn_ext {A} w (m : M A) r r' : r = r' -> pureN w m r -> pureN w m r'. Proof. intros ->; auto. Qed.

Definition small (w : world) : Prop := (length (w_chans w) <= lru_maxsize)%nat.

Lemma oget_lt {A} (l : list A) i a : oget l i = Ok a -> (i < length l)%nat.
Proof. unfold oget. destruct (nth_error l i) eqn:E; [|discriminate]. intros _. apply nth_error_Some. congruence. Qed.

Lemma core_NOW_inv w w' cache cid c ts : core_eq w w' -> NOW w w' ->
  oget (w_chans w) cid = Ok c -> mapr (fun p => oget (w_tmpls w) (snd p)) (c_tmpls c) = Ok ts ->
  let cmp := (match ts with [] => Err OutOfModel | _ => Ok (block_diag (map t_inv ts)) end) in
  (forall k', dget Nat.eqb cache k' = if Nat.eqb cid k' then (match hit Nat.eqb (w_cache_inv w') cid cmp with Ok v => Some v | Err _ => None end) else dget Nat.eqb (w_cache_inv w') k') ->
  NOW w (set_cache_inv w' cache).
Proof.
  intros C N OC TS cmp D. destruct N as [A B E]. constructor; intros k; [exact (A k)|exact (B k)|]. rewrite <- E.
  unfold inv_now. cbn [w_chans w_tmpls w_cache_inv set_cache_inv].
  destruct (oget (w_chans w') k) as [c'|] eqn:OK; auto. cbn [rbind]. destruct (mapr _ (c_tmpls c')) as [ts'|] eqn:TS'; auto. cbn [rbind].
  unfold hit at 1. rewrite D. destruct (Nat.eqb_spec cid k) as [<-|NE]; [|reflexivity].
  rewrite (ce_chans _ _ C) in OK. assert (c' = c) by congruence. subst c'. rewrite (ce_tmpls _ _ C), TS in TS'. injection TS' as <-. fold cmp.
  unfold hit at 1. destruct (dget Nat.eqb (w_cache_inv w') cid) as [v|] eqn:DG; [unfold hit; now rewrite DG|].
  unfold hit. rewrite DG. destruct cmp; reflexivity.
Qed.

Lemma pn_process_indices w cid : small w -> pureN w (process_indices cid (w_procs w)) (pi_now w cid).
Proof.
  intros S. unfold process_indices, pi_now. apply pn_bind; [apply pn_get_chan|]. intros c Hc w' C I N.
  fold (pi_res (w_procs w) c). pose proof (oget_lt _ _ _ Hc) as LT.
  destruct (ci_pi w' I) as (a & b & EC & ND & RA & OB). rewrite (ce_procs _ _ C) in RA, OB. rewrite (ce_chans _ _ C) in RA.
  destruct (lru_seg pi_key_eqb pi_key_eqb_eq (fun k => snd k = w_procs w) a b (cid, w_procs w) (pi_res (w_procs w) c)) as (a' & b' & E & N' & IA & IB & D); auto.
  { intros k' H R. specialize (OB _ H). rewrite R in OB. lia. }
  { intros NI. unfold small in S. rewrite <- (map_length fst), <- (map_length fst).
    enough (length (map fst (map fst a)) < length (w_chans w))%nat by lia. apply (nodup_room _ _ cid); auto.
    - clear -ND RA. induction a as [|q a IH]; simpl in *; [constructor|]. inversion ND as [|? ? N1 N2]; subst. constructor; [|apply IH; auto].
      intros H. apply in_map_iff in H as (k & E & H). apply N1. destruct (RA (fst q) (or_introl eq_refl)) as (Q & _). destruct (RA k (or_intror H)) as (Q' & _).
      destruct (fst q), k. simpl in *. congruence.
    - intros j H. apply in_map_iff in H as (k & <- & H). now apply RA.
    - intros H. apply in_map_iff in H as (k & E & H). apply NI. destruct (RA k H) as (Q & _). destruct k; simpl in *. now subst. }
  assert (HH : hit pi_key_eqb (w_cache_pi w') (cid, w_procs w) (pi_res (w_procs w) c) = hit pi_key_eqb (w_cache_pi w) (cid, w_procs w) (pi_res (w_procs w) c)).
  { pose proof (now_pi _ _ N cid) as X. unfold pi_now in X. rewrite (ce_chans _ _ C), (ce_procs _ _ C), Hc in X. exact X. }
  rewrite <- EC in E, D. rewrite E, HH. eexists. split; [reflexivity|]. split; [|split; [|split; [|split; auto]]].
  - eapply core_trans; eauto. constructor; auto.
  - destruct I. constructor; cbn [w_cache_eff w_cache_inv w_cache_pi w_chans w_procs set_cache_pi]; auto. exists a', b'. split; [reflexivity|]. split; auto. split.
    + rewrite (ce_procs _ _ C), (ce_chans _ _ C). intros k H. apply IA in H as [<-|H]; auto.
    + rewrite (ce_procs _ _ C). intros k H. apply IB in H. auto.
  - destruct N as [A B F]. constructor; intros k; [|exact (B k)|exact (F k)]. rewrite <- A. unfold pi_now.
    cbn [w_chans w_procs w_cache_pi set_cache_pi]. destruct (oget (w_chans w') k) as [c'|] eqn:OK; auto. cbn [rbind].
    rewrite (ce_procs _ _ C). unfold hit at 1. rewrite D by reflexivity.
    destruct (pi_key_eqb (cid, w_procs w) (k, w_procs w)) eqn:EK; [|reflexivity]. apply pi_key_eqb_eq in EK. injection EK as <-.
    rewrite (ce_chans _ _ C) in OK. assert (c' = c) by congruence. subst c'. unfold hit.
    destruct (dget pi_key_eqb (w_cache_pi w') (cid, w_procs w)); auto. destruct (pi_res (w_procs w) c); reflexivity.
Qed.

Lemma pn_effs w cid : small w -> pureN w (efficiencies_as_array cid) (eff_now w cid).
Proof.
  intros S. unfold efficiencies_as_array, eff_now. apply pn_bind; [apply pn_get_chan|]. intros c Hc w' C I N.
  fold (eff_vec c). pose proof (oget_lt _ _ _ Hc) as LT. destruct (ci_eff w' I) as (ND & RA). rewrite (ce_chans _ _ C) in RA.
  destruct (lru_seg Nat.eqb Nat.eqb_eq (fun _ => True) (w_cache_eff w') [] cid (Ok (eff_vec c))) as (a' & b' & E & N' & IA & IB & D); auto.
  { intros NI. unfold small in S. pose proof (nodup_room _ _ cid ND RA LT NI). rewrite map_length in H. lia. }
  assert (b' = []). { destruct b' as [|q b']; auto. destruct (IB (fst q)). now left. } subst b'. rewrite app_nil_r in E, D. rewrite app_nil_r in E, D.
  assert (HH : hit Nat.eqb (w_cache_eff w') cid (Ok (eff_vec c)) = hit Nat.eqb (w_cache_eff w) cid (Ok (eff_vec c))).
  { pose proof (now_eff _ _ N cid) as X. unfold eff_now in X. rewrite (ce_chans _ _ C), Hc in X. exact X. }
  rewrite E, HH. eexists. split; [reflexivity|]. split; [|split; [|split; [|split; [auto|]; intros k m DM; simpl; rewrite D by auto; destruct (Nat.eqb_spec cid k) as [<-|]; [unfold hit; now rewrite DM|exact DM]]]].
  - eapply core_trans; eauto. constructor; auto.
  - destruct I. constructor; cbn [w_cache_eff w_cache_inv w_cache_pi w_chans w_procs set_cache_eff]; auto. split; auto. rewrite (ce_chans _ _ C). intros k H. apply IA in H as [<-|H]; auto.
  - destruct N as [A B F]. constructor; intros k; [exact (A k)| |exact (F k)]. rewrite <- B. unfold eff_now.
    cbn [w_chans w_cache_eff set_cache_eff]. destruct (oget (w_chans w') k) as [c'|] eqn:OK; auto. cbn [rbind].
    unfold hit at 1. rewrite D by reflexivity.
    destruct (Nat.eqb_spec cid k) as [<-|]; [|reflexivity].
    rewrite (ce_chans _ _ C) in OK. assert (c' = c) by congruence. subst c'. unfold hit.
    destruct (dget Nat.eqb (w_cache_eff w') cid); reflexivity.
Qed.

Lemma pn_inv w cid : small w -> pureN w (block_diag_inv_corr_mat cid) (inv_now w cid).
Proof.
  intros S. unfold block_diag_inv_corr_mat, inv_now. apply pn_bind; [apply pn_get_chan|]. intros c Hc.
  apply pn_bind; [apply pn_mapM; intros; apply pn_get_tmpl|]. intros ts Hts w' C I N.
  pose proof (oget_lt _ _ _ Hc) as LT. destruct (ci_inv w' I) as (ND & RA). rewrite (ce_chans _ _ C) in RA.
  set (cmp := match ts with [] => Err OutOfModel | _ => Ok (block_diag (map t_inv ts)) end).
  destruct (lru_seg Nat.eqb Nat.eqb_eq (fun _ => True) (w_cache_inv w') [] cid cmp) as (a' & b' & E & N' & IA & IB & D); auto.
  { intros NI. unfold small in S. pose proof (nodup_room _ _ cid ND RA LT NI). rewrite map_length in H. lia. }
  assert (b' = []). { destruct b' as [|q b']; auto. destruct (IB (fst q)). now left. } subst b'. rewrite app_nil_r in E, D. rewrite app_nil_r in E, D.
  assert (HH : hit Nat.eqb (w_cache_inv w') cid cmp = hit Nat.eqb (w_cache_inv w) cid cmp).
  { pose proof (now_inv _ _ N cid) as X. unfold inv_now in X. rewrite (ce_chans _ _ C), (ce_tmpls _ _ C), Hc in X. cbn [rbind] in X. rewrite Hts in X. exact X. }
  rewrite E, HH. eexists. split; [reflexivity|]. split; [|split; [|split; [|split; [|auto]; intros k m DM; simpl; rewrite D by auto; destruct (Nat.eqb_spec cid k) as [<-|]; [unfold hit; now rewrite DM|exact DM]]]].
  - eapply core_trans; eauto. constructor; auto.
  - destruct I. constructor; cbn [w_cache_eff w_cache_inv w_cache_pi w_chans w_procs set_cache_inv]; auto. split; auto. rewrite (ce_chans _ _ C). intros k H. apply IA in H as [<-|H]; auto.
  - eapply core_NOW_inv; eauto.
Qed.

(** ** The values of the methods *)
Section Now.
  Variable w : world.
  Definition per_channel_now (x : list xr) : res (list (list xr) * list (list xr)) :=
    ys <- mapr (fun cid => idx <- pi_now w cid ;; np_take (firstn (length (w_procs w)) x) idx) (map snd (w_channels w)) ;;
    Ok (ys, np_split_at (slice (length (w_procs w)) (mct_num_nui w + length (w_procs w)) x)
              (removelast (np_cumsum (map ch_num_nui (mct_chans w))))).
  Definition expected_now (cid : nat) (yields nui : list xr) : res (list xr) :=
    e <- eff_now w cid ;; ye <- bcast xmul yields e ;; c <- oget (w_chans w) cid ;; fr <- fractions_res w c nui ;; np_vecmat ye fr.
  Definition gauss_now (cid : nat) (nui : list xr) : res xr :=
    m <- inv_now w cid ;; v <- np_vecmat nui m ;; s <- np_dot v nui ;; Ok (xmul (Fin (1/2)) s).
  Definition contribution_now (cid : nat) (y nui : list xr) : res xr :=
    c <- oget (w_chans w) cid ;;
    match c_data c with
    | None => Err AttributeError
    | Some hid =>
        h <- oget (w_hists w) hid ;;
        e <- expected_now cid y nui ;;
        d <- bcast xsub e (nd_flat (h_counts h)) ;;
        l <- bcast xlogyx (nd_flat (h_counts h)) e ;;
        p <- bcast xsub d l ;;
        g <- gauss_now cid nui ;;
        Ok (xadd (np_sum p) g)
    end.
  Definition nll_now (x : list xr) : res xr :=
    yn <- per_channel_now x ;;
    contribs <- mapr (fun q => contribution_now (fst q) (fst (snd q)) (snd (snd q)))
                     (combine (map snd (w_channels w)) (combine (fst yn) (snd yn))) ;;
    terms <- mapr (constraint_term w x) (w_cnames w) ;;
    Ok (fold_left xadd (contribs ++ terms) (Fin 0)).

  Hypothesis S : small w.
  Lemma pn_per_channel x : pureN w (generate_per_channel_parameters x) (per_channel_now x).
  Proof.
    unfold generate_per_channel_parameters, per_channel_now.
    eapply pn_ext; [|eapply pn_bind; [apply (pn_gets w (fun w => length (w_procs w))); intros w' C; now rewrite (ce_procs _ _ C)|intros np Hnp]].
    2:{ eapply pn_bind; [apply (pn_gets w mct_num_nui); intros w' C; unfold mct_num_nui; now rewrite (core_mct_chans _ _ C)|intros nn Hnn].
        eapply pn_bind; [apply (pn_gets w w_procs); intros w' C; now rewrite (ce_procs _ _ C)|intros procs Hp].
        eapply pn_bind; [apply (pn_gets w (fun w => map snd (w_channels w))); intros w' C; now rewrite (ce_channels _ _ C)|intros chs Hchs].
        eapply pn_bind; [apply (pn_mapM w _ (fun cid => idx <- pi_now w cid ;; np_take (firstn np x) idx)); intros cid _; apply (pn_bind w _ _ (pi_now w cid) (fun idx => np_take (firstn np x) idx)); [assert (PP : procs = w_procs w) by congruence; rewrite PP; apply (pn_process_indices w cid S)|intros; apply pn_lift]|intros ys Hys].
        eapply pn_bind; [apply (pn_gets w (fun w => map ch_num_nui (mct_chans w))); intros w' C; now rewrite (core_mct_chans _ _ C)|intros sizes Hs].
        apply pn_ret. }
    reflexivity.
  Qed.
  Lemma pn_fractions cid nui : pureN w (ch_fractions cid nui) (c <- oget (w_chans w) cid ;; fractions_res w c nui).
  Proof.
    unfold ch_fractions, fractions_res. eapply pn_bind; [apply pn_get_chan|intros c Hc].
    eapply pn_bind; [apply pn_lift|intros ns Hns]. apply pn_mapM. intros q _. eapply pn_bind; [apply pn_get_tmpl|intros; apply pn_lift].
  Qed.
  Lemma pn_expected cid y nui : pureN w (expected_evts_per_bin cid y nui) (expected_now cid y nui).
  Proof.
    unfold expected_evts_per_bin, expected_now.
    eapply pn_ext; [|eapply pn_bind; [apply (pn_effs w cid S)|intros effs He];
      eapply pn_bind; [apply pn_lift|intros ye Hy]; eapply pn_bind; [apply pn_fractions|intros fr Hf]; apply pn_lift].
    destruct (eff_now w cid); auto. cbn [rbind]. destruct (bcast _ _ _); auto. cbn [rbind]. destruct (oget (w_chans w) cid); reflexivity.
  Qed.
  Lemma pn_gauss cid nui : pureN w (gauss_term cid nui) (gauss_now cid nui).
  Proof.
    unfold gauss_term, gauss_now. eapply pn_bind; [apply (pn_inv w cid S)|intros m Hm]; eapply pn_bind; [apply pn_lift|intros v Hv];
      eapply pn_bind; [apply pn_lift|intros s Hs]; apply pn_ret.
  Qed.
  Lemma pn_contribution cid y nui : pureN w (nll_contribution cid y nui) (contribution_now cid y nui).
  Proof.
    unfold nll_contribution, contribution_now. eapply pn_bind; [apply pn_get_chan|intros c Hc].
    destruct (c_data c); [|apply pn_raise]. eapply pn_bind; [apply pn_get_hist|intros h Hh].
    eapply pn_bind; [apply pn_expected|intros e He]; eapply pn_bind; [apply pn_lift|intros d Hd];
      eapply pn_bind; [apply pn_lift|intros l Hl]; eapply pn_bind; [apply pn_lift|intros p Hp];
      eapply pn_bind; [apply pn_gauss|intros g Hg]; apply pn_ret.
  Qed.
  Theorem pn_nll x : pureN w (nll x) (nll_now x).
  Proof.
    unfold nll, nll_now. eapply pn_bind; [apply pn_per_channel|intros yn Hyn].
    eapply pn_ext; [|eapply pn_bind; [apply (pn_gets w (fun w => map snd (w_channels w))); intros w' C; now rewrite (ce_channels _ _ C)|intros chs Hchs];
       eapply pn_bind; [apply pn_mapM; intros q _; apply pn_contribution|intros contribs Hc];
       eapply pn_bind; [apply (pn_gets w w_cnames); intros w' C; now rewrite (ce_cnames _ _ C)|intros names Hn];
       eapply pn_bind; [apply pn_mapM; intros p _; apply (pn_read w (fun w => constraint_term w x p)); intros w' C; now apply core_constraint|intros terms Ht];
       apply pn_ret].
    reflexivity.
  Qed.
End Now.
