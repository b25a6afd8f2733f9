(** Proofs about Model_LegacyBuf. *)
From Coq Require Import Reals ZArith Bool Arith List Lra Lia.
From Verif Require Import Model_Num Model_Hist Model_HistHeap Model_LegacyHist Model_LegacyBuf Spec_LegacyHist Spec_LegacyBuf Proof_HistHeap.
Import ListNotations.
Local Open Scope R_scope.

Lemma read_write s a v : (a < length (lb_bufs s))%nat -> lb_read (lb_write s a v) a = v.
Proof. intros H. unfold lb_read, lb_write. cbn [lb_bufs]. apply nth_error_nth. now apply upd_same. Qed.
Lemma read_write_other s a b v : a <> b -> lb_read (lb_write s a v) b = lb_read s b.
Proof.
  intros H. unfold lb_read, lb_write. cbn [lb_bufs]. assert (E : nth_error (upd a v (lb_bufs s)) b = nth_error (lb_bufs s) b) by (now apply upd_other).
  destruct (nth_error (lb_bufs s) b) as [x|] eqn:N.
  - rewrite (nth_error_nth _ _ _ E), (nth_error_nth _ _ _ N). reflexivity.
  - apply nth_error_None in N. rewrite !nth_overflow; auto. now rewrite upd_length.
Qed.
Lemma len_write s a v : length (lb_bufs (lb_write s a v)) = length (lb_bufs s). Proof. apply upd_length. Qed.
Lemma read_app s l a o r : (a < length (lb_bufs s))%nat -> lb_read (mk_lbst (lb_bufs s ++ l) o r) a = lb_read s a.
Proof. intros H. unfold lb_read. cbn [lb_bufs]. now rewrite app_nth1. Qed.

(** what a fill or an in-place addition may change *)
Record chg (A : list nat) (s s' : lbst) : Prop := {
  ch_objs : lb_objs s' = lb_objs s; ch_arrs : lb_arrs s' = lb_arrs s; ch_len : length (lb_bufs s') = length (lb_bufs s);
  ch_read : forall b, ~ In b A -> lb_read s' b = lb_read s b }.
Lemma chg_refl A s : chg A s s. Proof. constructor; auto. Qed.
Lemma chg_trans A s1 s2 s3 : chg A s1 s2 -> chg A s2 s3 -> chg A s1 s3.
Proof. intros [] []. constructor; try congruence. intros b H. rewrite ch_read1, ch_read0; auto. Qed.
Lemma chg_write A s a v : In a A -> chg A s (lb_write s a v).
Proof. intros H. constructor; auto; [apply len_write|]. intros b N. apply read_write_other. intros ->. contradiction. Qed.
Lemma chg_iadd A a st s : In a A -> chg A s (fst (lb_iadd a st s)).
Proof. intros H. unfold lb_iadd. destruct (v <- st ;; np_iadd _ v); [now apply chg_write|apply chg_refl]. Qed.
Lemma chg_seq A s p k : chg A s (fst p) -> (forall s', chg A s s' -> chg A s (fst (k s'))) -> chg A s (fst (lb_seq p k)).
Proof. intros P K. unfold lb_seq. destruct p as (s' & [u|e]); [now apply K|exact P]. Qed.
Lemma in_counts o : In (lb_counts o) (lb_addrs o). Proof. now left. Qed.
Lemma in_errs o : In (lb_errs o) (lb_addrs o). Proof. right. now left. Qed.
Lemma in_entries o a : lb_entries o = Some a -> In a (lb_addrs o). Proof. unfold lb_addrs. intros ->. right. right. now left. Qed.
Lemma chg_fill o d w s : chg (lb_addrs o) s (fst (lb_fill o d w s)).
Proof.
  unfold lb_fill. destruct (lb_edge_vals s (lb_edges o)) as [es|]; [|apply chg_refl]. destruct (match lb_entries o with Some _ => _ | None => false end); [apply chg_refl|].
  apply chg_seq; [apply chg_iadd, in_counts|intros s1 C1]. apply chg_seq.
  - destruct (lb_entries o) as [a|] eqn:E; [|exact C1]. eapply chg_trans; [exact C1|apply chg_iadd; now apply in_entries].
  - intros s2 C2. destruct (negb (squareable w)); [exact C2|]. eapply chg_trans; [exact C2|apply chg_iadd, in_errs].
Qed.

(** all addresses are allocated *)
Definition obj_addrs (o : lbobj) : list nat := match lb_edges o with ERef a => [a] | EOwn _ => [] end ++ lb_addrs o.
Record WFb (s : lbst) : Prop := {
  wb_arrs : forall a, In a (lb_arrs s) -> (a < length (lb_bufs s))%nat;
  wb_objs : forall o a, In o (lb_objs s) -> In a (obj_addrs o) -> (a < length (lb_bufs s))%nat }.
Lemma deref_lt s r a : WFb s -> lb_deref s r = Some a -> (a < length (lb_bufs s))%nat.
Proof.
  intros W. destruct r as [n|k|k|k]; simpl; intros H.
  - eapply wb_arrs; eauto. eapply nth_error_In; eauto.
  - destruct (nth_error (lb_objs s) k) as [o|] eqn:E; [|discriminate]. injection H as <-. eapply wb_objs; eauto; [eapply nth_error_In; eauto|]. apply in_app_iff. right. apply in_counts.
  - destruct (nth_error (lb_objs s) k) as [o|] eqn:E; [|discriminate]. eapply wb_objs; eauto; [eapply nth_error_In; eauto|]. apply in_app_iff. right. now apply in_entries.
  - destruct (nth_error (lb_objs s) k) as [o|] eqn:E; [|discriminate]. injection H as <-. eapply wb_objs; eauto; [eapply nth_error_In; eauto|]. apply in_app_iff. right. apply in_errs.
Qed.
Lemma wf_chg A s s' : chg A s s' -> WFb s -> WFb s'.
Proof. intros [] []. constructor; rewrite ?ch_len0, ?ch_objs0, ?ch_arrs0; auto. Qed.
Lemma in_upd {A} (k : nat) (x : A) l y : In y (upd k x l) -> y = x \/ In y l.
Proof.
  intros H. apply In_nth_error in H as (i & H). destruct (Nat.eq_dec k i) as [<-|N].
  - destruct (lt_dec k (length l)) as [L|L].
    + rewrite upd_same in H by exact L. left. congruence.
    + right. assert (X : nth_error (upd k x l) k = None) by (apply nth_error_None; rewrite upd_length; lia). congruence.
  - rewrite upd_other in H by auto. right. eapply nth_error_In; eauto.
Qed.
(** creation of an object *)
Lemma lb_new_shape s e n en : exists bs o, lb_new s e n en = (mk_lbst (lb_bufs s ++ bs) (lb_objs s) (lb_arrs s), o) /\ lb_edges o = e /\
  length bs = length (lb_addrs o) /\ NoDup (lb_addrs o) /\ (forall a, In a (lb_addrs o) -> (length (lb_bufs s) <= a < length (lb_bufs s) + length bs)%nat) /\
  (lb_entries o = None <-> en = false) /\ (forall b, In b bs -> b = repeat (Fin 0) n).
Proof.
  unfold lb_new. destruct en; (eexists; eexists; split; [reflexivity|]); cbn [lb_edges lb_addrs lb_counts lb_entries lb_errs length]; (split; [reflexivity|]); (split; [reflexivity|]); split.
  - repeat constructor; simpl; lia.
  - split; [simpl; lia|]. split; [split; discriminate|]. simpl. intuition.
  - repeat constructor; simpl; lia.
  - split; [simpl; lia|]. split; [split; reflexivity|]. simpl. intuition.
Qed.
Lemma wf_step s o : WFb s -> WFb (fst (lb_step s o)).
Proof.
  intros W.
  assert (CON : forall e n en d w, (forall a, e = ERef a -> (a < length (lb_bufs s))%nat) -> WFb (fst (lb_construct s e n en d w))).
  { intros e n en d w HE. unfold lb_construct. destruct (lb_new_shape s e n en) as (bs & o' & -> & EE & LB & ND & BD & _).
    set (s1 := mk_lbst (lb_bufs s ++ bs) (lb_objs s) (lb_arrs s)).
    assert (P : forall s2, chg (lb_addrs o') s1 s2 -> WFb (lb_push s2 o')).
    { intros s2 [Co Ca Cl _]. constructor; unfold lb_push; cbn [lb_arrs lb_objs lb_bufs]; rewrite ?Co, ?Ca, Cl; unfold s1; cbn [lb_arrs lb_objs lb_bufs]; rewrite app_length.
      - intros a Ha. pose proof (wb_arrs s W a Ha). lia.
      - intros p a Hp Ha. apply in_app_iff in Hp as [Hp|[<-|[]]]; [pose proof (wb_objs s W p a Hp Ha); lia|]. unfold obj_addrs in Ha. rewrite EE in Ha. apply in_app_iff in Ha as [Ha|Ha].
        + destruct e; [destruct Ha|]. destruct Ha as [<-|[]]. specialize (HE a0 eq_refl). lia.
        + specialize (BD a Ha). lia. }
    destruct d as [d|]; [|apply P, chg_refl]. pose proof (chg_fill o' d w s1) as C. destruct (lb_fill o' d w s1) as (s2 & [u|x]); [now apply P|exact W]. }
  destruct o; simpl.
  - constructor; cbn [lb_arrs lb_objs lb_bufs]; rewrite app_length; simpl.
    + intros a Ha. apply in_app_iff in Ha as [Ha|[<-|[]]]; [pose proof (wb_arrs s W a Ha); lia|lia].
    + intros p a Hp Ha. pose proof (wb_objs s W p a Hp Ha). lia.
  - destruct (lb_deref s r) as [a|]; [|exact W]. destruct (np_assign _ v); [|exact W]. eapply (wf_chg [a]); [apply chg_write; now left|exact W].
  - destruct (Z.ltb nbins 0); [exact W|]. apply CON. discriminate.
  - destruct (Z.ltb n 0); [exact W|]. apply CON. discriminate.
  - destruct (lb_deref s edges) as [a|] eqn:D; [|exact W]. destruct (lb_read s a); [exact W|]. apply CON. intros b E. injection E as <-. eapply deref_lt; eauto.
  - destruct (lb_deref s edges) as [ae|] eqn:D1; [|exact W]. destruct (lb_deref s counts) as [ac|] eqn:D2; [|exact W].
    destruct (match errors with None => Some None | Some r => option_map Some (lb_deref s r) end) as [aer|]; [|exact W]. destruct (lb_read s ae); [exact W|].
    apply deref_lt in D1; auto. apply deref_lt in D2; auto.
    constructor; cbn [fst lb_push lb_alloc lb_arrs lb_objs lb_bufs]; rewrite app_length; simpl.
    + intros a Ha. pose proof (wb_arrs s W a Ha). lia.
    + intros p a Hp Ha. apply in_app_iff in Hp as [Hp|[<-|[]]]; [pose proof (wb_objs s W p a Hp Ha); lia|]. unfold obj_addrs, lb_addrs in Ha. cbn in Ha. destruct Ha as [<-|[<-|[<-|[]]]]; lia.
  - destruct (nth_error (lb_objs s) k) as [p|]; [|exact W]. eapply wf_chg; [apply chg_fill|exact W].
  - destruct (nth_error (lb_objs s) k) as [p|]; [|exact W]. destruct (lb_entries p); [|exact W]. eapply wf_chg; [|exact W]. eapply chg_trans; apply chg_write; [apply in_counts|apply in_errs].
  - destruct (nth_error (lb_objs s) k) as [p|] eqn:K; [|exact W]. destruct (lb_deref s r) as [a|] eqn:D; [|exact W]. destruct (lb_entries p) as [en|] eqn:EN; [|exact W]. apply deref_lt in D; auto. apply nth_error_In in K.
    constructor; cbn [fst lb_set_obj lb_arrs lb_objs lb_bufs]; [apply (wb_arrs s W)|]. intros q b Hq Hb. apply in_upd in Hq as [->|Hq]; [|eapply wb_objs; eauto].
    unfold obj_addrs, lb_addrs in Hb. cbn in Hb. apply in_app_iff in Hb as [Hb|[<-|Hb]].
    + apply (wb_objs s W p b K). apply in_app_iff. now left.
    + exact D.
    + apply (wb_objs s W p b K). apply in_app_iff. right. unfold lb_addrs. right. rewrite EN. exact Hb.
  - destruct (nth_error (lb_objs s) k) as [p|] eqn:K; [|exact W]. destruct (lb_deref s r) as [a|] eqn:D; [|exact W]. destruct (lb_entries p) as [en|] eqn:EN; [|exact W]. apply deref_lt in D; auto. apply nth_error_In in K.
    constructor; cbn [fst lb_set_obj lb_alloc lb_arrs lb_objs lb_bufs]; rewrite app_length; simpl length.
    + intros c Hc. pose proof (wb_arrs s W c Hc). lia.
    + intros q b Hq Hb. apply in_upd in Hq as [->|Hq]; [|pose proof (wb_objs s W q b Hq Hb); lia].
      assert (X : In b (obj_addrs p) \/ b = length (lb_bufs s)).
      { unfold obj_addrs, lb_addrs in *. cbn in *. rewrite EN. apply in_app_iff in Hb as [Hb|[<-|[<-|Hb]]]; auto; left; apply in_app_iff; auto; right; simpl; auto. }
      destruct X as [X|X]; [pose proof (wb_objs s W p b K X)|]; lia.
Qed.
Lemma wf_run l : forall s, WFb s -> WFb (lb_run s l).
Proof. induction l as [|o l IH]; intros s W; [exact W|]. apply IH. now apply wf_step. Qed.
Lemma wf_init : WFb lb_init. Proof. constructor; simpl; tauto. Qed.

(** ** a histogram that shares no array *)
Record Priv (s : lbst) (k : nat) (o : lbobj) : Prop := {
  pv_obj : nth_error (lb_objs s) k = Some o;
  pv_edges : exists l, lb_edges o = EOwn l;
  pv_nodup : NoDup (lb_addrs o);
  pv_lt : forall a, In a (lb_addrs o) -> (a < length (lb_bufs s))%nat;
  pv_arrs : forall a, In a (lb_arrs s) -> ~ In a (lb_addrs o);
  pv_others : forall j p, j <> k -> nth_error (lb_objs s) j = Some p -> forall a, In a (obj_addrs p) -> ~ In a (lb_addrs o) }.
Definition same_at (A : list nat) (s s' : lbst) : Prop := forall a, In a A -> lb_read s' a = lb_read s a.
Lemma priv_chg s k o A s' : Priv s k o -> chg A s s' -> Priv s' k o.
Proof. intros [] []. constructor; rewrite ?ch_objs0, ?ch_arrs0, ?ch_len0; auto. Qed.
Lemma priv_deref s k o r a : Priv s k o -> array_of k r = false -> lb_deref s r = Some a -> ~ In a (lb_addrs o).
Proof.
  intros P F D. destruct r as [n|j|j|j]; simpl in *; [eapply pv_arrs; eauto; eapply nth_error_In; eauto| | |]; apply Nat.eqb_neq in F;
    destruct (nth_error (lb_objs s) j) as [p|] eqn:E; try discriminate; try injection D as <-; eapply (pv_others s k o P j p F E); apply in_app_iff; right;
    [apply in_counts|now apply in_entries|apply in_errs].
Qed.
(** growth: new arrays and objects that use no array of k *)
Lemma priv_grow s k o bs objs arrs : Priv s k o ->
  (forall j p, j <> k -> nth_error objs j = Some p -> nth_error (lb_objs s) j = Some p \/ forall a, In a (obj_addrs p) -> ~ In a (lb_addrs o)) ->
  nth_error objs k = Some o -> (forall a, In a arrs -> In a (lb_arrs s) \/ ~ In a (lb_addrs o)) ->
  Priv (mk_lbst (lb_bufs s ++ bs) objs arrs) k o.
Proof.
  intros P HO HK HA. constructor; cbn [lb_objs lb_bufs lb_arrs].
  - exact HK.
  - apply (pv_edges s k o P).
  - apply (pv_nodup s k o P).
  - intros a Ha. rewrite app_length. pose proof (pv_lt s k o P a Ha). lia.
  - intros a Ha. destruct (HA a Ha) as [H|H]; [now apply (pv_arrs s k o P)|exact H].
  - intros j p NJ E. destruct (HO j p NJ E) as [H|H]; [now apply (pv_others s k o P j p)|exact H].
Qed.
Lemma snoc_other {A} (l : list A) x j y : nth_error (l ++ [x]) j = Some y -> nth_error l j = Some y \/ y = x.
Proof.
  intros H. destruct (lt_dec j (length l)) as [L|L]; [rewrite nth_error_app1 in H by exact L; auto|]. rewrite nth_error_app2 in H by lia.
  destruct (j - length l)%nat as [|m]; [injection H as <-; auto|destruct m; discriminate].
Qed.
Lemma nth_snoc {A} (l : list A) x k o : nth_error l k = Some o -> nth_error (l ++ [x]) k = Some o.
Proof. intros H. rewrite nth_error_app1; [exact H|]. apply nth_error_Some. congruence. Qed.
Lemma same_refl A s : same_at A s s. Proof. intros a _. reflexivity. Qed.
Lemma same_grow s k o bs objs arrs : Priv s k o -> same_at (lb_addrs o) s (mk_lbst (lb_bufs s ++ bs) objs arrs).
Proof. intros P a Ha. apply read_app. now apply (pv_lt s k o P). Qed.
(** a call that is not a method of k, and exposes nothing of k, changes nothing in k *)
Lemma priv_other s k o op : WFb s -> Priv s k o -> exposes k op = false -> (forall d w, op <> BFill k d w) -> (forall c, op <> BScale k c) ->
  Priv (fst (lb_step s op)) k o /\ same_at (lb_addrs o) s (fst (lb_step s op)).
Proof.
  intros W P X NF NS. pose proof (pv_obj s k o P) as PK.
  assert (FRESH : forall a, (length (lb_bufs s) <= a)%nat -> ~ In a (lb_addrs o)) by (intros a L H; pose proof (pv_lt s k o P a H); lia).
  assert (CON : forall e n en d w, (forall a, e = ERef a -> ~ In a (lb_addrs o)) ->
    Priv (fst (lb_construct s e n en d w)) k o /\ same_at (lb_addrs o) s (fst (lb_construct s e n en d w))).
  { intros e n en d w HE. unfold lb_construct. destruct (lb_new_shape s e n en) as (bs & o' & -> & EE & LB & ND & BD & _).
    set (s1 := mk_lbst (lb_bufs s ++ bs) (lb_objs s) (lb_arrs s)).
    assert (G1 : Priv s1 k o /\ same_at (lb_addrs o) s s1).
    { split; [|now apply same_grow with (k := k)]. apply priv_grow; auto. }
    assert (Q : forall s2, chg (lb_addrs o') s1 s2 -> Priv (lb_push s2 o') k o /\ same_at (lb_addrs o) s (lb_push s2 o')).
    { intros s2 C. pose proof (priv_chg s1 k o _ s2 (proj1 G1) C) as P2. split.
      - unfold lb_push. rewrite <- (app_nil_r (lb_bufs s2)). apply priv_grow; auto.
        + intros j p NJ E. apply snoc_other in E as [E| ->]; [now left|]. right. intros a Ha. unfold obj_addrs in Ha. rewrite EE in Ha. apply in_app_iff in Ha as [Ha|Ha].
          * destruct e; [destruct Ha|]. destruct Ha as [<-|[]]. now apply HE.
          * apply FRESH. specialize (BD a Ha). lia.
        + apply nth_snoc. apply (pv_obj s2 k o P2).
      - intros a Ha. change (lb_read s2 a = lb_read s a). rewrite (ch_read _ _ _ C); [now apply (proj2 G1)|]. intros H. specialize (BD a H). pose proof (pv_lt s k o P a Ha). lia. }
    destruct d as [d|]; [|apply Q, chg_refl]. pose proof (chg_fill o' d w s1) as C. destruct (lb_fill o' d w s1) as (s2 & [u|x]); [now apply Q|]. split; [exact P|apply same_refl]. }
  assert (KEEP : Priv s k o /\ same_at (lb_addrs o) s s) by (split; [exact P|apply same_refl]).
  assert (CHG : forall A s', chg A s s' -> (forall a, In a A -> ~ In a (lb_addrs o)) -> Priv s' k o /\ same_at (lb_addrs o) s s').
  { intros A s' C D. split; [eapply priv_chg; eauto|]. intros a Ha. apply (ch_read _ _ _ C). intros H. now apply (D a). }
  destruct op; simpl lb_step; simpl in X.
  - split; [|now apply same_grow with (k := k)]. apply priv_grow; auto. intros a Ha. apply in_app_iff in Ha as [Ha|[<-|[]]]; [now left|right]. apply FRESH. lia.
  - destruct (lb_deref s r) as [a|] eqn:D; [|exact KEEP]. destruct (np_assign _ v); [|exact KEEP]. apply (CHG [a]); [apply chg_write; now left|]. intros b [<-|[]]. eapply priv_deref; eauto.
  - destruct (Z.ltb nbins 0); [exact KEEP|]. apply CON. discriminate.
  - destruct (Z.ltb n 0); [exact KEEP|]. apply CON. discriminate.
  - destruct (lb_deref s edges) as [a|] eqn:D; [|exact KEEP]. destruct (lb_read s a); [exact KEEP|]. apply CON. intros b E. injection E as <-. eapply priv_deref; eauto.
  - apply orb_false_iff in X as [X1 X2]. destruct (lb_deref s edges) as [ae|] eqn:D1; [|exact KEEP]. destruct (lb_deref s counts) as [ac|] eqn:D2; [|exact KEEP].
    destruct (match errors with None => Some None | Some r => option_map Some (lb_deref s r) end) as [aer|]; [|exact KEEP]. destruct (lb_read s ae); [exact KEEP|].
    cbn [fst]. unfold lb_push, lb_alloc. cbn [lb_bufs lb_objs lb_arrs]. split; [|now apply same_grow with (k := k)]. apply priv_grow; auto; [|now apply nth_snoc].
    intros j p NJ E. apply snoc_other in E as [E| ->]; [now left|]. right. unfold obj_addrs, lb_addrs. cbn. intros a [<-|[<-|[<-|[]]]]; [exact (priv_deref s k o edges ae P X1 D1)|exact (priv_deref s k o counts ac P X2 D2)|apply FRESH; lia].
  - destruct (nth_error (lb_objs s) k0) as [p|] eqn:K; [|exact KEEP]. destruct (Nat.eq_dec k0 k) as [->|N]; [exfalso; now apply (NF data w)|]. apply (CHG (lb_addrs p)); [apply chg_fill|].
    intros a Ha. apply (pv_others s k o P k0 p N K). apply in_app_iff. now right.
  - destruct (nth_error (lb_objs s) k0) as [p|] eqn:K; [|exact KEEP]. destruct (lb_entries p); [|exact KEEP]. destruct (Nat.eq_dec k0 k) as [->|N]; [exfalso; now apply (NS c)|]. apply (CHG (lb_addrs p)).
    + eapply chg_trans; apply chg_write; [apply in_counts|apply in_errs].
    + intros a Ha. apply (pv_others s k o P k0 p N K). apply in_app_iff. now right.
  - apply orb_false_iff in X as [X1 X2]. apply Nat.eqb_neq in X1. destruct (nth_error (lb_objs s) k0) as [p|] eqn:K; [|exact KEEP]. destruct (lb_deref s r) as [a|] eqn:D; [|exact KEEP]. destruct (lb_entries p) as [en|] eqn:EN; [|exact KEEP].
    split; [|intros b _; reflexivity]. unfold lb_set_obj. cbn [fst]. rewrite <- (app_nil_r (lb_bufs s)). apply priv_grow; auto.
    + intros j q NJ E. destruct (Nat.eq_dec k0 j) as [<-|NE]; [|rewrite upd_other in E by exact NE; now left].
      rewrite upd_same in E by (apply nth_error_Some; congruence). injection E as <-. right. intros b Hb. unfold obj_addrs, lb_addrs in Hb. cbn in Hb. apply in_app_iff in Hb as [Hb|[<-|Hb]].
      * apply (pv_others s k o P k0 p X1 K). apply in_app_iff. now left.
      * eapply priv_deref; eauto.
      * apply (pv_others s k o P k0 p X1 K). apply in_app_iff. right. unfold lb_addrs. right. rewrite EN. exact Hb.
    + rewrite upd_other by exact X1. exact PK.
  - apply Nat.eqb_neq in X. destruct (nth_error (lb_objs s) k0) as [p|] eqn:K; [|exact KEEP]. destruct (lb_deref s r) as [a|] eqn:D; [|exact KEEP]. destruct (lb_entries p) as [en|] eqn:EN; [|exact KEEP].
    cbn [fst]. unfold lb_set_obj, lb_alloc. cbn [lb_bufs lb_objs lb_arrs]. split; [|now apply same_grow with (k := k)]. apply priv_grow; auto.
    + intros j q NJ E. destruct (Nat.eq_dec k0 j) as [<-|NE]; [|rewrite upd_other in E by exact NE; now left].
      rewrite upd_same in E by (apply nth_error_Some; congruence). injection E as <-. right. intros b Hb. unfold obj_addrs, lb_addrs in Hb. cbn in Hb. apply in_app_iff in Hb as [Hb|[<-|[<-|Hb]]].
      * apply (pv_others s k o P k0 p X K). apply in_app_iff. now left.
      * apply (pv_others s k o P k0 p X K). apply in_app_iff. right. apply in_counts.
      * apply FRESH. lia.
      * apply (pv_others s k o P k0 p X K). apply in_app_iff. right. unfold lb_addrs. right. right. rewrite EN. exact Hb.
    + rewrite upd_other by exact X. exact PK.
Qed.

(** ** the methods of one histogram as functions of its contents *)
Definition cont : Type := list xr * option (list xr) * list xr.
Definition content (s : lbst) (o : lbobj) : cont := (lb_read s (lb_counts o), option_map (lb_read s) (lb_entries o), lb_read s (lb_errs o)).
Definition c_fill (es d : list R) (w : weights) (c : cont) : cont * res unit :=
  let '(cc, ce, cq) := c in let ws := resolve_weights (length d) w in
  if match ce with Some _ => negb (Nat.eqb (length d) (length ws)) | None => false end then (c, Err ValueError)
  else match (v <- binned_statistic es d ws ;; np_iadd cc v) with
  | Err e => (c, Err e)
  | Ok cc' =>
    match (match ce with None => Ok None | Some n => rmap Some (v <- binned_count es d ws ;; np_iadd n v) end) with
    | Err e => ((cc', ce, cq), Err e)
    | Ok ce' => if negb (squareable w) then ((cc', ce', cq), Err TypeError)
                else match (v <- binned_statistic es d (map (fun x => x * x) ws) ;; np_iadd cq v) with
                     | Err e => ((cc', ce', cq), Err e)
                     | Ok q => ((cc', ce', q), Ok tt)
                     end
    end
  end.
Definition c_scale (c : R) (x : cont) : cont * res unit :=
  let '(cc, ce, cq) := x in
  match ce with None => (x, Err AttributeError)
  | Some _ => ((map (fun x => xmul x (Fin c)) cc, ce, map (fun x => xmul x (Fin (c ^ 2))) cq), Ok tt) end.
Lemma distinct3 o : NoDup (lb_addrs o) -> lb_counts o <> lb_errs o /\ forall a, lb_entries o = Some a -> a <> lb_counts o /\ a <> lb_errs o.
Proof.
  unfold lb_addrs. intros H. inversion H as [|? ? H1 H2]; subst. inversion H2 as [|? ? H3 H4]; subst. split; [intros E; apply H1; rewrite E; now left|].
  intros a E. rewrite E in *. split; intros ->; [apply H1; right; now left|apply H3; now left].
Qed.
Lemma fill_content0 s o es d w : lb_edges o = EOwn es -> NoDup (lb_addrs o) -> (forall a, In a (lb_addrs o) -> (a < length (lb_bufs s))%nat) ->
  (match lb_fill o d w s with (s', r) => (content s' o, r) end) = c_fill es d w (content s o).
Proof.
  intros EE ND LT. destruct (distinct3 o ND) as (D1 & D2). assert (L1 := LT _ (in_counts o)). assert (L2 := LT _ (in_errs o)).
  unfold lb_fill, c_fill, content. rewrite EE. cbn [lb_edge_vals].
  destruct (lb_entries o) as [a|] eqn:EN; cbn [option_map].
  - destruct (D2 a eq_refl) as (D3 & D4). assert (L3 := LT _ (in_entries o a EN)). destruct (negb (Nat.eqb (length d) _)); [reflexivity|]. unfold lb_iadd at 1.
    destruct (v <- binned_statistic es d _ ;; np_iadd _ v) as [cc|e]; cbn [lb_seq]; [|reflexivity]. set (s1 := lb_write s (lb_counts o) cc).
    assert (R1 : lb_read s1 (lb_counts o) = cc) by (now apply read_write). assert (R2 : lb_read s1 a = lb_read s a) by (apply read_write_other; auto). assert (R3 : lb_read s1 (lb_errs o) = lb_read s (lb_errs o)) by (apply read_write_other; auto).
    assert (LS : length (lb_bufs s1) = length (lb_bufs s)) by apply len_write.
    unfold lb_iadd at 1. rewrite R2. destruct (v <- binned_count es d _ ;; np_iadd _ v) as [ce|e]; cbn [rmap lb_seq]; [|rewrite R1, R2, R3; reflexivity]. set (s2 := lb_write s1 a ce).
    assert (Q1 : lb_read s2 (lb_counts o) = cc) by (unfold s2; rewrite read_write_other; auto). assert (Q2 : lb_read s2 a = ce) by (apply read_write; lia).
    assert (Q3 : lb_read s2 (lb_errs o) = lb_read s (lb_errs o)) by (unfold s2; rewrite read_write_other; auto). assert (LS2 : length (lb_bufs s2) = length (lb_bufs s)) by (unfold s2; now rewrite len_write).
    destruct (negb (squareable w)); [rewrite Q1, Q2, Q3; reflexivity|]. unfold lb_iadd. rewrite Q3. destruct (v <- binned_statistic es d _ ;; np_iadd _ v) as [q|e]; [|rewrite Q1, Q2, Q3; reflexivity].
    rewrite !read_write_other by auto. rewrite read_write by lia. rewrite Q1, Q2. reflexivity.
  - unfold lb_iadd at 1. destruct (v <- binned_statistic es d _ ;; np_iadd _ v) as [cc|e]; cbn [lb_seq]; [|reflexivity]. set (s1 := lb_write s (lb_counts o) cc).
    assert (R1 : lb_read s1 (lb_counts o) = cc) by (now apply read_write). assert (R3 : lb_read s1 (lb_errs o) = lb_read s (lb_errs o)) by (apply read_write_other; auto).
    assert (LS : length (lb_bufs s1) = length (lb_bufs s)) by apply len_write.
    destruct (negb (squareable w)); [rewrite R1, R3; reflexivity|]. unfold lb_iadd. rewrite R3. destruct (v <- binned_statistic es d _ ;; np_iadd _ v) as [q|e]; [|rewrite R1, R3; reflexivity].
    rewrite !read_write_other by auto. rewrite read_write by lia. rewrite R1. reflexivity.
Qed.
Lemma fill_content s o es d w : lb_edges o = EOwn es -> NoDup (lb_addrs o) -> (forall a, In a (lb_addrs o) -> (a < length (lb_bufs s))%nat) ->
  content (fst (lb_fill o d w s)) o = fst (c_fill es d w (content s o)) /\ snd (lb_fill o d w s) = snd (c_fill es d w (content s o)).
Proof. intros EE ND LT. rewrite <- (fill_content0 s o es d w EE ND LT). destruct (lb_fill o d w s). auto. Qed.
Lemma step_fill s k o es d w : Priv s k o -> lb_edges o = EOwn es -> let s' := fst (lb_step s (BFill k d w)) in
  Priv s' k o /\ content s' o = fst (c_fill es d w (content s o)) /\ snd (lb_step s (BFill k d w)) = snd (c_fill es d w (content s o)).
Proof.
  intros P EE. simpl. rewrite (pv_obj s k o P). split; [eapply priv_chg; [exact P|apply chg_fill]|]. apply fill_content; auto; [apply (pv_nodup s k o P)|apply (pv_lt s k o P)].
Qed.
Lemma step_scale s k o c : Priv s k o -> let s' := fst (lb_step s (BScale k c)) in
  Priv s' k o /\ content s' o = fst (c_scale c (content s o)) /\ snd (lb_step s (BScale k c)) = snd (c_scale c (content s o)).
Proof.
  intros P. simpl. rewrite (pv_obj s k o P). unfold c_scale, content. destruct (lb_entries o) as [a|] eqn:EN; cbn [option_map fst snd]; [|auto].
  destruct (distinct3 o (pv_nodup s k o P)) as (D1 & D2). destruct (D2 a EN) as (D3 & D4). assert (L1 := pv_lt s k o P _ (in_counts o)). assert (L2 := pv_lt s k o P _ (in_errs o)).
  split; [eapply priv_chg; [exact P|]; eapply chg_trans; apply chg_write; [apply in_counts|apply in_errs]|]. split; [|reflexivity].
  repeat match goal with |- context [lb_read (lb_write ?t ?x ?v) ?y] => first [rewrite (read_write_other t x y v) by auto|rewrite (read_write t x v) by (rewrite ?len_write; assumption)] end. reflexivity.
Qed.
Lemma content_same s s' o : same_at (lb_addrs o) s s' -> content s' o = content s o.
Proof.
  intros H. unfold content. rewrite (H _ (in_counts o)), (H _ (in_errs o)). destruct (lb_entries o) as [a|] eqn:E; [|reflexivity]. cbn [option_map]. rewrite (H a); [reflexivity|now apply in_entries].
Qed.
(** what the methods of k in a program do to its contents *)
Definition c_step (es : list R) (c : cont) (op : lbop) : cont :=
  match op with BFill 0 d w => fst (c_fill es d w c) | BScale 0 x => fst (c_scale x c) | _ => c end.
Lemma priv_run k o es l : lb_edges o = EOwn es -> Forall (fun op => exposes k op = false) l -> forall s, WFb s -> Priv s k o ->
  Priv (lb_run s l) k o /\ content (lb_run s l) o = fold_left (c_step es) (own_calls k l) (content s o).
Proof.
  intros EE. induction 1 as [|op l X _ IH]; intros s W P; [split; [exact P|reflexivity]|]. change (lb_run s (op :: l)) with (lb_run (fst (lb_step s op)) l).
  specialize (IH _ (wf_step s op W)).
  assert (OT : (forall d w, op <> BFill k d w) -> (forall c, op <> BScale k c) -> own_calls k (op :: l) = own_calls k l -> 
    Priv (lb_run (fst (lb_step s op)) l) k o /\ content (lb_run (fst (lb_step s op)) l) o = fold_left (c_step es) (own_calls k (op :: l)) (content s o)).
  { intros NF NS OC. destruct (priv_other s k o op W P X NF NS) as (P' & S'). destruct (IH P') as (P2 & C2). split; [exact P2|]. rewrite C2, (content_same s _ o S'), OC. reflexivity. }
  destruct op; try (apply OT; [discriminate|discriminate|reflexivity]).
  - destruct (Nat.eq_dec k0 k) as [->|N]; [|apply OT; [congruence|discriminate|]; simpl; apply Nat.eqb_neq in N; now rewrite N].
    destruct (step_fill s k o es data w P EE) as (P' & C' & _). destruct (IH P') as (P2 & C2). split; [exact P2|]. rewrite C2, C'. simpl own_calls. rewrite Nat.eqb_refl. reflexivity.
  - destruct (Nat.eq_dec k0 k) as [->|N]; [|apply OT; [discriminate|congruence|]; simpl; apply Nat.eqb_neq in N; now rewrite N].
    destruct (step_scale s k o c P) as (P' & C' & _). destruct (IH P') as (P2 & C2). split; [exact P2|]. rewrite C2, C'. simpl own_calls. rewrite Nat.eqb_refl. reflexivity.
Qed.
(** a new object shares no array *)
Lemma construct_priv s es n en d w s' : WFb s -> lb_construct s (EOwn es) n en d w = (s', Ok tt) -> exists o, Priv s' (length (lb_objs s)) o /\ lb_edges o = EOwn es /\
  let z := (repeat (Fin 0) n, (if en then Some (repeat (Fin 0) n) else None), repeat (Fin 0) n) in
  content s' o = match d with None => z | Some d => fst (c_fill es d w z) end.
Proof.
  intros W. unfold lb_construct.
  assert (CZ : forall s1 o, lb_new s (EOwn es) n en = (s1, o) -> content s1 o = (repeat (Fin 0) n, (if en then Some (repeat (Fin 0) n) else None), repeat (Fin 0) n)).
  { intros s1 o. unfold lb_new, content, lb_read. destruct en; intros E; injection E as <- <-; cbn [lb_counts lb_entries lb_errs lb_bufs option_map]; rewrite !app_nth2 by lia;
      replace (length (lb_bufs s) - length (lb_bufs s))%nat with 0%nat by lia; replace (length (lb_bufs s) + 1 - length (lb_bufs s))%nat with 1%nat by lia; try replace (length (lb_bufs s) + 2 - length (lb_bufs s))%nat with 2%nat by lia; reflexivity. }
  destruct (lb_new_shape s (EOwn es) n en) as (bs & o & E1 & EE & LB & ND & BD & _). specialize (CZ _ _ E1). rewrite E1. set (s1 := mk_lbst (lb_bufs s ++ bs) (lb_objs s) (lb_arrs s)) in *.
  assert (PR : forall s2, chg (lb_addrs o) s1 s2 -> Priv (lb_push s2 o) (length (lb_objs s)) o).
  { intros s2 [Co Ca Cl _]. constructor; unfold lb_push; cbn [lb_objs lb_bufs lb_arrs].
    - rewrite Co. unfold s1. cbn [lb_objs]. rewrite nth_error_app2, Nat.sub_diag by lia. reflexivity.
    - eauto.
    - exact ND.
    - intros a Ha. specialize (BD a Ha). rewrite Cl. unfold s1. cbn [lb_bufs]. rewrite app_length. lia.
    - intros a Ha H. rewrite Ca in Ha. pose proof (wb_arrs s W a Ha). specialize (BD a H). lia.
    - intros j p NJ E a Ha H. rewrite Co in E. unfold s1 in E. cbn [lb_objs] in E.
      destruct (lt_dec j (length (lb_objs s))) as [L|L]; [|rewrite nth_error_app2 in E by lia; destruct (j - length (lb_objs s))%nat eqn:Z; [lia|destruct n0; discriminate]].
      rewrite nth_error_app1 in E by exact L. apply nth_error_In in E. pose proof (wb_objs s W p a E Ha). specialize (BD a H). lia. }
  destruct d as [d|].
  - assert (B1 : forall a, In a (lb_addrs o) -> (a < length (lb_bufs s1))%nat). { intros a Ha. specialize (BD a Ha). unfold s1. cbn [lb_bufs]. rewrite app_length. lia. }
    destruct (fill_content s1 o es d w EE ND B1) as (FC & _). pose proof (chg_fill o d w s1) as C. destruct (lb_fill o d w s1) as (s2 & [u|x]) eqn:F; [|discriminate]. cbn [fst snd] in *. intros H. injection H as <-.
    exists o. split; [now apply PR|]. split; [exact EE|]. cbv zeta. rewrite <- CZ. exact FC.
  - intros H. injection H as <-. exists o. split; [apply PR, chg_refl|]. split; [exact EE|exact CZ].
Qed.
Lemma view_content s k o es : nth_error (lb_objs s) k = Some o -> lb_edges o = EOwn es ->
  lb_view s k = Some (mk_lbview (Some es) (fst (fst (content s o))) (snd (fst (content s o))) (snd (content s o))).
Proof. intros H E. unfold lb_view. rewrite H. cbn [option_map]. rewrite E. reflexivity. Qed.
