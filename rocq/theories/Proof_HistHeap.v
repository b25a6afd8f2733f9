(** Which arrays the histogram methods write to *)
From Coq Require Import Reals String ZArith Bool Arith List Lra Lia.
From Verif Require Import Model_Num Model_Hist Model_HistHeap Spec_HistHeap.
Import ListNotations.
Local Open Scope R_scope.

Lemma upd_length : forall A i (a : A) l, length (upd i a l) = length l.
Proof. induction i; destruct l; simpl; congruence. Qed.
Lemma upd_same : forall A i (a : A) l, (i < length l)%nat -> nth_error (upd i a l) i = Some a.
Proof. induction i; destruct l; simpl; intros; try lia; auto. apply IHi; lia. Qed.
Lemma upd_other : forall A i j (a : A) l, i <> j -> nth_error (upd i a l) j = nth_error l j.
Proof. induction i; destruct j, l; simpl; intros; auto; try congruence. Qed.
Lemma upd_some : forall A i j (a b : A) l, nth_error (upd i a l) j = Some b ->
  (i = j /\ b = a) \/ (i <> j /\ nth_error l j = Some b).
Proof.
  intros A i j a b l H. destruct (Nat.eq_dec i j) as [->|n].
  - left. split; auto. rewrite upd_same in H by (rewrite <- (upd_length _ j a l); apply nth_error_Some; congruence). congruence.
  - right. rewrite upd_other in H; auto.
Qed.

Definition refs_in (m : list nat) (es : list edge_src) : Prop := forall a, In (ERef a) es -> In a m.

(** addresses are valid, error arrays are private, count arrays not held by the caller too *)
Record HInv (s : hs) : Prop := {
  hi_mine : forall a, In a (s_mine s) -> (a < length (s_bufs s))%nat;
  hi_addr : forall k o, nth_error (s_objs s) k = Some o ->
     (ho_counts o < length (s_bufs s))%nat /\ (ho_errs o < length (s_bufs s))%nat /\
     ~ In (ho_errs o) (s_mine s) /\ refs_in (s_mine s) (ho_edges o);
  hi_priv : forall k k' o o', nth_error (s_objs s) k = Some o -> nth_error (s_objs s) k' = Some o' ->
     ho_errs o <> ho_counts o' /\
     (k <> k' -> ho_errs o <> ho_errs o') /\
     (k <> k' -> ~ In (ho_counts o) (s_mine s) -> ho_counts o <> ho_counts o') }.

Definition same_addr (o o' : hobj) : Prop :=
  ho_edges o = ho_edges o' /\ ho_counts o = ho_counts o' /\ ho_errs o = ho_errs o'.

(** what one operation can do *)
Inductive Eff (s : hs) : hs -> Prop :=
  | E_none : Eff s s
  | E_array b : Eff s (mk_hs (s_bufs s ++ [b]) (s_objs s) (s_mine s ++ [length (s_bufs s)]))
  | E_write a b : In a (s_mine s) -> Eff s (set_bufs s (upd a b (s_bufs s)))
  | E_fresh h es : refs_in (s_mine s) es -> Eff s (add_fresh s h es)
  | E_obj h es c : refs_in (s_mine s) es -> In c (s_mine s) -> Eff s (add_obj s h es c)
  | E_fill k o h : nth_error (s_objs s) k = Some o -> Eff s (write_back s k o h)
  | E_take k o : nth_error (s_objs s) k = Some o -> Eff s (mk_hs (s_bufs s) (s_objs s) (s_mine s ++ [ho_counts o])).

Lemma held_in : forall s a, held s a = true -> In a (s_mine s).
Proof. intros s a H. apply existsb_exists in H. destruct H as (x & I & E). apply Nat.eqb_eq in E. congruence. Qed.
Lemma arg_in : forall s a l, arg s a = Some l -> In a (s_mine s).
Proof. intros s a l. unfold arg. destruct (held s a) eqn:E; [intros; now apply held_in|discriminate]. Qed.
Lemma arg_nd_in : forall s a l, arg_nd s a = Some l -> In a (s_mine s).
Proof. intros s a l. unfold arg_nd. destruct (held s a) eqn:E; [intros; now apply held_in|discriminate]. Qed.
Lemma refs1 : forall m a, In a m -> refs_in m [ERef a].
Proof. intros m a H b [E|[]]. congruence. Qed.
Lemma refs2 : forall m a b, In a m -> In b m -> refs_in m [ERef a; ERef b].
Proof. intros m a b H H' c [E|[E|[]]]; congruence. Qed.

Lemma step_eff : forall s op, HInv s -> Eff s (fst (h_step s op)).
Proof.
  intros s op I. destruct op; simpl.
  - constructor.
  - destruct (held s a) eqn:E; simpl; constructor. now apply held_in.
  - destruct (bins1_of s bins) as [[[b r] es]|] eqn:B; [|constructor].
    destruct (weights_of s w); [|constructor].
    destruct (match data with None => Some None | Some a => option_map Some (arg s a) end); [|constructor].
    destruct (hist1_new b r o w0) as [hh|]; [|constructor]. simpl. constructor.
    destruct bins; simpl in B.
    + inversion B; subst. intros a' [H|[]]. discriminate.
    + destruct (arg s a) eqn:A; [|discriminate]. inversion B; subst. apply refs1. eapply arg_in; eauto.
  - destruct (arg s bx) eqn:A1; [|constructor]. destruct (arg s by_) eqn:A2; [|constructor].
    destruct (weights_of s w); [|constructor].
    match goal with |- context [match ?x with Some _ => _ | None => (s, Err OutOfModel) end] => destruct x end; [|constructor].
    match goal with |- context [match ?x with Ok _ => _ | Err _ => _ end] => destruct x end; [|constructor].
    constructor. apply refs2; eapply arg_in; eauto.
  - destruct (arg_nd s counts) eqn:A1; [|constructor]. destruct (arg s e) eqn:A2; [|constructor].
    destruct (arg_errors s errors); [|constructor].
    match goal with |- context [match ?x with Ok _ => _ | Err _ => _ end] => destruct x end; [|constructor].
    constructor. apply refs1; eapply arg_in; eauto. eapply arg_nd_in; eauto.
  - destruct (arg_nd s counts) eqn:A1; [|constructor]. destruct (arg s ex) eqn:A2; [|constructor].
    destruct (arg s ey) eqn:A3; [|constructor]. destruct (arg_errors s errors); [|constructor].
    match goal with |- context [match ?x with Ok _ => _ | Err _ => _ end] => destruct x end; [|constructor].
    constructor. apply refs2; eapply arg_in; eauto. eapply arg_nd_in; eauto.
  - destruct (nth_error (s_objs s) k) eqn:O; [|constructor]. destruct (view s h); [|constructor].
    destruct (arg s data); [|constructor]. destruct (weights_of s w); [|constructor].
    destruct (hist1_fill h0 l w0). simpl. now constructor.
  - destruct (nth_error (s_objs s) k) eqn:O; [|constructor]. destruct (view s h); [|constructor].
    destruct (arg s xs); [|constructor]. destruct (arg s ys); [|constructor]. destruct (weights_of s w); [|constructor].
    destruct (hist2_fill h0 l l0 w0). simpl. now constructor.
  - destruct (nth_error (s_objs s) k) eqn:O; [|constructor]. destruct (view s h); [|constructor].
    destruct (ho_edges h) as [|ex [|ey [|]]] eqn:E; try constructor.
    destruct (hist2_projection axis_x h0); [|constructor]. simpl. constructor.
    pose proof (hi_addr s I _ _ O) as (_ & _ & _ & R). rewrite E in R.
    intros a0 [H|[]]. apply R. destruct axis_x; subst; simpl; auto.
  - destruct (nth_error (s_objs s) k) eqn:O; [|constructor]. simpl. econstructor; eassumption.
Qed.

Lemma nth_snoc : forall A (l : list A) x k o, nth_error (l ++ [x]) k = Some o ->
  (nth_error l k = Some o /\ (k < length l)%nat) \/ (k = length l /\ o = x).
Proof.
  intros A l x k o H. destruct (lt_dec k (length l)) as [L|L].
  - left. rewrite nth_error_app1 in H; auto.
  - right. rewrite nth_error_app2 in H by lia. destruct (k - length l)%nat as [|m] eqn:E; simpl in H.
    + split; [lia|congruence]. + destruct m; discriminate.
Qed.

(** objects keep their arrays, the caller's arrays remain the caller's *)
Lemma eff_frame : forall s s', HInv s -> Eff s s' ->
  (length (s_bufs s) <= length (s_bufs s'))%nat /\
  (forall k o, nth_error (s_objs s) k = Some o -> exists o', nth_error (s_objs s') k = Some o' /\ same_addr o o') /\
  (forall a, In a (s_mine s) -> In a (s_mine s')).
Proof.
  intros s s' I E. assert (R : forall o, same_addr o o) by (intros; repeat split).
  destruct E; simpl; try rewrite !app_length; simpl; (split; [|split]); eauto; try lia; intros.
  - apply in_or_app; auto.
  - rewrite upd_length; lia.
  - exists o. split; auto. rewrite nth_error_app1; auto. apply nth_error_Some; congruence.
  - exists o. split; auto. rewrite nth_error_app1; auto. apply nth_error_Some; congruence.
  - rewrite !upd_length; lia.
  - destruct (Nat.eq_dec k k0) as [->|n].
    + assert (o = o0) by congruence; subst. eexists. rewrite upd_same by (apply nth_error_Some; congruence).
      split; eauto. repeat split.
    + exists o0. rewrite upd_other; auto.
  - apply in_or_app; auto.
Qed.

Lemma eff_inv : forall s s', HInv s -> Eff s s' -> HInv s'.
Proof.
  intros s s' I E. destruct I as [I1 I2 I3]. destruct E.
  - constructor; auto.
  - constructor; simpl.
    + intros a H. rewrite app_length; simpl. apply in_app_or in H. destruct H as [H|[H|[]]]; [apply I1 in H|]; lia.
    + intros k o H. destruct (I2 _ _ H) as (A & B & C & D). rewrite app_length; simpl.
      split; [lia|split; [lia|split]].
      * intros H'. apply in_app_or in H'. destruct H' as [H'|[H'|[]]]; [auto|lia].
      * intros a H'. apply in_or_app. left. now apply D.
    + intros k k' o o' H H'. destruct (I3 _ _ _ _ H H') as (A & B & C). repeat split; auto.
      intros N NI. apply C; auto. intros X. apply NI, in_or_app; auto.
  - constructor; simpl; auto.
    + intros a' H'. rewrite upd_length. auto.
    + intros k o H'. destruct (I2 _ _ H') as (A & B & C & D). rewrite upd_length. auto.
  - constructor; simpl.
    + intros a H'. rewrite !app_length; simpl. apply I1 in H'. lia.
    + intros k o H'. rewrite !app_length; simpl. apply nth_snoc in H'. destruct H' as [[H' _]|[-> ->]]; simpl.
      * destruct (I2 _ _ H') as (A & B & C & D). repeat split; auto; lia.
      * rewrite app_length; simpl. repeat split; auto; try lia. intros X. apply I1 in X. lia.
    + intros k k' o o' H1 H2. apply nth_snoc in H1. apply nth_snoc in H2.
      destruct H1 as [[H1 L1]|[-> ->]], H2 as [[H2 L2]|[-> ->]]; simpl; rewrite ?app_length; simpl; auto;
        try destruct (I2 _ _ H1) as (A & B & C & D); try destruct (I2 _ _ H2) as (A' & B' & C' & D');
        repeat split; intros; try lia.
  - constructor; simpl.
    + intros a H'. rewrite !app_length; simpl. apply I1 in H'. lia.
    + intros k o H'. rewrite !app_length; simpl. apply nth_snoc in H'. destruct H' as [[H' _]|[-> ->]]; simpl.
      * destruct (I2 _ _ H') as (A & B & C & D). repeat split; auto; lia.
      * pose proof (I1 _ H0). repeat split; auto; try lia. intros X. apply I1 in X. lia.
    + intros k k' o o' H1 H2. apply nth_snoc in H1. apply nth_snoc in H2. pose proof (I1 _ H0).
      destruct H1 as [[H1 L1]|[-> ->]], H2 as [[H2 L2]|[-> ->]]; simpl; auto;
        try destruct (I2 _ _ H1) as (A & B & C & D); try destruct (I2 _ _ H2) as (A' & B' & C' & D');
        repeat split; intros; try lia; intros ?; subst; auto.
  - assert (X : forall j o', nth_error (s_objs (write_back s k o h)) j = Some o' ->
              exists o2, nth_error (s_objs s) j = Some o2 /\ same_addr o2 o').
    { intros j o' H'. simpl in H'. apply upd_some in H'. destruct H' as [[-> ->]|[N H']].
      - exists o. split; auto. repeat split. - exists o'. split; auto. repeat split. }
    constructor; simpl.
    + intros a H'. rewrite !upd_length. auto.
    + intros j o' H'. destruct (X _ _ H') as (o2 & O & (S1 & S2 & S3)).
      rewrite !upd_length, <- S1, <- S2, <- S3. eauto.
    + intros j j' o' o'' H1 H2. destruct (X _ _ H1) as (o2 & O & (S1 & S2 & S3)).
      destruct (X _ _ H2) as (o3 & O' & (T1 & T2 & T3)).
      rewrite <- S2, <- S3, <- T2, <- T3. eauto.
  - destruct (I2 _ _ H) as (A & B & C & D). constructor; simpl.
    + intros a H'. apply in_app_or in H'. destruct H' as [H'|[H'|[]]]; [auto|lia].
    + intros k' o' H'. destruct (I2 _ _ H') as (A' & B' & C' & D'). repeat split; auto.
      * intros X. apply in_app_or in X. destruct X as [X|[X|[]]]; [auto|]. destruct (I3 _ _ _ _ H' H). auto.
      * intros a X. apply in_or_app. left. now apply D'.
    + intros j j' o1 o2 H1 H2. destruct (I3 _ _ _ _ H1 H2) as (X & Y & Z). repeat split; auto.
      intros N NI. apply Z; auto. intros W. apply NI, in_or_app; auto.
Qed.

Lemma init_inv : HInv hs_init.
Proof. constructor; simpl; intros; try contradiction; destruct k; discriminate. Qed.

Lemma run_app : forall l1 l2 s, h_run s (l1 ++ l2) = h_run (h_run s l1) l2.
Proof. intros. unfold h_run. apply fold_left_app. Qed.
Lemma run_inv : forall l s, HInv s -> HInv (h_run s l).
Proof.
  induction l as [|op l IH]; intros s I; [exact I|]. apply IH. eapply eff_inv; eauto. now apply step_eff.
Qed.

Lemma step_private : forall s op k o, HInv s -> nth_error (s_objs s) k = Some o -> no_take k op ->
  ~ In (ho_counts o) (s_mine s) -> ~ In (ho_counts o) (s_mine (fst (h_step s op))).
Proof.
  intros s op k o I O NT NI.
  destruct (hi_addr s I _ _ O) as (A & _).
  assert (C : (exists j, op = HCounts j) \/ forall a, In a (s_mine (fst (h_step s op))) -> In a (s_mine s) \/ a = length (s_bufs s)).
  { destruct op; try (left; eexists; reflexivity); right; simpl;
      repeat match goal with
      | |- context [match ?x with _ => _ end] => match type of x with
            | option _ => destruct x | res _ => destruct x | bool => destruct x | prod _ _ => destruct x
            | list _ => destruct x end end; simpl; auto.
    intros a H. apply in_app_or in H. destruct H as [H|[H|[]]]; auto. }
  destruct C as [(j & ->)|C].
  - simpl in *. destruct (nth_error (s_objs s) j) eqn:E; simpl; auto.
    intros X. apply in_app_or in X. destruct X as [X|[X|[]]]; auto.
    destruct (hi_priv s I k j o h O E) as (_ & _ & Z). apply Z; auto.
  - intros X. apply C in X. destruct X as [X|X]; auto. lia.
Qed.

Lemma run_object : forall l s k o, HInv s -> nth_error (s_objs s) k = Some o ->
  exists o', nth_error (s_objs (h_run s l)) k = Some o' /\ same_addr o o' /\
  (forall a, In a (s_mine s) -> In a (s_mine (h_run s l))) /\
  (Forall (no_take k) l -> ~ In (ho_counts o) (s_mine s) -> ~ In (ho_counts o') (s_mine (h_run s l))).
Proof.
  induction l as [|op l IH]; intros s k o I O.
  - exists o. repeat split; auto.
  - pose proof (step_eff s op I) as E. pose proof (eff_inv _ _ I E) as I'.
    destruct (eff_frame _ _ I E) as (_ & F & G). destruct (F _ _ O) as (o1 & O1 & S1).
    destruct (IH _ k o1 I' O1) as (o2 & O2 & S2 & G2 & P2). exists o2. split; [exact O2|]. split.
    { destruct S1 as (a1 & a2 & a3), S2 as (b1 & b2 & b3). repeat split; congruence. }
    split; [intros; apply G2; auto|].
    intros NT NI. inversion NT; subst. apply P2; auto. destruct S1 as (_ & S1 & _). rewrite <- S1.
    eapply step_private; eauto.
Qed.

Lemma all_some_ext : forall (f g : edge_src -> option (list R)) es, (forall e, In e es -> f e = g e) ->
  all_some (map f es) = all_some (map g es).
Proof. intros. f_equal. apply map_ext_in. auto. Qed.

(** the view of an object depends on the arrays it refers to only *)
Lemma view_ext : forall s s' o, (forall a, In (ERef a) (ho_edges o) -> buf s' a = buf s a) ->
  buf s' (ho_counts o) = buf s (ho_counts o) -> buf s' (ho_errs o) = buf s (ho_errs o) -> view s' o = view s o.
Proof.
  intros s s' o E C Q. unfold view. rewrite C, Q.
  rewrite (all_some_ext (edge_vals s') (edge_vals s)); auto.
  intros e I. destruct e; auto. simpl. unfold real_buf. rewrite E; auto.
Qed.

Lemma fill_frame : forall s op k o, HInv s -> is_fill k op -> nth_error (s_objs s) k = Some o ->
  let s' := fst (h_step s op) in
  (forall a, a <> ho_counts o -> a <> ho_errs o -> buf s' a = buf s a) /\
  (forall j, j <> k -> nth_error (s_objs s') j = nth_error (s_objs s) j) /\
  (forall a, In a (s_mine s) -> a <> ho_counts o -> buf s' a = buf s a) /\
  (forall j o', j <> k -> nth_error (s_objs s) j = Some o' ->
     ~ In (ERef (ho_counts o)) (ho_edges o') -> ho_counts o' <> ho_counts o -> view s' o' = view s o').
Proof.
  intros s op k o I F O s'.
  assert (B : s' = s \/ exists h, s' = write_back s k o h).
  { subst s'. destruct op; simpl in F; try contradiction; subst; simpl; rewrite O;
    repeat match goal with
      | |- context [match ?x with _ => _ end] => destruct x
      end; simpl; eauto. }
  assert (B1 : forall a, a <> ho_counts o -> a <> ho_errs o -> buf s' a = buf s a).
  { intros a N1 N2. destruct B as [->|(h & ->)]; auto. unfold buf. simpl. rewrite !upd_other; auto. }
  destruct (hi_addr s I _ _ O) as (_ & _ & NM & _).
  assert (B2 : forall a, In a (s_mine s) -> a <> ho_counts o -> buf s' a = buf s a).
  { intros a M N. apply B1; auto. intros ->. auto. }
  split; [exact B1|split; [|split; [exact B2|]]].
  - intros j N. destruct B as [->|(h & ->)]; auto. simpl. rewrite upd_other; auto.
  - intros j o' N O' NE NC. destruct (hi_addr s I _ _ O') as (_ & _ & _ & R).
    destruct (hi_priv s I _ _ _ _ O O') as (P1 & P2 & _). destruct (hi_priv s I _ _ _ _ O' O) as (P3 & P4 & _).
    apply view_ext.
    + intros a IE. apply B2; auto. intros ->. auto.
    + apply B1; auto.
    + apply B1; auto.
Qed.

Lemma in_lt_mine : forall s, HInv s -> ~ In (length (s_bufs s)) (s_mine s).
Proof. intros s I X. apply (hi_mine s I) in X. lia. Qed.

Lemma ctor_object : forall s op, HInv s -> is_ctor op -> snd (h_step s op) = Ok tt ->
  exists o, nth_error (s_objs (fst (h_step s op))) (length (s_objs s)) = Some o /\ ho_counts o = length (s_bufs s) /\
            s_mine (fst (h_step s op)) = s_mine s.
Proof.
  assert (X : forall s h es, exists o, nth_error (s_objs (add_fresh s h es)) (length (s_objs s)) = Some o /\ ho_counts o = length (s_bufs s) /\
            s_mine (add_fresh s h es) = s_mine s).
  { intros. eexists. simpl. rewrite nth_error_app2, Nat.sub_diag by lia. repeat split. }
  intros s op I C. destruct op; simpl in C; try contradiction; simpl.
  - destruct (bins1_of s bins) as [[[b r] es]|]; [|discriminate].
    destruct (weights_of s w); [|discriminate].
    destruct (match data with None => Some None | Some a => option_map Some (arg s a) end); [|discriminate].
    destruct (hist1_new b r o w0); [|discriminate]. intros _. apply X.
  - destruct (arg s bx); [|discriminate]. destruct (arg s by_); [|discriminate].
    destruct (weights_of s w); [|discriminate].
    match goal with |- context [match ?x with Some _ => _ | None => (s, Err OutOfModel) end] => destruct x end; [|discriminate].
    match goal with |- context [match ?x with Ok _ => _ | Err _ => _ end] => destruct x end; [|discriminate]. intros _. apply X.
  - destruct (nth_error (s_objs s) k); [|discriminate]. destruct (view s h); [|discriminate].
    destruct (ho_edges h) as [|ex [|ey [|]]]; try discriminate.
    destruct (hist2_projection axis_x h0); [|discriminate]. intros _. apply X.
Qed.

Lemma from_object : forall s op c, is_from c op -> snd (h_step s op) = Ok tt ->
  exists o, nth_error (s_objs (fst (h_step s op))) (length (s_objs s)) = Some o /\ ho_counts o = c.
Proof.
  assert (X : forall s h es c, exists o, nth_error (s_objs (add_obj s h es c)) (length (s_objs s)) = Some o /\ ho_counts o = c).
  { intros. eexists. simpl. rewrite nth_error_app2, Nat.sub_diag by lia. repeat split. }
  intros s op c C. destruct op; simpl in C; try contradiction; subst; simpl.
  - destruct (arg_nd s c); [|discriminate]. destruct (arg s e); [|discriminate].
    destruct (arg_errors s errors); [|discriminate].
    match goal with |- context [match ?x with Ok _ => _ | Err _ => _ end] => destruct x end; [|discriminate]. intros _. apply X.
  - destruct (arg_nd s c); [|discriminate]. destruct (arg s ex); [|discriminate].
    destruct (arg s ey); [|discriminate]. destruct (arg_errors s errors); [|discriminate].
    match goal with |- context [match ?x with Ok _ => _ | Err _ => _ end] => destruct x end; [|discriminate]. intros _. apply X.
Qed.

Lemma created_object : forall s op, HInv s -> creates op -> snd (h_step s op) = Ok tt ->
  exists o, nth_error (s_objs (fst (h_step s op))) (length (s_objs s)) = Some o /\
    (forall a, In (ERef a) (ho_edges o) -> In a (kept op)) /\
    (In (ho_counts o) (kept op) \/ (ho_counts o = length (s_bufs s) /\ s_mine (fst (h_step s op)) = s_mine s)).
Proof.
  intros s op I C. destruct op; simpl in C; try contradiction; simpl.
  - destruct (bins1_of s bins) as [[[b r] es]|] eqn:B; [|discriminate].
    destruct (weights_of s w); [|discriminate].
    destruct (match data with None => Some None | Some a => option_map Some (arg s a) end); [|discriminate].
    destruct (hist1_new b r o w0); [|discriminate]. intros _. eexists. simpl.
    rewrite nth_error_app2, Nat.sub_diag by lia. simpl. split; [reflexivity|]. simpl. split; [|auto].
    destruct bins; simpl in B.
    + inversion B; subst. intros a' [H|[]]. discriminate.
    + destruct (arg s a0); [|discriminate]. inversion B; subst. intros a' [H|[]]. left. congruence.
  - destruct (arg s bx); [|discriminate]. destruct (arg s by_); [|discriminate].
    destruct (weights_of s w); [|discriminate].
    match goal with |- context [match ?x with Some _ => _ | None => (s, Err OutOfModel) end] => destruct x end; [|discriminate].
    match goal with |- context [match ?x with Ok _ => _ | Err _ => _ end] => destruct x end; [|discriminate]. intros _.
    eexists. simpl. rewrite nth_error_app2, Nat.sub_diag by lia. simpl. split; [reflexivity|]. simpl. split; [|auto].
    intros a0 [H|[H|[]]]; [left|right;left]; congruence.
  - destruct (arg_nd s counts); [|discriminate]. destruct (arg s e); [|discriminate].
    destruct (arg_errors s errors); [|discriminate].
    match goal with |- context [match ?x with Ok _ => _ | Err _ => _ end] => destruct x end; [|discriminate]. intros _.
    eexists. simpl. rewrite nth_error_app2, Nat.sub_diag by lia. simpl. split; [reflexivity|]. simpl. split; [|auto].
    intros a0 [H|[]]; right; left; congruence.
  - destruct (arg_nd s counts); [|discriminate]. destruct (arg s ex); [|discriminate].
    destruct (arg s ey); [|discriminate]. destruct (arg_errors s errors); [|discriminate].
    match goal with |- context [match ?x with Ok _ => _ | Err _ => _ end] => destruct x end; [|discriminate]. intros _.
    eexists. simpl. rewrite nth_error_app2, Nat.sub_diag by lia. simpl. split; [reflexivity|]. simpl. split; [|auto].
    intros a0 [H|[H|[]]]; [right;left|right;right;left]; congruence.
Qed.
