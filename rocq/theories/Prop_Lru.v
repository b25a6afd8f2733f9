(** Property C107: how long a value cached by one of the three functools.lru_cache methods of Channel is kept. *)
From Coq Require Import String Bool Arith List Lia.
From Verif Require Import Model_Num Model_Template Model_World Model_Ops Spec_World Proof_Monad Proof_Eval Prop_World.
Import ListNotations.

(** ** Specification.  A history lists the calls of the cached method, the latest first: the arguments and what the call
    returned or raised.  [good]: the arguments of the calls that returned. *)
Fixpoint good {K V} (h : list (K * res V)) : list K :=
  match h with [] => [] | (k, Ok _) :: h' => k :: good h' | (_, Err _) :: h' => good h' end.
(** the last successful call with the arguments k returned v, and fewer than 128 different other arguments were used since *)
Definition kept {K V} (dec : forall a b : K, {a = b} + {a <> b}) (h : list (K * res V)) (k : K) (v : V) : Prop :=
  exists newer older, h = newer ++ (k, Ok v) :: older /\ ~ In k (good newer) /\ length (nodup dec (good newer)) < 128.
(** the machine: the calls in order, each with the arguments and what the undecorated method would do at that time *)
Fixpoint calls {K V} (eqb : K -> K -> bool) (l : list (K * res V)) (c : list (K * V)) (h : list (K * res V)) : list (K * V) * list (K * res V) :=
  match l with
  | [] => (c, h)
  | (k, r) :: l' => let '(c', r') := lru_call eqb c k r in calls eqb l' c' ((k, r') :: h)
  end.

Section Lru.
  Context {K V : Type} (eqb : K -> K -> bool) (EQ : forall a b, eqb a b = true <-> a = b) (dec : forall a b : K, {a = b} + {a <> b}).
  Notation del := (@lru_del K V eqb).
  Fixpoint recency (h : list (K * res V)) : list (K * V) :=
    match h with [] => [] | (k, Ok v) :: h' => (k, v) :: del (recency h') k | (_, Err _) :: h' => recency h' end.
  Lemma eqb_dec a b : eqb a b = if dec a b then true else false.
  Proof. destruct (dec a b) as [->|N]; [now apply EQ|]. apply not_true_is_false. intros E. now apply EQ in E. Qed.
  Lemma del_none l k : ~ In k (map fst l) -> del l k = l.
  Proof. induction l as [|[k' v] l IH]; intros N; [reflexivity|]. cbn in *. rewrite eqb_dec. destruct (dec k k'); [subst; tauto|]. f_equal. apply IH. tauto. Qed.
  Lemma del_in l k x : NoDup (map fst l) -> (In x (map fst (del l k)) <-> In x (map fst l) /\ x <> k).
  Proof.
    induction l as [|[k' v] l IH]; intros ND; [cbn; tauto|]. cbn in *. apply NoDup_cons_iff in ND as (N & ND). rewrite eqb_dec. destruct (dec k k').
    - subst k'. split; [intros I; split; [now right|intros ->; tauto]|]. intros ([->|I] & X); [congruence|exact I].
    - cbn. rewrite (IH ND). split; [intros [<-|(I & X)]; [split; [now left|congruence]|tauto]|intros ([->|I] & X); [now left|right; auto]].
  Qed.
  Lemma del_nodup l k : NoDup (map fst l) -> NoDup (map fst (del l k)).
  Proof.
    induction l as [|[k' v] l IH]; intros ND; [exact ND|]. cbn in *. apply NoDup_cons_iff in ND as (N & ND). rewrite eqb_dec. destruct (dec k k'); [exact ND|].
    cbn. constructor; [|now apply IH]. intros I. apply del_in in I; tauto.
  Qed.
  Lemma del_length l k : In k (map fst l) -> S (length (del l k)) = length l.
  Proof. induction l as [|[k' v] l IH]; intros I; [easy|]. cbn in *. rewrite eqb_dec. destruct (dec k k'); [reflexivity|]. cbn. rewrite IH; [reflexivity|]. destruct I; congruence. Qed.
  Lemma del_app a b k : In k (map fst a) -> del (a ++ b) k = del a k ++ b.
  Proof. induction a as [|[k' v] a IH]; intros I; [easy|]. cbn in *. rewrite eqb_dec. destruct (dec k k'); [reflexivity|]. cbn. rewrite IH; [reflexivity|]. destruct I; congruence. Qed.
  Lemma del_app' a b k : ~ In k (map fst a) -> del (a ++ b) k = a ++ del b k.
  Proof. induction a as [|[k' v] a IH]; intros I; [reflexivity|]. cbn in *. rewrite eqb_dec. destruct (dec k k'); [subst; tauto|]. cbn. rewrite IH; [reflexivity|]. tauto. Qed.
  Lemma recency_nodup h : NoDup (map fst (recency h)).
  Proof.
    induction h as [|[k [v|e]] h IH]; [constructor| |exact IH]. cbn. constructor; [|now apply del_nodup]. intros I. apply del_in in I; tauto.
  Qed.
  Lemma dget_firstn (l : list (K * V)) n k v : NoDup (map fst l) -> (dget eqb (firstn n l) k = Some v <-> exists a b, l = a ++ (k, v) :: b /\ length a < n).
  Proof.
    revert l. induction n as [|n IH]; intros l ND; [cbn; split; [discriminate|intros (a & b & _ & X); lia]|].
    destruct l as [|[k' v'] l]; [cbn; split; [discriminate|intros (a & b & X & _); now destruct a]|]. cbn in ND |- *. apply NoDup_cons_iff in ND as (N & ND). rewrite eqb_dec. destruct (dec k k').
    - subst k'. split; [intros [= ->]; exists [], l; cbn; split; [reflexivity|lia]|]. intros ([|x a] & b & X & L); cbn in X; [congruence|].
      exfalso. apply N. injection X as _ X. rewrite X, map_app. apply in_or_app. right. now left.
    - rewrite (IH l ND). split.
      + intros (a & b & -> & L). exists ((k', v') :: a), b. cbn. split; [reflexivity|lia].
      + intros ([|x a] & b & X & L); cbn in X; [congruence|]. injection X as _ X. exists a, b. cbn in L. split; [exact X|lia].
  Qed.
  Lemma recency_app h1 k v h2 : ~ In k (good h1) -> exists a b, recency (h1 ++ (k, Ok v) :: h2) = a ++ (k, v) :: b /\
    length a = length (nodup dec (good h1)) /\ (forall x, In x (map fst a) <-> In x (good h1)).
  Proof.
    induction h1 as [|[k' [v'|e]] h1 IH]; intros N.
    - exists [], (del (recency h2) k). cbn. repeat split; tauto.
    - cbn in N. destruct IH as (a & b & E & L & S); [tauto|]. cbn [app recency]. rewrite E. cbn [good]. 
      assert (NA : NoDup (map fst a)). { pose proof (recency_nodup (h1 ++ (k, Ok v) :: h2)) as X. rewrite E, map_app in X. clear -X. induction a as [|x a IHa]; cbn in *; [constructor|]. apply NoDup_cons_iff in X as (N & X). constructor; [|now apply IHa]. intros I. apply N, in_or_app. now left. }
      destruct (in_dec dec k' (good h1)) as [I|I].
      + exists ((k', v') :: del a k'), b. rewrite del_app by now apply S. split; [reflexivity|]. split.
        * cbn [length nodup]. rewrite del_length by now apply S. destruct (in_dec dec k' (good h1)); [exact L|tauto].
        * intros x. cbn. rewrite (del_in a k' x NA), S. destruct (dec x k') as [->|X]; [tauto|]. split; [intros [?|?]; tauto|intros [?|?]; [congruence|tauto]].
      + exists ((k', v') :: a), (del b k'). rewrite del_app' by (now rewrite S). split; [cbn [lru_del]; rewrite eqb_dec; destruct (dec k' k); [subst; tauto|reflexivity]|]. split.
        * cbn [length nodup]. destruct (in_dec dec k' (good h1)); [tauto|]. cbn. now rewrite L.
        * intros x. cbn. rewrite S. tauto.
    - cbn in *. now apply IH.
  Qed.
  Lemma recency_in h k v : In (k, v) (recency h) -> exists h1 h2, h = h1 ++ (k, Ok v) :: h2 /\ ~ In k (good h1).
  Proof.
    induction h as [|[k' [v'|e]] h IH]; intros I; [easy| |].
    - cbn in I. destruct I as [[= -> ->]|I]; [exists [], h; split; [reflexivity|easy]|].
      assert (X : k <> k'). { apply (in_map fst) in I. apply del_in in I; [cbn in I; tauto|apply recency_nodup]. }
      assert (J : In (k, v) (recency h)). { clear -I. induction (recency h) as [|[a b] l IHl]; [easy|]. cbn in I. destruct (eqb k' a); [now right|]. destruct I as [I|I]; [now left|right; auto]. }
      destruct (IH J) as (h1 & h2 & -> & N). exists ((k', Ok v') :: h1), h2. split; [reflexivity|]. cbn. intros [->|Y]; tauto.
    - cbn in I. destruct (IH I) as (h1 & h2 & -> & N). exists ((k', Err e) :: h1), h2. split; [reflexivity|exact N].
  Qed.
  Lemma kept_dget h k v : kept dec h k v <-> dget eqb (firstn 128 (recency h)) k = Some v.
  Proof.
    rewrite (dget_firstn _ 128 k v (recency_nodup h)). split.
    - intros (h1 & h2 & -> & N & L). destruct (recency_app h1 k v h2 N) as (a & b & E & LA & _). exists a, b. split; [exact E|]. now rewrite LA.
    - intros (a & b & E & L). destruct (recency_in h k v) as (h1 & h2 & -> & N). { rewrite E. apply in_or_app. right. now left. }
      exists h1, h2. split; [reflexivity|]. split; [exact N|]. destruct (recency_app h1 k v h2 N) as (a' & b' & E' & LA & _). rewrite <- LA.
      pose proof (recency_nodup (h1 ++ (k, Ok v) :: h2)) as ND. rewrite E in E', ND.
      assert (X : length a' = length a).
      { clear -E' ND. revert a' E'. induction a as [|x a IH]; intros [|x' a'] E'; cbn in *; [reflexivity| | |].
        - injection E' as <- E'. exfalso. apply NoDup_cons_iff in ND as (N & _). apply N. rewrite E', map_app. apply in_or_app. right. now left.
        - injection E' as -> E'. exfalso. apply NoDup_cons_iff in ND as (N & _). apply N. rewrite map_app. apply in_or_app. right. now left.
        - injection E' as -> E'. apply NoDup_cons_iff in ND as (_ & ND). f_equal. now apply IH. }
      lia.
  Qed.
  Lemma firstn_del l n k : NoDup (map fst l) -> In k (map fst (firstn (S n) l)) -> firstn n (del l k) = del (firstn (S n) l) k.
  Proof.
    revert n. induction l as [|[k' v] l IH]; intros n ND I; [easy|]. cbn in ND. apply NoDup_cons_iff in ND as (N & ND). cbn [lru_del firstn]. rewrite eqb_dec. destruct (dec k k'); [reflexivity|].
    destruct n as [|n]. { cbn in I. destruct I as [I|[]]. congruence. }
    cbn [firstn]. f_equal. apply (IH n ND). cbn [firstn map fst] in I. destruct I as [I|I]; [congruence|exact I].
  Qed.
  Lemma firstn_miss l n k : ~ In k (map fst (firstn (S n) l)) -> firstn n (del l k) = firstn n l.
  Proof.
    revert n. induction l as [|[k' v] l IH]; intros n N; [reflexivity|]. cbn [lru_del]. rewrite eqb_dec. cbn [firstn map fst] in N. destruct (dec k k'); [subst; exfalso; apply N; now left|].
    destruct n as [|n]; [reflexivity|]. cbn [firstn]. f_equal. apply IH. intros I. apply N. right. exact I.
  Qed.
  Lemma dget_keys (l : list (K * V)) k : dget eqb l k = None <-> ~ In k (map fst l).
  Proof. induction l as [|[k' v] l IH]; [cbn; tauto|]. cbn. rewrite eqb_dec. destruct (dec k k'); [subst; split; [discriminate|tauto]|]. rewrite IH. split; [intros X [Y|Y]; [congruence|tauto]|tauto]. Qed.
  Lemma dget_some_in (l : list (K * V)) k v : dget eqb l k = Some v -> In k (map fst l).
  Proof. intros D. destruct (in_dec dec k (map fst l)) as [I|I]; [exact I|]. apply dget_keys in I. congruence. Qed.
  Lemma call_step h k r : lru_call eqb (firstn 128 (recency h)) k r =
    let r' := match dget eqb (firstn 128 (recency h)) k with Some v => Ok v | None => r end in (firstn 128 (recency ((k, r') :: h)), r').
  Proof.
    unfold lru_call. destruct (dget eqb (firstn 128 (recency h)) k) as [v|] eqn:D; cbv zeta.
    - f_equal. cbn [recency]. change 128 with (S 127) at 2. cbn [firstn]. f_equal. symmetry. apply (firstn_del (recency h) 127 k (recency_nodup h)). now apply dget_some_in in D.
    - destruct r as [v|e]; [|reflexivity]. f_equal. cbn [recency]. unfold lru_maxsize. generalize (recency_nodup h) D. clear D. generalize (recency h). intros q ND D.
      transitivity ((k, v) :: firstn 127 (firstn 128 q)); [reflexivity|]. transitivity ((k, v) :: firstn 127 (del q k)); [|reflexivity]. f_equal.
      rewrite firstn_firstn. change (Nat.min 127 128) with 127. symmetry. apply firstn_miss. now apply dget_keys.
  Qed.
  Lemma calls_state l : forall c h c' h', c = firstn 128 (recency h) -> calls eqb l c h = (c', h') -> c' = firstn 128 (recency h').
  Proof.
    induction l as [|[k r] l IH]; intros c h c' h' C E; cbn in E. { injection E as <- <-. exact C. }
    subst c. rewrite call_step in E. cbv zeta in E. eapply IH; [|exact E]. reflexivity.
  Qed.
  Lemma lru_kept : forall (l : list (K * res V)) c h k r, calls eqb l [] [] = (c, h) ->
    (forall v, kept dec h k v -> snd (lru_call eqb c k r) = Ok v) /\ ((forall v, ~ kept dec h k v) -> snd (lru_call eqb c k r) = r).
  Proof.
    intros l c h k r E. apply calls_state in E; [|reflexivity]. subst c. rewrite call_step. cbv zeta. cbn [snd]. split.
    - intros v X. apply kept_dget in X. now rewrite X.
    - intros N. destruct (dget eqb (firstn 128 (recency h)) k) as [v|] eqn:D; [|reflexivity]. exfalso. apply (N v). now apply kept_dget.
  Qed.
End Lru.

(** The two kinds of keys (a channel object; a channel object and the tuple of processes), any sequence of calls of one
    cached method: the call returns the old value while it is kept, and otherwise does what the undecorated method does. *)
Theorem C107_channel : forall V (l : list (nat * res V)) c h k r, calls Nat.eqb l [] [] = (c, h) ->
  (forall v, kept Nat.eq_dec h k v -> snd (lru_call Nat.eqb c k r) = Ok v) /\
  ((forall v, ~ kept Nat.eq_dec h k v) -> snd (lru_call Nat.eqb c k r) = r).
Proof. intros V. apply lru_kept. apply Nat.eqb_eq. Qed.
Definition key_dec (a b : nat * list string) : {a = b} + {a <> b}.
Proof. decide equality; [apply (list_eq_dec string_dec)|apply Nat.eq_dec]. Defined.
Lemma key_eqb a b : pi_key_eqb a b = true <-> a = b.
Proof.
  destruct a as [i o], b as [j p]. unfold pi_key_eqb, strlist_eqb. cbn [fst snd]. destruct (Nat.eqb_spec i j), (list_eq_dec string_dec o p); cbn; split; intros; congruence.
Qed.
Theorem C107_process_indices : forall V (l : list ((nat * list string) * res V)) c h k r, calls pi_key_eqb l [] [] = (c, h) ->
  (forall v, kept key_dec h k v -> snd (lru_call pi_key_eqb c k r) = Ok v) /\
  ((forall v, ~ kept key_dec h k v) -> snd (lru_call pi_key_eqb c k r) = r).
Proof. intros V. apply lru_kept. apply key_eqb. Qed.
Print Assumptions C107_process_indices.
(** both cases occur: the value for channel 0 is kept after 127 other channels, and after 127 others and a further call for
    channel 0; it is recomputed after 128 others *)
Definition others (n : nat) : list (nat * res nat) := map (fun i => (i, Ok i)) (seq 1 n).
Example ex_C107 : snd (lru_call Nat.eqb (fst (calls Nat.eqb ((0, Ok 7) :: others 127) [] [])) 0 (Ok 8)) = Ok 7 /\
  snd (lru_call Nat.eqb (fst (calls Nat.eqb ((0, Ok 7) :: others 127 ++ [(0, Ok 8); (128, Ok 1)]) [] [])) 0 (Ok 9)) = Ok 7 /\
  snd (lru_call Nat.eqb (fst (calls Nat.eqb ((0, Ok 7) :: others 128) [] [])) 0 (Ok 8)) = Ok 8.
Proof. vm_compute. auto. Qed.

(** In every state of the program the three caches are what such a sequence of calls leaves: the theorems above apply. *)
Definition later {K V} (eqb : K -> K -> bool) (c c' : list (K * V)) : Prop := exists l, forall h, fst (calls eqb l c h) = c'.
Lemma later_refl {K V} (eqb : K -> K -> bool) (c : list (K * V)) : later eqb c c. Proof. now exists []. Qed.
Lemma calls_app {K V} (eqb : K -> K -> bool) (l1 l2 : list (K * res V)) : forall c h, calls eqb (l1 ++ l2) c h = let '(c', h') := calls eqb l1 c h in calls eqb l2 c' h'.
Proof. induction l1 as [|[k r] l1 IH]; intros c h; cbn; [reflexivity|]. destruct (lru_call eqb c k r). apply IH. Qed.
Lemma later_trans {K V} (eqb : K -> K -> bool) (a b c : list (K * V)) : later eqb a b -> later eqb b c -> later eqb a c.
Proof.
  intros (l1 & A) (l2 & B). exists (l1 ++ l2). intros h. rewrite calls_app. specialize (A h). destruct (calls eqb l1 a h) as (a' & h'). cbn in A. subst a'. apply B.
Qed.
Lemma later_call {K V} (eqb : K -> K -> bool) (c : list (K * V)) k r : later eqb c (fst (lru_call eqb c k r)).
Proof. exists [(k, r)]. intros h. cbn. now destruct (lru_call eqb c k r). Qed.
Definition used (w w' : world) : Prop :=
  later pi_key_eqb (w_cache_pi w) (w_cache_pi w') /\ later Nat.eqb (w_cache_eff w) (w_cache_eff w') /\ later Nat.eqb (w_cache_inv w) (w_cache_inv w').
Lemma used_po : preorder used.
Proof. split; [intros; repeat split; apply later_refl|]. intros a b c (A & B & C) (D & E & F). repeat split; eapply later_trans; eauto. Qed.
Lemma used_same w w' : same_cache w w' -> used w w'.
Proof. intros (A & B & C). unfold used. rewrite A, B, C. repeat split; apply later_refl. Qed.
Lemma used_pi cid o : pres used (process_indices cid o).
Proof.
  unfold process_indices. pres_tac used_po. intros w. match goal with |- context[lru_call pi_key_eqb ?c ?k ?r] => pose proof (later_call pi_key_eqb c k r) end.
  destruct (lru_call pi_key_eqb _ _ _). repeat split; try apply later_refl; assumption.
Qed.
Lemma used_effs cid : pres used (efficiencies_as_array cid).
Proof.
  unfold efficiencies_as_array. pres_tac used_po. intros w. match goal with |- context[lru_call Nat.eqb ?c ?k ?r] => pose proof (later_call Nat.eqb c k r) end.
  destruct (lru_call Nat.eqb _ _ _). repeat split; try apply later_refl; assumption.
Qed.
Lemma used_inv cid : pres used (block_diag_inv_corr_mat cid).
Proof.
  unfold block_diag_inv_corr_mat. pres_tac used_po. intros w. match goal with |- context[lru_call Nat.eqb ?c ?k ?r] => pose proof (later_call Nat.eqb c k r) end.
  destruct (lru_call Nat.eqb _ _ _). repeat split; try apply later_refl; assumption.
Qed.
Lemma used_per_channel x : pres used (generate_per_channel_parameters x).
Proof. unfold generate_per_channel_parameters. pres_tac used_po. apply used_pi. Qed.
Lemma used_nll x : pres used (nll x).
Proof.
  unfold nll. pres_tac used_po; [apply used_per_channel| |apply (pres_read used_po)].
  unfold nll_contribution. pres_tac used_po. destruct (c_data _); [|apply (pres_raise used_po)].
  pres_tac used_po.
  - unfold expected_evts_per_bin. pres_tac used_po; [apply used_effs|]. unfold ch_fractions. pres_tac used_po.
  - unfold gauss_term. pres_tac used_po. apply used_inv.
Qed.
Lemma used_step inv o : pres used (step inv o).
Proof.
  destruct (evaluates o) eqn:He; [|intros w; apply used_same, same_cache_step; exact He].
  destruct o; simpl in He; try discriminate; simpl.
  - unfold update_parameters. pres_tac used_po; [apply used_per_channel|]. unfold ch_update_parameters. pres_tac used_po.
    match goal with a : (_ * _ * list xr * list xr)%type |- _ => destruct a as [[[tid eff] yy] nn] end. pres_tac used_po; intros w; apply used_same, same_cache_on_tmpl.
  - pres_tac used_po. apply used_nll.
Qed.
Theorem C107_reached : forall inv l, let w := reached inv l in
  (exists cl h, calls pi_key_eqb cl [] [] = (w_cache_pi w, h)) /\
  (exists cl h, calls Nat.eqb cl [] [] = (w_cache_eff w, h)) /\ (exists cl h, calls Nat.eqb cl [] [] = (w_cache_inv w, h)).
Proof.
  intros inv l w.
  assert (U : used world_init w). { unfold w, reached. generalize world_init. induction l as [|o l IH]; intros w0; [apply used_po|]. eapply used_po; [apply (used_step inv o)|apply IH]. }
  destruct U as ((l1 & A) & (l2 & B) & (l3 & C)). specialize (A []). specialize (B []). specialize (C []). cbn [w_cache_pi w_cache_eff w_cache_inv world_init] in A, B, C.
  split; [|split]; [exists l1|exists l2|exists l3].
  - destruct (calls pi_key_eqb l1 [] []) as (c & h). cbn in A. subst c. eauto.
  - destruct (calls Nat.eqb l2 [] []) as (c & h). cbn in B. subst c. eauto.
  - destruct (calls Nat.eqb l3 [] []) as (c & h). cbn in C. subst c. eauto.
Qed.
Print Assumptions C107_reached.
