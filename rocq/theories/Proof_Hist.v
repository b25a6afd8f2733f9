(** Lemmas about the histogram model. *)
From Coq Require Import Reals String ZArith Bool Arith List Lra Lia Permutation.
From Verif Require Import Model_Num Model_Hist Spec_Hist.
Import ListNotations.
Local Open Scope R_scope.

Lemma Rltb_spec a b : reflect (a < b) (Rltb a b).
Proof. unfold Rltb; destruct (Rlt_dec a b); constructor; assumption. Qed.
Lemma Rleb_spec a b : reflect (a <= b) (Rleb a b).
Proof. unfold Rleb; destruct (Rle_dec a b); constructor; assumption. Qed.
Lemma Reqb_spec a b : reflect (a = b) (Reqb a b).
Proof. unfold Reqb; destruct (Req_EM_T a b); constructor; assumption. Qed.

Lemma map2_length {A B C} (f : A -> B -> C) a b : length (map2 f a b) = Nat.min (length a) (length b).
Proof. revert b; induction a as [|x a IH]; intros [|y b]; simpl; auto. Qed.

Lemma map2_nth {A B C} (f : A -> B -> C) a b i da db dc :
  (i < length a)%nat -> (i < length b)%nat -> nth i (map2 f a b) dc = f (nth i a da) (nth i b db).
Proof.
  revert b i; induction a as [|x a IH]; intros [|y b] i; simpl; try lia.
  destruct i as [|i]; intros; auto. apply IH; lia.
Qed.

Lemma nth_map_seq {A} (f : nat -> A) s n i d : (i < n)%nat -> nth i (map f (seq s n)) d = f (s + i)%nat.
Proof.
  intros H. rewrite nth_indep with (d' := f 0%nat) by (rewrite map_length, seq_length; lia).
  rewrite map_nth, seq_nth by lia. reflexivity.
Qed.

(** weighted sums over a boolean predicate *)
Definition wsumf {A} (p : A -> bool) (ev : list (A * R)) : R :=
  Rsuml (map (fun e => if p (fst e) then snd e else 0) ev).

Lemma Rsuml_app a b : Rsuml (a ++ b) = Rsuml a + Rsuml b.
Proof. induction a as [|x a IH]; simpl; [lra|rewrite IH; lra]. Qed.

Lemma wsumf_app {A} (p : A -> bool) a b : wsumf p (a ++ b) = wsumf p a + wsumf p b.
Proof. unfold wsumf; rewrite map_app; apply Rsuml_app. Qed.

Lemma wsumf_perm {A} (p : A -> bool) a b : Permutation a b -> wsumf p a = wsumf p b.
Proof.
  intros H; unfold wsumf; induction H; simpl; try lra.
Qed.

Lemma wsumf_wsum {A} (p : A -> bool) (P : A -> Prop) ev :
  (forall x, reflect (P x) (p x)) -> wsum P ev (wsumf p ev).
Proof.
  intros H; unfold wsumf; induction ev as [|[x w] ev IH]; simpl; [constructor|].
  destruct (H x); [constructor; assumption|].
  rewrite Rplus_0_l; constructor; assumption.
Qed.

Lemma wsum_unique {A} (P : A -> Prop) ev s t : wsum P ev s -> wsum P ev t -> s = t.
Proof.
  intros H; revert t; induction H; intros t Ht; inversion Ht; subst; try contradiction; auto.
  f_equal; auto.
Qed.

Lemma wsum_app {A} (P : A -> Prop) a b s t : wsum P a s -> wsum P b t -> wsum P (a ++ b) (s + t).
Proof.
  intros H Hb; induction H; simpl.
  - rewrite Rplus_0_l; assumption.
  - rewrite Rplus_assoc; constructor; assumption.
  - constructor; assumption.
Qed.

Lemma wsum_ext {A} (P Q : A -> Prop) ev s : (forall x, P x <-> Q x) -> wsum P ev s -> wsum Q ev s.
Proof.
  intros E H; induction H; constructor; try assumption; [apply E; assumption|].
  intros Hq; apply E in Hq; contradiction.
Qed.

(** ** bin numbers *)

Lemma strictly_increasing_spec es :
  strictly_increasing es = true <-> forall i, (S i < length es)%nat -> nth i es 0 < nth (S i) es 0.
Proof.
  induction es as [|a [|b es] IH]; simpl.
  - split; [intros _ i; lia|auto].
  - split; [intros _ i; lia|auto].
  - split.
    + intros H i Hi. apply andb_prop in H as [H1 H2].
      destruct (Rltb_spec a b) as [H|]; [|discriminate].
      destruct i as [|i]; [exact H|].
      apply (proj1 IH H2 i). simpl; lia.
    + intros H. destruct (Rltb_spec a b) as [|Hn].
      * simpl. apply IH. intros i Hi. apply (H (S i)). simpl in Hi |- *; lia.
      * exfalso; apply Hn. apply (H O). lia.
Qed.

Lemma incr_mono es i j :
  (forall i, (S i < length es)%nat -> nth i es 0 < nth (S i) es 0) ->
  (i < j)%nat -> (j < length es)%nat -> nth i es 0 < nth j es 0.
Proof.
  intros H Hij; induction Hij as [|j Hij IH]; intros Hj.
  - apply H; lia.
  - apply Rlt_trans with (nth j es 0); [apply IH; lia|apply H; lia].
Qed.

Lemma incr_mono_le es i j :
  (forall i, (S i < length es)%nat -> nth i es 0 < nth (S i) es 0) ->
  (i <= j)%nat -> (j < length es)%nat -> nth i es 0 <= nth j es 0.
Proof.
  intros H Hij Hj. destruct (Nat.eq_dec i j) as [->|]; [lra|].
  apply Rlt_le, incr_mono; auto; lia.
Qed.

Lemma digitize_spec es x :
  (forall i, (S i < length es)%nat -> nth i es 0 < nth (S i) es 0) ->
  (forall j, (j < digitize x es)%nat -> nth j es 0 <= x) /\
  (forall j, (digitize x es <= j < length es)%nat -> x < nth j es 0).
Proof.
  unfold digitize; induction es as [|a es IH]; intros H; simpl; [split; intros; lia|].
  assert (H' : forall i, (S i < length es)%nat -> nth i es 0 < nth (S i) es 0)
    by (intros i Hi; apply (H (S i)); simpl; lia).
  specialize (IH H') as [IH1 IH2].
  destruct (Rleb_spec a x) as [Hax|Hax]; simpl.
  - split; intros [|j] Hj; try lia; auto; [apply IH1; lia|apply IH2; lia].
  - assert (E : filter (fun e => Rleb e x) es = []).
    { destruct (filter (fun e => Rleb e x) es) as [|e l] eqn:E; auto.
      exfalso. assert (In e (filter (fun e => Rleb e x) es)) as Hi by (rewrite E; left; auto).
      apply filter_In in Hi as [Hi1 Hi2].
      destruct (Rleb_spec e x) as [Hle|]; [|discriminate].
      apply In_nth with (d := 0) in Hi1 as [k [Hk <-]].
      assert (a < nth k es 0); [|lra].
      apply (incr_mono (a :: es) 0 (S k)); simpl; auto; lia. }
    rewrite E; simpl. split; intros [|j] Hj; try lia; [lra|].
    apply Rlt_trans with a; [lra|].
    apply (incr_mono (a :: es) 0 (S j)); simpl in *; auto; lia.
Qed.

Lemma digitize_le es x : (digitize x es <= length es)%nat.
Proof. unfold digitize; induction es as [|a es IH]; simpl; [lia|]. destruct (Rleb a x); simpl; lia. Qed.

Lemma last_nth {A} (l : list A) d : last l d = nth (length l - 1) l d.
Proof.
  induction l as [|a [|b l] IH]; auto.
  change (last (a :: b :: l) d) with (last (b :: l) d). rewrite IH. simpl.
  destruct (length l); reflexivity.
Qed.

Lemma bin_number_spec es x i :
  valid_edges es -> (S i < length es)%nat -> (bin_number x es = S i <-> in_bin es i x).
Proof.
  intros [Hlen Hinc] Hi. unfold bin_number, in_bin.
  destruct (digitize_spec es x Hinc) as [H1 H2].
  pose proof (digitize_le es x) as Hle.
  rewrite last_nth. destruct (Reqb_spec x (nth (length es - 1) es 0)) as [Hx|Hx].
  - assert (D : digitize x es = length es).
    { destruct (Nat.eq_dec (digitize x es) (length es)); auto. exfalso.
      specialize (H2 (length es - 1)%nat). lra || (assert (x < nth (length es - 1) es 0) by (apply H2; lia); lra). }
    rewrite D. split.
    + intros E. assert (S i = length es - 1)%nat as E' by lia. split.
      * rewrite Hx. apply incr_mono_le; auto; lia.
      * right. split; [lia|]. rewrite E'; assumption.
    + intros [Ha [Hb|[Hb Hc]]]; [|lia].
      exfalso. assert (nth (S i) es 0 <= nth (length es - 1) es 0) by (apply incr_mono_le; auto; lia). lra.
  - split.
    + intros E. split; [apply H1; lia|]. left. apply H2; lia.
    + intros [Ha [Hb|[Hb Hc]]].
      2:{ exfalso; apply Hx. replace (length es - 1)%nat with (S i) by lia. assumption. }
      destruct (lt_eq_lt_dec (digitize x es) (S i)) as [[Hl|He]|Hg]; auto; exfalso.
      * assert (x < nth i es 0) by (apply H2; lia). lra.
      * assert (nth (S i) es 0 <= x) by (apply H1; lia). lra.
Qed.

Lemma bin_number_in_bin es i :
  valid_edges es -> (S i < length es)%nat ->
  forall x, reflect (in_bin es i x) (Nat.eqb (bin_number x es) (S i)).
Proof.
  intros Hv Hi x. destruct (Nat.eqb_spec (bin_number x es) (S i)); constructor.
  - apply bin_number_spec; auto.
  - intros H; apply bin_number_spec in H; auto.
Qed.

(** every event inside the range is in exactly one bin *)
Lemma in_bin_unique es i j x :
  valid_edges es -> (S i < length es)%nat -> (S j < length es)%nat -> in_bin es i x -> in_bin es j x -> i = j.
Proof.
  intros Hv Hi Hj H1 H2. apply bin_number_spec in H1; auto. apply bin_number_spec in H2; auto. lia.
Qed.

Lemma in_range_in_bin es x :
  valid_edges es -> (in_range es x <-> exists i, (S i < length es)%nat /\ in_bin es i x).
Proof.
  intros [Hlen Hinc]; split.
  - intros [Ha Hb]. destruct (digitize_spec es x Hinc) as [H1 H2].
    pose proof (digitize_le es x) as Hle.
    assert (D0 : (0 < digitize x es)%nat).
    { destruct (digitize x es) eqn:E; [|lia]. exfalso.
      assert (x < nth 0 es 0) by (apply H2; lia). lra. }
    destruct (Nat.eq_dec (digitize x es) (length es)) as [D|D].
    + exists (length es - 2)%nat. split; [lia|].
      assert (nth (length es - 1) es 0 <= x) by (apply H1; lia).
      split; [apply H1; lia|]. right. split; [lia|].
      replace (S (length es - 2)) with (length es - 1)%nat by lia. lra.
    + exists (digitize x es - 1)%nat. split; [lia|]. split; [apply H1; lia|].
      left. apply H2; lia.
  - intros [i [Hi [Ha Hb]]]. split.
    + apply Rle_trans with (nth i es 0); [apply incr_mono_le; auto; lia|assumption].
    + apply Rle_trans with (nth (S i) es 0); [destruct Hb as [Hb|[_ Hb]]; lra|apply incr_mono_le; auto; lia].
Qed.

(** ** binned statistics as weighted sums *)

Lemma bincount_wsumf b es xs ws :
  bincount b (map (fun x => bin_number x es) xs) ws
  = wsumf (fun x => Nat.eqb (bin_number x es) b) (combine xs ws).
Proof.
  unfold bincount, wsumf. f_equal. revert ws; induction xs as [|x xs IH]; intros [|w ws]; simpl; auto.
  f_equal; auto.
Qed.

Lemma bincount2_wsumf bx by_ ex ey xs ys ws :
  length xs = length ys ->
  bincount2 bx by_ (map (fun x => bin_number x ex) xs) (map (fun y => bin_number y ey) ys) ws
  = wsumf (fun p => Nat.eqb (bin_number (fst p) ex) bx && Nat.eqb (bin_number (snd p) ey) by_)
          (combine (combine xs ys) ws).
Proof.
  unfold bincount2, wsumf. intros H. f_equal. revert ys ws H.
  induction xs as [|x xs IH]; intros [|y ys] [|w ws] H; simpl in *; auto; try lia.
  f_equal; auto.
Qed.

(** ** fill *)
Lemma resolve_weight_list n w : resolve_weights n w = weight_list n w.
Proof. destruct w; reflexivity. Qed.

Lemma combine_sq {A} (xs : list A) ws : combine xs (map (fun x => x * x) ws) = squared (combine xs ws).
Proof. revert ws; induction xs as [|x xs IH]; intros [|w ws]; simpl; auto. f_equal; apply IH. Qed.

Lemma squared_app {A} (a b : list (A * R)) : squared (a ++ b) = squared a ++ squared b.
Proof. apply map_app. Qed.

(** The contents of a histogram are the weighted sums of the events over its cells. *)
Definition contents {A} (cells : list (A -> bool)) (shape : list nat) (h : hist) (ev : list (A * R)) : Prop :=
  h_counts h = mk_nd shape (map (fun p => Fin (wsumf p ev)) cells) /\
  h_errs_sq h = mk_nd shape (map (fun p => Fin (wsumf p (squared ev))) cells).

Lemma same_frame_refl h : h_edges h = h_edges h. Proof. reflexivity. Qed.

Definition same_geometry (h h' : hist) : Prop :=
  h_kind h' = h_kind h /\ h_edges h' = h_edges h /\ h_num_bins h' = h_num_bins h
  /\ h_shape h' = h_shape h /\ h_range h' = h_range h.

Lemma natlist_eqb_refl l : natlist_eqb l l = true.
Proof. unfold natlist_eqb. destruct (list_eq_dec Nat.eq_dec l l); congruence. Qed.
Lemma natlist_eqb_eq a b : natlist_eqb a b = true -> a = b.
Proof. unfold natlist_eqb. destruct (list_eq_dec Nat.eq_dec a b); congruence. Qed.

Lemma nd_iadd_ok a shape s b :
  nd_iadd a shape s = Ok b ->
  nd_shape a = shape /\ length (nd_flat a) = length s /\ b = mk_nd shape (map2 xadd (nd_flat a) s).
Proof.
  unfold nd_iadd. destruct (natlist_eqb _ _) eqn:E; simpl; [|discriminate].
  destruct (Nat.eqb_spec (length (nd_flat a)) (length s)); [|discriminate].
  intros H; inversion H; subst. apply natlist_eqb_eq in E. rewrite E. auto.
Qed.

Lemma map2_xadd_map {A} (f g : A -> R) l :
  map2 xadd (map (fun p => Fin (f p)) l) (map (fun p => Fin (g p)) l) = map (fun p => Fin (f p + g p)) l.
Proof. induction l as [|a l IH]; simpl; auto. f_equal; auto. Qed.

Lemma fill_with_ok stat shape h n w h' :
  fill_with stat shape h n w = (h', Ok tt) ->
  exists s q,
    stat (weight_list n w) = Ok s /\ stat (map (fun x => x * x) (weight_list n w)) = Ok q /\
    nd_shape (h_counts h) = shape /\ nd_shape (h_errs_sq h) = shape /\
    length (nd_flat (h_counts h)) = length s /\ length (nd_flat (h_errs_sq h)) = length q /\
    squareable w = true /\
    h' = mk_hist (h_kind h) (h_edges h) (h_num_bins h) (h_shape h) (h_range h)
           (mk_nd shape (map2 xadd (nd_flat (h_counts h)) s))
           (mk_nd shape (map2 xadd (nd_flat (h_errs_sq h)) q)) false.
Proof.
  unfold fill_with. rewrite resolve_weight_list.
  destruct (stat (weight_list n w)) as [s|] eqn:Es; simpl; [|discriminate].
  destruct (nd_iadd (h_counts h) shape s) as [c|] eqn:Ec; [|discriminate].
  destruct (squareable w) eqn:Ew; simpl; [|discriminate].
  destruct (stat (map _ (weight_list n w))) as [q|] eqn:Eq; simpl; [|discriminate].
  destruct (nd_iadd (h_errs_sq h) shape q) as [c2|] eqn:Ec2; [|discriminate].
  intros H; inversion H; subst; clear H.
  apply nd_iadd_ok in Ec as (S1 & L1 & ->). apply nd_iadd_ok in Ec2 as (S2 & L2 & ->).
  exists s, q. repeat split; auto.
Qed.

Lemma fill_with_contents {A} (cells : list (A -> bool)) (xs : list A) stat shape h n w h' ev :
  (forall ws s, stat ws = Ok s -> s = map (fun p => Fin (wsumf p (combine xs ws))) cells) ->
  contents cells shape h ev ->
  fill_with stat shape h n w = (h', Ok tt) ->
  contents cells shape h' (ev ++ combine xs (weight_list n w)) /\ same_geometry h h' /\ h_empty h' = false.
Proof.
  intros Hs [Hc He] Hf. apply fill_with_ok in Hf as (s & q & Es & Eq & _ & _ & _ & _ & _ & ->).
  apply Hs in Es. apply Hs in Eq. subst s q. unfold contents, same_geometry; simpl.
  rewrite Hc, He; simpl. rewrite combine_sq, squared_app, !map2_xadd_map.
  repeat split; f_equal; apply map_ext; intros p; f_equal; rewrite wsumf_app; reflexivity.
Qed.

Definition cells1 (es : list R) : list (R -> bool) :=
  map (fun b x => Nat.eqb (bin_number x es) b) (seq 1 (length es - 1)).
Definition cells2 (ex ey : list R) : list (R * R -> bool) :=
  flat_map (fun bx => map (fun by_ p => Nat.eqb (bin_number (fst p) ex) bx && Nat.eqb (bin_number (snd p) ey) by_)
                          (seq 1 (length ey - 1))) (seq 1 (length ex - 1)).

Lemma binned_statistic_ok es xs ws s :
  binned_statistic es xs ws = Ok s -> s = map (fun p => Fin (wsumf p (combine xs ws))) (cells1 es).
Proof.
  unfold binned_statistic. destruct (negb _); [discriminate|]. destruct (_ || _); [discriminate|].
  intros H; inversion H; subst. unfold cells1. rewrite map_map. apply map_ext. intros b.
  rewrite bincount_wsumf. reflexivity.
Qed.

Lemma binned_statistic_2d_ok ex ey xs ys ws s :
  binned_statistic_2d ex ey xs ys ws = Ok s ->
  s = map (fun p => Fin (wsumf p (combine (combine xs ys) ws))) (cells2 ex ey).
Proof.
  unfold binned_statistic_2d. destruct (Nat.eqb_spec (length xs) (length ys)) as [E|]; [|discriminate].
  destruct (_ && _); simpl; [|discriminate]. destruct (_ || _); [discriminate|].
  intros H; inversion H; subst. unfold cells2.
  rewrite flat_map_concat_map, flat_map_concat_map, concat_map, map_map. f_equal. apply map_ext.
  intros bx. rewrite map_map. apply map_ext. intros by_. rewrite bincount2_wsumf by assumption. reflexivity.
Qed.

Definition bin_edges1 (h : hist) : list R := edges_nth h 0.

Lemma hist1_fill_contents h d w h' ev :
  contents (cells1 (edges_nth h 0)) [(length (edges_nth h 0) - 1)%nat] h ev ->
  hist1_fill h d w = (h', Ok tt) ->
  contents (cells1 (edges_nth h 0)) [(length (edges_nth h 0) - 1)%nat] h' (ev ++ events1 d w)
  /\ same_geometry h h' /\ h_empty h' = false.
Proof.
  intros Hc Hf. unfold hist1_fill in Hf. eapply fill_with_contents; eauto.
  intros ws s; apply binned_statistic_ok.
Qed.

Lemma hist2_fill_contents h xs ys w h' ev :
  let ex := edges_nth h 0 in let ey := edges_nth h 1 in
  let sh := [(length ex - 1)%nat; (length ey - 1)%nat] in
  contents (cells2 ex ey) sh h ev ->
  hist2_fill h xs ys w = (h', Ok tt) ->
  contents (cells2 ex ey) sh h' (ev ++ events2 xs ys w) /\ same_geometry h h' /\ h_empty h' = false.
Proof.
  cbv zeta. intros Hc Hf. unfold hist2_fill in Hf. eapply fill_with_contents; eauto.
  intros ws s; apply binned_statistic_2d_ok.
Qed.

Lemma same_geometry_edges h h' i : same_geometry h h' -> edges_nth h' i = edges_nth h i.
Proof. intros (_ & E & _). unfold edges_nth. rewrite E. reflexivity. Qed.
Lemma same_geometry_trans a b c : same_geometry a b -> same_geometry b c -> same_geometry a c.
Proof. unfold same_geometry; intuition congruence. Qed.
Lemma same_geometry_refl a : same_geometry a a.
Proof. unfold same_geometry; auto. Qed.

Lemma fills1_contents l : forall h ev h',
  contents (cells1 (edges_nth h 0)) [(length (edges_nth h 0) - 1)%nat] h ev ->
  fills1 h l = Ok h' ->
  contents (cells1 (edges_nth h 0)) [(length (edges_nth h 0) - 1)%nat] h' (ev ++ all_events1 l)
  /\ same_geometry h h' /\ (h_empty h' = match l with [] => h_empty h | _ => false end).
Proof.
  induction l as [|[d w] l IH]; intros h ev h' Hc; simpl.
  - intros H; inversion H; subst. rewrite app_nil_r. split; [|split]; auto using same_geometry_refl.
  - destruct (hist1_fill h d w) as [h1 [[]|e]] eqn:E; [|discriminate].
    intros Hf. eapply hist1_fill_contents in E as (C1 & G1 & E1); eauto.
    rewrite <- (same_geometry_edges h h1 0 G1) in C1.
    specialize (IH _ _ _ C1 Hf) as (C2 & G2 & E2).
    rewrite (same_geometry_edges h h1 0 G1) in C2. rewrite <- app_assoc in C2.
    split; [exact C2|]. split; [eapply same_geometry_trans; eauto|]. destruct l; congruence.
Qed.

Lemma fills2_contents l : forall h ev h',
  let ex := edges_nth h 0 in let ey := edges_nth h 1 in
  let sh := [(length ex - 1)%nat; (length ey - 1)%nat] in
  contents (cells2 ex ey) sh h ev ->
  fills2 h l = Ok h' ->
  contents (cells2 ex ey) sh h' (ev ++ all_events2 l)
  /\ same_geometry h h' /\ (h_empty h' = match l with [] => h_empty h | _ => false end).
Proof.
  cbv zeta. induction l as [|[[xs ys] w] l IH]; intros h ev h' Hc; simpl.
  - intros H; inversion H; subst. rewrite app_nil_r. split; [|split]; auto using same_geometry_refl.
  - destruct (hist2_fill h xs ys w) as [h1 [[]|e]] eqn:E; [|discriminate].
    intros Hf. eapply hist2_fill_contents in E as (C1 & G1 & E1); eauto.
    rewrite <- (same_geometry_edges h h1 0 G1), <- (same_geometry_edges h h1 1 G1) in C1.
    specialize (IH _ _ _ C1 Hf) as (C2 & G2 & E2).
    rewrite (same_geometry_edges h h1 0 G1), (same_geometry_edges h h1 1 G1) in C2.
    rewrite <- app_assoc in C2.
    split; [exact C2|]. split; [eapply same_geometry_trans; eauto|]. destruct l; congruence.
Qed.

(** ** constructors *)
Lemma wsumf_nil {A} (p : A -> bool) : wsumf p [] = 0.
Proof. reflexivity. Qed.

Lemma map_const {A B} (b : B) (l : list A) : map (fun _ => b) l = repeat b (length l).
Proof. induction l as [|a l IH]; simpl; auto; f_equal; auto. Qed.

Lemma cells1_length es : length (cells1 es) = (length es - 1)%nat.
Proof. unfold cells1. rewrite map_length, seq_length. reflexivity. Qed.
Lemma flat_map_const_length {A B} (f : A -> list B) l k :
  (forall a, length (f a) = k) -> length (flat_map f l) = (length l * k)%nat.
Proof. intros H; induction l as [|a l IH]; simpl; auto. rewrite app_length, H, IH. lia. Qed.
Lemma cells2_length ex ey : length (cells2 ex ey) = ((length ex - 1) * (length ey - 1))%nat.
Proof.
  unfold cells2. rewrite flat_map_const_length with (k := (length ey - 1)%nat).
  - rewrite seq_length. reflexivity.
  - intros a. rewrite map_length, seq_length. reflexivity.
Qed.

Lemma np_zeros_contents {A} (cells : list (A -> bool)) shape :
  length cells = nprod shape -> np_zeros shape = mk_nd shape (map (fun p => Fin (wsumf p [])) cells).
Proof. intros H. unfold np_zeros. rewrite <- H. rewrite <- map_const. reflexivity. Qed.

Lemma linspace_length lo hi n : length (np_linspace lo hi (n + 1)) = (n + 1)%nat.
Proof.
  rewrite Nat.add_1_r. destruct n as [|n]; [reflexivity|].
  unfold np_linspace. rewrite map_length, seq_length. reflexivity.
Qed.

Lemma hist1_empty_ok bins range h :
  hist1_empty bins range = Ok h ->
  h_kind h = K1 /\ h_empty h = true /\
  (exists e r, h_edges h = [e] /\ h_range h = [r] /\ (1 <= length (e_vals e))%nat) /\
  h_shape h = [(length (edges_nth h 0) - 1)%nat] /\
  h_num_bins h = h_shape h /\
  contents (cells1 (edges_nth h 0)) [(length (edges_nth h 0) - 1)%nat] h [].
Proof.
  unfold hist1_empty. destruct (hist1_init_bin_edges bins range) as [[[n e] r]|] eqn:E; simpl; [|discriminate].
  intros H; inversion H; subst; clear H.
  assert (E' : (n = length (e_vals e) - 1 /\ 1 <= length (e_vals e))%nat).
  { unfold hist1_init_bin_edges in E. unfold linspace_edges in E.
    destruct bins as [z|[|z l]|e']; try discriminate.
    - destruct range as [[lo hi]|]; [|discriminate]. destruct (Z.ltb z 0); [discriminate|].
      simpl in E. inversion E; subst; simpl. rewrite linspace_length. lia.
    - destruct range as [[lo hi]|]; [|discriminate]. destruct (Z.ltb z 0); [discriminate|].
      simpl in E. inversion E; subst; simpl. rewrite linspace_length. lia.
    - unfold get_bin_range in E. destruct (e_vals e') eqn:Ee; [discriminate|].
      simpl in E. inversion E; subst. rewrite Ee. simpl. split; lia. }
  destruct E' as [-> H1]. unfold edges_nth; simpl.
  assert (Z0 : np_zeros [(length (e_vals e) - 1)%nat]
    = mk_nd [(length (e_vals e) - 1)%nat] (map (fun p => Fin (wsumf p [])) (cells1 (e_vals e)))).
  { apply np_zeros_contents. rewrite cells1_length. simpl. lia. }
  repeat split; simpl; auto. exists e, r; auto.
Qed.

Lemma hist2_empty_ok bins range h :
  hist2_empty bins range = Ok h ->
  let ex := edges_nth h 0 in let ey := edges_nth h 1 in
  let sh := [(length ex - 1)%nat; (length ey - 1)%nat] in
  h_kind h = K2 /\ h_empty h = true /\
  (exists e f r s, h_edges h = [e; f] /\ h_range h = [r; s]
     /\ (1 <= length (e_vals e))%nat /\ (1 <= length (e_vals f))%nat) /\
  h_shape h = sh /\ h_num_bins h = sh /\ contents (cells2 ex ey) sh h [].
Proof.
  intros H. unfold hist2_empty in H.
  assert (Hz : exists e f r s n m, h = mk_hist K2 [e; f] [n; m] [n; m] [r; s] (np_zeros [n; m]) (np_zeros [n; m]) true
     /\ (n = length (e_vals e) - 1)%nat /\ (m = length (e_vals f) - 1)%nat
     /\ (1 <= length (e_vals e))%nat /\ (1 <= length (e_vals f))%nat).
  { unfold linspace_edges, get_bin_range in H. destruct bins as [nx ny|e f].
    - destruct range as [[rx ry]|]; [|discriminate]. destruct rx as [lx hx], ry as [ly hy].
      destruct (Z.ltb nx 0); [discriminate|]. simpl in H.
      destruct (Z.ltb ny 0); [discriminate|]. simpl in H. inversion H; subst.
      do 6 eexists. split; [reflexivity|]. simpl. rewrite !linspace_length. lia.
    - destruct (e_vals e) eqn:Ee; [discriminate|]. destruct (e_vals f) eqn:Ef; [discriminate|].
      simpl in H. inversion H; subst. do 6 eexists. split; [reflexivity|].
      rewrite Ee, Ef. simpl. lia. }
  destruct Hz as (e & f & r & s & n & m & -> & -> & -> & He & Hf). cbv zeta.
  unfold edges_nth; simpl.
  assert (Z0 : np_zeros [(length (e_vals e) - 1)%nat; (length (e_vals f) - 1)%nat]
    = mk_nd [(length (e_vals e) - 1)%nat; (length (e_vals f) - 1)%nat]
        (map (fun p => Fin (wsumf p [])) (cells2 (e_vals e) (e_vals f)))).
  { apply np_zeros_contents. rewrite cells2_length. simpl. lia. }
  repeat split; simpl; auto. exists e, f, r, s; auto.
Qed.

Lemma hist1_new_contents bins range data w h :
  hist1_new bins range data w = Ok h ->
  exists h0, hist1_empty bins range = Ok h0 /\ fills1 h0 (init_fill data w) = Ok h.
Proof.
  unfold hist1_new. destruct (hist1_empty bins range) as [h0|]; simpl; [|discriminate].
  intros H. exists h0. split; auto. destruct data as [d|]; simpl; [|exact H].
  destruct (hist1_fill h0 d w) as [h1 [[]|e]]; exact H.
Qed.
Lemma hist2_new_contents bins range data w h :
  hist2_new bins range data w = Ok h ->
  exists h0, hist2_empty bins range = Ok h0 /\ fills2 h0 (init_fill data w) = Ok h.
Proof.
  unfold hist2_new. destruct (hist2_empty bins range) as [h0|]; simpl; [|discriminate].
  intros H. exists h0. split; auto. destruct data as [[xs ys]|]; simpl; [|exact H].
  destruct (hist2_fill h0 xs ys w) as [h1 [[]|e]]; exact H.
Qed.

Lemma fills1_app a b h : fills1 h (a ++ b) = match fills1 h a with Ok h' => fills1 h' b | Err e => Err e end.
Proof.
  revert h; induction a as [|[d w] a IH]; intros h; simpl; auto.
  destruct (hist1_fill h d w) as [h1 [[]|e]]; auto.
Qed.
Lemma fills2_app a b h : fills2 h (a ++ b) = match fills2 h a with Ok h' => fills2 h' b | Err e => Err e end.
Proof.
  revert h; induction a as [|[[d d2] w] a IH]; intros h; simpl; auto.
  destruct (hist2_fill h d d2 w) as [h1 [[]|e]]; auto.
Qed.

(** contents after any constructor and history *)
Lemma hist1_history bins range data w h0 fills h :
  hist1_new bins range data w = Ok h0 -> fills1 h0 fills = Ok h ->
  contents (cells1 (edges_nth h0 0)) [(length (edges_nth h0 0) - 1)%nat] h
           (all_events1 (init_fill data w ++ fills))
  /\ same_geometry h0 h /\ h_empty h = match init_fill data w ++ fills with [] => true | _ => false end
  /\ h_kind h = K1 /\ h_shape h = [(length (edges_nth h0 0) - 1)%nat]
  /\ exists e r, h_edges h = [e] /\ h_range h = [r].
Proof.
  intros Hn Hf. apply hist1_new_contents in Hn as (hh & Hh & H1).
  apply hist1_empty_ok in Hh as (K & Em & Hex & Hsh & _ & C).
  pose proof (fills1_contents _ _ _ _ C H1) as (_ & G1 & _).
  assert (HH : fills1 hh (init_fill data w ++ fills) = Ok h) by (rewrite fills1_app, H1; assumption).
  pose proof (fills1_contents _ _ _ _ C HH) as (C2 & G2 & E2).
  rewrite (same_geometry_edges _ _ 0 G1). simpl in C2.
  destruct G1 as (A1 & A2 & A3 & A4 & A5), G2 as (B1 & B2 & B3 & B4 & B5).
  split; [exact C2|]. split; [unfold same_geometry; intuition congruence|].
  split; [destruct (init_fill data w ++ fills); congruence|]. split; [congruence|].
  split; [congruence|]. destruct Hex as (e & r & He & Hr & _). exists e, r; split; congruence.
Qed.

Lemma hist2_history bins range data w h0 fills h :
  hist2_new bins range data w = Ok h0 -> fills2 h0 fills = Ok h ->
  let ex := edges_nth h0 0 in let ey := edges_nth h0 1 in
  let sh := [(length ex - 1)%nat; (length ey - 1)%nat] in
  contents (cells2 ex ey) sh h (all_events2 (init_fill data w ++ fills))
  /\ same_geometry h0 h /\ h_empty h = match init_fill data w ++ fills with [] => true | _ => false end
  /\ h_kind h = K2 /\ h_shape h = sh
  /\ exists e f r s, h_edges h = [e; f] /\ h_range h = [r; s].
Proof.
  intros Hn Hf. cbv zeta. apply hist2_new_contents in Hn as (hh & Hh & H1).
  apply hist2_empty_ok in Hh as (K & Em & Hex & Hsh & _ & C).
  pose proof (fills2_contents _ _ _ _ C H1) as (_ & G1 & _).
  assert (HH : fills2 hh (init_fill data w ++ fills) = Ok h) by (rewrite fills2_app, H1; assumption).
  pose proof (fills2_contents _ _ _ _ C HH) as (C2 & G2 & E2).
  rewrite (same_geometry_edges _ _ 0 G1), (same_geometry_edges _ _ 1 G1). simpl in C2.
  destruct G1 as (A1 & A2 & A3 & A4 & A5), G2 as (B1 & B2 & B3 & B4 & B5).
  split; [exact C2|]. split; [unfold same_geometry; intuition congruence|].
  split; [destruct (init_fill data w ++ fills); congruence|]. split; [congruence|].
  split; [congruence|]. destruct Hex as (e & f & r & s & He & Hr & _). exists e, f, r, s; split; congruence.
Qed.
