(** Proofs of the histogram properties C01-C09. *)
From Coq Require Import Reals String ZArith Bool Arith List Lra Lia Permutation.
From Verif Require Import Model_Num Model_Hist Spec_Hist Proof_Hist.
Import ListNotations.
Local Open Scope R_scope.

Lemma nth_error_map_seq {A} (f : nat -> A) s n i :
  (i < n)%nat -> nth_error (map f (seq s n)) i = Some (f (s + i)%nat).
Proof.
  intros H. rewrite nth_error_map, (nth_error_nth' _ 0%nat) by (rewrite seq_length; lia).
  rewrite seq_nth by lia. reflexivity.
Qed.

Lemma cells1_nth es i : (S i < length es)%nat ->
  nth_error (cells1 es) i = Some (fun x => Nat.eqb (bin_number x es) (S i)).
Proof. intros H. unfold cells1. rewrite nth_error_map_seq by lia. reflexivity. Qed.

Lemma nth_error_flat_map {A B} (f : A -> list B) k l i j a :
  (forall a, length (f a) = k) -> (j < k)%nat -> nth_error l i = Some a ->
  nth_error (flat_map f l) (i * k + j) = nth_error (f a) j.
Proof.
  intros Hk Hj; revert i; induction l as [|b l IH]; intros [|i] H; simpl in *; try discriminate.
  - inversion H; subst. rewrite nth_error_app1 by (rewrite Hk; lia). reflexivity.
  - rewrite nth_error_app2 by (rewrite Hk; lia). rewrite Hk.
    replace (k + i * k + j - k)%nat with (i * k + j)%nat by lia. apply IH; assumption.
Qed.

Lemma cells2_nth ex ey i j : (S i < length ex)%nat -> (S j < length ey)%nat ->
  nth_error (cells2 ex ey) (i * (length ey - 1) + j)
  = Some (fun p => Nat.eqb (bin_number (fst p) ex) (S i) && Nat.eqb (bin_number (snd p) ey) (S j)).
Proof.
  intros Hi Hj. unfold cells2.
  rewrite nth_error_flat_map with (a := S i).
  - rewrite nth_error_map_seq by lia. reflexivity.
  - intros a. rewrite map_length, seq_length. reflexivity.
  - lia.
  - rewrite (nth_error_nth' _ 0%nat) by (rewrite seq_length; lia). rewrite seq_nth by lia. reflexivity.
Qed.

Lemma contents_entry {A} (cells : list (A -> bool)) sh h ev i p (P : A -> Prop) :
  contents cells sh h ev -> nth_error cells i = Some p -> (forall x, reflect (P x) (p x)) ->
  exists s q, nth_error (nd_flat (h_counts h)) i = Some (Fin s) /\ wsum P ev s
           /\ nth_error (nd_flat (h_errs_sq h)) i = Some (Fin q) /\ wsum P (squared ev) q.
Proof.
  intros [Hc He] Hn Hr. exists (wsumf p ev), (wsumf p (squared ev)).
  rewrite Hc, He; simpl. rewrite !nth_error_map, Hn. simpl.
  repeat split; auto using wsumf_wsum.
Qed.

Lemma edges1_nth h e : h_edges h = [e] -> edges_nth h 0 = e_vals e.
Proof. intros H. unfold edges_nth. rewrite H. reflexivity. Qed.
Lemma edges2_nth0 h e f : h_edges h = [e; f] -> edges_nth h 0 = e_vals e.
Proof. intros H. unfold edges_nth. rewrite H. reflexivity. Qed.
Lemma edges2_nth1 h e f : h_edges h = [e; f] -> edges_nth h 1 = e_vals f.
Proof. intros H. unfold edges_nth. rewrite H. reflexivity. Qed.

(** *** C01 *)
Lemma fill1_each_event_in_its_bin bins range data w h0 fills h e :
  hist1_new bins range data w = Ok h0 -> fills1 h0 fills = Ok h ->
  h_edges h0 = [e] -> valid_edges (e_vals e) ->
  let ev := all_events1 (init_fill data w ++ fills) in
  h_edges h = [e] /\ vector_of (h_counts h) (length (e_vals e) - 1)
  /\ vector_of (h_errs_sq h) (length (e_vals e) - 1) /\
  forall i, (S i < length (e_vals e))%nat ->
    exists s q, entry (h_counts h) i s /\ wsum (in_bin (e_vals e) i) ev s
             /\ entry (h_errs_sq h) i q /\ wsum (in_bin (e_vals e) i) (squared ev) q.
Proof.
  intros Hn Hf He Hv. cbv zeta. apply edges1_nth in He as En.
  destruct (hist1_history _ _ _ _ _ _ _ Hn Hf) as (C & G & _ & _ & _ & _). rewrite En in C.
  destruct G as (_ & G2 & _). split; [congruence|].
  destruct C as [Hc Hq]. unfold vector_of. rewrite Hc, Hq. simpl. rewrite !map_length, cells1_length.
  repeat split; auto. intros i Hi. unfold entry. rewrite <- Hc, <- Hq.
  eapply contents_entry; [split; eassumption|apply cells1_nth; assumption|].
  apply bin_number_in_bin; assumption.
Qed.

(** *** C02 *)
Lemma np_sum_Fin l : np_sum (map Fin l) = Fin (Rsuml l).
Proof. induction l as [|a l IH]; simpl; auto. rewrite IH. reflexivity. Qed.

Definition disj {A} (cells : list (A -> bool)) (x : A) : R := Rsuml (map (fun p : A -> bool => if p x then 1 else 0) cells).

Lemma Rsuml_zero l : (forall x, In x l -> x = 0) -> Rsuml l = 0.
Proof. induction l as [|a l IH]; simpl; intros H; auto. rewrite IH by auto. rewrite (H a) by auto. lra. Qed.

Lemma sum_cells {A} (cells : list (A -> bool)) (p0 : A -> bool) ev :
  (forall x, p0 x = true -> exists i, (i < length cells)%nat /\ forall j, (j < length cells)%nat ->
      nth j cells (fun _ => false) x = Nat.eqb i j) ->
  (forall x, p0 x = false -> forall p, In p cells -> p x = false) ->
  Rsuml (map (fun p => wsumf p ev) cells) = wsumf p0 ev.
Proof.
  intros H1 H2. induction ev as [|[x w] ev IH].
  - transitivity 0; [|reflexivity]. apply Rsuml_zero. intros y Hy. apply in_map_iff in Hy as [p [<- _]]. reflexivity.
  - unfold wsumf in *; simpl. rewrite <- IH.
    assert (G : forall l : list (A -> bool), Rsuml (map (fun p : A -> bool => (if p x then w else 0)
        + Rsuml (map (fun e => if p (fst e) then snd e else 0) ev)) l)
      = Rsuml (map (fun p : A -> bool => if p x then w else 0) l)
        + Rsuml (map (fun p : A -> bool => Rsuml (map (fun e => if p (fst e) then snd e else 0) ev)) l)).
    { induction l as [|p l IHl]; simpl; [lra|]. rewrite IHl. lra. }
    rewrite G. f_equal. destruct (p0 x) eqn:E.
    + destruct (H1 x E) as (i & Hi & Hj). clear - Hi Hj. revert i Hi Hj.
      induction cells as [|p cells IHc]; intros i Hi Hj; simpl in *; [lia|].
      destruct i as [|i].
      * rewrite (Hj O) by lia. simpl. rewrite Rsuml_zero; [lra|].
        intros y Hy. apply in_map_iff in Hy as [q [<- Hq]].
        apply In_nth with (d := fun _ => false) in Hq as (k & Hk & <-).
        rewrite (Hj (S k)) by lia. reflexivity.
      * rewrite (Hj O) by lia. simpl. rewrite (IHc i); [lra|lia|].
        intros j Hlt. apply (Hj (S j)). lia.
    + apply Rsuml_zero. intros y Hy. apply in_map_iff in Hy as [q [<- Hq]]. rewrite (H2 x E q Hq). reflexivity.
Qed.

Definition in_range_b (es : list R) (x : R) : bool :=
  Rleb (nth 0 es 0) x && Rleb x (nth (length es - 1) es 0).
Lemma in_range_b_spec es x : reflect (in_range es x) (in_range_b es x).
Proof.
  unfold in_range_b, in_range.
  destruct (Rleb_spec (nth 0 es 0) x); simpl; [|constructor; lra].
  destruct (Rleb_spec x (nth (length es - 1) es 0)); constructor; lra.
Qed.

Lemma nth_cells1 es j : (S j < length es)%nat ->
  nth j (cells1 es) (fun _ => false) = (fun x => Nat.eqb (bin_number x es) (S j)).
Proof. intros H. apply nth_error_nth. apply cells1_nth. assumption. Qed.

Lemma cells1_sum es ev : valid_edges es ->
  Rsuml (map (fun p => wsumf p ev) (cells1 es)) = wsumf (in_range_b es) ev.
Proof.
  intros Hv. apply sum_cells; intros x Hx; destruct (in_range_b_spec es x) as [H|H]; try discriminate.
  - apply in_range_in_bin in H as (i & Hi & Hb); auto. exists i. rewrite cells1_length. split; [lia|].
    intros j Hj. rewrite nth_cells1 by lia. destruct (bin_number_in_bin es j Hv ltac:(lia) x) as [Hb'|Hb'].
    + symmetry; apply Nat.eqb_eq. eapply in_bin_unique; eauto; lia.
    + symmetry; apply Nat.eqb_neq. intros ->. contradiction.
  - intros p Hp. apply In_nth with (d := fun _ => false) in Hp as (k & Hk & <-).
    rewrite cells1_length in Hk. rewrite nth_cells1 by lia.
    destruct (bin_number_in_bin es k Hv ltac:(lia) x) as [Hb|]; auto.
    exfalso; apply H. apply in_range_in_bin; auto. exists k. split; [lia|assumption].
Qed.

Lemma fill1_total bins range data w h0 fills h e :
  hist1_new bins range data w = Ok h0 -> fills1 h0 fills = Ok h ->
  h_edges h0 = [e] -> valid_edges (e_vals e) ->
  let ev := all_events1 (init_fill data w ++ fills) in
  exists s q, np_sum (nd_flat (h_counts h)) = Fin s /\ wsum (in_range (e_vals e)) ev s
           /\ np_sum (nd_flat (h_errs_sq h)) = Fin q /\ wsum (in_range (e_vals e)) (squared ev) q.
Proof.
  intros Hn Hf He Hv. cbv zeta. apply edges1_nth in He as En.
  destruct (hist1_history _ _ _ _ _ _ _ Hn Hf) as ([Hc Hq] & _). rewrite En in Hc, Hq.
  rewrite Hc, Hq; simpl.
  set (ev := all_events1 _). exists (wsumf (in_range_b (e_vals e)) ev), (wsumf (in_range_b (e_vals e)) (squared ev)).
  rewrite <- !cells1_sum by assumption.
  assert (E : forall v, map (fun p : R -> bool => Fin (wsumf p v)) (cells1 (e_vals e))
     = map Fin (map (fun p => wsumf p v) (cells1 (e_vals e)))) by (intros v; rewrite map_map; reflexivity).
  rewrite !E, !np_sum_Fin. rewrite !cells1_sum by assumption.
  repeat split; apply wsumf_wsum; apply in_range_b_spec.
Qed.

Lemma xadd_0_r a : xadd a (Fin 0) = a.
Proof. destruct a; simpl; auto. rewrite Rplus_0_r; reflexivity. Qed.

Lemma map2_xadd_zero l k : length l = k -> map2 xadd l (repeat (Fin 0) k) = l.
Proof. intros <-. induction l as [|a l IH]; simpl; auto. rewrite xadd_0_r, IH. reflexivity. Qed.

Lemma wsumf_none {A} (p : A -> bool) ev : (forall x w, In (x, w) ev -> p x = false) -> wsumf p ev = 0.
Proof.
  intros H. apply Rsuml_zero. intros y Hy. apply in_map_iff in Hy as [[x w] [<- Hx]]. simpl.
  rewrite (H x w Hx). reflexivity.
Qed.

Lemma map_ext_const {A B} (f : A -> B) b l : (forall a, In a l -> f a = b) -> map f l = repeat b (length l).
Proof. intros H; induction l as [|a l IH]; simpl; auto. rewrite H by (left; auto). f_equal. apply IH. intros; apply H; right; auto. Qed.

Lemma fill1_outside h data w h' e :
  h_edges h = [e] -> valid_edges (e_vals e) -> hist1_fill h data w = (h', Ok tt) ->
  (forall x, In x data -> ~ in_range (e_vals e) x) ->
  h_counts h' = h_counts h /\ h_errs_sq h' = h_errs_sq h.
Proof.
  intros He Hv Hf Hout. unfold hist1_fill in Hf. apply edges1_nth in He as En. rewrite En in Hf.
  apply fill_with_ok in Hf as (s & q & Es & Eq & S1 & S2 & L1 & L2 & _ & ->). simpl.
  apply binned_statistic_ok in Es, Eq.
  assert (Z : forall ws, map (fun p => Fin (wsumf p (combine data ws))) (cells1 (e_vals e))
                 = repeat (Fin 0) (length (cells1 (e_vals e)))).
  { intros ws. apply map_ext_const. intros p Hp. f_equal. apply wsumf_none. intros x v Hx.
    apply in_combine_l in Hx. apply In_nth with (d := fun _ => false) in Hp as (k & Hk & <-).
    rewrite cells1_length in Hk. rewrite nth_cells1 by lia.
    destruct (bin_number_in_bin (e_vals e) k Hv ltac:(lia) x) as [Hb|]; auto.
    exfalso; apply (Hout x Hx). apply in_range_in_bin; auto. exists k; split; [lia|assumption]. }
  rewrite Z in Es, Eq. subst s q. rewrite repeat_length in L1, L2.
  rewrite !map2_xadd_zero by assumption.
  rewrite <- S1 at 1. rewrite <- S2. destruct (h_counts h), (h_errs_sq h); split; reflexivity.
Qed.

(** *** C03 *)
Lemma xadd_assoc_Fin a s t : xadd (xadd a (Fin s)) (Fin t) = xadd a (Fin (s + t)).
Proof. destruct a; simpl; auto. rewrite Rplus_assoc; reflexivity. Qed.

Lemma map2_xadd_assoc {A} (f g : A -> R) : forall (cells : list A) l,
  map2 xadd (map2 xadd l (map (fun p => Fin (f p)) cells)) (map (fun p => Fin (g p)) cells)
  = map2 xadd l (map (fun p => Fin (f p + g p)) cells).
Proof.
  induction cells as [|c cells IH]; intros [|a l]; simpl; auto.
  rewrite xadd_assoc_Fin, IH. reflexivity.
Qed.

Lemma combine_app {A B} (a a' : list A) (b b' : list B) :
  length a = length b -> combine (a ++ a') (b ++ b') = combine a b ++ combine a' b'.
Proof. revert b; induction a as [|x a IH]; intros [|y b] H; simpl in *; auto; try lia. rewrite IH by lia. reflexivity. Qed.

(** general statement: the effect of a successful fill depends on the events only through their
    weighted sums *)
Lemma fill_with_effect {A} (cells : list (A -> bool)) (xs : list A) stat shape h n w h' :
  (forall ws s, stat ws = Ok s -> s = map (fun p => Fin (wsumf p (combine xs ws))) cells) ->
  fill_with stat shape h n w = (h', Ok tt) ->
  let ev := combine xs (weight_list n w) in
  h' = mk_hist (h_kind h) (h_edges h) (h_num_bins h) (h_shape h) (h_range h)
           (mk_nd shape (map2 xadd (nd_flat (h_counts h)) (map (fun p => Fin (wsumf p ev)) cells)))
           (mk_nd shape (map2 xadd (nd_flat (h_errs_sq h)) (map (fun p => Fin (wsumf p (squared ev))) cells))) false.
Proof.
  intros Hs Hf. apply fill_with_ok in Hf as (s & q & Es & Eq & _ & _ & _ & _ & _ & ->).
  apply Hs in Es. apply Hs in Eq. rewrite combine_sq in Eq. subst. reflexivity.
Qed.

Lemma fill1_effect h d w h' :
  hist1_fill h d w = (h', Ok tt) ->
  h' = mk_hist (h_kind h) (h_edges h) (h_num_bins h) (h_shape h) (h_range h)
           (mk_nd [(length (edges_nth h 0) - 1)%nat] (map2 xadd (nd_flat (h_counts h))
               (map (fun p => Fin (wsumf p (events1 d w))) (cells1 (edges_nth h 0)))))
           (mk_nd [(length (edges_nth h 0) - 1)%nat] (map2 xadd (nd_flat (h_errs_sq h))
               (map (fun p => Fin (wsumf p (squared (events1 d w)))) (cells1 (edges_nth h 0))))) false.
Proof.
  intros Hf. unfold hist1_fill in Hf. eapply fill_with_effect in Hf; [exact Hf|].
  intros ws s; apply binned_statistic_ok.
Qed.
Lemma fill2_effect h xs ys w h' :
  hist2_fill h xs ys w = (h', Ok tt) ->
  let sh := [(length (edges_nth h 0) - 1)%nat; (length (edges_nth h 1) - 1)%nat] in
  let cs := cells2 (edges_nth h 0) (edges_nth h 1) in
  h' = mk_hist (h_kind h) (h_edges h) (h_num_bins h) (h_shape h) (h_range h)
           (mk_nd sh (map2 xadd (nd_flat (h_counts h))
               (map (fun p => Fin (wsumf p (events2 xs ys w))) cs)))
           (mk_nd sh (map2 xadd (nd_flat (h_errs_sq h))
               (map (fun p => Fin (wsumf p (squared (events2 xs ys w)))) cs))) false.
Proof.
  intros Hf. unfold hist2_fill in Hf. eapply fill_with_effect in Hf; [exact Hf|].
  intros ws s; apply binned_statistic_2d_ok.
Qed.

Lemma mk_hist_eq k e n s r c q b c' q' :
  c = c' -> q = q' -> mk_hist k e n s r c q b = mk_hist k e n s r c' q' b.
Proof. congruence. Qed.

Lemma fill1_order h d w h1 d' w' h1' :
  hist1_fill h d w = (h1, Ok tt) -> hist1_fill h d' w' = (h1', Ok tt) ->
  Permutation (events1 d w) (events1 d' w') -> h1 = h1'.
Proof.
  intros H1 H2 HP. apply fill1_effect in H1, H2. subst.
  apply mk_hist_eq; f_equal; f_equal; apply map_ext; intros p; f_equal; apply wsumf_perm; auto.
  unfold squared; apply Permutation_map; auto.
Qed.
Lemma fill2_order h xs ys w h1 xs' ys' w' h1' :
  hist2_fill h xs ys w = (h1, Ok tt) -> hist2_fill h xs' ys' w' = (h1', Ok tt) ->
  Permutation (events2 xs ys w) (events2 xs' ys' w') -> h1 = h1'.
Proof.
  intros H1 H2 HP. apply fill2_effect in H1, H2. subst.
  apply mk_hist_eq; f_equal; f_equal; apply map_ext; intros p; f_equal; apply wsumf_perm; auto.
  unfold squared; apply Permutation_map; auto.
Qed.

Lemma fill1_batch h d1 w1 h1 d2 w2 h2 d w h' :
  hist1_fill h d1 w1 = (h1, Ok tt) -> hist1_fill h1 d2 w2 = (h2, Ok tt) ->
  hist1_fill h d w = (h', Ok tt) -> events1 d w = events1 d1 w1 ++ events1 d2 w2 ->
  h2 = h'.
Proof.
  intros H1 H2 H3 HE. apply fill1_effect in H1, H2, H3. subst h1 h2 h'. simpl.
  change (edges_nth (mk_hist _ (h_edges h) _ _ _ _ _ _) 0) with (edges_nth h 0).
  rewrite HE, squared_app. apply mk_hist_eq; f_equal; rewrite map2_xadd_assoc; f_equal; apply map_ext;
    intros p; rewrite wsumf_app; reflexivity.
Qed.
Lemma fill2_batch h xs1 ys1 w1 h1 xs2 ys2 w2 h2 xs ys w h' :
  hist2_fill h xs1 ys1 w1 = (h1, Ok tt) -> hist2_fill h1 xs2 ys2 w2 = (h2, Ok tt) ->
  hist2_fill h xs ys w = (h', Ok tt) -> events2 xs ys w = events2 xs1 ys1 w1 ++ events2 xs2 ys2 w2 ->
  h2 = h'.
Proof.
  intros H1 H2 H3 HE. apply fill2_effect in H1, H2, H3. cbv zeta in *. subst h1 h2 h'. simpl.
  change (edges_nth (mk_hist _ (h_edges h) _ _ _ _ _ _) 0) with (edges_nth h 0).
  change (edges_nth (mk_hist _ (h_edges h) _ _ _ _ _ _) 1) with (edges_nth h 1).
  rewrite HE, squared_app. apply mk_hist_eq; f_equal; rewrite map2_xadd_assoc; f_equal; apply map_ext;
    intros p; rewrite wsumf_app; reflexivity.
Qed.

(** a fill on a well-formed histogram with matching lengths and non-tuple weights succeeds *)
Definition ready1 (h : hist) : Prop :=
  exists e, h_edges h = [e] /\ valid_edges (e_vals e)
    /\ vector_of (h_counts h) (length (e_vals e) - 1) /\ vector_of (h_errs_sq h) (length (e_vals e) - 1).
Definition not_tuple (w : weights) : Prop := match w with WTuple _ => False | _ => True end.

Lemma binned_statistic_succeeds es xs ws :
  valid_edges es -> length xs = length ws -> exists s, binned_statistic es xs ws = Ok s /\ length s = (length es - 1)%nat.
Proof.
  intros [H1 H2] H. unfold binned_statistic. rewrite H, Nat.eqb_refl. simpl.
  destruct (Nat.ltb_spec (length es) 2); [lia|]. simpl.
  apply strictly_increasing_spec in H2. rewrite H2. simpl. eexists; split; [reflexivity|].
  rewrite map_length, seq_length. reflexivity.
Qed.

Lemma fill1_succeeds h d w :
  ready1 h -> not_tuple w -> length d = length (weight_list (length d) w) ->
  exists h', hist1_fill h d w = (h', Ok tt) /\ ready1 h'.
Proof.
  intros (e & He & Hv & [A1 A2] & [B1 B2]) Hw Hl. apply edges1_nth in He as En.
  unfold hist1_fill. rewrite En. unfold fill_with. rewrite resolve_weight_list.
  destruct (binned_statistic_succeeds _ _ _ Hv Hl) as (s & Es & Ls).
  assert (Hl2 : length d = length (map (fun x => x * x) (weight_list (length d) w))) by (rewrite map_length; assumption).
  destruct (binned_statistic_succeeds _ _ _ Hv Hl2) as (q & Eq & Lq).
  rewrite Es. simpl. unfold nd_iadd. rewrite A1, natlist_eqb_refl, A2, Ls, Nat.eqb_refl. simpl.
  assert (squareable w = true) as -> by (destruct w; simpl in *; tauto || reflexivity). simpl.
  rewrite Eq. simpl. rewrite B1, natlist_eqb_refl, B2, Lq, Nat.eqb_refl. simpl.
  eexists; split; [reflexivity|]. exists e. split; [assumption|]. split; [assumption|].
  unfold vector_of; simpl. rewrite !map2_length, A2, B2, Ls, Lq, Nat.min_id. auto.
Qed.

(** *** C05 *)
Lemma events1_none_wcount (P : R -> Prop) (dec : R -> bool) :
  (forall x, reflect (P x) (dec x)) ->
  forall d, exists n, wcount P d n /\ wsumf dec (events1 d WNone) = INR n
                   /\ wsumf dec (squared (events1 d WNone)) = INR n.
Proof.
  intros Hd d. unfold events1, weight_list, wsumf, squared. induction d as [|x d IH]; simpl.
  - exists O; repeat split; constructor.
  - destruct IH as (n & Hn & E1 & E2). destruct (Hd x) as [Hp|Hp]; simpl.
    + exists (S n). split; [constructor; assumption|]. rewrite S_INR. split; rewrite ?E1, ?E2; lra.
    + exists n. split; [constructor; assumption|]. split; rewrite ?E1, ?E2; lra.
Qed.

Lemma wcount_app {A} (P : A -> Prop) a b n m : wcount P a n -> wcount P b m -> wcount P (a ++ b) (n + m).
Proof. intros H Hb; induction H; simpl; auto; constructor; assumption. Qed.

Lemma all_events1_none (P : R -> Prop) (dec : R -> bool) :
  (forall x, reflect (P x) (dec x)) ->
  forall l, Forall (fun f => snd f = WNone) l ->
  exists n, wcount P (concat (map fst l)) n /\ wsumf dec (all_events1 l) = INR n
                   /\ wsumf dec (squared (all_events1 l)) = INR n.
Proof.
  intros Hd l Hl. induction Hl as [|[d w] l Hw Hl IH]; simpl in *.
  - exists O; repeat split; constructor.
  - subst w. destruct IH as (n & Hn & E1 & E2).
    destruct (events1_none_wcount P dec Hd d) as (m & Hm & F1 & F2).
    exists (m + n)%nat. split; [apply wcount_app; assumption|].
    unfold all_events1 in *; simpl. rewrite squared_app, !wsumf_app, plus_INR, E1, E2, F1, F2. split; reflexivity.
Qed.

Lemma xsqrt_nonneg r : 0 <= r -> xsqrt (Fin r) = Fin (sqrt r).
Proof. intros H. unfold xsqrt. destruct (Rltb_spec r 0); [lra|reflexivity]. Qed.

Lemma fill1_unweighted bins range data h0 fills h e :
  hist1_new bins range data WNone = Ok h0 -> fills1 h0 fills = Ok h ->
  Forall (fun f => snd f = WNone) fills ->
  h_edges h0 = [e] -> valid_edges (e_vals e) ->
  let xs := concat (map fst (init_fill data WNone ++ fills)) in
  (forall i, (S i < length (e_vals e))%nat ->
    exists n, wcount (in_bin (e_vals e) i) xs n /\ entry (h_counts h) i (INR n)
           /\ entry (h_errs_sq h) i (INR n) /\ entry (bin_errors h) i (sqrt (INR n)))
  /\ (h_empty h = true <-> data = None /\ fills = []).
Proof.
  intros Hn Hf Hall He Hv. cbv zeta. apply edges1_nth in He as En.
  destruct (hist1_history _ _ _ _ _ _ _ Hn Hf) as (C & G & Hemp & _). rewrite En in C.
  split.
  - intros i Hi. destruct C as [Hc Hq]. unfold entry, bin_errors. rewrite Hc, Hq. simpl.
    assert (HF : Forall (fun f => snd f = WNone) (init_fill data WNone ++ fills)).
    { apply Forall_app; split; auto. destruct data; constructor; auto. }
    destruct (all_events1_none (in_bin (e_vals e) i) _ (bin_number_in_bin _ _ Hv Hi) _ HF) as (n & W & E1 & E2).
    exists n. rewrite !nth_error_map, !cells1_nth by assumption. simpl option_map. rewrite E1, E2.
    repeat split; auto. simpl. f_equal. apply xsqrt_nonneg. apply pos_INR.
  - rewrite Hemp. destruct data as [d|]; simpl; [split; [discriminate|intros [? _]; discriminate]|].
    destruct fills; split; try discriminate; auto. intros [_ ?]; discriminate.
Qed.

(** *** C06 *)
Lemma fill2_each_event_in_its_cell bins range data w h0 fills h e f :
  hist2_new bins range data w = Ok h0 -> fills2 h0 fills = Ok h ->
  h_edges h0 = [e; f] -> valid_edges (e_vals e) -> valid_edges (e_vals f) ->
  let ev := all_events2 (init_fill data w ++ fills) in
  h_edges h = [e; f] /\
  nd_shape (h_counts h) = [(length (e_vals e) - 1)%nat; (length (e_vals f) - 1)%nat] /\
  nd_shape (h_errs_sq h) = nd_shape (h_counts h) /\
  length (nd_flat (h_counts h)) = ((length (e_vals e) - 1) * (length (e_vals f) - 1))%nat /\
  length (nd_flat (h_errs_sq h)) = length (nd_flat (h_counts h)) /\
  forall i j, (S i < length (e_vals e))%nat -> (S j < length (e_vals f))%nat ->
    let cell p := in_bin (e_vals e) i (fst p) /\ in_bin (e_vals f) j (snd p) in
    exists s q, entry2 (h_counts h) i j s /\ wsum cell ev s
             /\ entry2 (h_errs_sq h) i j q /\ wsum cell (squared ev) q.
Proof.
  intros Hn Hf He Hv1 Hv2. cbv zeta. apply edges2_nth0 in He as En0. apply edges2_nth1 in He as En1.
  destruct (hist2_history _ _ _ _ _ _ _ Hn Hf) as (C & G & _ & _ & _ & _). rewrite En0, En1 in C.
  destruct G as (_ & G2 & _). split; [congruence|].
  pose proof C as [Hc Hq]. rewrite Hc, Hq. simpl. rewrite !map_length, cells2_length.
  repeat split; auto. intros i j Hi Hj.
  destruct (contents_entry _ _ _ _ (i * (length (e_vals f) - 1) + j) _
    (fun p => in_bin (e_vals e) i (fst p) /\ in_bin (e_vals f) j (snd p)) C (cells2_nth _ _ i j Hi Hj)) as (s & q & A1 & A2 & A3 & A4).
  - intros [x y]; simpl. destruct (bin_number_in_bin _ i Hv1 Hi x); simpl; [|constructor; tauto].
    destruct (bin_number_in_bin _ j Hv2 Hj y); constructor; tauto.
  - exists s, q. unfold entry2. simpl. rewrite Hc in A1; rewrite Hq in A3; simpl in A1, A3.
    repeat split; auto; lia.
Qed.
