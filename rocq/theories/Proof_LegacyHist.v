From Coq Require Import Reals String ZArith Bool Arith List Lra Lia.
From Verif Require Import Model_Num Model_Hist Model_LegacyHist Spec_Hist Spec_LegacyHist Proof_Hist Proof_Hist2 Proof_Hist3
  Proof_HistHeap Proof_Eval.
Import ListNotations.
Local Open Scope R_scope.

(** contents of a legacy histogram in terms of its cells *)
Definition lcontents (cells : list (R -> bool)) (h : lhist) (ev : list (R * R)) (xs : list R) : Prop :=
  lh_counts h = map (fun p => Fin (wsumf p ev)) cells /\
  lh_entries h = map (fun p => Fin (wsumf p (map (fun x => (x, 1)) xs))) cells /\
  lh_errs_sq h = map (fun p => Fin (wsumf p (squared ev))) cells.

Lemma iadd1_ok a b c : iadd1 a b = Ok c -> c = map2 xadd a b.
Proof. unfold iadd1. destruct (Nat.eqb _ _); congruence. Qed.

Lemma combine_ones (xs ws : list R) : length xs = length ws -> combine xs (map (fun _ => 1) ws) = map (fun x => (x, 1)) xs.
Proof. revert ws; induction xs as [|x xs IH]; intros [|w ws] H; simpl in *; auto; try lia. f_equal. apply IH. lia. Qed.

Lemma lfill_ok h d w h' : lhist_fill h d w = (h', Ok tt) ->
  length d = length (weight_list (length d) w) /\ squareable w = true /\
  exists s n q, binned_statistic (lh_edges h) d (weight_list (length d) w) = Ok s /\
    binned_statistic (lh_edges h) d (map (fun _ => 1) (weight_list (length d) w)) = Ok n /\
    binned_statistic (lh_edges h) d (map (fun x => x * x) (weight_list (length d) w)) = Ok q /\
    h' = mk_lhist (lh_nbins h) (lh_limits h) (lh_edges h) (map2 xadd (lh_counts h) s) (map2 xadd (lh_entries h) n) (map2 xadd (lh_errs_sq h) q).
Proof.
  unfold lhist_fill, binned_count. rewrite resolve_weight_list.
  destruct (Nat.eqb_spec (length d) (length (weight_list (length d) w))) as [L|]; [|discriminate]. cbn [negb].
  destruct (binned_statistic (lh_edges h) d (weight_list (length d) w)) as [s|] eqn:Es; [|discriminate]. cbn [rbind].
  destruct (iadd1 (lh_counts h) s) as [c|] eqn:Ec; [|discriminate]. apply iadd1_ok in Ec as ->.
  destruct (binned_statistic (lh_edges h) d (map (fun _ => 1) (weight_list (length d) w))) as [n|] eqn:En; [|discriminate]. cbn [rbind].
  cbn [lh_entries lh_set_counts].
  destruct (iadd1 (lh_entries h) n) as [c|] eqn:Ec; [|discriminate]. apply iadd1_ok in Ec as ->.
  destruct (squareable w); [|discriminate]. cbn [negb].
  destruct (binned_statistic (lh_edges h) d (map (fun x => x * x) (weight_list (length d) w))) as [q|] eqn:Eq; [|discriminate]. cbn [rbind].
  cbn [lh_errs_sq lh_set_counts lh_set_entries].
  destruct (iadd1 (lh_errs_sq h) q) as [c|] eqn:Ec; [|discriminate]. apply iadd1_ok in Ec as ->.
  intros H; injection H as <-. split; [exact L|]. split; [reflexivity|]. exists s, n, q. repeat split; reflexivity.
Qed.

Lemma lfill_contents h d w h' ev xs :
  lcontents (cells1 (lh_edges h)) h ev xs -> lhist_fill h d w = (h', Ok tt) ->
  lcontents (cells1 (lh_edges h)) h' (ev ++ events1 d w) (xs ++ d) /\
  lh_edges h' = lh_edges h /\ lh_limits h' = lh_limits h /\ lh_nbins h' = lh_nbins h.
Proof.
  intros (Hc & Hn & Hq) F. apply lfill_ok in F as (L & _ & s & n & q & Es & En & Eq & ->). cbn [lh_edges lh_limits lh_nbins].
  split; [|auto]. apply binned_statistic_ok in Es, En, Eq. rewrite combine_sq in Eq. rewrite combine_ones in En by exact L. subst.
  unfold lcontents. cbn [lh_counts lh_entries lh_errs_sq]. rewrite Hc, Hn, Hq, !map2_xadd_map.
  repeat split; apply map_ext; intros p; f_equal.
  - rewrite wsumf_app. reflexivity.
  - rewrite map_app, wsumf_app. reflexivity.
  - rewrite squared_app, wsumf_app. reflexivity.
Qed.

Definition times (c : R) (ev : list (R * R)) : list (R * R) := map (fun p => (fst p, snd p * c)) ev.
Lemma wsumf_times p c ev : wsumf p (times c ev) = wsumf p ev * c.
Proof.
  unfold wsumf, times. rewrite map_map. cbn [fst snd]. induction ev as [|[x w] ev IH]; simpl; [lra|].
  rewrite IH. destruct (p x); lra.
Qed.
Lemma squared_times c ev : squared (times c ev) = times (c ^ 2) (squared ev).
Proof. unfold squared, times. rewrite !map_map. apply map_ext. intros [x w]; simpl. f_equal. ring. Qed.
Lemma times_1 ev : times 1 ev = ev.
Proof. unfold times. rewrite <- (map_id ev) at 2. apply map_ext. intros [x w]; simpl. f_equal. ring. Qed.
Lemma times_times a b ev : times a (times b ev) = times (b * a) ev.
Proof. unfold times. rewrite map_map. apply map_ext. intros [x w]; simpl. f_equal. ring. Qed.
Lemma times_app c a b : times c (a ++ b) = times c a ++ times c b.
Proof. apply map_app. Qed.

Lemma lscale_contents cells h c ev xs : lcontents cells h ev xs -> lcontents cells (lhist_scale h c) (times c ev) xs.
Proof.
  intros (Hc & Hn & Hq). unfold lcontents, lhist_scale. cbn [lh_counts lh_entries lh_errs_sq lh_set_errs lh_set_counts].
  rewrite Hc, Hn, Hq, !map_map. repeat split; try reflexivity; apply map_ext; intros p.
  - rewrite wsumf_times. reflexivity.
  - rewrite squared_times, wsumf_times. reflexivity.
Qed.

Lemma lcalls_contents : forall l h h' ev xs,
  lcontents (cells1 (lh_edges h)) h ev xs -> lcalls h l = Ok h' ->
  lcontents (cells1 (lh_edges h)) h' (times (factor l) ev ++ scaled_events l) (xs ++ filled_data l) /\
  lh_edges h' = lh_edges h /\ lh_limits h' = lh_limits h /\ lh_nbins h' = lh_nbins h.
Proof.
  induction l as [|[d w|c] l IH]; intros h h' ev xs C H; cbn [lcalls factor scaled_events filled_data] in *.
  - injection H as <-. rewrite times_1, !app_nil_r. auto.
  - destruct (lhist_fill h d w) as [h1 [[]|e]] eqn:F; [|discriminate].
    destruct (lfill_contents _ _ _ _ _ _ C F) as (C1 & E1 & E2 & E3). rewrite <- E1 in C1 |- *.
    destruct (IH _ _ _ _ C1 H) as (C2 & F1 & F2 & F3). rewrite times_app, <- app_assoc in C2.
    rewrite <- app_assoc in C2. split; [exact C2|]. repeat split; congruence.
  - pose proof (lscale_contents _ _ c _ _ C) as C1.
    destruct (IH _ _ _ _ (C1 : lcontents (cells1 (lh_edges (lhist_scale h c))) _ _ _) H) as (C2 & F1 & F2 & F3).
    rewrite times_times in C2. split; [exact C2|]. repeat split; [rewrite F1|rewrite F2|rewrite F3]; reflexivity.
Qed.

Lemma linspace_valid lo hi n : (1 <= n)%nat -> lo < hi -> valid_edges (np_linspace lo hi (n + 1)).
Proof.
  intros Hn Hl. split; [rewrite linspace_length; lia|]. rewrite linspace_length. intros i Hi.
  rewrite !linspace_nth by lia. rewrite S_INR.
  assert (0 < (hi - lo) / INR n). { apply Rdiv_lt_0_compat; [lra|]. apply lt_0_INR. lia. } lra.
Qed.

Lemma lempty_contents n lo hi h : lhist_empty (Z.of_nat n) (lo, hi) = Ok h ->
  lcontents (cells1 (lh_edges h)) h [] [] /\ lh_edges h = np_linspace lo hi (n + 1) /\ lh_limits h = (lo, hi) /\ lh_nbins h = n.
Proof.
  unfold lhist_empty. destruct (Z.ltb_spec (Z.of_nat n) 0); [lia|]. rewrite Nat2Z.id. intros H'; injection H' as <-.
  cbn [lh_edges lh_limits lh_nbins fst snd]. split; [|auto]. unfold lcontents. cbn [lh_counts lh_entries lh_errs_sq].
  assert (E : repeat (Fin 0) n = map (fun p : R -> bool => Fin (wsumf p [])) (cells1 (np_linspace lo hi (n + 1)))).
  { rewrite (map_ext_const _ (Fin 0)); [|reflexivity]. rewrite cells1_length, linspace_length. f_equal. lia. }
  rewrite E at 1 2 3. auto.
Qed.

Lemma lnew_contents n lo hi data w h : lhist_new (Z.of_nat n) (lo, hi) data w = Ok h ->
  lcontents (cells1 (lh_edges h)) h (scaled_events (linit data w)) (filled_data (linit data w)) /\
  lh_edges h = np_linspace lo hi (n + 1) /\ lh_limits h = (lo, hi) /\ lh_nbins h = n.
Proof.
  unfold lhist_new. destruct (lhist_empty (Z.of_nat n) (lo, hi)) as [h0|] eqn:E; [|discriminate]. cbn [rbind].
  apply lempty_contents in E as (C & E1 & E2 & E3). destruct data as [d|]; intros H.
  - destruct (lhist_fill h0 d w) as [h1 [[]|]] eqn:F; [|discriminate]. injection H as <-.
    destruct (lfill_contents _ _ _ _ _ _ C F) as (C1 & F1 & F2 & F3). cbn [linit scaled_events filled_data factor].
    rewrite <- F1 in C1. change (map (fun p => (fst p, snd p * 1)) (events1 d w)) with (times 1 (events1 d w)). rewrite times_1, !app_nil_r. cbn [app] in C1.
    split; [exact C1|]. repeat split; congruence.
  - injection H as <-. auto.
Qed.

Lemma factor_app a b : factor (a ++ b) = factor a * factor b.
Proof. induction a as [|[d w|c] a IH]; simpl; try lra. rewrite IH. lra. Qed.
Lemma scaled_app a b : scaled_events (a ++ b) = times (factor b) (scaled_events a) ++ scaled_events b.
Proof.
  induction a as [|[d w|c] a IH]; simpl; auto. rewrite IH, times_app, <- app_assoc. f_equal.
  unfold times. rewrite map_map. apply map_ext. intros [x v]; simpl. f_equal. rewrite factor_app. ring.
Qed.
Lemma filled_app a b : filled_data (a ++ b) = filled_data a ++ filled_data b.
Proof. induction a as [|[d w|c] a IH]; simpl; auto. rewrite IH, app_assoc. reflexivity. Qed.

Lemma wcount_ones (P : R -> Prop) dec : (forall x, reflect (P x) (dec x)) ->
  forall d, exists n, wcount P d n /\ wsumf dec (map (fun x => (x, 1)) d) = INR n.
Proof.
  intros Hd d. unfold wsumf. induction d as [|x d IH]; simpl.
  - exists O; split; [constructor|reflexivity].
  - destruct IH as (n & Hn & E1). destruct (Hd x) as [Hp|Hp].
    + exists (S n). split; [constructor; assumption|]. rewrite S_INR, E1. lra.
    + exists n. split; [constructor; assumption|]. rewrite E1. lra.
Qed.

Lemma legacy_contents n lo hi data w h0 l h :
  (1 <= n)%nat -> lo < hi -> lhist_new (Z.of_nat n) (lo, hi) data w = Ok h0 -> lcalls h0 l = Ok h ->
  let ev := scaled_events (linit data w ++ l) in
  let xs := filled_data (linit data w ++ l) in
  length (lh_edges h) = S n /\ (forall i, (i <= n)%nat -> nth i (lh_edges h) 0 = equal_edge lo hi n i) /\
  length (lh_counts h) = n /\ length (lh_entries h) = n /\ length (lh_errs_sq h) = n /\
  forall i, (i < n)%nat ->
    exists s m q, lentry (lh_counts h) i s /\ wsum (in_bin (lh_edges h) i) ev s /\
      lentry (lh_entries h) i (INR m) /\ wcount (in_bin (lh_edges h) i) xs m /\
      lentry (lh_errs_sq h) i q /\ wsum (in_bin (lh_edges h) i) (squared ev) q.
Proof.
  intros Hn Hl H0 H. cbv zeta. apply lnew_contents in H0 as (C & E1 & E2 & E3).
  destruct (lcalls_contents _ _ _ _ _ C H) as (C2 & F1 & F2 & F3).
  rewrite scaled_app, filled_app. rewrite F1, E1 in *. pose proof (linspace_valid lo hi n Hn Hl) as V.
  assert (L : length (np_linspace lo hi (n + 1)) = S n) by (rewrite linspace_length; lia).
  destruct C2 as (A1 & A2 & A3). rewrite A1, A2, A3, !map_length, cells1_length, L.
  split; [reflexivity|]. split; [intros i Hi; apply linspace_nth; auto|]. do 3 (split; [lia|]).
  intros i Hi. assert (Hi' : (S i < length (np_linspace lo hi (n + 1)))%nat) by lia.
  pose proof (bin_number_in_bin _ i V Hi') as Rf. unfold lentry. rewrite !nth_error_map, !cells1_nth by exact Hi'. cbn [option_map].
  destruct (wcount_ones _ _ Rf (filled_data (linit data w) ++ filled_data l)) as (m & W & Em).
  do 3 eexists. split; [reflexivity|]. split; [apply wsumf_wsum; exact Rf|]. split; [rewrite Em; reflexivity|].
  split; [exact W|]. split; [reflexivity|]. apply wsumf_wsum; exact Rf.
Qed.

(** success *)
Definition lready (h : lhist) : Prop :=
  valid_edges (lh_edges h) /\ length (lh_counts h) = (length (lh_edges h) - 1)%nat /\
  length (lh_entries h) = (length (lh_edges h) - 1)%nat /\ length (lh_errs_sq h) = (length (lh_edges h) - 1)%nat.

Lemma lfill_succeeds h d w : lready h -> not_tuple w -> length d = length (weight_list (length d) w) ->
  exists h', lhist_fill h d w = (h', Ok tt) /\ lready h'.
Proof.
  intros (V & L1 & L2 & L3) Hw Hl. unfold lhist_fill, binned_count. rewrite resolve_weight_list. rewrite <- Hl, Nat.eqb_refl. cbn [negb].
  destruct (binned_statistic_succeeds _ _ _ V Hl) as (s & Es & Ls).
  assert (Hl1 : length d = length (map (fun _ : R => 1) (weight_list (length d) w))) by (rewrite map_length; exact Hl).
  destruct (binned_statistic_succeeds _ _ _ V Hl1) as (m & Em & Lm).
  assert (Hl2 : length d = length (map (fun x => x * x) (weight_list (length d) w))) by (rewrite map_length; exact Hl).
  destruct (binned_statistic_succeeds _ _ _ V Hl2) as (q & Eq & Lq).
  rewrite Es. cbn [rbind]. unfold iadd1 at 1. rewrite L1, Ls, Nat.eqb_refl. rewrite Em. cbn [rbind lh_entries lh_set_counts].
  unfold iadd1 at 1. rewrite L2, Lm, Nat.eqb_refl.
  assert (squareable w = true) as -> by (destruct w; simpl in *; tauto || reflexivity). cbn [negb].
  rewrite Eq. cbn [rbind lh_errs_sq lh_set_counts lh_set_entries]. unfold iadd1. rewrite L3, Lq, Nat.eqb_refl.
  eexists. split; [reflexivity|]. unfold lready. cbn. rewrite !map2_length. repeat split; try apply V; lia.
Qed.

Lemma lnew_ready n lo hi : (1 <= n)%nat -> lo < hi -> exists h, lhist_new (Z.of_nat n) (lo, hi) None WNone = Ok h /\ lready h.
Proof.
  intros Hn Hl. unfold lhist_new, lhist_empty. destruct (Z.ltb_spec (Z.of_nat n) 0); [lia|]. rewrite Nat2Z.id. cbn [rbind fst snd].
  eexists. split; [reflexivity|]. unfold lready. cbn. rewrite !repeat_length, linspace_length. split; [apply linspace_valid; auto|lia].
Qed.
Lemma lscale_ready h c : lready h -> lready (lhist_scale h c).
Proof. intros (V & L1 & L2 & L3). unfold lready, lhist_scale. cbn. rewrite !map_length. auto. Qed.

(** scaling and filling commute *)
Lemma xmul_xadd_Fin a s c : xadd (xmul a (Fin c)) (Fin (s * c)) = xmul (xadd a (Fin s)) (Fin c).
Proof.
  destruct a as [r| | |]; simpl; auto.
  - f_equal. ring.
  - unfold xinf_mul. destruct (Reqb c 0); auto. destruct (xorb false (Rltb c 0)); reflexivity.
  - unfold xinf_mul. destruct (Reqb c 0); auto. destruct (xorb true (Rltb c 0)); reflexivity.
Qed.

Lemma map2_scale {A} (f g : A -> R) c : (forall p, g p = f p * c) -> forall cells l,
  map2 xadd (map (fun x => xmul x (Fin c)) l) (map (fun p => Fin (g p)) cells)
  = map (fun x => xmul x (Fin c)) (map2 xadd l (map (fun p => Fin (f p)) cells)).
Proof.
  intros E. induction cells as [|p cells IH]; intros [|a l]; simpl; auto. rewrite E, xmul_xadd_Fin, IH. reflexivity.
Qed.

Lemma combine_times (xs ws : list R) c : combine xs (map (fun v => v * c) ws) = times c (combine xs ws).
Proof. revert ws; induction xs as [|x xs IH]; intros [|w ws]; simpl; auto. f_equal. apply IH. Qed.

Lemma scale_fill_commute h d ws c :
  lready h -> length d = length ws ->
  exists h1, lhist_fill h d (WArr ws) = (h1, Ok tt) /\
    lhist_fill (lhist_scale h c) d (WArr (map (fun v => v * c) ws)) = (lhist_scale h1 c, Ok tt).
Proof.
  intros Rd L.
  destruct (lfill_succeeds h d (WArr ws) Rd I L) as (h1 & F1 & _).
  assert (L' : length d = length (weight_list (length d) (WArr (map (fun v => v * c) ws)))) by (simpl; rewrite map_length; exact L).
  destruct (lfill_succeeds (lhist_scale h c) d (WArr (map (fun v => v * c) ws)) (lscale_ready _ c Rd) I L') as (h2 & F2 & _).
  exists h1. split; [exact F1|]. rewrite F2. f_equal.
  apply lfill_ok in F1 as (_ & _ & s & n & q & Es & En & Eq & ->).
  apply lfill_ok in F2 as (_ & _ & s' & n' & q' & Es' & En' & Eq' & ->).
  cbn [weight_list] in *. change (lh_edges (lhist_scale h c)) with (lh_edges h) in *.
  apply binned_statistic_ok in Es, En, Eq, Es', En', Eq'. rewrite combine_sq in Eq, Eq'. rewrite combine_times in Es', Eq'.
  rewrite combine_ones in En by exact L. rewrite combine_ones in En' by (rewrite map_length; exact L).
  unfold lhist_scale, lh_set_errs, lh_set_counts. cbn [lh_nbins lh_limits lh_edges lh_counts lh_entries lh_errs_sq]. subst. f_equal.
  - apply map2_scale. intros p. rewrite wsumf_times. reflexivity.
  - apply map2_scale. intros p. rewrite squared_times, wsumf_times. reflexivity.
Qed.

(** relative errors *)
Lemma lrel_nth h i s q : lentry (lh_counts h) i s -> lentry (lh_errs_sq h) i q ->
  nth_error (lhist_rel_errors h) i = Some (let r := xdiv (xsqrt (Fin q)) (Fin s) in if xeqb r (Fin 0) then Fin (/ 10 ^ 7) else r).
Proof.
  unfold lentry, lhist_rel_errors. generalize (lh_counts h) as a, (lh_errs_sq h) as b. intros a b. revert a i.
  induction b as [|y b IH]; intros [|x a] [|i]; cbn [map2 nth_error]; try discriminate.
  - intros H1 H2; injection H1 as ->; injection H2 as ->. reflexivity.
  - apply IH.
Qed.

Lemma scale_relative_errors h c i s q : 0 < c -> lentry (lh_counts h) i s -> lentry (lh_errs_sq h) i q -> s <> 0 -> 0 <= q ->
  nth_error (lhist_rel_errors (lhist_scale h c)) i = nth_error (lhist_rel_errors h) i.
Proof.
  intros Hc Hs Hq Ns Nq. rewrite (lrel_nth h i s q Hs Hq).
  rewrite (lrel_nth (lhist_scale h c) i (s * c) (q * c ^ 2)).
  - cbn zeta. assert (E : xdiv (xsqrt (Fin (q * c ^ 2))) (Fin (s * c)) = xdiv (xsqrt (Fin q)) (Fin s)).
    { rewrite !xsqrt_nonneg by (try assumption; apply Rmult_le_pos; auto; apply pow_le; lra). unfold xdiv.
      destruct (Reqb_spec (s * c) 0) as [Z|_]. { exfalso. apply Rmult_integral in Z. destruct Z; lra. }
      destruct (Reqb_spec s 0) as [Z|_]; [lra|]. f_equal. rewrite sqrt_mult_alt by exact Nq.
      rewrite sqrt_pow2 by lra. field. lra. }
    rewrite E. reflexivity.
  - unfold lentry in *. unfold lhist_scale; cbn. rewrite nth_error_map, Hs. reflexivity.
  - unfold lentry in *. unfold lhist_scale; cbn. rewrite nth_error_map, Hq. reflexivity.
Qed.

Lemma wcount_none {A} (P : A -> Prop) xs n : wcount P xs n -> n = O -> forall x, In x xs -> ~ P x.
Proof. induction 1; intros E; try discriminate; simpl; [tauto|]. intros y [<-|I]; auto. Qed.

Lemma wsum_none {A} (P : A -> Prop) ev s : wsum P ev s -> (forall x w, In (x, w) ev -> ~ P x) -> s = 0.
Proof. induction 1; intros E; auto. - exfalso. eapply E; [left; reflexivity|assumption]. - apply IHwsum. intros; eapply E; right; eauto. Qed.

Lemma in_scaled x v l : In (x, v) (scaled_events l) -> In x (filled_data l).
Proof.
  induction l as [|[d w|c] l IH]; simpl; auto. intros H. apply in_app_iff in H as [H|H]; apply in_app_iff; auto. left.
  apply in_map_iff in H as ([y u] & E & I). injection E as <- _. unfold events1 in I. apply in_combine_l in I. exact I.
Qed.

Lemma empty_bin_nan n lo hi data w h0 l h i :
  (1 <= n)%nat -> lo < hi -> lhist_new (Z.of_nat n) (lo, hi) data w = Ok h0 -> lcalls h0 l = Ok h -> (i < n)%nat ->
  (forall x, In x (filled_data (linit data w ++ l)) -> ~ in_bin (lh_edges h) i x) ->
  nth_error (lhist_rel_errors h) i = Some NaN.
Proof.
  intros Hn Hl H0 H Hi Ho. destruct (legacy_contents _ _ _ _ _ _ _ _ Hn Hl H0 H) as (_ & _ & _ & _ & _ & G).
  destruct (G i Hi) as (s & m & q & A1 & A2 & _ & _ & A3 & A4). rewrite (lrel_nth _ _ _ _ A1 A3).
  assert (s = 0) as ->. { eapply wsum_none; [exact A2|]. intros x v I. apply Ho. eapply in_scaled; eauto. }
  assert (q = 0) as ->. { eapply wsum_none; [exact A4|]. intros x v I. apply Ho. unfold squared in I. apply in_map_iff in I as ([y u] & E & I).
    injection E as <- _. eapply in_scaled; eauto. }
  cbn zeta. rewrite xsqrt_nonneg by lra. rewrite sqrt_0. unfold xdiv. destruct (Reqb_spec 0 0) as [_|N]; [|lra]. destruct (Reqb_spec 0 0) as [_|N]; [|lra]. reflexivity.
Qed.

Lemma wsum_sq_pos {A} (P : A -> Prop) ev s q : wsum P ev s -> wsum P (squared ev) q -> 0 <= q /\ (s <> 0 -> 0 < q).
Proof.
  intros H; revert q; induction H; intros q Hq; inversion Hq; subst; try contradiction.
  - split; lra.
  - destruct (IHwsum _ ltac:(eassumption)) as (A1 & A2). pose proof (Rle_0_sqr w) as Sq. unfold Rsqr in Sq. split; [lra|].
    intros N. destruct (Req_dec w 0) as [->|Nw]; [rewrite Rplus_0_l in N; specialize (A2 N); lra|].
    assert (0 < w * w). { destruct (Rlt_dec 0 (w * w)); auto. exfalso. assert (Z : w * w = 0) by lra. apply Rmult_integral in Z. tauto. } lra.
  - auto.
Qed.

Lemma filled_bin_rel n lo hi data w h0 l h i s :
  (1 <= n)%nat -> lo < hi -> lhist_new (Z.of_nat n) (lo, hi) data w = Ok h0 -> lcalls h0 l = Ok h -> (i < n)%nat ->
  wsum (in_bin (lh_edges h) i) (scaled_events (linit data w ++ l)) s -> s <> 0 ->
  exists q, wsum (in_bin (lh_edges h) i) (squared (scaled_events (linit data w ++ l))) q /\
    nth_error (lhist_rel_errors h) i = Some (Fin (sqrt q / s)) /\ sqrt q / s <> 0.
Proof.
  intros Hn Hl H0 H Hi Hs Ns. destruct (legacy_contents _ _ _ _ _ _ _ _ Hn Hl H0 H) as (_ & _ & _ & _ & _ & G).
  destruct (G i Hi) as (s' & m & q & A1 & A2 & _ & _ & A3 & A4). rewrite <- (wsum_unique _ _ _ _ Hs A2) in *. exists q. split; [exact A4|].
  destruct (wsum_sq_pos _ _ _ _ A2 A4) as (Q0 & Q1). rewrite (wsum_unique _ _ _ _ A2 Hs) in *. specialize (Q1 Ns).
  pose proof (sqrt_lt_R0 q Q1) as Sp. assert (D : sqrt q / s <> 0). { intros Z. unfold Rdiv in Z. apply Rmult_integral in Z as [Z|Z]; [lra|]. apply Rinv_neq_0_compat in Z; auto. }
  split; [|exact D]. rewrite (lrel_nth _ _ _ _ A1 A3). cbn zeta. rewrite xsqrt_nonneg by lra. unfold xdiv. destruct (Reqb_spec s 0) as [Z|_]; [lra|].
  unfold xeqb. destruct (Reqb_spec (sqrt q / s) 0) as [Z|_]; [lra|reflexivity].
Qed.

(** *** C70: cached projections of Hist2d *)
Definition sound2 (h : hist) : Prop :=
  exists nx ny, nd_shape (h_counts h) = [nx; ny] /\ nd_shape (h_errs_sq h) = [nx; ny] /\
    length (nd_flat (h_errs_sq h)) = length (nd_flat (h_counts h)).

Lemma sound2_empty bins lim h : hist2_empty bins lim = Ok h -> sound2 h.
Proof.
  unfold hist2_empty. destruct bins as [nx ny|ex ey].
  - destruct lim as [[[a b] [c d]]|]; [|discriminate]. unfold linspace_edges.
    destruct (Z.ltb nx 0); [discriminate|]. destruct (Z.ltb ny 0); [discriminate|]. cbn [rbind]. intros H; injection H as <-.
    do 2 eexists. cbn [h_counts h_errs_sq np_zeros nd_shape nd_flat]. auto.
  - destruct (get_bin_range ex); [|discriminate]. destruct (get_bin_range ey); [|discriminate]. cbn [rbind]. intros H; injection H as <-.
    do 2 eexists. cbn [h_counts h_errs_sq np_zeros nd_shape nd_flat]. auto.
Qed.

Lemma sound2_fill h xs ys w h' : sound2 h -> hist2_fill h xs ys w = (h', Ok tt) -> sound2 h'.
Proof.
  intros (nx & ny & A & B & L) F. unfold hist2_fill in F. apply fill_with_ok in F as (s & q & Es & Eq & S1 & S2 & L1 & L2 & _ & ->).
  rewrite A in S1. injection S1 as <- <-. do 2 eexists. cbn. split; [reflexivity|]. split; [reflexivity|]. rewrite !map2_length. lia.
Qed.

Record l2inv (s : l2world) : Prop := {
  i_sound : Forall sound2 (l2_hists s);
  i_x : forall i v, In (i, v) (l2_xcache s) -> exists h, nth_error (l2_hists s) i = Some h /\ l2_projection true h = Ok v;
  i_y : forall i v, In (i, v) (l2_ycache s) -> exists h, nth_error (l2_hists s) i = Some h /\ l2_projection false h = Ok v }.

Lemma Forall_upd {A} (P : A -> Prop) i a l : Forall P l -> P a -> Forall P (upd i a l).
Proof. intros H Ha; revert i; induction H; intros [|i]; simpl; constructor; auto. Qed.

Lemma upd_id {A} i (a : A) l : nth_error l i = Some a -> upd i a l = l.
Proof. revert i; induction l as [|b l IH]; intros [|i] H; simpl in *; try discriminate; auto; [congruence|]. f_equal; auto. Qed.

Lemma not_tuple_atomic h xs ys w h' e : sound2 h -> not_tuple w -> hist2_fill h xs ys w = (h', Err e) -> h' = h.
Proof. intros (nx & ny & A & B & L) N F. eapply fill2_atomic; eauto. congruence. Qed.

Lemma l2fill_inv s i xs ys w : l2inv s -> not_tuple w -> l2inv (fst (l2_fill s i xs ys w)).
Proof.
  intros [S X Y] N. unfold l2_fill. destruct (nth_error (l2_hists s) i) as [h|] eqn:Ei; [|constructor; auto].
  assert (Sh : sound2 h) by (rewrite Forall_forall in S; apply S; eapply nth_error_In; eauto).
  destruct (hist2_fill h xs ys w) as [h' [[]|e]] eqn:F; cbn [fst].
  - constructor; cbn [l2_hists l2_xcache l2_ycache]; try (intros ? ? []). apply Forall_upd; auto. eapply sound2_fill; eauto.
  - apply not_tuple_atomic in F; auto. subst h'. rewrite upd_id by exact Ei. constructor; auto.
Qed.

Lemma l2_new_inv s bins lim data w : l2inv s -> not_tuple w -> l2inv (fst (l2_new s bins lim data w)).
Proof.
  intros Hi N. unfold l2_new. destruct (hist2_empty bins lim) as [h|] eqn:E; [|exact Hi]. apply sound2_empty in E.
  assert (Hi' : l2inv (mk_l2 (l2_hists s ++ [h]) (l2_xcache s) (l2_ycache s))).
  { destruct Hi as [S X Y]. constructor; cbn [l2_hists l2_xcache l2_ycache].
    - apply Forall_app; split; auto.
    - intros i v I. destruct (X i v I) as (h' & A & B). exists h'. split; [|exact B]. rewrite nth_error_app1; [exact A|]. apply nth_error_Some. congruence.
    - intros i v I. destruct (Y i v I) as (h' & A & B). exists h'. split; [|exact B]. rewrite nth_error_app1; [exact A|]. apply nth_error_Some. congruence. }
  destruct data as [[xs ys]|]; [|exact Hi'].
  pose proof (l2fill_inv _ (length (l2_hists s)) xs ys w Hi' N) as G.
  destruct (l2_fill _ _ _ _ _) as [s' [[]|e]]; [exact G|exact Hi].
Qed.

Lemma proj_step s i h : l2inv s -> nth_error (l2_hists s) i = Some h ->
  (snd (l2_step s (L2XProj i)) = l2_projection true h /\ l2inv (fst (l2_step s (L2XProj i)))) /\
  (snd (l2_step s (L2YProj i)) = l2_projection false h /\ l2inv (fst (l2_step s (L2YProj i)))).
Proof.
  intros [S X Y] Ei. cbn [l2_step]. rewrite Ei. split.
  - destruct (lru_call_coherent Nat.eqb Nat.eqb_eq (fun i v => exists h, nth_error (l2_hists s) i = Some h /\ l2_projection true h = Ok v)
      (l2_xcache s) i (l2_projection true h) X) as (c & E & Hc).
    { intros v. rewrite Ei. split; [intros (h' & A & B); injection A as <-; exact B|eauto]. }
    rewrite E. cbn [fst snd]. split; [reflexivity|]. constructor; auto.
  - destruct (lru_call_coherent Nat.eqb Nat.eqb_eq (fun i v => exists h, nth_error (l2_hists s) i = Some h /\ l2_projection false h = Ok v)
      (l2_ycache s) i (l2_projection false h) Y) as (c & E & Hc).
    { intros v. rewrite Ei. split; [intros (h' & A & B); injection A as <-; exact B|eauto]. }
    rewrite E. cbn [fst snd]. split; [reflexivity|]. constructor; auto.
Qed.

Lemma usual_not_tuple o : usual_weights o ->
  match o with L2New _ _ _ w => not_tuple w | L2Fill _ _ _ w => not_tuple w | _ => True end.
Proof. destruct o; simpl; auto; destruct w; simpl; auto. Qed.

Lemma l2_step_inv s o : l2inv s -> usual_weights o -> l2inv (fst (l2_step s o)).
Proof.
  intros Hi U. apply usual_not_tuple in U. destruct o as [b lim d w|i xs ys w|i|i].
  - cbn [l2_step]. pose proof (l2_new_inv s b lim d w Hi U) as G. destruct (l2_new s b lim d w). exact G.
  - cbn [l2_step]. pose proof (l2fill_inv s i xs ys w Hi U) as G. destruct (l2_fill s i xs ys w). exact G.
  - destruct (nth_error (l2_hists s) i) as [h|] eqn:E; [apply (proj_step s i h Hi E)|]. cbn [l2_step]. rewrite E. exact Hi.
  - destruct (nth_error (l2_hists s) i) as [h|] eqn:E; [apply (proj_step s i h Hi E)|]. cbn [l2_step]. rewrite E. exact Hi.
Qed.

Lemma l2_run_inv l : forall s, l2inv s -> Forall usual_weights l -> l2inv (l2_run s l).
Proof. induction l as [|o l IH]; intros s Hi U; [exact Hi|]. inversion U; subst. apply IH; auto. apply l2_step_inv; auto. Qed.

Lemma l2_empty_inv : l2inv l2_empty.
Proof. constructor; cbn; [constructor|intros ? ? []|intros ? ? []]. Qed.

Lemma proj_marginal_x h : sound2 h -> exists r, l2_projection true h = Ok r /\ marginal_x h r.
Proof.
  intros (nx & ny & A & B & L). unfold l2_projection. rewrite A, B. eexists. split; [reflexivity|].
  exists nx, ny. cbn [fst snd]. unfold sum_axis1, xsum_n. rewrite !map_length, seq_length. do 4 (split; [auto|]).
  intros i Hi. rewrite map_map, !nth_error_map_seq by exact Hi. auto.
Qed.
Lemma proj_marginal_y h : sound2 h -> exists r, l2_projection false h = Ok r /\ marginal_y h r.
Proof.
  intros (nx & ny & A & B & L). unfold l2_projection. rewrite A, B. eexists. split; [reflexivity|].
  exists nx, ny. cbn [fst snd]. unfold sum_axis0, xsum_n. rewrite !map_length, seq_length. do 4 (split; [auto|]).
  intros i Hi. rewrite map_map, !nth_error_map_seq by exact Hi. auto.
Qed.

Lemma projections_current l i h : Forall usual_weights l -> nth_error (l2_hists (l2_run l2_empty l)) i = Some h ->
  (exists r, snd (l2_step (l2_run l2_empty l) (L2XProj i)) = Ok r /\ marginal_x h r) /\
  (exists r, snd (l2_step (l2_run l2_empty l) (L2YProj i)) = Ok r /\ marginal_y h r).
Proof.
  intros U E. pose proof (l2_run_inv l _ l2_empty_inv U) as Hi. pose proof (i_sound _ Hi) as S.
  assert (Sh : sound2 h) by (rewrite Forall_forall in S; apply S; eapply nth_error_In; eauto).
  destruct (proj_step _ i h Hi E) as ((P1 & _) & (P2 & _)). rewrite P1, P2. split; [apply proj_marginal_x|apply proj_marginal_y]; exact Sh.
Qed.
