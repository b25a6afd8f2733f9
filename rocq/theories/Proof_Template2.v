From Coq Require Import Reals String ZArith Bool Arith List Lra Lia.
From Verif Require Import Model_Num Model_Hist Model_Utility Model_Template Spec_Matrix Spec_Template Spec_Hist
  Proof_Hist Proof_Hist2 Proof_Hist3 Proof_Matrix Proof_Linear Proof_Template.
Import ListNotations.
Local Open Scope R_scope.

Lemma map_cells_vec {A} (f : A -> R) (l : list A) d :
  map (fun p => Fin (f p)) l = vec_of (length l) (fun i => f (nth i l d)).
Proof.
  unfold vec_of. rewrite <- (map_map (fun i => nth i l d) (fun p => Fin (f p))). f_equal.
  induction l as [|a l IH]; simpl; auto. f_equal. rewrite <- seq_shift, map_map. exact IH.
Qed.

(** ** Contents of histograms made by the constructors and fills are finite *)
Lemma hist1_contents_of bins range data w h0 fills h :
  hist1_new bins range data w = Ok h0 -> fills1 h0 fills = Ok h ->
  exists n c e, contents_of h n c e.
Proof.
  intros Hn Hf. destruct (hist1_history _ _ _ _ _ _ _ Hn Hf) as ((Hc & Hq) & G & _ & _ & Hs & _).
  set (ev := all_events1 (init_fill data w ++ fills)) in *. set (cs := cells1 (edges_nth h0 0)) in *.
  exists (length cs), (fun i => wsumf (nth i cs (fun _ => false)) ev), (fun i => wsumf (nth i cs (fun _ => false)) (squared ev)).
  assert (Hnb : h_num_bins h = h_shape h).
  { destruct G as (_ & _ & G3 & G4 & _). rewrite G3, G4.
    destruct (hist1_new_contents _ _ _ _ _ Hn) as (hh & E1 & E2).
    destruct (hist1_empty_ok _ _ _ E1) as (_ & _ & _ & _ & B & B2).
    destruct (fills1_contents _ _ _ _ B2 E2) as (_ & (_ & _ & G3' & G4' & _) & _). congruence. }
  unfold contents_of. rewrite Hnb, Hs. unfold cs. rewrite cells1_length. unfold nprod; cbn [fold_right].
  rewrite Nat.mul_1_r. repeat split; auto.
  - rewrite Hc. cbn [nd_flat]. fold cs.
    rewrite (map_cells_vec (fun p => wsumf p ev) cs (fun _ => false)). unfold cs; rewrite cells1_length. reflexivity.
  - rewrite Hq. cbn [nd_flat]. fold cs.
    rewrite (map_cells_vec (fun p => wsumf p (squared ev)) cs (fun _ => false)). unfold cs; rewrite cells1_length. reflexivity.
  - intros i _. apply wsumf_squared_nonneg.
Qed.

Lemma hist2_contents_of bins range data w h0 fills h :
  hist2_new bins range data w = Ok h0 -> fills2 h0 fills = Ok h ->
  exists n c e, contents_of h n c e.
Proof.
  intros Hn Hf. destruct (hist2_history _ _ _ _ _ _ _ Hn Hf) as ((Hc & Hq) & G & _ & _ & Hs & _).
  set (ev := all_events2 (init_fill data w ++ fills)) in *. set (cs := cells2 (edges_nth h0 0) (edges_nth h0 1)) in *.
  exists (length cs), (fun i => wsumf (nth i cs (fun _ => false)) ev), (fun i => wsumf (nth i cs (fun _ => false)) (squared ev)).
  assert (Hnb : h_num_bins h = h_shape h).
  { destruct G as (_ & _ & G3 & G4 & _). rewrite G3, G4.
    destruct (hist2_new_contents _ _ _ _ _ Hn) as (hh & E1 & E2).
    destruct (hist2_empty_ok _ _ _ E1) as (_ & _ & _ & B0 & B & B2).
    destruct (fills2_contents _ _ _ _ B2 E2) as (_ & (_ & _ & G3' & G4' & _) & _). congruence. }
  unfold contents_of. rewrite Hnb, Hs. unfold cs. rewrite cells2_length. unfold nprod; cbn [fold_right].
  rewrite Nat.mul_1_r. repeat split; auto.
  - rewrite Hc. cbn [nd_flat]. fold cs.
    rewrite (map_cells_vec (fun p => wsumf p ev) cs (fun _ => false)). unfold cs; rewrite cells2_length. reflexivity.
  - rewrite Hq. cbn [nd_flat]. fold cs.
    rewrite (map_cells_vec (fun p => wsumf p (squared ev)) cs (fun _ => false)). unfold cs; rewrite cells2_length. reflexivity.
  - intros i _. apply wsumf_squared_nonneg.
Qed.

(** ** Histograms of a variation *)
Lemma strictly_increasing_valid es : (2 <= length es)%nat -> strictly_increasing es = true -> valid_edges es.
Proof.
  intros Hl H. split; auto. clear Hl. induction es as [|a [|b es] IH]; simpl; intros i Hi; try lia.
  change (Rltb a b && strictly_increasing (b :: es) = true) in H.
  apply andb_prop in H as [H1 H2]. destruct i as [|i].
  - destruct (Rltb_spec a b); [simpl; auto|discriminate].
  - specialize (IH H2 i). simpl in IH |- *. apply IH. lia.
Qed.

Lemma fill1_ok_valid h d w h' : hist1_fill h d w = (h', Ok tt) -> valid_edges (edges_nth h 0).
Proof.
  intros H. unfold hist1_fill in H. apply fill_with_ok in H as (s & q & Hs & _).
  unfold binned_statistic in Hs.
  destruct (negb (Nat.eqb (length d) _)); [discriminate|].
  destruct (Nat.ltb_spec (length (edges_nth h 0)) 2); [discriminate|].
  destruct (strictly_increasing (edges_nth h 0)) eqn:E; [|discriminate].
  apply strictly_increasing_valid; auto.
Qed.

Lemma uniform_linspace lo hi n : (1 <= n)%nat -> np_linspace lo hi (n + 1) = uniform_edges lo hi n.
Proof.
  intros Hn. destruct n as [|n]; [lia|]. replace (S n + 1)%nat with (S (S n)) by lia. reflexivity.
Qed.

Lemma hist1_uniform n lo hi xs w h :
  hist1_new (B1Int (Z.of_nat n)) (Some (lo, hi)) (Some xs) w = Ok h ->
  (1 <= n)%nat /\ valid_edges (uniform_edges lo hi n) /\
  exists c, nd_flat (h_counts h) = vec_of n c /\
    forall i, (i < n)%nat -> wsum (in_bin (uniform_edges lo hi n) i) (events1 xs w) (c i).
Proof.
  intros H. pose proof (hist1_new_contents _ _ _ _ _ H) as (h0 & E0 & F0).
  assert (Eh0 : edges_nth h0 0 = np_linspace lo hi (n + 1)).
  { unfold hist1_empty, hist1_init_bin_edges, linspace_edges in E0. destruct (Z.ltb_spec (Z.of_nat n) 0); [discriminate|].
    cbn [rbind] in E0. injection E0 as <-. unfold edges_nth. cbn. rewrite Nat2Z.id. reflexivity. }
  cbn [init_fill fills1] in F0. destruct (hist1_fill h0 xs w) as [h1 [[]|]] eqn:F; [|discriminate].
  injection F0 as ->. pose proof (fill1_ok_valid _ _ _ _ F) as Hv. rewrite Eh0 in Hv.
  assert (Hn : (1 <= n)%nat) by (destruct Hv as [Hv _]; rewrite linspace_length in Hv; lia).
  rewrite uniform_linspace in * by auto. split; auto. split; auto.
  pose proof (hist1_history _ _ _ _ _ [] _ H eq_refl) as ((Hc & _) & (_ & Hg & _) & _).
  destruct (hist1_empty_ok _ _ _ E0) as (_ & _ & _ & _ & _ & C0).
  destruct (hist1_fill_contents _ _ _ _ _ C0 F) as ((Hc' & _) & _). rewrite Eh0 in Hc'. simpl app in Hc'.
  set (cs := cells1 (uniform_edges lo hi n)) in *.
  assert (Hl : length (uniform_edges lo hi n) = S n) by (unfold uniform_edges; rewrite map_length, seq_length; auto).
  assert (Hcl : length cs = n) by (unfold cs; rewrite cells1_length; lia).
  exists (fun i => wsumf (nth i cs (fun _ => false)) (events1 xs w)). split.
  - rewrite Hc'. cbn [nd_flat]. rewrite (map_cells_vec (fun p => wsumf p (events1 xs w)) cs (fun _ => false)), Hcl. reflexivity.
  - intros i Hi. unfold cs. rewrite nth_cells1 by lia. apply wsumf_wsum. apply bin_number_in_bin; auto. lia.
Qed.

Section WithInv.
  Variable inv : mat -> res mat.
  Hypothesis Hinv : inv_spec inv.

  (** What add_variation of a Template1d does: it raises and changes nothing, or adds the covariance
      of the variation in n equal bins of the template's range. *)
  Lemma add_variation_effect t n c e covs xs wup wdown lo hi :
    t_kind t = K1 -> error_state t n c e covs -> t_range t = [(lo, hi)] ->
    (exists ex, t_add_variation inv t (D1 xs) wup wdown = (t, Err ex)) \/
    exists t' C, t_add_variation inv t (D1 xs) wup wdown = (t', Ok tt) /\
      error_state t' n c e (covs ++ [C]) /\ variation_cov (uniform_edges lo hi n) c xs wup wdown C /\
      t_params t' = t_params t /\ t_kind t' = t_kind t /\ t_name t' = t_name t /\ t_hist t' = t_hist t /\
      t_bins t' = t_bins t /\ t_range t' = t_range t.
  Proof.
    intros Hk Hst Hr. unfold t_add_variation. rewrite Hk, Hr.
    destruct Hst as (Hnb & Hc & Hrest). rewrite Hnb.
    destruct (hist1_new (B1Int (Z.of_nat n)) (Some (lo, hi)) (Some xs) wup) as [hup|] eqn:Eup; [|left; cbn; eauto].
    destruct (hist1_new (B1Int (Z.of_nat n)) (Some (lo, hi)) (Some xs) wdown) as [hdown|] eqn:Edown; [|left; cbn; eauto].
    apply hist1_uniform in Eup as (Hn & Hv & up & Hup & Hups).
    apply hist1_uniform in Edown as (_ & _ & down & Hdown & Hdowns).
    cbn [rbind]. rewrite Hc, Hup, Hdown.
    destruct (systematic_cov_valid n c up down) as (S & d & ES & Ssym & Spsd & Sd & _ & Sabs & Ssign).
    rewrite ES. right.
    destruct (add_cov_raw_state inv Hinv t n c e covs S) as (t' & E & Hst' & Hp & Hk' & Hnm & Hh & Hb & Hr'); auto.
    { repeat split; auto; apply Hrest. }
    exists t', S. rewrite E, <- Hk. rewrite <- Hr. repeat (split; auto).
    exists up, down, d.
    assert (Hl : length (uniform_edges lo hi n) = Datatypes.S n) by (unfold uniform_edges; rewrite map_length, seq_length; auto).
    rewrite Hl. split.
    - intros i Hi. split; [apply Hups; lia|]. split; [apply Hdowns; lia|]. split; [apply Sabs|]. apply Ssign.
    - intros; apply Sd.
  Qed.

  (** *** Histories *)
  Definition frame_eq (t t' : tmpl) : Prop :=
    t_kind t' = t_kind t /\ t_name t' = t_name t /\ t_hist t' = t_hist t /\
    t_bins t' = t_bins t /\ t_range t' = t_range t /\ t_nb t' = t_nb t /\ length (t_params t') = length (t_params t).

  Lemma frame_eq_refl t : frame_eq t t. Proof. repeat split. Qed.
  Lemma frame_eq_trans a b c : frame_eq a b -> frame_eq b c -> frame_eq a c.
  Proof. intros (A1 & A2 & A3 & A4 & A5 & A6 & A7) (B1 & B2 & B3 & B4 & B5 & B6 & B7). repeat split; congruence. Qed.
  Lemma error_state_params t p n c e covs : error_state t n c e covs -> error_state (set_params t p) n c e covs.
  Proof. intros H; exact H. Qed.

  Lemma params_setter_frame t v : exists p, fst (params_setter t v) = set_params t p /\ length p = length (t_params t).
  Proof.
    destruct v as [x|z|l|]; simpl; try (exists (t_params t); destruct t; auto; fail).
    destruct (Nat.eqb_spec (length l) (length (t_params t))); simpl; [eauto|].
    exists (t_params t); destruct t; auto.
  Qed.
  Lemma yield_setter_frame t v : exists p, fst (yield_setter t v) = set_params t p /\ length p = length (t_params t) /\ tl p = tl (t_params t).
  Proof.
    assert (K : forall x, exists p, fst (match t_params t with _ :: nui => (set_params t (x :: nui), Ok tt) | [] => (t, Err IndexError) end) = set_params t p
             /\ length p = length (t_params t) /\ tl p = tl (t_params t)).
    { intros x. destruct (t_params t) as [|y nui] eqn:E; simpl.
      - exists (t_params t). rewrite E. destruct t; simpl in *; subst; auto.
      - exists (x :: nui); auto. }
    destruct v as [x|z|[|x [|y l]]|]; simpl; auto; try (exists (t_params t); destruct t; auto; fail).
  Qed.
  Lemma nui_setter_frame t v : length (t_params t) = S (t_nb t) ->
    exists p, fst (nui_setter t v) = set_params t p /\ length p = length (t_params t) /\ hd NaN p = hd NaN (t_params t).
  Proof.
    intros HL. destruct v as [x|z|l|]; simpl; try (exists (t_params t); destruct t; auto; fail).
    destruct (Nat.eqb_spec (length l) (t_nb t)) as [E|]; simpl; [|exists (t_params t); destruct t; auto].
    exists (firstn 1 (t_params t) ++ l). split; auto.
    destruct (t_params t) as [|y q]; simpl in *; [lia|]. split; [lia|auto].
  Qed.

  Lemma set_params_frame t p : length p = length (t_params t) -> frame_eq t (set_params t p).
  Proof. intros H; repeat split; auto. Qed.

  Lemma run_state : forall l t n c e covs lo hi,
    t_kind t = K1 -> t_range t = [(lo, hi)] -> length (t_params t) = S n ->
    error_state t n c e covs -> valid_covs n l ->
    forall t' log, t_run inv t l = (t', log) ->
    map fst log = l /\ frame_eq t t' /\
    exists Cs, error_state t' n c e (covs ++ Cs) /\ added lo hi n c log Cs.
  Proof.
    induction l as [|o l IH]; intros t n c e covs lo hi Hk Hr Hp Hst Hv t' log E.
    - injection E as <- <-. split; auto. split; [apply frame_eq_refl|]. exists []. rewrite app_nil_r. split; auto. constructor.
    - cbn [t_run] in E. destruct (t_do inv t o) as [t1 r] eqn:Eo.
      destruct (t_run inv t1 l) as [t2 rs] eqn:El. injection E as <- <-.
      inversion Hv as [|? ? Hv1 Hv2]; subst.
      assert (Step : frame_eq t t1 /\ exists C1, error_state t1 n c e (covs ++ C1) /\
                (forall log Cs, added lo hi n c log Cs -> added lo hi n c ((o, r) :: log) (C1 ++ Cs))).
      { destruct o as [C|d up down|v|v|v|h]; cbn [t_do] in Eo.
        - destruct (add_cov_mat_state inv Hinv t n c e covs C Hk Hst) as (tt1 & F & G & F1 & F2 & F3 & F4 & F5 & F6); try apply Hv1.
          assert (Hnb : t_nb t = n) by apply Hst. rewrite Hnb in Eo. rewrite F in Eo. injection Eo as <- <-.
          split; [repeat split; try congruence; rewrite Hnb; apply G|].
          exists [C]. split; auto. intros; simpl; constructor; auto.
        - destruct d as [xs|xs ys].
          + destruct (add_variation_effect t n c e covs xs up down lo hi Hk Hst Hr) as [[ex F]|(tt1 & C & F & G & V & F1 & F2 & F3 & F4 & F5 & F6)];
              rewrite F in Eo; injection Eo as <- <-.
            * split; [apply frame_eq_refl|]. exists []. rewrite app_nil_r. split; auto. intros; simpl; constructor; auto.
            * assert (Hnb : t_nb t = n) by apply Hst.
              split; [repeat split; try congruence; rewrite Hnb; apply G|].
              exists [C]. split; auto. intros; simpl; constructor; auto.
          + unfold t_add_variation in Eo. rewrite Hk in Eo. injection Eo as <- <-.
            split; [apply frame_eq_refl|]. exists []. rewrite app_nil_r. split; auto. intros; simpl; constructor; auto.
        - destruct (params_setter_frame t v) as (p & F & L). rewrite Eo in F; simpl in F; subst t1.
          split; [apply set_params_frame; auto|]. exists []. rewrite app_nil_r. split; [apply error_state_params; auto|]. intros; simpl; constructor; auto.
        - destruct (yield_setter_frame t v) as (p & F & L & _). rewrite Eo in F; simpl in F; subst t1.
          split; [apply set_params_frame; auto|]. exists []. rewrite app_nil_r. split; [apply error_state_params; auto|]. intros; simpl; constructor; auto.
        - destruct (nui_setter_frame t v) as (p & F & L & _); [rewrite Hp; f_equal; symmetry; apply Hst|].
          rewrite Eo in F; simpl in F; subst t1.
          split; [apply set_params_frame; auto|]. exists []. rewrite app_nil_r. split; [apply error_state_params; auto|]. intros; simpl; constructor; auto.
        - injection Eo as <- <-. split.
          + apply set_params_frame. unfold init_params; simpl. rewrite repeat_length, Hp. f_equal. apply Hst.
          + exists []. rewrite app_nil_r. split; [apply error_state_params; auto|]. intros; simpl; constructor; auto. }
      destruct Step as (Fr & C1 & Hst1 & Hadd).
      destruct (IH t1 n c e (covs ++ C1) lo hi) with (t' := t2) (log := rs) as (Hm & Fr2 & Cs & Hst2 & Hadd2); auto;
        try (destruct Fr as (Q1 & Q2 & Q3 & Q4 & Q5 & Q6 & Q7); congruence).
      split; [simpl; congruence|]. split; [eapply frame_eq_trans; eauto|].
      exists (C1 ++ Cs). rewrite app_assoc. auto.
  Qed.

  (** Template2d: no operation changes the covariance. *)
  Lemma cov_ops_2d t o : t_kind t = K2 -> match o with TCov _ | TVar _ _ _ => exists e, t_do inv t o = (t, Err e) | _ => True end.
  Proof.
    intros Hk. destruct o as [C|d up down|v|v|v|h]; auto; cbn [t_do].
    - unfold t_add_cov_mat. rewrite Hk. eauto.
    - unfold t_add_variation. rewrite Hk. destruct d as [xs|xs ys]; eauto.
      destruct (t_bins t) as [|nx [|ny [|]]]; eauto. destruct (t_range t) as [|rx [|ry [|]]]; eauto.
      match goal with |- context[match ?x with Ok _ => _ | Err _ => _ end] => destruct x end; eauto.
  Qed.
End WithInv.
