(** Proofs about the plotting methods. *)
From Coq Require Import Reals String ZArith Bool Arith List Lra Lia.
From Verif Require Import Model_Num Model_Hist Model_Utility Model_Template Model_World Model_Minimizer Model_Plot
  Spec_Hist Spec_Matrix Spec_Template Spec_World Spec_Plot Proof_Hist Proof_Hist2 Proof_Hist3 Proof_Matrix Proof_Template2 Proof_Data.
Import ListNotations.
Local Open Scope R_scope.

Definition mids_of (es : list R) (n : nat) : list R := map (fun i => (nth (S i) es 0 + nth i es 0) / 2) (seq 0 n).
Definition widths_of (es : list R) (n : nat) : list R := map (fun i => nth (S i) es 0 - nth i es 0) (seq 0 n).

Lemma map2_steps (f : R -> R -> R) es n : length es = S n ->
  map2 f (tl es) (removelast es) = map (fun i => f (nth (S i) es 0) (nth i es 0)) (seq 0 n).
Proof.
  revert n. induction es as [|a es IH]; intros n H; [discriminate|]. injection H as H. destruct es as [|b es].
  - destruct n; [reflexivity|discriminate].
  - destruct n as [|n]; [discriminate|]. cbn [tl]. change (removelast (a :: b :: es)) with (a :: removelast (b :: es)).
    cbn [map2 seq map]. f_equal. specialize (IH n H). cbn [tl] in IH. rewrite IH, <- seq_shift, map_map. reflexivity.
Qed.
Lemma mids_ok e n : e_list e = false -> length (e_vals e) = S n -> bin_mids e = Ok (mids_of (e_vals e) n).
Proof. intros L H. unfold bin_mids. rewrite L. f_equal. now apply map2_steps. Qed.
Lemma widths_ok e n : e_list e = false -> length (e_vals e) = S n -> bin_widths e = Ok (widths_of (e_vals e) n).
Proof. intros L H. unfold bin_widths. rewrite L. f_equal. now apply map2_steps. Qed.
Lemma mids_length es n : length (mids_of es n) = n. Proof. unfold mids_of. now rewrite map_length, seq_length. Qed.
Lemma widths_length es n : length (widths_of es n) = n. Proof. unfold widths_of. now rewrite map_length, seq_length. Qed.
Lemma nth_error_map_seq0 {A} (f : nat -> A) n i : (i < n)%nat -> nth_error (map f (seq 0 n)) i = Some (f i).
Proof.
  intros H. rewrite (nth_error_nth' _ (f 0%nat)) by (now rewrite map_length, seq_length). f_equal.
  rewrite (map_nth f). now rewrite seq_nth.
Qed.

Lemma wsum_none {A} (P : A -> Prop) (m : nat -> A) (v : nat -> R) n : forall s,
  (forall i, (s <= i < s + n)%nat -> ~ P (m i)) -> wsum P (map (fun i => (m i, v i)) (seq s n)) 0.
Proof.
  induction n as [|n IH]; intros s H; cbn [seq map]; [constructor|]. apply wsum_out; [apply H; lia|]. apply IH. intros; apply H; lia.
Qed.
Lemma wsum_one {A} (P : A -> Prop) (m : nat -> A) (v : nat -> R) n b : forall s,
  (s <= b < s + n)%nat -> (forall i, (s <= i < s + n)%nat -> (P (m i) <-> i = b)) ->
  wsum P (map (fun i => (m i, v i)) (seq s n)) (v b).
Proof.
  induction n as [|n IH]; intros s Hb H; [lia|]. cbn [seq map]. destruct (Nat.eq_dec s b) as [->|N].
  - replace (v b) with (v b + 0) at 2 by ring. apply wsum_in; [apply H; lia|]. apply wsum_none.
    intros i Hi Q. apply H in Q; lia.
  - apply wsum_out; [intros Q; apply H in Q; lia|]. apply IH; [lia|]. intros; apply H; lia.
Qed.
Lemma combine_map_seq {A B} (f : nat -> A) (g : nat -> B) l : combine (map f l) (map g l) = map (fun i => (f i, g i)) l.
Proof. induction l; simpl; congruence. Qed.

(** the middle of a bin is in this bin only *)
Lemma mid_in_bin es n i b : valid_edges es -> length es = S n -> (i < n)%nat -> (b < n)%nat ->
  (in_bin es b ((nth (S i) es 0 + nth i es 0) / 2) <-> i = b).
Proof.
  intros V L Hi Hb. assert (M : in_bin es i ((nth (S i) es 0 + nth i es 0) / 2)).
  { destruct V as [_ V]. specialize (V i ltac:(lia)). split; [lra|left; lra]. }
  split.
  - intros H. apply (in_bin_unique es i b ((nth (S i) es 0 + nth i es 0) / 2)); auto; lia.
  - intros ->. exact M.
Qed.
Lemma layer_vec es n v b : valid_edges es -> length es = S n -> (b < n)%nat -> layer_height es b (mids_of es n, vec_of n v) (v b).
Proof.
  intros V L Hb. exists (map v (seq 0 n)). cbn [fst snd]. split; [unfold vec_of; now rewrite map_map|].
  split; [now rewrite mids_length, map_length, seq_length|]. unfold mids_of. rewrite combine_map_seq.
  apply (wsum_one (in_bin es b) (fun i => (nth (S i) es 0 + nth i es 0) / 2) v n b 0); [lia|].
  intros i Hi. apply (mid_in_bin es n); auto; lia.
Qed.

Lemma ax_hist_ok layers es w : Forall (fun l => length (fst l) = length (snd l)) layers -> valid_edges es ->
  ax_hist layers es w = ((w, [DHist layers es]), POk tt).
Proof.
  intros F V. unfold ax_hist.
  replace (forallb (fun l : list R * list xr => Nat.eqb (length (fst l)) (length (snd l))) layers) with true.
  2:{ symmetry. apply forallb_forall. intros l Hl. rewrite Forall_forall in F. apply Nat.eqb_eq; auto. }
  cbn [negb]. destruct V as [V1 V2]. destruct (Nat.ltb_spec (length es) 2); [lia|]. 
  replace (strictly_increasing es) with true; [reflexivity|]. symmetry. now apply strictly_increasing_spec.
Qed.

Lemma bar_vec es n (v s : nat -> R) b : (b < n)%nat ->
  bar_shows (DBars (mids_of es n) (map (xmul (Fin 2)) (vec_of n s)) (widths_of es n) (vec_of n (fun i => v i - s i))) b
    (nth b es 0) (nth (S b) es 0) (v b - s b) (v b + s b).
Proof.
  intros H. unfold bar_shows, mids_of, widths_of, vec_of. rewrite map_map, !nth_error_map_seq0 by auto.
  do 3 eexists. do 4 (split; [reflexivity|]). split; [field|]. split; [field|]. ring.
Qed.
Lemma band_vec es n v s w :
  band (mids_of es n) (widths_of es n) (vec_of n v) (vec_of n s) w
  = ((w, [DBars (mids_of es n) (map (xmul (Fin 2)) (vec_of n s)) (widths_of es n) (vec_of n (fun i => v i - s i))]), POk tt).
Proof.
  unfold band, pl, pm, lift, pbind. rewrite (bcast_vec n v s xsub (fun i => v i - s i)) by reflexivity.
  unfold ax_bar. rewrite map_length, !vec_of_length, mids_length, widths_length, Nat.eqb_refl. reflexivity.
Qed.

Lemma pget_tmpl w tid t : nth_error (w_tmpls w) tid = Some t -> pm (get_tmpl tid) w = ((w, []), POk t).
Proof. intros H. unfold pm, get_tmpl. cbn. now rewrite H. Qed.
Lemma pget_hist w hid h : nth_error (w_hists w) hid = Some h -> pm (get_hist hid) w = ((w, []), POk h).
Proof. intros H. unfold pm, get_hist. cbn. now rewrite H. Qed.
Lemma pget_chan w cid c : nth_error (w_chans w) cid = Some c -> pm (get_chan cid) w = ((w, []), POk c).
Proof. intros H. unfold pm, get_chan. cbn. now rewrite H. Qed.
Lemma pbind_ok {A B} (m : P A) (k : A -> P B) w w1 d1 a : m w = ((w1, d1), POk a) ->
  pbind m k w = (let '((w2, d2), r) := k a w1 in ((w2, d1 ++ d2), r)).
Proof. intros H. unfold pbind. now rewrite H. Qed.
Lemma pbind_read {A B} (m : P A) (k : A -> P B) w a : m w = ((w, []), POk a) -> pbind m k w = k a w.
Proof. intros H. unfold pbind. rewrite H. cbn [app]. now destruct (k a w) as [[w2 d2] r]. Qed.
Lemma pl_ok {A} (r : res A) a w : r = Ok a -> pl r w = ((w, []), POk a).
Proof. intros ->. reflexivity. Qed.
Lemma pl_err {A} (r : res A) e w : r = Err e -> pl r w = ((w, []), PErr (Py e)).
Proof. intros ->. reflexivity. Qed.
Lemma pbind_err {A B} (m : P A) (k : A -> P B) w w1 d1 e : m w = ((w1, d1), PErr e) -> pbind m k w = ((w1, d1), PErr e).
Proof. intros H. unfold pbind. now rewrite H. Qed.
Lemma stack_single es m v n b : valid_edges es -> length es = S n -> (b < n)%nat -> m = mids_of es n ->
  stack_shows es [(m, vec_of n v)] 0 b 0 (v b).
Proof.
  intros V L H ->. exists (fun _ => v b), (mids_of es n, vec_of n v). split; auto. split; [now apply layer_vec|].
  split; [intros; lia|]. simpl. split; [reflexivity|ring].
Qed.

(** ** Template1d.plot_on *)
Theorem template_plot w tid t h e n v s :
  nth_error (w_tmpls w) tid = Some t -> nth_error (w_hists w) (t_hist t) = Some h -> h_edges h = [e] ->
  e_list e = false -> valid_edges (e_vals e) -> length (e_vals e) = S n ->
  t_values t = Ok (vec_of n v) -> t_errors t = Ok (vec_of n s) ->
  exists layers bars, t1_plot_on tid w = ((w, [DHist layers (e_vals e); bars]), POk tt) /\ length layers = 1%nat /\
    forall b, (b < n)%nat ->
      stack_shows (e_vals e) layers 0 b 0 (v b) /\
      bar_shows bars b (nth b (e_vals e) 0) (nth (S b) (e_vals e) 0) (v b - s b) (v b + s b).
Proof.
  intros T H E L V N TV TE. do 2 eexists. split; [|split]; [| |intros b Hb; split].
  - unfold t1_plot_on. rewrite (pbind_read _ _ _ _ (pget_tmpl _ _ _ T)), (pbind_read _ _ _ _ (pget_hist _ _ _ H)).
    unfold edges1. rewrite E. rewrite (pbind_read _ _ _ e eq_refl).
    rewrite (pbind_read _ _ _ _ (pl_ok _ _ w (mids_ok e n L N))), (pbind_read _ _ _ _ (pl_ok _ _ w TV)).
    erewrite pbind_ok; [|apply ax_hist_ok; auto; constructor; [|constructor]; cbn [fst snd]; now rewrite mids_length, vec_of_length].
    rewrite (pbind_read _ _ _ _ (pl_ok _ _ w TE)), (pbind_read _ _ _ _ (pl_ok _ _ w (widths_ok e n L N))), band_vec. cbn [app]. reflexivity.
  - reflexivity.
  - now apply stack_single.
  - now apply bar_vec.
Qed.

(** edges given as a python list *)
Theorem template_plot_list w tid t h e :
  nth_error (w_tmpls w) tid = Some t -> nth_error (w_hists w) (t_hist t) = Some h -> h_edges h = [e] -> e_list e = true ->
  t1_plot_on tid w = ((w, []), PErr (Py TypeError)).
Proof.
  intros T H E L. unfold t1_plot_on. rewrite (pbind_read _ _ _ _ (pget_tmpl _ _ _ T)), (pbind_read _ _ _ _ (pget_hist _ _ _ H)).
  unfold edges1. rewrite E, (pbind_read _ _ _ e eq_refl). apply pbind_err. apply pl_err. unfold bin_mids. now rewrite L.
Qed.

(** ** Template2d *)
Lemma list_prod_seq {A B} (f : nat -> A) (g : nat -> B) nx ny :
  list_prod (map f (seq 0 nx)) (map g (seq 0 ny)) = map (fun k => (f (k / ny)%nat, g (k mod ny)%nat)) (seq 0 (nx * ny)).
Proof.
  destruct ny as [|ny'].
  { rewrite Nat.mul_0_r. cbn [seq map]. induction (seq 0 nx) as [|a l IH]; simpl; auto. }
  set (ny := S ny'). induction nx as [|nx IH]; [reflexivity|].
  rewrite seq_S, map_app. cbn [map plus].
  assert (LP : forall (a b : list A) (c : list B), list_prod (a ++ b) c = list_prod a c ++ list_prod b c).
  { intros a b c. induction a as [|x a IHa]; simpl; auto. now rewrite IHa, app_assoc. }
  rewrite LP, IH. replace (S nx * ny)%nat with (nx * ny + ny)%nat by lia. rewrite seq_app, map_app. f_equal.
  cbn [list_prod]. rewrite app_nil_r. rewrite Nat.add_0_l.
  replace (seq (nx * ny) ny) with (map (fun j => (nx * ny + j)%nat) (seq 0 ny)).
  2:{ clear. generalize (nx * ny)%nat as s. induction ny as [|m IHm]; intros s; [reflexivity|]. rewrite !seq_S, map_app, IHm. reflexivity. }
  rewrite !map_map. apply map_ext_in. intros j Hj. apply in_seq in Hj.
  rewrite Nat.div_add_l by lia. rewrite (Nat.div_small j ny) by lia. rewrite Nat.add_0_r.
  rewrite Nat.add_comm, Nat.mod_add by lia. now rewrite Nat.mod_small by lia.
Qed.

Theorem template2d_plot w tid t h ex ey nx ny v :
  nth_error (w_tmpls w) tid = Some t -> nth_error (w_hists w) (t_hist t) = Some h -> h_edges h = [ex; ey] ->
  e_list ex = false -> e_list ey = false -> valid_edges (e_vals ex) -> valid_edges (e_vals ey) ->
  length (e_vals ex) = S nx -> length (e_vals ey) = S ny -> t_values t = Ok (vec_of (nx * ny) v) ->
  exists d, t2_plot_on tid w = ((w, [d]), POk tt) /\
    forall i j, (i < nx)%nat -> (j < ny)%nat -> cell_shows d i j (v (i * ny + j)%nat).
Proof.
  intros T H E LX LY VX VY NX NY TV. eexists. split.
  - unfold t2_plot_on. rewrite (pbind_read _ _ _ _ (pget_tmpl _ _ _ T)), (pbind_read _ _ _ _ (pget_hist _ _ _ H)). rewrite E.
    rewrite (pbind_read _ _ _ _ (pl_ok _ _ w (mids_ok ex nx LX NX))), (pbind_read _ _ _ _ (pl_ok _ _ w (mids_ok ey ny LY NY))).
    rewrite (pbind_read _ _ _ _ (pl_ok _ _ w TV)). unfold mids_of at 1 2 3 4. rewrite !list_prod_seq.
    unfold ax_hist2d. rewrite !map_length, seq_length, vec_of_length, Nat.eqb_refl. cbn [andb negb].
    destruct VX as [VX1 VX2], VY as [VY1 VY2].
    destruct (Nat.ltb_spec (length (e_vals ex)) 2); [lia|]. destruct (Nat.ltb_spec (length (e_vals ey)) 2); [lia|].
    replace (strictly_increasing (e_vals ex)) with true by (symmetry; now apply strictly_increasing_spec).
    replace (strictly_increasing (e_vals ey)) with true by (symmetry; now apply strictly_increasing_spec). cbn [orb negb]. reflexivity.
  - intros i j Hi Hj. unfold cell_shows. rewrite !map_map. cbn [fst snd]. exists (map v (seq 0 (nx * ny))).
    split; [unfold vec_of; now rewrite map_map|]. rewrite !map_length, seq_length. do 2 (split; [reflexivity|]).
    rewrite !combine_map_seq.
    apply (wsum_one (fun p : R * R => in_bin (e_vals ex) i (fst p) /\ in_bin (e_vals ey) j (snd p))
      (fun k => ((nth (S (k / ny)) (e_vals ex) 0 + nth (k / ny) (e_vals ex) 0) / 2, (nth (S (k mod ny)) (e_vals ey) 0 + nth (k mod ny) (e_vals ey) 0) / 2))
      v (nx * ny) (i * ny + j) 0); [nia|].
    intros k Hk. cbn [fst snd]. assert (k / ny < nx)%nat by (apply Nat.div_lt_upper_bound; lia).
    assert (k mod ny < ny)%nat by (apply Nat.mod_upper_bound; lia).
    rewrite (mid_in_bin (e_vals ex) nx), (mid_in_bin (e_vals ey) ny) by (auto; lia). split.
    + intros [<- <-]. rewrite Nat.mul_comm. apply Nat.div_mod. lia.
    + intros ->. rewrite Nat.div_add_l by lia. rewrite (Nat.div_small j ny) by lia. rewrite Nat.add_0_r. split; auto.
      rewrite Nat.add_comm, Nat.mod_add by lia. now apply Nat.mod_small.
Qed.
