(** Routing of parameters to channels and templates *)
From Coq Require Import Reals String ZArith Bool Arith List Lra Lia.
From Verif Require Import Model_Num Model_Hist Model_Utility Model_Template Model_World Model_Ops
  Spec_Matrix Spec_World Proof_Hist Proof_Matrix Proof_Template Proof_HistHeap Proof_Monad Proof_World Proof_Eval.
Import ListNotations.
Local Open Scope R_scope.

(** ** Splitting *)
Fixpoint blocks {A} (sizes : list nat) (l : list A) : list (list A) :=
  match sizes with [] => [] | n :: s => firstn n l :: blocks s (skipn n l) end.

Lemma skipn_skipn {A} a b (l : list A) : skipn a (skipn b l) = skipn (b + a) l.
Proof. revert l; induction b; simpl; auto. destruct l; simpl; auto. destruct a; auto. Qed.

Lemma removelast_cons {A} (a : A) l : l <> [] -> removelast (a :: l) = a :: removelast l.
Proof. destruct l; [congruence|auto]. Qed.
Lemma split_from_blocks {A} sizes acc (l : list A) : sizes <> [] -> length l = (acc + list_sum sizes)%nat ->
  np_split_from acc (removelast (cumsum_from acc sizes)) l = blocks sizes (skipn acc l).
Proof.
  revert acc. induction sizes as [|n s IH]; intros acc H L; [congruence|]. destruct s as [|m s].
  - simpl. f_equal. symmetry. apply firstn_all2. rewrite skipn_length. simpl in L. lia.
  - change (cumsum_from acc (n :: m :: s)) with ((acc + n)%nat :: cumsum_from (acc + n) (m :: s)).
    rewrite removelast_cons by discriminate. cbn [np_split_from].
    rewrite IH; [|discriminate|simpl in *; lia]. cbn [blocks]. f_equal.
    + unfold slice. replace (acc + n - acc)%nat with n by lia. reflexivity.
    + rewrite (skipn_skipn n acc l). reflexivity.
Qed.

Lemma split_blocks {A} sizes (l : list A) : sizes <> [] -> length l = list_sum sizes ->
  np_split_at l (removelast (np_cumsum sizes)) = blocks sizes l.
Proof. intros H L. unfold np_split_at, np_cumsum. rewrite split_from_blocks; auto. Qed.

Lemma blocks_length {A} sizes (l : list A) : length (blocks sizes l) = length sizes.
Proof. revert l; induction sizes; simpl; auto. Qed.
Lemma blocks_concat {A} sizes (l : list A) : length l = list_sum sizes -> concat (blocks sizes l) = l.
Proof.
  revert l; induction sizes as [|n s IH]; simpl; intros l H.
  - destruct l; auto. discriminate.
  - rewrite IH; [apply firstn_skipn|]. rewrite skipn_length. lia.
Qed.
Lemma blocks_nth {A} sizes (l : list A) i n : nth_error sizes i = Some n ->
  nth_error (blocks sizes l) i = Some (firstn n (skipn (list_sum (firstn i sizes)) l)).
Proof.
  revert l i; induction sizes as [|m s IH]; intros l [|i]; simpl; try discriminate.
  - intros [= ->]. reflexivity.
  - intros H. rewrite IH by auto. rewrite skipn_skipn. reflexivity.
Qed.

Lemma chunks_blocks {A} k n (l : list A) : chunks k n l = blocks (repeat n k) l.
Proof. revert l; induction k; simpl; auto. intros; f_equal; auto. Qed.
Lemma split_n_blocks {A} k n (l : list A) : k <> O -> length l = (k * n)%nat -> np_split_n l k = Ok (blocks (repeat n k) l).
Proof.
  intros H L. unfold np_split_n. destruct k as [|k]; [congruence|]. rewrite L.
  replace (S k * n)%nat with (n * S k)%nat by lia. rewrite Nat.mod_mul, Nat.div_mul by lia. simpl Nat.eqb. cbv iota.
  rewrite chunks_blocks. reflexivity.
Qed.
Lemma nth_repeat_some {A} (a : A) n i : (i < n)%nat -> nth_error (repeat a n) i = Some a.
Proof. revert i; induction n; intros [|i] H; simpl; auto; try lia. apply IHn; lia. Qed.
Lemma sum_firstn_repeat n k i : (i <= k)%nat -> list_sum (firstn i (repeat n k)) = (i * n)%nat.
Proof. revert i; induction k; intros [|i] H; simpl; auto; try lia. rewrite IHk by lia. reflexivity. Qed.
Lemma blocks_repeat_nth {A} n k (l : list A) i : (i < k)%nat ->
  nth_error (blocks (repeat n k) l) i = Some (firstn n (skipn (i * n) l)).
Proof. intros H. rewrite (blocks_nth _ _ i n) by now apply nth_repeat_some. rewrite sum_firstn_repeat by lia. reflexivity. Qed.

Lemma nth_firstn {A} n (l : list A) i : (i < n)%nat -> nth_error (firstn n l) i = nth_error l i.
Proof. revert l i; induction n; intros [|a l] [|i] H; simpl; auto; try lia. apply IHn; lia. Qed.
Lemma nth_skipn {A} n (l : list A) i : nth_error (skipn n l) i = nth_error l (n + i).
Proof. revert l; induction n; simpl; auto. destruct l; auto. destruct i; auto. Qed.

(** ** Channels of a well formed state *)
Lemma chans_forall2 w : WF w -> Forall2 (fun nc c => nth_error (w_chans w) (snd nc) = Some c) (w_channels w) (mct_chans w).
Proof.
  intros W. unfold mct_chans. pose proof (wf_dict w W) as D. induction (w_channels w) as [|[n i] l IH]; simpl; [constructor|].
  destruct (D n i (or_introl eq_refl)) as (c & C & _). rewrite C. simpl. constructor; auto. apply IH.
  intros; apply D; right; auto.
Qed.
Lemma forall2_nth {A B} (R : A -> B -> Prop) l l' i a : Forall2 R l l' -> nth_error l i = Some a -> exists b, nth_error l' i = Some b /\ R a b.
Proof. intros H; revert i; induction H; intros [|i]; simpl; try discriminate; eauto. intros [= ->]; eauto. Qed.
Lemma forall2_nth' {A B} (R : A -> B -> Prop) l l' i b : Forall2 R l l' -> nth_error l' i = Some b -> exists a, nth_error l i = Some a /\ R a b.
Proof. intros H; revert i; induction H; intros [|i]; simpl; try discriminate; eauto. intros [= ->]; eauto. Qed.
Lemma forall2_len {A B} (R : A -> B -> Prop) l l' : Forall2 R l l' -> length l = length l'.
Proof. induction 1; simpl; congruence. Qed.

Lemma channel_at_chans w i n c : WF w -> channel_at w i n c -> nth_error (mct_chans w) i = Some c.
Proof.
  intros W (cid & H1 & H2). destruct (forall2_nth _ _ _ _ _ (chans_forall2 w W) H1) as (c' & H3 & H4). simpl in H4. congruence.
Qed.
Lemma chans_channel_at w i c : WF w -> nth_error (mct_chans w) i = Some c -> exists n, channel_at w i n c.
Proof.
  intros W H. destruct (forall2_nth' _ _ _ _ _ (chans_forall2 w W) H) as ([n cid] & H1 & H2). exists n, cid. auto.
Qed.
Lemma chans_length w : WF w -> length (mct_chans w) = length (w_channels w).
Proof. intros W. symmetry. apply (forall2_len _ _ _ (chans_forall2 w W)). Qed.
Lemma chan_ok_in w c : WF w -> In c (mct_chans w) -> chan_ok (w_hists w) (w_tmpls w) (w_procs w) c.
Proof.
  intros W I. apply In_nth_error in I as (i & I). destruct (chans_channel_at w i c W I) as (n & cid & _ & H). eapply wf_chans; eauto.
Qed.
Lemma chan_ok_at w i n c : WF w -> channel_at w i n c -> chan_ok (w_hists w) (w_tmpls w) (w_procs w) c.
Proof. intros W (cid & _ & H). eapply wf_chans; eauto. Qed.

Lemma mapr_chans {B} w (F : chan -> res B) : WF w ->
  mapr (fun cid => c <- oget (w_chans w) cid ;; F c) (map snd (w_channels w)) = mapr F (mct_chans w).
Proof.
  intros W. pose proof (chans_forall2 w W) as H. induction H as [|[n i] c l l' H1 H2 IH]; simpl; auto.
  unfold oget at 1. simpl in H1. rewrite H1. simpl. rewrite IH. reflexivity.
Qed.
Lemma mapr_combine_chans {B C} w (F : chan -> C -> res B) (qs : list C) : WF w ->
  mapr (fun q => c <- oget (w_chans w) (fst q) ;; F c (snd q)) (combine (map snd (w_channels w)) qs)
  = mapr (fun q => F (fst q) (snd q)) (combine (mct_chans w) qs).
Proof.
  intros W. pose proof (chans_forall2 w W) as H. revert qs. induction H as [|[n i] c l l' H1 H2 IH]; intros [|q qs]; simpl; auto.
  unfold oget at 1. simpl in H1. rewrite H1. simpl. rewrite IH. reflexivity.
Qed.

Lemma tmpls_procs hs ts ps c : chan_ok hs ts ps c -> length (c_tmpls c) = length (c_procs c).
Proof. intros H. rewrite <- (co_keys _ _ _ _ H). unfold keys. now rewrite map_length. Qed.
Lemma effs_length hs ts ps c : chan_ok hs ts ps c -> length (c_effs c) = length (c_tmpls c).
Proof. intros H. rewrite (tmpls_procs _ _ _ _ H), <- (co_ekeys _ _ _ _ H). unfold keys. now rewrite map_length. Qed.
Lemma num_nui_spec hs ts ps c : chan_ok hs ts ps c -> ch_num_nui c = (length (c_tmpls c) * bins_of c)%nat.
Proof. intros H. unfold ch_num_nui, num_templates. rewrite (tmpls_procs _ _ _ _ H). reflexivity. Qed.

Lemma nui_offset_chans w i : WF w -> nui_offset w i = list_sum (map ch_num_nui (firstn i (mct_chans w))).
Proof.
  intros W. unfold nui_offset. f_equal. pose proof (chans_forall2 w W) as H.
  assert (X : forall c, In c (mct_chans w) -> ch_num_nui c = (length (c_tmpls c) * bins_of c)%nat).
  { intros c I. eapply num_nui_spec, chan_ok_in; eauto. }
  revert i. induction H as [|nc c l l' H1 H2 IH]; intros [|i]; simpl; auto. rewrite H1, X by (left; auto).
  f_equal. apply IH. intros; apply X; right; auto.
Qed.
Lemma nui_total w : WF w -> mct_num_nui w = nui_offset w (length (w_channels w)).
Proof.
  intros W. rewrite nui_offset_chans by auto. rewrite <- chans_length by auto. rewrite firstn_all. reflexivity.
Qed.
Lemma nui_offset_S w i n c : WF w -> channel_at w i n c -> nui_offset w (S i) = (nui_offset w i + ch_num_nui c)%nat.
Proof.
  intros W H. apply channel_at_chans in H; auto. rewrite !nui_offset_chans by auto.
  assert (X : firstn (S i) (mct_chans w) = firstn i (mct_chans w) ++ [c]).
  { revert H. generalize (mct_chans w). induction i; intros [|a l]; simpl; try discriminate; intros H.
    - congruence. - f_equal. now apply IHi. }
  rewrite X, map_app, list_sum_app. simpl. lia.
Qed.
Lemma nui_offset_mono w i j : (i <= j)%nat -> (nui_offset w i <= nui_offset w j)%nat.
Proof.
  intros H. unfold nui_offset. replace j with (i + (j - i))%nat by lia. generalize (j - i)%nat as d. intros d. clear H.
  generalize (w_channels w) as l. induction i as [|i IH]; intros l; [simpl; lia|].
  destruct l as [|a l]; simpl; [lia|]. specialize (IH l). lia.
Qed.
Lemma nui_offset_le w i n c : WF w -> channel_at w i n c -> (nui_offset w i + ch_num_nui c <= mct_num_nui w)%nat.
Proof.
  intros W H. rewrite <- (nui_offset_S w i n c W H). rewrite (nui_total w W). destruct H as (cid & H & _).
  assert (i < length (w_channels w))%nat by (apply nth_error_Some; congruence). apply nui_offset_mono. lia.
Qed.

(** templates of a channel *)
Lemma template_at_ok w i n c k p tid : WF w -> channel_at w i n c -> nth_error (c_tmpls c) k = Some (p, tid) ->
  exists t, template_at w c k p tid t /\ tmpl_ok (w_hists w) t /\ t_nb t = bins_of c /\ t_bins t = c_bins c.
Proof.
  intros W H K. pose proof (chan_ok_at w i n c W H) as O. destruct (co_tmpl _ _ _ _ O p tid) as (t & T1 & T2 & T3 & T4).
  - eapply nth_error_In; eauto.
  - exists t. assert (TO : tmpl_ok (w_hists w) t) by (eapply wf_tmpls; eauto). split; [split; auto|]. split; [auto|]. split; [|auto].
    rewrite (to_nb _ _ TO), T2. reflexivity.
Qed.

Lemma index_of_nth p l i : index_of p l = Some i -> nth_error l i = Some p.
Proof.
  revert i; induction l as [|q l IH]; simpl; [discriminate|]. destruct (String.eqb_spec p q) as [->|].
  - intros i [= <-]. reflexivity.
  - destruct (index_of p l); simpl; [|discriminate]. intros i [= <-]. simpl. auto.
Qed.
Lemma index_of_in p l : In p l -> exists i, index_of p l = Some i.
Proof.
  induction l as [|q l IH]; simpl; [tauto|]. destruct (String.eqb_spec p q); eauto. intros [H|H]; [congruence|].
  destruct (IH H) as (i & ->). simpl; eauto.
Qed.
Lemma index_of_nodup p l i : NoDup l -> nth_error l i = Some p -> index_of p l = Some i.
Proof.
  intros N H. destruct (index_of_in p l) as (j & J); [eapply nth_error_In; eauto|]. rewrite J. f_equal.
  apply index_of_nth in J. eapply (proj1 (NoDup_nth_error l) N); [apply nth_error_Some; congruence|congruence].
Qed.

Lemma pi_res_ok hs ts procs c : chan_ok hs ts procs c -> exists idx, pi_res procs c = Ok idx /\ length idx = length (c_tmpls c) /\
  forall k p tid, nth_error (c_tmpls c) k = Some (p, tid) -> exists q, nth_error idx k = Some q /\ nth_error procs q = Some p.
Proof.
  intros O. pose proof (co_incl _ _ _ _ O) as I. rewrite <- (co_keys _ _ _ _ O) in I. unfold pi_res.
  induction (c_tmpls c) as [|[p tid] l IH]; simpl.
  - exists []. repeat split; auto. intros [|k]; discriminate.
  - destruct (index_of_in p procs) as (q & Q); [apply I; left; auto|]. rewrite Q. simpl.
    destruct IH as (idx & E & L & H); [intros x X; apply I; right; auto|]. rewrite E. simpl. exists (q :: idx). repeat split; [simpl; congruence|].
    intros [|k] p' tid'; simpl; [intros [= <- <-]|apply H]. exists q. split; auto. now apply index_of_nth.
Qed.

Lemma np_take_ok {A} (l : list A) idx : (forall q, In q idx -> (q < length l)%nat) ->
  exists r, np_take l idx = Ok r /\ length r = length idx /\ forall k q, nth_error idx k = Some q -> nth_error r k = nth_error l q.
Proof.
  intros H. unfold np_take. induction idx as [|q idx IH]; simpl.
  - exists []. repeat split; auto. intros [|k]; discriminate.
  - destruct (nth_error l q) as [a|] eqn:E.
    + simpl. destruct IH as (r & R & L & N); [intros; apply H; right; auto|]. rewrite R. simpl. exists (a :: r). repeat split; [simpl; congruence|].
      intros [|k] q'; simpl; [congruence|apply N].
    + apply nth_error_None in E. specialize (H q (or_introl eq_refl)). lia.
Qed.

Lemma take_yields w c (x : list xr) : WF w -> In c (mct_chans w) -> (length (w_procs w) <= length x)%nat ->
  exists y, (idx <- pi_res (w_procs w) c ;; np_take (firstn (length (w_procs w)) x) idx) = Ok y /\ length y = length (c_tmpls c) /\
  forall k p tid, nth_error (c_tmpls c) k = Some (p, tid) -> exists q, nth_error (w_procs w) q = Some p /\ nth_error y k = nth_error x q.
Proof.
  intros W I L. destruct (pi_res_ok _ _ _ _ (chan_ok_in w c W I)) as (idx & E & LI & H). rewrite E. cbn [rbind].
  destruct (np_take_ok (firstn (length (w_procs w)) x) idx) as (y & Y & LY & N).
  - intros q Hq. apply In_nth_error in Hq as (k & Hk). rewrite firstn_length_le by auto.
    destruct (nth_error (c_tmpls c) k) as [[p tid]|] eqn:K.
    + destruct (H _ _ _ K) as (q' & Q1 & Q2). assert (q' = q) by congruence. subst. apply nth_error_Some. congruence.
    + apply nth_error_None in K. assert (k < length idx)%nat by (apply nth_error_Some; congruence). lia.
  - exists y. split; auto. split; [congruence|]. intros k p tid K. destruct (H _ _ _ K) as (q & Q1 & Q2). exists q. split; auto.
    rewrite (N _ _ Q1). apply nth_firstn. apply nth_error_Some. congruence.
Qed.

(** routing of all parameters *)
Lemma per_channel_value w x : WF w -> w_channels w <> [] -> length x = num_params w ->
  exists ys ns, per_channel_res w x = Ok (ys, ns) /\ Forall2 (fun c y => (idx <- pi_res (w_procs w) c ;; np_take (firstn (length (w_procs w)) x) idx) = Ok y) (mct_chans w) ys /\
    ns = blocks (map ch_num_nui (mct_chans w)) (skipn (length (w_procs w)) x).
Proof.
  intros W NE L. unfold per_channel_res.
  assert (X : exists ys, mapr (fun c => idx <- pi_res (w_procs w) c ;; np_take (firstn (length (w_procs w)) x) idx) (mct_chans w) = Ok ys).
  { unfold num_params in L. assert (L' : (length (w_procs w) <= length x)%nat) by lia.
    assert (Y : forall l, incl l (mct_chans w) -> exists ys, mapr (fun c => idx <- pi_res (w_procs w) c ;; np_take (firstn (length (w_procs w)) x) idx) l = Ok ys).
    { induction l as [|c l IH]; simpl; eauto. intros I. destruct (take_yields w c x W (I c (or_introl eq_refl)) L') as (y & E & _).
      rewrite E. simpl. destruct IH as (ys & ->); [intros a Ha; apply I; right; auto|]. simpl. eauto. }
    apply Y, incl_refl. }
  destruct X as (ys & X). exists ys, (blocks (map ch_num_nui (mct_chans w)) (skipn (length (w_procs w)) x)).
  assert (SL : slice (length (w_procs w)) (mct_num_nui w + length (w_procs w)) x = skipn (length (w_procs w)) x).
  { unfold slice. apply firstn_all2. rewrite skipn_length, L, (nui_total w W). unfold num_params. lia. }
  assert (E : mapr (fun cid => idx <- (c <- oget (w_chans w) cid ;; pi_res (w_procs w) c) ;; np_take (firstn (length (w_procs w)) x) idx) (map snd (w_channels w)) = Ok ys).
  { rewrite <- X, <- (mapr_chans w (fun c => idx <- pi_res (w_procs w) c ;; np_take (firstn (length (w_procs w)) x) idx) W).
    apply mapr_ext. intros cid _. destruct (oget (w_chans w) cid); reflexivity. }
  rewrite E. cbn [rbind]. rewrite SL, split_blocks.
  - repeat split; auto. now apply mapr_ok.
  - intros K. apply map_eq_nil in K. apply (f_equal (@length _)) in K. rewrite chans_length in K by auto. destruct (w_channels w); [congruence|discriminate].
  - rewrite skipn_length, L. unfold num_params. rewrite <- (nui_total w W). unfold mct_num_nui. lia.
Qed.

Lemma nth_map_some {A B} (f : A -> B) l i a : nth_error l i = Some a -> nth_error (map f l) i = Some (f a).
Proof. apply map_nth_error. Qed.
Lemma firstn_map_comm {A B} (f : A -> B) l i : firstn i (map f l) = map f (firstn i l).
Proof. apply firstn_map. Qed.

Lemma channel_block w i n c (nui : list xr) : WF w -> channel_at w i n c ->
  nth_error (blocks (map ch_num_nui (mct_chans w)) nui) i = Some (firstn (ch_num_nui c) (skipn (nui_offset w i) nui)).
Proof.
  intros W H. apply (channel_at_chans w i n c W) in H as H'. rewrite (blocks_nth _ _ i (ch_num_nui c)).
  - rewrite firstn_map_comm, <- nui_offset_chans by auto. reflexivity.
  - now apply map_nth_error.
Qed.
