(** Proofs about plot_post_fit_stacked_on. *)
From Coq Require Import Reals String ZArith Bool Arith List Lra Lia.
From Verif Require Import Model_Num Model_Hist Model_Utility Model_Template Model_World Model_Ops Model_Minimizer Model_Plot
  Spec_Hist Spec_Matrix Spec_Template Spec_World Spec_Plot Proof_Hist Proof_Hist2 Proof_Hist3 Proof_Matrix Proof_Utility Proof_Template2 Proof_World
  Proof_Eval Proof_Route Proof_Nll Proof_Data Proof_Plot Proof_Plot2.
Import ListNotations.
Local Open Scope R_scope.

Lemma vec_skipn k m f : skipn k (vec_of (k + m) f) = vec_of m (fun i => f (k + i)%nat).
Proof.
  apply vec_eq; [rewrite skipn_length, vec_of_length; lia|]. intros i Hi. rewrite nth_skipn, vec_nth by lia. reflexivity.
Qed.
Lemma mapr_map_seq {A B} (f : A -> res B) (a : nat -> A) (g : nat -> B) l : (forall k, In k l -> f (a k) = Ok (g k)) -> mapr f (map a l) = Ok (map g l).
Proof. induction l as [|k l IH]; intros H; simpl; auto. rewrite (H k) by (left; auto). cbn [rbind]. rewrite IH by (intros; apply H; right; auto). reflexivity. Qed.

Lemma scaled_value n nt er (s : nat -> nat -> R) : (0 < nt)%nat ->
  scaled_post_fit_errors (vec_of (nt + nt * n) er) (map (fun k => vec_of n (s k)) (seq 0 nt))
  = Ok (vec_of n (fun b => sqrt (sumn nt (fun k => (er (nt + (k * n + b))%nat * s k b) ^ 2)))).
Proof.
  intros P. unfold scaled_post_fit_errors. rewrite map_length, seq_length, vec_skipn.
  rewrite (split_n_blocks nt n) by (rewrite ?vec_of_length; lia). rewrite blocks_vec. cbn [rbind]. rewrite combine_map_seq.
  rewrite (mapr_map_seq _ _ (fun k => vec_of n (fun b => (er (nt + (k * n + b))%nat * s k b) ^ 2))).
  2:{ intros k _. cbn [fst snd]. apply bcast_vec. intros b Hb. unfold xsq. cbn [xmul]. f_equal. ring. }
  cbn [rbind]. f_equal. rewrite vec_sum_vec by auto. apply map_xsqrt_vec. intros b Hb. apply sumn_nonneg. intros. apply pow2_ge_0.
Qed.

Lemma scale_errors jac w cid c rp n er (s : nat -> nat -> R) :
  c_tmpls c <> [] -> on_templates w c (fun k t h => t_errors t = Ok (vec_of n (s k))) ->
  let nt := length (c_tmpls c) in
  p_errors rp = vec_of (nt + nt * n) er ->
  post_fit_errors jac cid c rp UScale w = ((w, []), POk (vec_of n (fun b => sqrt (sumn nt (fun k => (er (nt + (k * n + b))%nat * s k b) ^ 2))))).
Proof.
  intros NE T nt E. unfold post_fit_errors. rewrite (pbind_read _ _ _ _ (each_template_ok w c (fun t h => t_errors t) (fun k => vec_of n (s k)) T)).
  apply pl_ok. rewrite E. apply scaled_value. unfold nt. destruct (c_tmpls c); [congruence|simpl; lia].
Qed.

Lemma propagate_errors (jac : list xr -> mat) w cid c rp n np C J w' f :
  length (p_values rp) = np -> p_cov rp = mat_of np C -> symmetric np C -> psd np C -> jac (p_values rp) = rmat_of n np J ->
  bin_counts_from_param_values cid (p_values rp) w = (w', Ok f) -> length f = n ->
  post_fit_errors jac cid c rp UPropagate w
  = ((w', []), POk (vec_of n (fun b => sqrt (sumn np (fun l => sumn np (fun k => J b k * C k l) * J b l))))).
Proof.
  intros L EC S PS EJ F LF. unfold post_fit_errors.
  rewrite (pbind_ok _ _ w w' [] f) by (unfold pm; now rewrite F). cbv zeta. rewrite L, EC, square_mat, EJ, LF.
  destruct (propagation_valid n np J C S PS) as (_ & _ & ->). reflexivity.
Qed.

(** ** More parameters than the channel has *)
Lemma bcast_err {A B C} (f : A -> B -> C) a b e : bcast f a b = Err e -> e = ValueError.
Proof. unfold bcast. destruct (Nat.eqb _ _); [discriminate|]. destruct a as [|x [|y a]], b as [|u [|v b]]; congruence. Qed.
Lemma bcast_too_long {A B C} (f : A -> B -> C) a b : (2 <= length b)%nat -> (length b < length a)%nat -> bcast f a b = Err ValueError.
Proof.
  intros H1 H2. unfold bcast. destruct (Nat.eqb_spec (length a) (length b)); [lia|]. destruct a as [|x [|y a]], b as [|u [|v b]]; simpl in *; try lia. reflexivity.
Qed.
Lemma split_too_long {A} (l : list A) nt n : (0 < nt)%nat -> (nt * n < length l)%nat ->
  np_split_n l nt = Err ValueError \/ exists a rest, np_split_n l nt = Ok (a :: rest) /\ (n < length a)%nat.
Proof.
  intros P L. unfold np_split_n. destruct nt as [|m]; [lia|]. destruct (Nat.eqb_spec (length l mod S m) 0) as [E|]; [right|auto].
  cbn [chunks]. do 2 eexists. split; [reflexivity|]. rewrite firstn_length.
  assert (n < length l / S m)%nat. { apply Nat.div_exact in E; [|lia]. nia. }
  assert (length l / S m <= length l)%nat by (apply Nat.div_le_upper_bound; nia). lia.
Qed.

Lemma counts_too_long w cid c x : WF w -> nth_error (w_chans w) cid = Some c -> c_tmpls c <> [] -> (2 <= bins_of c)%nat ->
  (length (c_tmpls c) + length (c_tmpls c) * bins_of c < length x)%nat ->
  exists w', bin_counts_from_param_values cid x w = (w', Err ValueError).
Proof.
  intros W C NE B L. pose proof (wf_chans w W _ _ C) as K.
  assert (NT : num_templates c = length (c_tmpls c)). { unfold num_templates. rewrite <- (co_keys _ _ _ _ K). unfold keys. apply map_length. }
  assert (P : (0 < length (c_tmpls c))%nat) by (destruct (c_tmpls c); [congruence|simpl; lia]).
  unfold bin_counts_from_param_values, split_parameter_array. unfold bind at 1, get_chan. rewrite C. cbn [fst snd].
  set (ys := firstn (num_templates c) x). set (ns := skipn (num_templates c) x).
  assert (LN : (length (c_tmpls c) * bins_of c < length ns)%nat) by (unfold ns; rewrite skipn_length; lia).
  unfold expected_evts_per_bin. unfold bind at 1. unfold efficiencies_as_array. unfold bind at 1, get_chan. rewrite C.
  assert (LR : exists ca effs, lru_call Nat.eqb (w_cache_eff w) cid (Ok (map (fun p => Fin (snd p)) (c_effs c))) = (ca, Ok effs)).
  { unfold lru_call. destruct (dget Nat.eqb (w_cache_eff w) cid); eauto. }
  destruct LR as (ca & effs & LR). rewrite LR. set (w1 := set_cache_eff w ca). unfold bind at 1, lift at 1.
  destruct (bcast xmul ys effs) as [ye|e] eqn:BE; [|apply bcast_err in BE as ->; eauto].
  unfold bind at 1. unfold ch_fractions. unfold bind at 1, get_chan. change (w_chans w1) with (w_chans w). rewrite C.
  unfold bind at 1, lift at 1. rewrite NT. destruct (split_too_long ns (length (c_tmpls c)) (bins_of c) P LN) as [->|(a & rest & -> & LA)]; [eauto|].
  destruct (c_tmpls c) as [|[p tid] tms] eqn:ET; [congruence|]. cbn [map combine mapM snd fst].
  destruct (co_tmpl _ _ _ _ K p tid) as (t & T & TB & _); [rewrite ET; left; auto|].
  unfold bind at 1 2. unfold get_tmpl. change (w_tmpls w1) with (w_tmpls w). rewrite T. unfold lift at 1, t_fractions, bin_fractions.
  pose proof (wf_tmpls w W _ _ T) as TO.
  assert (LRel : length (t_rel t) = bins_of c). { rewrite (to_rel _ _ TO), (to_nb _ _ TO), TB. reflexivity. }
  rewrite bcast_too_long by lia. cbn [rbind]. eauto.
Qed.

Lemma scale_too_long n nt er (s : nat -> nat -> R) : (0 < nt)%nat -> (2 <= n)%nat -> (nt + nt * n < length er)%nat ->
  scaled_post_fit_errors er (map (fun k => vec_of n (s k)) (seq 0 nt)) = Err ValueError.
Proof.
  intros P B L. unfold scaled_post_fit_errors. rewrite map_length, seq_length.
  destruct (split_too_long (skipn nt er) nt n P) as [->|(a & rest & -> & LA)]; [rewrite skipn_length; lia|reflexivity|].
  cbn [rbind]. destruct nt as [|m]; [lia|]. cbn [seq map combine mapr fst snd]. rewrite bcast_too_long by (rewrite vec_of_length; lia). reflexivity.
Qed.

Theorem post_fit_too_many jac w cid c es (v s : nat -> nat -> R) rp opt : WF w ->
  nth_error (w_chans w) cid = Some c -> c_dim c = Some 1%nat -> c_tmpls c <> [] -> valid_edges es -> length es = S (bins_of c) -> (2 <= bins_of c)%nat ->
  on_templates w c (fun k t h => h_edges h = [mk_edges false es] /\ t_values t = Ok (vec_of (bins_of c) (v k)) /\ t_errors t = Ok (vec_of (bins_of c) (s k))) ->
  (length (c_tmpls c) + length (c_tmpls c) * bins_of c < length (p_values rp))%nat -> length (p_errors rp) = length (p_values rp) ->
  opt = UPropagate \/ opt = UScale ->
  exists w' layers, plot_post_fit_stacked_on jac cid rp opt w = ((w', [DHist layers es]), PErr (Py ValueError)).
Proof.
  intros W C D NE V L B T LV LE O. apply (post_fit_fails jac w cid c es (bins_of c) v); auto.
  { revert T. apply on_templates_impl. intros k t h (X & Y & _). auto. }
  destruct O as [->| ->]; unfold post_fit_errors.
  - destruct (counts_too_long w cid c (p_values rp) W C NE B LV) as (w' & E). exists w'. apply pbind_err. unfold pm. now rewrite E.
  - exists w. erewrite pbind_read; [|apply (each_template_ok w c (fun t h => t_errors t) (fun k => vec_of (bins_of c) (s k))); revert T; apply on_templates_impl; intros k t h (_ & _ & X); exact X].
    apply pl_err. apply scale_too_long; auto; [|lia]. destruct (c_tmpls c); [congruence|simpl; lia].
Qed.
