(** The likelihood over real numbers *)
From Coq Require Import Reals String ZArith Bool Arith List Lra Lia.
From Verif Require Import Model_Num Model_Hist Model_Utility Model_Template Model_World Model_Ops
  Spec_Matrix Spec_Template Spec_World Spec_Nll Proof_Hist Proof_Matrix Proof_Linear Proof_Template Proof_Template2 Proof_Template3 Proof_Utility
  Proof_HistHeap Proof_Monad Proof_World Proof_Eval Proof_Route Proof_Names Proof_Update.
Import ListNotations.
Local Open Scope R_scope.

Lemma vec_nth n f i : (i < n)%nat -> nth_error (vec_of n f) i = Some (Fin (f i)).
Proof.
  intros H. unfold vec_of. rewrite (map_nth_error _ i (seq 0 n) (d := i)); auto.
  rewrite (nth_error_nth' _ 0%nat) by (rewrite seq_length; auto). rewrite seq_nth; auto.
Qed.
Lemma vec_eq n f l : length l = n -> (forall i, (i < n)%nat -> nth_error l i = Some (Fin (f i))) -> l = vec_of n f.
Proof.
  intros L H. apply nth_ext with (d := NaN) (d' := NaN); [now rewrite vec_of_length|]. intros i Hi. rewrite L in Hi.
  rewrite (nth_error_nth _ _ NaN (H i Hi)), (nth_error_nth _ _ NaN (vec_nth n f i Hi)). reflexivity.
Qed.
Lemma vec_slice n m N x : (n + m <= N)%nat -> firstn m (skipn n (vec_of N x)) = vec_of m (fun i => x (n + i)%nat).
Proof.
  intros H. apply vec_eq.
  - rewrite firstn_length, skipn_length, vec_of_length. lia.
  - intros i Hi. rewrite nth_firstn, nth_skipn by auto. apply vec_nth. lia.
Qed.

Lemma blocks_vec nb k g : blocks (repeat nb k) (vec_of (k * nb) g) = map (fun j => vec_of nb (fun b => g (j * nb + b)%nat)) (seq 0 k).
Proof.
  apply nth_ext with (d := []) (d' := []); [now rewrite blocks_length, repeat_length, map_length, seq_length|].
  intros i Hi. rewrite blocks_length, repeat_length in Hi.
  rewrite (nth_error_nth _ _ [] (blocks_repeat_nth nb k _ i Hi)).
  rewrite vec_slice by nia. 
  rewrite (nth_indep _ [] (vec_of nb (fun b => g (i * nb + b)%nat))) by (now rewrite map_length, seq_length).
  rewrite (map_nth (fun j => vec_of nb (fun b => g (j * nb + b)%nat))). rewrite seq_nth; auto.
Qed.

Lemma mapr_nth {A B} (f : A -> res B) l (g : nat -> B) : (forall k a, nth_error l k = Some a -> f a = Ok (g k)) ->
  mapr f l = Ok (map g (seq 0 (length l))).
Proof.
  revert g. induction l as [|a l IH]; intros g H; simpl; auto. rewrite (H 0%nat a eq_refl). cbn [rbind].
  rewrite (IH (fun k => g (S k))); [|intros k b K; apply (H (S k)); auto]. cbn [rbind]. rewrite <- seq_shift, map_map. reflexivity.
Qed.

Lemma map_add_seq nb m : map (fun i => (nb + i)%nat) (seq 0 m) = seq nb m.
Proof. revert nb. induction m as [|m IH]; intros nb; simpl; auto. rewrite Nat.add_0_r. f_equal. rewrite <- seq_shift, map_map, <- (IH (S nb)). apply map_ext. intros; lia. Qed.
Lemma vecmat_rmat r c v A : (0 < r)%nat ->
  np_vecmat (vec_of r v) (rmat_of r c A) = Ok (vec_of c (fun j => sumn r (fun i => v i * A i j))).
Proof.
  intros H. unfold np_vecmat. destruct (rmat_of r c A) as [|row rest] eqn:E; [destruct r; [lia|discriminate]|].
  assert (LRow : length row = c). { destruct r as [|r]; [lia|]. unfold rmat_of in E. cbn [seq map] in E. injection E as <- _. apply vec_of_length. }
  rewrite <- E, LRow. clear E LRow. destruct r as [|r]; [lia|].
  assert (RO : rows_ok c (rmat_of (S r) c A) = true).
  { unfold rows_ok, rmat_of. apply forallb_forall. intros q Hq. apply in_map_iff in Hq as (i & <- & _). rewrite vec_of_length. apply Nat.eqb_refl. }
  rewrite RO. cbn [negb]. assert (LR : length (rmat_of (S r) c A) = S r) by (unfold rmat_of; now rewrite map_length, seq_length).
  rewrite LR, vec_of_length, Nat.eqb_refl. f_equal. unfold vec_of at 2. apply map_ext_in. intros j Hj. apply in_seq in Hj.
  rewrite <- xsum_n_sumn. unfold xsum_n. f_equal. apply map_ext_in. intros i Hi. apply in_seq in Hi.
  rewrite vnth_vec, mnth_rmat by lia. reflexivity.
Qed.
Lemma vecmat_mat n v A : (0 < n)%nat -> np_vecmat (vec_of n v) (mat_of n A) = Ok (vec_of n (fun j => sumn n (fun i => v i * A i j))).
Proof. apply (vecmat_rmat n n). Qed.
Lemma dot_vec n a b : np_dot (vec_of n a) (vec_of n b) = Ok (Fin (sumn n (fun i => a i * b i))).
Proof.
  unfold np_dot. rewrite !vec_of_length, Nat.eqb_refl, (map2_vec n a b xmul Rmult) by reflexivity. now rewrite np_sum_vec.
Qed.

(** ** block_diag *)
Fixpoint bd (nb : nat) (Ps : list (nat -> nat -> R)) (i j : nat) : R :=
  match Ps with
  | [] => 0
  | P :: Ps' => if Nat.ltb i nb then (if Nat.ltb j nb then P i j else 0)
                else if Nat.ltb j nb then 0 else bd nb Ps' (i - nb) (j - nb)
  end.
Lemma block_diag_mat nb Ps : block_diag (map (mat_of nb) Ps) = mat_of (length Ps * nb) (bd nb Ps).
Proof.
  induction Ps as [|P Ps IH]; [reflexivity|]. cbn [map block_diag]. rewrite IH, !mat_of_length. cbn [length].
  set (m := (length Ps * nb)%nat). replace (S (length Ps) * nb)%nat with (nb + m)%nat by (unfold m; lia).
  unfold mat_of at 3. rewrite seq_app, map_app. f_equal.
  - unfold mat_of at 1. rewrite map_map. apply map_ext_in. intros i Hi. apply in_seq in Hi. unfold vec_of. rewrite seq_app, map_app. f_equal.
    + apply map_ext_in. intros j Hj. apply in_seq in Hj. simpl. destruct (Nat.ltb_spec i nb); [|lia]. destruct (Nat.ltb_spec j nb); [|lia]. reflexivity.
    + apply nth_ext with (d := Fin 0) (d' := Fin 0); [now rewrite repeat_length, map_length, seq_length|].
      intros j Hj. rewrite repeat_length in Hj. rewrite nth_repeat.
      rewrite (nth_indep _ (Fin 0) (Fin (bd nb (P :: Ps) i 0%nat))) by (now rewrite map_length, seq_length).
      rewrite (map_nth (fun j => Fin (bd nb (P :: Ps) i j))), seq_nth by auto. simpl.
      destruct (Nat.ltb_spec i nb); [|lia]. destruct (Nat.ltb_spec (nb + j) nb); [lia|]. reflexivity.
  - unfold mat_of. rewrite map_map. cbn [Nat.add]. rewrite <- (map_add_seq nb m), map_map. apply map_ext_in. intros i Hi. apply in_seq in Hi.
    unfold vec_of. rewrite seq_app, map_app. f_equal.
    + apply nth_ext with (d := Fin 0) (d' := Fin 0); [now rewrite repeat_length, map_length, seq_length|].
      intros j Hj. rewrite repeat_length in Hj. rewrite nth_repeat.
      rewrite (nth_indep _ (Fin 0) (Fin (bd nb (P :: Ps) (nb + i) 0%nat))) by (now rewrite map_length, seq_length).
      rewrite (map_nth (fun j => Fin (bd nb (P :: Ps) (nb + i) j))), seq_nth by auto. simpl.
      destruct (Nat.ltb_spec (nb + i) nb); [lia|]. destruct (Nat.ltb_spec j nb); [|lia]. reflexivity.
    + cbn [Nat.add]; rewrite <- (map_add_seq nb m), map_map. apply map_ext. intros j. simpl.
      destruct (Nat.ltb_spec (nb + i) nb); [lia|]. destruct (Nat.ltb_spec (nb + j) nb); [lia|]. do 2 f_equal; lia.
Qed.
Lemma quad_bd nb Ps v : quad (length Ps * nb) (bd nb Ps) v =
  sumn (length Ps) (fun k => quad nb (nth k Ps (fun _ _ => 0)) (fun b => v (k * nb + b)%nat)).
Proof.
  revert v. induction Ps as [|P Ps IH]; intros v; [reflexivity|]. cbn [length]. 
  replace (S (length Ps)) with (1 + length Ps)%nat at 2 by lia. rewrite sumn_split.
  replace (S (length Ps) * nb)%nat with (nb + length Ps * nb)%nat by lia.
  transitivity (quad nb P v + quad (length Ps * nb) (bd nb Ps) (fun i => v (nb + i)%nat)).
  - unfold quad. rewrite sumn_split. f_equal.
    + apply sumn_ext. intros i Hi. rewrite sumn_split. rewrite (sumn_zero (length Ps * nb)).
      * rewrite Rplus_0_r. apply sumn_ext. intros j Hj. simpl. destruct (Nat.ltb_spec i nb); [|lia]. destruct (Nat.ltb_spec j nb); [|lia]. reflexivity.
      * intros j Hj. simpl. destruct (Nat.ltb_spec i nb); [|lia]. destruct (Nat.ltb_spec (nb + j) nb); [lia|]. lra.
    + apply sumn_ext. intros i Hi. rewrite sumn_split. rewrite (sumn_zero nb).
      * rewrite Rplus_0_l. apply sumn_ext. intros j Hj. simpl. destruct (Nat.ltb_spec (nb + i) nb); [lia|]. destruct (Nat.ltb_spec (nb + j) nb); [lia|].
        replace (nb + i - nb)%nat with i by lia. replace (nb + j - nb)%nat with j by lia. reflexivity.
      * intros j Hj. simpl. destruct (Nat.ltb_spec (nb + i) nb); [lia|]. destruct (Nat.ltb_spec j nb); [|lia]. lra.
  - rewrite IH. f_equal.
    + cbn [sumn nth]. rewrite Rplus_0_l. reflexivity.
    + apply sumn_ext. intros k Hk. cbn [nth Nat.add]. apply quad_ext; auto. intros b Hb. f_equal. lia.
Qed.

(** ** One channel *)
Section Channel.
  Variables (w : world) (x : nat -> R) (i : nat) (n : string) (c : chan) (v : cview).
  Hypothesis W : WF w.
  Hypothesis CA : channel_at w i n c.
  Hypothesis NB : v_nb v = bins_of c.
  Hypothesis NT : v_nt v = length (c_tmpls c).
  Hypothesis T : forall k p tid t, template_at w c k p tid t ->
       (exists q, nth_error (w_procs w) q = Some p /\ v_yield v k = x (yield_pos q)) /\
       nth_error (c_effs c) k = Some (p, v_eff v k) /\
       (exists e covs, error_state t (v_nb v) (v_cnt v k) e covs /\
          forall a b, v_cov v k a b = msum (stat_cov_of e :: covs) a b) /\
       inverse_of (v_nb v) (correlation (v_cov v k)) (v_prec v k) /\
       (forall b, (b < v_nb v)%nat -> v_th v k b = x (nui_pos w i c k b)).

  Definition nui_fun (j : nat) : R := x (length (w_procs w) + (nui_offset w i + j))%nat.
  Lemma nui_fun_th k b : (k < v_nt v)%nat -> (b < v_nb v)%nat -> nui_fun (k * v_nb v + b) = v_th v k b.
  Proof.
    intros K B. destruct (nth_error (c_tmpls c) k) as [[p tid]|] eqn:E; [|apply nth_error_None in E; lia].
    destruct (template_at_ok w i n c k p tid W CA E) as (t & TA & _). destruct (T k p tid t TA) as (_ & _ & _ & _ & H).
    rewrite H by auto. unfold nui_fun, nui_pos. rewrite NB. f_equal. lia.
  Qed.
  Lemma tmpl_k k : (k < v_nt v)%nat -> exists p tid t, nth_error (c_tmpls c) k = Some (p, tid) /\ template_at w c k p tid t.
  Proof.
    intros K. destruct (nth_error (c_tmpls c) k) as [[p tid]|] eqn:E; [|apply nth_error_None in E; lia].
    destruct (template_at_ok w i n c k p tid W CA E) as (t & TA & _). eauto 6.
  Qed.
  Lemma num_templates_v : num_templates c = v_nt v.
  Proof. unfold num_templates. rewrite <- (tmpls_procs _ _ _ _ (chan_ok_at w i n c W CA)). auto. Qed.

  Lemma varied_ext k e covs : (forall a b, v_cov v k a b = msum (stat_cov_of e :: covs) a b) ->
    forall b, varied (v_cnt v k) (rel_error (msum (stat_cov_of e :: covs)) (v_cnt v k)) (v_th v k) b = v_varied v k b.
  Proof. intros E b. unfold varied, v_varied. rewrite (rel_error_ext _ (v_cov v k)); auto. Qed.

  Lemma fractions_real : in_domain v ->
    fractions_res w c (vec_of (v_nt v * v_nb v) nui_fun) = Ok (rmat_of (v_nt v) (v_nb v) (fun k b => v_varied v k b / v_total v k)).
  Proof.
    intros (B0 & T0 & TN & _). unfold fractions_res. rewrite num_templates_v, (split_n_blocks (v_nt v) (v_nb v)) by (rewrite ?vec_of_length; lia).
    cbn [rbind]. rewrite blocks_vec.
    rewrite (mapr_nth _ _ (fun k => vec_of (v_nb v) (fun b => v_varied v k b / v_total v k))).
    - rewrite combine_length, !map_length, seq_length, <- NT, Nat.min_id. reflexivity.
    - intros k [tid nu] K.
      assert (KL : (k < v_nt v)%nat). { assert (k < length (combine (map snd (c_tmpls c)) (map (fun j => vec_of (v_nb v) (fun b => nui_fun (j * v_nb v + b))) (seq 0 (v_nt v)))))%nat by (apply nth_error_Some; congruence).
        rewrite combine_length, !map_length, seq_length, <- NT in H. lia. }
      destruct (tmpl_k k KL) as (p & tid' & t & E & TA).
      rewrite (nth_combine _ _ k tid' (vec_of (v_nb v) (fun b => nui_fun (k * v_nb v + b)))) in K.
      + injection K as <- <-. simpl. unfold oget. rewrite (proj2 TA). cbn [rbind].
        destruct (T k p tid' t TA) as (_ & _ & (e & covs & ES & CV) & _ & TH).
        rewrite (vec_of_ext _ _ (v_th v k)) by (intros; now apply nui_fun_th).
        rewrite (fractions_value _ _ _ _ _ _ ES).
        * f_equal. apply vec_of_ext. intros b Hb. unfold v_total. rewrite (varied_ext k e covs CV). f_equal.
          apply sumn_ext. intros; now apply varied_ext.
        * rewrite (sumn_ext _ _ (v_varied v k)); [apply TN; auto|]. intros; now apply varied_ext.
      + apply (map_nth_error snd) in E. exact E.
      + rewrite (map_nth_error _ k (seq 0 (v_nt v)) (d := k)); auto. rewrite (nth_error_nth' _ 0%nat) by (rewrite seq_length; auto). now rewrite seq_nth.
  Qed.

  Lemma effs_real : eff_vec c = vec_of (v_nt v) (v_eff v).
  Proof.
    apply vec_eq.
    - unfold eff_vec. rewrite map_length. rewrite (effs_length _ _ _ _ (chan_ok_at w i n c W CA)). auto.
    - intros k K. destruct (tmpl_k k K) as (p & tid & t & E & TA). destruct (T k p tid t TA) as (_ & EF & _).
      unfold eff_vec. rewrite (map_nth_error _ _ _ EF). reflexivity.
  Qed.

  Lemma expected_real : in_domain v ->
    expected_res w c (vec_of (v_nt v) (v_yield v)) (vec_of (v_nt v * v_nb v) nui_fun) = Ok (vec_of (v_nb v) (expected v)).
  Proof.
    intros D. unfold expected_res. rewrite effs_real, (bcast_vec (v_nt v) _ _ _ (fun k => v_yield v k * v_eff v k)) by reflexivity. cbn [rbind].
    rewrite (fractions_real D). cbn [rbind]. rewrite vecmat_rmat by apply D. reflexivity.
  Qed.

  Lemma inv_real : (0 < v_nt v)%nat -> inv_res (w_tmpls w) c = Ok (mat_of (v_nt v * v_nb v) (bd (v_nb v) (map (v_prec v) (seq 0 (v_nt v))))).
  Proof.
    intros T0. unfold inv_res.
    assert (X : mapr (fun p => oget (w_tmpls w) (snd p)) (c_tmpls c) = Ok (map (fun k => match nth_error (w_tmpls w) (snd (nth k (c_tmpls c) (EmptyString, O))) with Some t => t | None => mk_tmpl K1 "" 0 [] [] [] 0 [] [] [] [] [] [] [] end) (seq 0 (length (c_tmpls c))))).
    { apply mapr_nth. intros k [p tid] K. destruct (template_at_ok w i n c k p tid W CA K) as (t & (_ & TA) & _). simpl.
      rewrite (nth_error_nth _ _ _ K). simpl. unfold oget. rewrite TA. reflexivity. }
    rewrite X. cbn [rbind]. rewrite <- NT. set (f := fun k : nat => match nth_error (w_tmpls w) _ with Some t => t | None => _ end).
    destruct (map f (seq 0 (v_nt v))) as [|t0 ts] eqn:E; [destruct (v_nt v); [lia|discriminate]|]. rewrite <- E. clear E t0 ts. f_equal.
    transitivity (block_diag (map (mat_of (v_nb v)) (map (v_prec v) (seq 0 (v_nt v))))).
    - f_equal. rewrite !map_map. apply map_ext_in. intros k Hk. apply in_seq in Hk. destruct (tmpl_k k) as (p & tid & t & E & TA); [lia|].
      unfold f. rewrite (nth_error_nth _ _ _ E). simpl. rewrite (proj2 TA).
      destruct (T k p tid t TA) as (_ & _ & (e & covs & ES & CV) & IV & _).
      destruct ES as (_ & _ & _ & _ & _ & _ & _ & _ & (P & EP & IP) & _). rewrite EP. apply mat_of_ext.
      apply (inverse_unique (v_nb v) (correlation (v_cov v k))); auto.
      intros a b Ha Hb. destruct (IP a b Ha Hb) as [I1 I2]. split; [rewrite <- I1|rewrite <- I2]; apply sumn_ext; intros; f_equal; unfold correlation; rewrite !CV; reflexivity.
    - rewrite block_diag_mat, map_length, seq_length. reflexivity.
  Qed.

  Lemma gauss_real : in_domain v ->
    gauss_res w c (vec_of (v_nt v * v_nb v) nui_fun) = Ok (Fin (/ 2 * sumn (v_nt v) (fun k => quad (v_nb v) (v_prec v k) (v_th v k)))).
  Proof.
    intros (B0 & T0 & _). unfold gauss_res. rewrite inv_real by auto. cbn [rbind]. rewrite vecmat_mat by nia. cbn [rbind].
    rewrite dot_vec. cbn [rbind]. simpl. do 2 f_equal. replace (1 / 2) with (/ 2) by lra. f_equal.
    set (Ps := map (v_prec v) (seq 0 (v_nt v))). assert (LP : length Ps = v_nt v) by (unfold Ps; now rewrite map_length, seq_length).
    transitivity (quad (v_nt v * v_nb v) (bd (v_nb v) Ps) nui_fun).
    - unfold quad. rewrite sumn_swap. apply sumn_ext. intros j _. now rewrite sumn_scal_r.
    - rewrite <- LP at 1. rewrite quad_bd, LP. apply sumn_ext. intros k Hk. apply quad_ext.
      + intros a b _ _. unfold Ps. rewrite (nth_indep _ _ (v_prec v 0%nat)) by (now rewrite map_length, seq_length). rewrite map_nth, seq_nth by auto. reflexivity.
      + intros b Hb. now apply nui_fun_th.
  Qed.

  Lemma contribution_real hid h : c_data c = Some hid -> nth_error (w_hists w) hid = Some h ->
    nd_flat (h_counts h) = vec_of (v_nb v) (v_data v) -> in_domain v ->
    contribution_res w c (vec_of (v_nt v) (v_yield v)) (vec_of (v_nt v * v_nb v) nui_fun) = Ok (Fin (channel_nll v)).
  Proof.
    intros CD H HC D. unfold contribution_res. rewrite CD. unfold oget. rewrite H. cbn [rbind]. rewrite (expected_real D), HC. cbn [rbind].
    rewrite (bcast_vec (v_nb v) _ _ _ (fun b => expected v b - v_data v b)) by reflexivity. cbn [rbind].
    rewrite (bcast_vec (v_nb v) _ _ _ (fun b => if Req_EM_T (v_data v b) 0 then 0 else v_data v b * ln (expected v b / v_data v b))).
    2:{ intros b Hb. pose proof c1e_100_pos as CP. destruct D as (_ & _ & _ & D). destruct (D b Hb) as [D0|[D1 D2]].
        - rewrite D0. destruct (Req_EM_T 0 0); [|congruence]. apply xlogyx_small. left. unfold xltb. destruct (Rltb_spec 0 c1e_100); auto; lra.
        - fold c1e_100 in D1. destruct (Req_EM_T (v_data v b) 0); [lra|]. now apply xlogyx_value. }
    cbn [rbind]. rewrite (bcast_vec (v_nb v) _ _ _ (fun b => poisson_term (v_data v b) (expected v b))) by reflexivity. cbn [rbind].
    rewrite (gauss_real D). cbn [rbind]. rewrite np_sum_vec. reflexivity.
  Qed.
End Channel.

(** ** All channels *)
Lemma fold_fin l a : fold_left xadd (map Fin l) (Fin a) = Fin (a + Rsum l).
Proof.
  revert a. induction l as [|r l IH]; intros a; simpl; [f_equal; lra|]. rewrite IH. f_equal. unfold Rsum. simpl. lra.
Qed.
Lemma Rsum_app a b : Rsum (a ++ b) = Rsum a + Rsum b.
Proof. induction a; unfold Rsum in *; simpl; [lra|]. rewrite IHa. lra. Qed.

Lemma constraint_real w x p r : NoDup (w_procs w) -> constraint_of w x p r -> (length (w_procs w) <= num_params w)%nat ->
  constraint_term w (vec_of (num_params w) x) p = Ok (Fin r).
Proof.
  intros N (q & v & e & Q & V & E & E0 & ->) L. unfold constraint_term. rewrite (index_of_nodup _ _ _ N Q).
  assert (q < length (w_procs w))%nat by (apply nth_error_Some; congruence). rewrite vec_nth, V, E by lia.
  assert (e * e <> 0) by (intros K; apply Rmult_integral in K; tauto).
  cbn [xsub xopp xadd xsq xmul]. rewrite xdiv_fin by assumption. do 2 f_equal. unfold yield_pos, Rdiv. rewrite Rinv_mult. 
  field. auto.
Qed.

Lemma mapr_forall2 {A B} (f : A -> res B) l l' : Forall2 (fun a b => f a = Ok b) l l' -> mapr f l = Ok l'.
Proof. induction 1; simpl; auto. rewrite H. cbn [rbind]. rewrite IHForall2. reflexivity. Qed.

Definition nll_with (f : chan -> list xr -> list xr -> res xr) (w : world) (x : list xr) : res xr :=
  yn <- per_channel_res w x ;;
  contribs <- mapr (fun q => c <- oget (w_chans w) (fst q) ;; f c (fst (snd q)) (snd (snd q)))
                   (combine (map snd (w_channels w)) (combine (fst yn) (snd yn))) ;;
  terms <- mapr (constraint_term w x) (w_cnames w) ;;
  Ok (fold_left xadd (contribs ++ terms) (Fin 0)).
Theorem nll_gen f w x vs ts : WF w -> w_channels w <> [] -> length vs = length (w_channels w) ->
  (forall i v, nth_error vs i = Some v -> exists n c, channel_at w i n c /\ v_nb v = bins_of c /\ v_nt v = length (c_tmpls c) /\
     (forall k p tid t, template_at w c k p tid t -> exists q, nth_error (w_procs w) q = Some p /\ v_yield v k = x (yield_pos q)) /\
     f c (vec_of (v_nt v) (v_yield v)) (vec_of (v_nt v * v_nb v) (nui_fun w x i)) = Ok (Fin (channel_nll v))) ->
  Forall2 (constraint_of w x) (w_cnames w) ts ->
  nll_with f w (vec_of (num_params w) x) = Ok (Fin (Rsum (map channel_nll vs) + Rsum ts)).
Proof.
  intros W NE LV RD CT. unfold nll_with.
  destruct (per_channel_value w (vec_of (num_params w) x) W NE (vec_of_length _ _)) as (ys & ns & E & F & BL). rewrite E. cbn [rbind fst snd].
  rewrite (mapr_combine_chans w (fun c q => f c (fst q) (snd q)) (combine ys ns) W).
  assert (LM : length (mct_chans w) = length vs) by (rewrite chans_length; auto).
  assert (LN : length ns = length vs) by (rewrite BL, blocks_length, map_length; auto).
  assert (LY : length ys = length vs) by (rewrite <- LM; symmetry; eapply forall2_len; eauto).
  assert (LX : (length (w_procs w) <= length (vec_of (num_params w) x))%nat) by (rewrite vec_of_length; unfold num_params; lia).
  rewrite (mapr_nth _ _ (fun k => nth k (map (fun v => Fin (channel_nll v)) vs) NaN)).
  - cbn [rbind].
    assert (X : map (fun k => nth k (map (fun v => Fin (channel_nll v)) vs) NaN) (seq 0 (length (combine (mct_chans w) (combine ys ns)))) = map Fin (map channel_nll vs)).
    { rewrite !combine_length, LM, LY, LN, !Nat.min_id, map_map. 
      apply nth_ext with (d := NaN) (d' := NaN); [now rewrite !map_length, seq_length|]. intros k Hk. rewrite map_length, seq_length in Hk.
      rewrite (nth_indep _ NaN (nth 0 (map (fun v => Fin (channel_nll v)) vs) NaN)) by (now rewrite map_length, seq_length).
      rewrite (map_nth (fun k => nth k (map (fun v => Fin (channel_nll v)) vs) NaN)), seq_nth by auto. reflexivity. }
    rewrite X. rewrite (mapr_forall2 _ _ (map Fin ts)).
    + cbn [rbind]. rewrite <- map_app, fold_fin, Rsum_app. do 2 f_equal. lra.
    + clear -CT W. induction CT as [|p r ps rs H1 H2 IH]; simpl; constructor; auto. apply constraint_real; auto; [apply (wf_procs w W)|unfold num_params; lia].
  - intros k [c [y nu]] K.
    assert (KL : (k < length vs)%nat). { assert (k < length (combine (mct_chans w) (combine ys ns)))%nat by (apply nth_error_Some; congruence). rewrite combine_length in H. lia. }
    destruct (nth_error vs k) as [v|] eqn:V; [|apply nth_error_None in V; lia]. destruct (RD k v V) as (n & c' & CA & NB & NT & T & FV).
    rewrite (nth_indep _ NaN (Fin (channel_nll v))) by (now rewrite map_length).
    rewrite (map_nth (fun v => Fin (channel_nll v))), (nth_error_nth _ _ _ V). simpl.
    pose proof (channel_at_chans w k n c' W CA) as HCh.
    destruct (nth_error ys k) as [y'|] eqn:Y; [|apply nth_error_None in Y; lia]. destruct (nth_error ns k) as [nu'|] eqn:NU; [|apply nth_error_None in NU; lia].
    rewrite (nth_combine _ _ k c' (y', nu')) in K by (auto; now apply nth_combine). injection K as <- <- <-.
    destruct (take_yields w c' (vec_of (num_params w) x) W (nth_error_In _ _ HCh) LX) as (y'' & EY & LYc & RY).
    destruct (forall2_nth _ _ _ _ _ F HCh) as (y3 & Y3 & EY3). assert (y'' = y') by congruence. subst y''.
    assert (YV : y' = vec_of (v_nt v) (v_yield v)).
    { apply vec_eq; [congruence|]. intros j Hj. destruct (tmpl_k w k n c' v W CA NB NT j Hj) as (p & tid & t & TT & TA).
      destruct (RY j p tid TT) as (q & Q & YQ). destruct (T j p tid t TA) as (q' & Q' & YV). rewrite YQ, YV. unfold yield_pos.
      assert (q' = q). { apply (proj1 (NoDup_nth_error (w_procs w)) (wf_procs w W)); [apply nth_error_Some; congruence|congruence]. } subst q'.
      assert (q < length (w_procs w))%nat by (apply nth_error_Some; congruence). apply vec_nth. unfold num_params; lia. }
    assert (NV : nu' = vec_of (v_nt v * v_nb v) (nui_fun w x k)).
    { pose proof (channel_block w k n c' (skipn (length (w_procs w)) (vec_of (num_params w) x)) W CA) as CB. rewrite <- BL, NU in CB.
      assert (OkI : forall a b : list xr, Some a = Some b -> a = b) by congruence. apply OkI in CB. rewrite CB.
      rewrite (num_nui_spec _ _ _ _ (chan_ok_at w k n c' W CA)), <- NT, <- NB.
      rewrite skipn_skipn, vec_slice.
      - apply vec_of_ext. intros j _. unfold nui_fun. f_equal. lia.
      - pose proof (nui_offset_le w k n c' W CA) as LE. rewrite (num_nui_spec _ _ _ _ (chan_ok_at w k n c' W CA)), <- NT, <- NB, (nui_total w W) in LE. unfold num_params. lia. }
    rewrite YV, NV. exact FV.
Qed.
Theorem nll_real w x vs ts : WF w -> w_channels w <> [] -> length vs = length (w_channels w) ->
  (forall i v, nth_error vs i = Some v -> reads w x i v /\ in_domain v) ->
  Forall2 (constraint_of w x) (w_cnames w) ts ->
  nll_res w (vec_of (num_params w) x) = Ok (Fin (Rsum (map channel_nll vs) + Rsum ts)).
Proof.
  intros W NE LV RD CT. apply (nll_gen (contribution_res w) w x vs ts W NE LV); auto. intros i v V.
  destruct (RD i v V) as ((n & c & CA & NB & NT & T & (hid & h & CD & HH & HC)) & DV). exists n, c. repeat (split; [assumption|]).
  split; [intros k p tid t TA; apply (T k p tid t TA)|]. eapply contribution_real; eauto.
Qed.
