(** Properties C39 and C48 with more than 128 channels: the caches of Channel (functools.lru_cache, 128 entries) evict
    stale entries during an evaluation. *)
From Coq Require Import Reals String ZArith Bool Arith List Lra Lia.
From Verif Require Import Model_Num Model_Hist Model_Utility Model_Template Model_World Model_Ops Model_Minimizer Model_Fitter
  Spec_Matrix Spec_Min Spec_World Spec_Fit Spec_Stale Proof_HistHeap Proof_Eval Proof_Route Proof_Monad Proof_Names Proof_Unique Proof_World Proof_Update Proof_Utility
 Proof_Fit3 Proof_Hist Proof_Freeze2 Proof_Fit Proof_Fit4 Prop_World Prop_Stale Prop_Fitter.
Import ListNotations.
Local Open Scope R_scope.
Local Open Scope string_scope.
Local Open Scope list_scope.

(** one channel "A" with the processes a, b (in this order), evaluated when it had only the template of a (the call
    raises, there are no data yet); then the template of b and data are added. *)
Definition ev_hist (c : R) : op := OFromBinned K1 (mk_nd [1%nat] [Fin c]) [mk_edges false [0; 1]] (Some (mk_nd [1%nat] [Fin 1])).
Definition ev_start : list op := [ev_hist 1; ev_hist 0; OTemplate K1 "t" 0; ODefProcess "a"; ODefProcess "b"; ODefChannel "A" [1%nat] [(0, 1)]; OAddTemplate "A" "a" 0 1;
  ONll [Fin 1; Fin 1; Fin 0]; OAddTemplate "A" "b" 0 1; OAddData [("A", 1%nat)]].
(** further channels c1, c2, ..., each with a template of process a and data *)
Definition cn (i : nat) : string := String.append "c" (decimal i).
Definition ev_channel (i : nat) : list op := [ODefChannel (cn i) [1%nat] [(0, 1)]; OAddTemplate (cn i) "a" 0 1; OAddData [(cn i, 1%nat)]].
Definition ev_ops (n : nat) : list op := ev_start ++ flat_map ev_channel (seq 1 n).

Definition ev_A : chan := mk_chan "A" [("a", 0%nat); ("b", 0%nat)] [("a", 1); ("b", 1)] ["a"; "b"] [1%nat] [(0, 1)] (Some 1%nat) (Some 1%nat) (Some K1).
Definition ev_c (i : nat) : chan := mk_chan (cn i) [("a", 0%nat)] [("a", 1)] ["a"] [1%nat] [(0, 1)] (Some 1%nat) (Some 1%nat) (Some K1).
Definition ev_world (t : tmpl) (h0 h1 : hist) (n : nat) : world :=
  mk_world [h0; h1] [t] (ev_A :: map ev_c (seq 1 n)) (("A", 0%nat) :: map (fun i => (cn i, i)) (seq 1 n)) ["a"; "b"] [] [] []
    [((0%nat, ["a"; "b"]), [0%nat])] [] [].
Record ev_ok (t : tmpl) (h1 : hist) : Prop := {
  ek_kind : t_kind t = K1; ek_bins : t_bins t = [1%nat]; ek_range : t_range t = [(0, 1)]; ek_nb : t_nb t = 1%nat;
  ek_counts : t_counts t = [Fin 1]; ek_rel : exists s, t_rel t = [Fin s]; ek_inv : t_inv t = [[Fin 1]];
  ek_params : exists y, t_params t = [Fin y; Fin 0];
  ek_shape : h_shape h1 = [1%nat]; ek_hrange : h_range h1 = [(0, 1)]; ek_data : nd_flat (h_counts h1) = [Fin 0] }.
Lemma ev_start_state inv : exists t h0 h1, reached inv ev_start = ev_world t h0 h1 0 /\ ev_ok t h1.
Proof.
  unfold ev_start, ev_hist, reached, world_init. do 7 run_step. run_stepR. do 2 run_step. eexists. eexists. eexists. split; [reflexivity|].
  constructor; try reflexivity; cbn.
  - unfold relative_errors, stat_cov. cbn. unfold xdiv. destruct (Proof_Hist.Reqb_spec 1 0); [lra|]. cbn [xisnan xeqb xltb xsqrt]. destruct (Proof_Hist.Reqb_spec (1 * 1) 0); [lra|]. destruct (Rltb_spec (1 * 1) 0); [lra|]. eexists. reflexivity.
  - eexists. reflexivity.
Qed.

Lemma cn_inj i j : cn i = cn j -> i = j.
Proof.
  unfold cn. cbn [String.append]. intros E. injection E as E. destruct (decimal_spec i) as (A & _), (decimal_spec j) as (B & _). congruence.
Qed.
Lemma cn_A i : cn i <> "A". Proof. discriminate. Qed.
Definition chs (n : nat) : list (string * nat) := ("A", 0%nat) :: map (fun i => (cn i, i)) (seq 1 n).
Lemma cn_new n : existsb (String.eqb (cn (S n))) (map fst (chs n)) = false.
Proof.
  apply not_true_is_false. intros E. apply existsb_exists in E as (k & I & E). apply String.eqb_eq in E. subst k.
  unfold chs in I. cbn [map] in I. destruct I as [I|I]; [symmetry in I; now apply cn_A in I|]. rewrite map_map in I. apply in_map_iff in I as (i & E & I). cbn [fst] in E. apply cn_inj in E. apply in_seq in I. lia.
Qed.
Lemma dget_new {V} (l : list (string * V)) k v : existsb (String.eqb k) (map fst l) = false -> dget String.eqb (l ++ [(k, v)]) k = Some v.
Proof. induction l as [|[k' v'] l IH]; cbn. { now rewrite String.eqb_refl. } destruct (String.eqb k k'); [discriminate|]. exact IH. Qed.
Lemma upd_end {A} (l : list A) x a n : length l = n -> upd n a (l ++ [x]) = l ++ [a].
Proof. revert n. induction l as [|y l IH]; intros [|n] L; try discriminate; cbn; [reflexivity|]. f_equal. apply IH. now injection L. Qed.
Lemma nth_end {A} (l : list A) x n : length l = n -> nth_error (l ++ [x]) n = Some x.
Proof. intros <-. induction l; cbn; auto. Qed.

Definition ev_mid (t : tmpl) (h0 h1 : hist) (n : nat) (c : chan) : world :=
  mk_world [h0; h1] [t] ((ev_A :: map ev_c (seq 1 n)) ++ [c]) (chs n ++ [(cn (S n), S n)]) ["a"; "b"] [] [] []
    [((0%nat, ["a"; "b"]), [0%nat])] [] [].
Lemma ev_len n : length (ev_A :: map ev_c (seq 1 n)) = S n. Proof. cbn. now rewrite map_length, seq_length. Qed.
Lemma ev_mid_world t h0 h1 n : ev_mid t h0 h1 n (ev_c (S n)) = ev_world t h0 h1 (S n).
Proof. unfold ev_mid, ev_world, chs. rewrite seq_S, !map_app. reflexivity. Qed.
Lemma ev_def t h0 h1 n : fst (define_channel (cn (S n)) [1%nat] [(0, 1)] (ev_world t h0 h1 n)) = ev_mid t h0 h1 n (chan_new (cn (S n)) [1%nat] [(0, 1)]).
Proof.
  unfold define_channel, ev_world, ev_mid. cbn [fst w_channels w_chans set_channels set_chans w_hists w_tmpls w_procs w_cnames w_cvals w_cerrs w_cache_pi w_cache_eff w_cache_inv].
  rewrite ev_len. change (("A", 0%nat) :: map (fun i => (cn i, i)) (seq 1 n)) with (chs n). now rewrite (dset_new _ _ _ _ (cn_new n)).
Qed.
Lemma ev_on t h0 h1 n c (f : chan -> chan * res unit) c' r : f c = (c', r) -> on_chan (S n) f (ev_mid t h0 h1 n c) = (ev_mid t h0 h1 n c', r).
Proof.
  intros F. unfold on_chan, ev_mid. cbn [w_chans]. rewrite (nth_end _ _ _ (ev_len n)), F, (upd_end _ _ _ _ (ev_len n)). reflexivity.
Qed.
Lemma ev_find t h0 h1 n c : dget String.eqb (w_channels (ev_mid t h0 h1 n c)) (cn (S n)) = Some (S n).
Proof. apply dget_new, cn_new. Qed.
Lemma one_range : ranges_eqb [(0, 1)] [(0, 1)] = true.
Proof. cbn. unfold pairR_eqb. cbn. now rewrite !Reqb_refl. Qed.
Lemma ev_next inv t h0 h1 n : ev_ok t h1 -> run inv (ev_channel (S n)) (ev_world t h0 h1 n) = ev_world t h0 h1 (S n).
Proof.
  intros [KK KB KR KN KC KL KI KP HS HR HD]. unfold run, ev_channel. cbn [fold_left step]. rewrite ev_def.
  unfold mct_add_template. rewrite ev_find. change (smem "a" (w_procs (ev_mid t h0 h1 n (chan_new (cn (S n)) [1%nat] [(0, 1)])))) with true. cbv iota.
  unfold bind at 1. unfold get_tmpl. cbn [w_tmpls ev_mid nth_error].
  erewrite ev_on; [|unfold ch_add_template, check_template; rewrite KB, KR; cbn [c_bins c_range chan_new]; rewrite one_range; cbn [natlist_eqb Nat.eqb andb];
    unfold add_template_raw; cbn [c_tmpls chan_new keys map smem existsb c_dim c_ttype c_name c_effs c_procs c_bins c_range c_data]; rewrite KK, KB; cbn [kind_eqb negb dset length app]; reflexivity].
  cbn [fst]. unfold mct_add_data, forM. unfold bind at 1. cbn [fst snd]. rewrite ev_find. unfold bind at 1. unfold get_hist. cbn [w_hists ev_mid nth_error].
  erewrite ev_on; [|unfold ch_add_data, check_hist; rewrite HS, HR; cbn [c_bins c_range]; rewrite one_range; cbn [natlist_eqb Nat.eqb andb];
    cbn [c_tmpls c_dim c_ttype c_name c_effs c_procs c_bins c_range c_data]; reflexivity].
  cbn [ret fst]. apply ev_mid_world.
Qed.
Lemma reached_app inv a b : reached inv (a ++ b) = run inv b (reached inv a). Proof. apply run_app. Qed.
Lemma ev_ops_S n : ev_ops (S n) = ev_ops n ++ ev_channel (S n).
Proof. unfold ev_ops. rewrite seq_S, flat_map_app, app_assoc. cbn [flat_map]. rewrite app_nil_r. reflexivity. Qed.
Lemma ev_ops_0 : ev_ops 0 = ev_start. Proof. unfold ev_ops. cbn [seq flat_map]. apply app_nil_r. Qed.
Lemma ev_reached inv : exists t h0 h1, ev_ok t h1 /\ forall n, reached inv (ev_ops n) = ev_world t h0 h1 n.
Proof.
  destruct (ev_start_state inv) as (t & h0 & h1 & E & OK). exists t, h0, h1. split; [exact OK|].
  induction n as [|n IH]. { rewrite ev_ops_0. exact E. }
  rewrite ev_ops_S, reached_app, IH. apply ev_next. exact OK.
Qed.

(** ** The first evaluation: the stale entry of "A" is used, then evicted *)
Definition take1 (yields : list xr) (cid : nat) : M (list xr) := idx <- process_indices cid ["a"; "b"] ;;; lift (np_take yields idx).
Definition ev_entry (i : nat) : (nat * list string) * list nat := ((i, ["a"; "b"]), [0%nat]).
Fixpoint ins (l : list nat) (c : list ((nat * list string) * list nat)) :=
  match l with [] => c | i :: l' => ins l' (firstn 128 (ev_entry i :: c)) end.
Lemma ins_in l : forall c e, In e (ins l c) -> In e c \/ exists i, In i l /\ e = ev_entry i.
Proof.
  induction l as [|i l IH]; intros c e I; [now left|]. cbn [ins] in I. apply IH in I as [I|(j & J & ->)]; [|right; exists j; split; [now right|reflexivity]].
  apply firstn_in in I. destruct I as [<-|I]; [right; exists i; split; [now left|reflexivity]|now left].
Qed.
Lemma ins_evicts : forall e, In e (ins (seq 1 128) [ev_entry 0]) -> exists i, (1 <= i <= 128)%nat /\ e = ev_entry i.
Proof.
  intros e I. assert (E : forallb (fun e => negb (Nat.eqb (fst (fst e)) 0)) (ins (seq 1 128) [ev_entry 0]) = true) by (vm_compute; reflexivity).
  rewrite forallb_forall in E. specialize (E e I). apply ins_in in I as [[<-|[]]|(i & J & ->)]; [discriminate|]. apply in_seq in J. exists i. split; [lia|reflexivity].
Qed.
Lemma dget_none (c : list ((nat * list string) * list nat)) j : (forall e, In e c -> (fst (fst e) < j)%nat) -> dget pi_key_eqb c (j, ["a"; "b"]) = None.
Proof.
  induction c as [|[[k o] v] c IH]; intros L; [reflexivity|]. cbn [dget]. unfold pi_key_eqb at 1. cbn [fst].
  pose proof (L _ (or_introl eq_refl)) as B. cbn in B. destruct (Nat.eqb_spec j k); [lia|]. cbn [andb]. apply IH. intros e I. apply L. now right.
Qed.
Lemma set_cache_twice w a b : set_cache_pi (set_cache_pi w a) b = set_cache_pi w b. Proof. reflexivity. Qed.
Lemma take_new y ys j w : nth_error (w_chans w) j = Some (ev_c j) -> (forall e, In e (w_cache_pi w) -> (fst (fst e) < j)%nat) ->
  take1 (y :: ys) j w = (set_cache_pi w (firstn 128 (ev_entry j :: w_cache_pi w)), Ok [y]).
Proof.
  intros C L. unfold take1, process_indices, bind, get_chan. rewrite C. unfold lru_call. rewrite (dget_none _ j L).
  change (mapr (fun p => match index_of p ["a"; "b"] with Some i => Ok i | None => Err ValueError end) (keys (c_tmpls (ev_c j)))) with (@Ok (list nat) [0%nat]).
  cbv iota. reflexivity.
Qed.
Lemma take_loop y ys k : forall j w, (forall i, (j <= i < j + k)%nat -> nth_error (w_chans w) i = Some (ev_c i)) ->
  (forall e, In e (w_cache_pi w) -> (fst (fst e) < j)%nat) ->
  mapM (take1 (y :: ys)) (seq j k) w = (set_cache_pi w (ins (seq j k) (w_cache_pi w)), Ok (repeat [y] k)).
Proof.
  induction k as [|k IH]; intros j w C L; cbn [seq mapM ins repeat]. { unfold ret. destruct w. reflexivity. }
  unfold bind at 1. rewrite (take_new y ys j w (C j ltac:(lia)) L). unfold bind. rewrite (IH (S j)).
  - reflexivity.
  - intros i B. apply C. lia.
  - intros e I. unfold set_cache_pi, w_cache_pi in I. apply firstn_in in I. destruct I as [<-|I]; [cbn; lia|]. apply L in I. lia.
Qed.

Lemma ev_chan t h0 h1 n i : (1 <= i <= n)%nat -> nth_error (w_chans (ev_world t h0 h1 n)) i = Some (ev_c i).
Proof.
  intros B. destruct i as [|i]; [lia|]. cbn [w_chans ev_world nth_error]. rewrite nth_error_map. rewrite (nth_error_nth' _ 0%nat) by (rewrite seq_length; lia).
  rewrite seq_nth by lia. reflexivity.
Qed.
Lemma ev_ids t h0 h1 n : map snd (w_channels (ev_world t h0 h1 n)) = 0%nat :: seq 1 n.
Proof. cbn [w_channels ev_world map snd]. f_equal. rewrite map_map. apply map_id. Qed.
Lemma ev_mct t h0 h1 n : mct_chans (ev_world t h0 h1 n) = ev_A :: map ev_c (seq 1 n).
Proof.
  unfold mct_chans. change (w_channels (ev_world t h0 h1 n)) with (("A", 0%nat) :: map (fun i => (cn i, i)) (seq 1 n)).
  cbn [flat_map snd]. change (nth_error (w_chans (ev_world t h0 h1 n)) 0) with (Some ev_A). cbv iota. cbn [app]. f_equal.
  assert (H : forall l, (forall i, In i l -> (1 <= i <= n)%nat) ->
    flat_map (fun p => match nth_error (w_chans (ev_world t h0 h1 n)) (snd p) with Some c => [c] | None => [] end) (map (fun i => (cn i, i)) l) = map ev_c l).
  { induction l as [|i l IH]; intros B; [reflexivity|]. cbn [map flat_map snd]. rewrite (ev_chan t h0 h1 n i) by (apply B; now left). cbn [app]. f_equal.
    apply IH. intros j I. apply B. now right. }
  apply H. intros i I. apply in_seq in I. lia.
Qed.
Lemma ev_sizes t h0 h1 n : map ch_num_nui (mct_chans (ev_world t h0 h1 n)) = 2%nat :: repeat 1%nat n.
Proof.
  rewrite ev_mct. cbn [map]. f_equal. rewrite map_map. change (fun x => ch_num_nui (ev_c x)) with (fun _ : nat => 1%nat).
  generalize 1%nat at 2. induction n as [|n IH]; intros j; [reflexivity|]. cbn. f_equal. apply IH.
Qed.

Definition ev_w1 (t : tmpl) (h0 h1 : hist) : world := set_cache_pi (ev_world t h0 h1 128) (ins (seq 1 128) [ev_entry 0]).
Lemma ev_core t h0 h1 : core_eq (ev_world t h0 h1 128) (ev_w1 t h0 h1). Proof. constructor; reflexivity. Qed.
Lemma ev_coh t h0 h1 : coh (ev_w1 t h0 h1).
Proof.
  constructor; [|intros cid v []|intros _ cid v []]. intros cid o v I. unfold ev_w1 in I. apply ins_evicts in I as (i & B & E). injection E as -> -> ->.
  exists (ev_c i). split; [now apply ev_chan|reflexivity].
Qed.

Definition ev_nuis (z : xr) : list (list xr) := [z; z] :: repeat [z] 128.
Lemma ev_split (z : xr) : np_split_at (repeat z 130) (removelast (np_cumsum (2%nat :: repeat 1%nat 128))) = ev_nuis z.
Proof. vm_compute. reflexivity. Qed.
Definition ev_x (a b : R) : list xr := Fin a :: Fin b :: repeat (Fin 0) 130.
Lemma ev_slice a b : slice 2 (130 + 2) (ev_x a b) = repeat (Fin 0) 130.
Proof. unfold ev_x. generalize (Fin a) (Fin b) (Fin 0). intros. vm_compute. reflexivity. Qed.
Lemma ev_num t h0 h1 : mct_num_nui (ev_world t h0 h1 128) = 130%nat.
Proof. unfold mct_num_nui. rewrite ev_sizes. vm_compute. reflexivity. Qed.
Lemma take_stale a b t h0 h1 n : take1 [Fin a; Fin b] 0 (ev_world t h0 h1 n) = (ev_world t h0 h1 n, Ok [Fin a]).
Proof. reflexivity. Qed.
Lemma ev_first a b t h0 h1 :
  generate_per_channel_parameters (ev_x a b) (ev_world t h0 h1 128) = (ev_w1 t h0 h1, Ok ([Fin a] :: repeat [Fin a] 128, ev_nuis (Fin 0))).
Proof.
  unfold generate_per_channel_parameters. unfold gets at 1 2 3 4. unfold bind at 1 2 3 4. rewrite ev_ids, ev_num.
  change (length (w_procs (ev_world t h0 h1 128))) with 2%nat. change (w_procs (ev_world t h0 h1 128)) with ["a"; "b"].
  change (firstn 2 (ev_x a b)) with [Fin a; Fin b]. rewrite ev_slice.
  change (fun cid : nat => idx <- process_indices cid ["a"; "b"] ;;; lift (np_take [Fin a; Fin b] idx)) with (take1 [Fin a; Fin b]).
  assert (E : mapM (take1 [Fin a; Fin b]) (0%nat :: seq 1 128) (ev_world t h0 h1 128) = (ev_w1 t h0 h1, Ok ([Fin a] :: repeat [Fin a] 128))).
  { cbn [mapM]. unfold bind at 1. rewrite take_stale. unfold bind. rewrite (take_loop (Fin a) [Fin b] 128 1).
    - reflexivity.
    - intros i B. apply ev_chan. lia.
    - intros e [<-|[]]. cbn. lia. }
  unfold bind at 1. rewrite E. unfold gets, bind, ret. rewrite (core_mct_chans _ _ (ev_core t h0 h1)), ev_sizes, ev_split. reflexivity.
Qed.

(** ** The contributions of the channels *)
Lemma ev_value t h0 h1 w : ev_ok t h1 -> w_hists w = [h0; h1] -> w_tmpls w = [t] -> forall a b i,
  contribution_res w ev_A [Fin a] [Fin 0; Fin 0] = Ok (Fin (2 * a)) /\
  contribution_res w ev_A [Fin a; Fin b] [Fin 0; Fin 0] = Ok (Fin (a + b)) /\
  contribution_res w (ev_c i) [Fin a] [Fin 0] = Ok (Fin a).
Proof.
  intros [KK KB KR KN KC [s KL] KI KP HS HR HD] WH WT a b i.
  assert (XL : forall y, xlogyx (Fin 0) y = Fin 0).
  { intros y. apply Proof_Utility.xlogyx_small. left. simpl. pose proof Proof_Utility.c1e_100_pos. destruct (Rltb_spec 0 c1e_100); [reflexivity|lra]. }
  assert (FR : xdiv (Fin (1 * (1 + 0 * s))) (Fin (1 * (1 + 0 * s) + 0)) = Fin 1).
  { unfold xdiv. destruct (Proof_Hist.Reqb_spec (1 * (1 + 0 * s) + 0) 0); [lra|]. f_equal. field. }
  destruct t as [k' n' hh cc ee bb nb rg pp cm cv cr iv rl]. cbn in KC, KL, KI, KB, KN. subst cc rl iv bb nb.
  destruct h1 as [hk hes hnb hsh hrg hct her hem]. destruct hct as [sh fl]. cbn in HD. subst fl.
  unfold contribution_res, gauss_res, expected_res, fractions_res, inv_res. rewrite WH, WT.
  repeat split.
  - lazy_R. rewrite !XL. cbn [xadd xmul xsub xopp]. rewrite FR. cbn [xadd xmul xsub xopp]. do 2 f_equal. lra.
  - lazy_R. rewrite !XL. cbn [xadd xmul xsub xopp]. rewrite FR. cbn [xadd xmul xsub xopp]. do 2 f_equal. lra.
  - lazy_R. rewrite !XL. cbn [xadd xmul xsub xopp]. rewrite FR. cbn [xadd xmul xsub xopp]. do 2 f_equal. lra.
Qed.
Lemma ev_contribs t h0 h1 w a ya va : ev_ok t h1 -> core_eq (ev_world t h0 h1 128) w ->
  contribution_res w ev_A ya [Fin 0; Fin 0] = Ok va ->
  mapr (fun q => c <- oget (w_chans w) (fst q) ;; contribution_res w c (fst (snd q)) (snd (snd q)))
    (combine (0%nat :: seq 1 128) (combine (ya :: repeat [Fin a] 128) (ev_nuis (Fin 0)))) = Ok (va :: repeat (Fin a) 128).
Proof.
  intros OK C V. unfold ev_nuis. cbn [combine]. cbn [mapr fst snd]. rewrite (ce_chans _ _ C). change (oget (w_chans (ev_world t h0 h1 128)) 0) with (Ok ev_A).
  cbn [rbind]. rewrite V. cbn [rbind].
  assert (H : forall k j, (1 <= j)%nat -> (j + k <= 129)%nat ->
    mapr (fun q => c <- oget (w_chans (ev_world t h0 h1 128)) (fst q) ;; contribution_res w c (fst (snd q)) (snd (snd q)))
      (combine (seq j k) (combine (repeat [Fin a] k) (repeat [Fin 0] k))) = Ok (repeat (Fin a) k)).
  { induction k as [|k IH]; intros j B1 B2; [reflexivity|]. cbn [seq repeat combine mapr fst snd]. unfold oget at 1. rewrite (ev_chan t h0 h1 128 j) by lia. cbn [rbind].
    destruct (ev_value t h0 h1 w OK (ce_hists _ _ C) (ce_tmpls _ _ C) a 0 j) as (_ & _ & ->). cbn [rbind]. rewrite (IH (S j)) by lia. reflexivity. }
  rewrite (H 128%nat 1%nat) by lia. reflexivity.
Qed.
Lemma ev_total a n : forall s, fold_left xadd (repeat (Fin a) n) (Fin s) = Fin (s + INR n * a).
Proof.
  induction n as [|n IH]; intros s. { cbn. f_equal. lra. }
  rewrite S_INR. cbn [repeat fold_left xadd]. rewrite IH. f_equal. lra.
Qed.

Lemma ev_first_value t h0 h1 a b : ev_ok t h1 -> exists w2, nll (ev_x a b) (ev_world t h0 h1 128) = (w2, Ok (Fin (2 * a + 128 * a))) /\ core_eq (ev_world t h0 h1 128) w2 /\ coh w2.
Proof.
  intros OK. unfold nll. unfold bind at 1. rewrite ev_first. cbn [fst snd].
  set (w := ev_world t h0 h1 128). set (w1 := ev_w1 t h0 h1).
  assert (P : pureM w (chs <- gets (fun w => map snd (w_channels w)) ;;;
     contribs <- mapM (fun q => nll_contribution (fst q) (fst (snd q)) (snd (snd q))) (combine chs (combine ([Fin a] :: repeat [Fin a] 128) (ev_nuis (Fin 0)))) ;;;
     names <- gets w_cnames ;;; terms <- mapM (fun p => (fun w => (w, constraint_term w (ev_x a b) p))) names ;;; ret (fold_left xadd (contribs ++ terms) (Fin 0)))
    (contribs <- mapr (fun q => c <- oget (w_chans w) (fst q) ;; contribution_res w c (fst (snd q)) (snd (snd q)))
       (combine (map snd (w_channels w)) (combine ([Fin a] :: repeat [Fin a] 128) (ev_nuis (Fin 0)))) ;;
     terms <- mapr (constraint_term w (ev_x a b)) (w_cnames w) ;; Ok (fold_left xadd (contribs ++ terms) (Fin 0)))).
  { eapply pure_ext; [|eapply pure_bind; [apply (pure_gets w (fun w => map snd (w_channels w))); intros w' C; now rewrite (ce_channels _ _ C)|intros ids Hchs];
     eapply pure_bind; [apply pure_mapM; intros q _; apply pure_contribution|intros contribs Hc];
     eapply pure_bind; [apply (pure_gets w w_cnames); intros w' C; now rewrite (ce_cnames _ _ C)|intros names Hn];
     eapply pure_bind; [apply pure_mapM; intros p _; apply (pure_read w (fun w => constraint_term w (ev_x a b) p)); intros w' C; now apply core_constraint|intros terms Ht];
     apply pure_ret]. reflexivity. }
  destruct (P w1 (ev_core t h0 h1) (ev_coh t h0 h1)) as (w2 & E & C & H). exists w2. split; [|split; assumption]. rewrite E. f_equal.
  rewrite (ev_ids t h0 h1 128 : map snd (w_channels w) = _). rewrite (ev_contribs t h0 h1 w a [Fin a] (Fin (2 * a)) OK).
  - cbn [rbind]. change (w_cnames w) with (@nil string). cbn [mapr rbind]. rewrite app_nil_r. cbn [fold_left xadd]. rewrite ev_total. do 2 f_equal. rewrite INR_IZR_INZ. cbn. lra.
  - constructor; reflexivity.
  - now apply (ev_value t h0 h1 w OK eq_refl eq_refl a b 0%nat).
Qed.
Lemma ev_later_value t h0 h1 a b : ev_ok t h1 -> nll_res (ev_world t h0 h1 128) (ev_x a b) = Ok (Fin (a + b + 128 * a)).
Proof.
  intros OK. set (w := ev_world t h0 h1 128). unfold nll_res, per_channel_res. rewrite (ev_ids t h0 h1 128 : map snd (w_channels w) = _), (ev_num t h0 h1 : mct_num_nui w = _).
  change (w_procs w) with ["a"; "b"]. change (length ["a"; "b"]) with 2%nat. change (firstn 2 (ev_x a b)) with [Fin a; Fin b]. rewrite ev_slice.
  rewrite (ev_sizes t h0 h1 128 : map ch_num_nui (mct_chans w) = _), ev_split.
  assert (Y : mapr (fun cid => idx <- (c <- oget (w_chans w) cid ;; pi_res ["a"; "b"] c) ;; np_take [Fin a; Fin b] idx) (0%nat :: seq 1 128) = Ok ([Fin a; Fin b] :: repeat [Fin a] 128)).
  { cbn [mapr]. change (idx <- (c <- oget (w_chans w) 0 ;; pi_res ["a"; "b"] c) ;; np_take [Fin a; Fin b] idx) with (Ok [Fin a; Fin b]). cbn [rbind].
    assert (H : forall k j, (1 <= j)%nat -> (j + k <= 129)%nat ->
      mapr (fun cid => idx <- (c <- oget (w_chans w) cid ;; pi_res ["a"; "b"] c) ;; np_take [Fin a; Fin b] idx) (seq j k) = Ok (repeat [Fin a] k)).
    { induction k as [|k IH]; intros j B1 B2; [reflexivity|]. cbn [seq repeat mapr]. unfold oget at 1. unfold w at 1. rewrite (ev_chan t h0 h1 128 j) by lia. cbn [rbind].
      change (pi_res ["a"; "b"] (ev_c j)) with (@Ok (list nat) [0%nat]). cbn [rbind]. change (np_take [Fin a; Fin b] [0%nat]) with (Ok [Fin a]). cbn [rbind].
      rewrite (IH (S j)) by lia. reflexivity. }
    rewrite (H 128%nat 1%nat) by lia. reflexivity. }
  rewrite Y. cbn [rbind fst snd]. rewrite (ev_contribs t h0 h1 w a [Fin a; Fin b] (Fin (a + b)) OK).
  - cbn [rbind]. change (w_cnames w) with (@nil string). cbn [mapr rbind]. rewrite app_nil_r. cbn [fold_left xadd]. rewrite ev_total. do 2 f_equal. rewrite INR_IZR_INZ. cbn. lra.
  - constructor; reflexivity.
  - now apply (ev_value t h0 h1 w OK eq_refl eq_refl a b 0%nat).
Qed.
Theorem C39_evicted_refuted : forall inv, exists l x, let w := reached inv l in
  snd (nll x w) = Ok (Fin 130) /\ snd (nll x (fst (nll x w))) = Ok (Fin 131).
Proof.
  intros inv. exists (ev_ops 128), (ev_x 1 2). cbv zeta. destruct (ev_reached inv) as (t & h0 & h1 & OK & E). rewrite E.
  destruct (ev_first_value t h0 h1 1 2 OK) as (w2 & N & C & H). rewrite N. cbn [fst snd]. split; [do 2 f_equal; lra|].
  destruct (pure_nll _ (ev_x 1 2) w2 C H) as (w3 & N2 & _). rewrite N2. cbn [snd]. rewrite (ev_later_value t h0 h1 1 2 OK). do 2 f_equal. lra.
Qed.
Print Assumptions C39_evicted_refuted.

(** ** C48: the fit's own evaluations evict the stale entry, so that its update_parameters works, while the same call
    in the state before the fit raises *)
Definition ev_ext : ext := mk_ext (fun _ => Stop (Err RuntimeError))
  (fun _ _ _ => Ask (ev_x 1 2) (fun v => match v with Ok f => Stop (Ok (mk_oout true (ev_x 1 2) f)) | Err e => Stop (Err e) end))
  (fun _ => Stop (Err RuntimeError)) (fun _ => Err LinAlgError).
Lemma ev_before t h0 h1 : snd (update_parameters (ev_x 1 2) (ev_world t h0 h1 128)) = Err ValueError.
Proof.
  unfold update_parameters. unfold bind at 1. rewrite ev_first. unfold gets. unfold bind at 1.
  rewrite (ev_ids t h0 h1 128 : map snd (w_channels (ev_w1 t h0 h1)) = _). unfold ev_nuis. reflexivity.
Qed.
Lemma ev_x0 t h0 h1 n : exists x, nll_x0 (ev_world t h0 h1 n) = Ok x.
Proof.
  unfold nll_x0, nui_params, nui_blocks. rewrite ev_mct. cbn [flat_map map app c_tmpls ev_A snd]. eexists. reflexivity.
Qed.
Lemma freached_ops inv a b : freached inv (map FOp a ++ b) = frun inv b (mk_fstate (reached inv a) [] []).
Proof. unfold freached. rewrite frun_app, frun_ops. reflexivity. Qed.
Definition ev_fitter : fitter := mk_fitter "scipy" [] [] false.
Lemma ev_state inv a : freached inv (map FOp a ++ [FNew "scipy"]) = mk_fstate (reached inv a) [] [ev_fitter].
Proof. rewrite freached_ops. reflexivity. Qed.
Lemma ev_xlen a b : length (ev_x a b) = 132%nat. Proof. unfold ev_x. cbn [length]. rewrite repeat_length. reflexivity. Qed.
Lemma ev_do_fit w w2 w3 x v : nll_x0 w = Ok x -> length (param_names w) = length (ev_x 1 2) -> nll (ev_x 1 2) w = (w2, Ok v) ->
  update_parameters (ev_x 1 2) w2 = (w3, Ok tt) ->
  exists p, p_values p = ev_x 1 2 /\ do_fit ev_ext 0 true false false None (mk_fstate w [] [ev_fitter]) = (mk_fstate w3 [p] [ev_fitter], Ok (mk_mresult v 0 true)).
Proof.
  unfold ev_ext. generalize (ev_x 1 2). intros y X N1 NV U.
  set (st := mk_mstate (pars_new (param_names w)) (min_new Scipy (param_names w) 0)).
  set (E := mk_ext _ _ _ _).
  assert (PL : exists m', play nll (minimize E x false st) w =
    (w2, (mk_mstate (mk_pars (param_names w) y (p_errors (ms_p st)) (p_cov (ms_p st)) (p_corr (ms_p st))) m', Ok (mk_mresult v 0 true)))).
  { eexists. unfold minimize, mbind at 1, mget at 1. cbn [pbind]. change (m_fixed (ms_m st)) with (Indices []). cbv iota.
    unfold minimize_scipy, mbind at 1, mget at 1. cbn [pbind]. unfold mbind at 1, mplay at 1. cbn [ex_slsqp E pbind play]. rewrite NV. cbn [fst snd pbind play].
    unfold mbind at 1. cbn [oo_success mset_success pbind]. unfold mbind at 1, mpars, set_values. cbn [oo_x ms_p]. unfold num_pars at 1.
    change (p_names (ms_p st)) with (param_names w). rewrite N1, Nat.eqb_refl. cbn [pbind play]. reflexivity. }
  destruct PL as (m' & PL). rewrite (do_fit_form E 0 true false false None w [] [ev_fitter] ev_fitter Scipy eq_refl eq_refl). cbv zeta.
  change (configure ev_fitter w false None (min_new Scipy (param_names w) (length (@nil pars)))) with (Ok (min_new Scipy (param_names w) 0)). cbv iota.
  rewrite X. fold st. unfold finish. rewrite PL. cbn [fst snd ms_p p_values]. rewrite U. eexists. split; [|reflexivity]. reflexivity.
Qed.
Lemma ev_update t h0 h1 w2 : WF (ev_world t h0 h1 128) -> core_eq (ev_world t h0 h1 128) w2 -> coh w2 -> length (ev_x 1 2) = num_params (ev_world t h0 h1 128) ->
  exists w3, update_parameters (ev_x 1 2) w2 = (w3, Ok tt).
Proof.
  set (w := ev_world t h0 h1 128). intros W C H L.
  assert (NC : w_channels w2 <> []). { rewrite (ce_channels _ _ C). discriminate. }
  assert (W2 : WF w2) by (eapply wf_core; eauto).
  assert (A2 : all_have_templates w2).
  { intros j nm c (cid & Q1 & Q2). rewrite (ce_chans _ _ C) in Q2. apply nth_error_In in Q2. cbn [w ev_world w_chans] in Q2.
    destruct Q2 as [<-|Q2]; [discriminate|]. apply in_map_iff in Q2 as (k & <- & _). discriminate. }
  assert (L2 : length (ev_x 1 2) = num_params w2).
  { rewrite L. unfold num_params, nui_offset. rewrite (ce_procs _ _ C), (ce_channels _ _ C), (ce_chans _ _ C). reflexivity. }
  destruct (update_spec w2 (ev_x 1 2) W2 (coh_weaken _ H) NC A2 L2) as (w3 & ys & ns & _ & _ & U). eexists. exact U.
Qed.
Theorem C48_evicted_refuted : forall inv, inv_spec inv -> exists l E s' r p, let s := freached inv l in
  do_fit E 0 true false false None s = (s', Ok r) /\ nth_error (fs_pars s') (r_params r) = Some p /\
  snd (update_parameters (p_values p) (fs_w s)) = Err ValueError.
Proof.
  intros inv I. exists (map FOp (ev_ops 128) ++ [FNew "scipy"]), ev_ext.
  destruct (ev_reached inv) as (t & h0 & h1 & OK & E).
  pose proof (ev_state inv (ev_ops 128)) as S. rewrite E in S.
  pose proof (reached_wf inv (ev_ops 128) I) as W. rewrite E in W.
  pose proof (names_length inv (map FOp (ev_ops 128) ++ [FNew "scipy"]) I) as N. rewrite S in N. cbn [fs_w] in N. destruct N as (N1 & N2).
  rewrite ev_num in N1. cbn [ev_world w_procs length] in N1.
  destruct (ev_first_value t h0 h1 1 2 OK) as (w2 & NV & C & H).
  destruct (ev_update t h0 h1 w2 W C H) as (w3 & U). { rewrite ev_xlen, <- N2, N1. reflexivity. }
  destruct (ev_x0 t h0 h1 128) as (x & X).
  destruct (ev_do_fit _ w2 w3 x _ X (eq_trans N1 (eq_sym (ev_xlen 1 2))) NV U) as (p & PV & D).
  exists (mk_fstate w3 [p] [ev_fitter]), (mk_mresult (Fin (2 * 1 + 128 * 1)) 0 true), p. cbv zeta. rewrite S. split; [exact D|]. split; [reflexivity|].
  rewrite PV. cbn [fs_w]. apply ev_before.
Qed.
Print Assumptions C48_evicted_refuted.
