(** Storing parameters in templates *)
From Coq Require Import Reals String Ascii ZArith Bool Arith List Lra Lia.
From Verif Require Import Model_Num Model_Hist Model_Utility Model_Template Model_World Model_Ops
  Spec_Matrix Spec_World Proof_Hist Proof_Matrix Proof_Template Proof_HistHeap Proof_Monad Proof_World Proof_Eval Proof_Route Proof_Names.
Import ListNotations.
Local Open Scope R_scope.

(** ** Sequences of assignments to template parameters *)
Definition assign1 (ts : list tmpl) (a : nat * list xr) : list tmpl :=
  match nth_error ts (fst a) with Some t => upd (fst a) (set_params t (snd a)) ts | None => ts end.
Definition assigns (ts : list tmpl) (L : list (nat * list xr)) : list tmpl := fold_left assign1 L ts.

(** template number tid has nb bins and a parameter vector of the right length *)
Definition tv (ts : list tmpl) (tid nb : nat) : Prop :=
  exists t, nth_error ts tid = Some t /\ length (t_params t) = S nb /\ t_nb t = nb.
Lemma tv_assign1 ts a tid nb nb' : tv ts tid nb -> tv ts (fst a) nb' -> length (snd a) = S nb' -> tv (assign1 ts a) tid nb.
Proof.
  intros (t & T & L & N) (t' & T' & L' & N') LA. unfold assign1. rewrite T'. destruct (Nat.eq_dec (fst a) tid) as [E|E].
  - subst tid. exists (set_params t' (snd a)). rewrite upd_same by (apply nth_error_Some; congruence). simpl.
    assert (t' = t) by congruence. subst. repeat split; congruence.
  - exists t. rewrite upd_other; auto.
Qed.
Lemma assign1_other ts a tid : fst a <> tid -> nth_error (assign1 ts a) tid = nth_error ts tid.
Proof. intros H. unfold assign1. destruct (nth_error ts (fst a)); auto. now apply upd_other. Qed.
Lemma assigns_other ts L tid : ~ In tid (map fst L) -> nth_error (assigns ts L) tid = nth_error ts tid.
Proof.
  revert ts. induction L as [|a L IH]; intros ts H; auto. simpl in *. unfold assigns in *. simpl. rewrite IH by tauto.
  apply assign1_other. tauto.
Qed.
Lemma assigns_in ts L tid ps t : NoDup (map fst L) -> In (tid, ps) L -> nth_error ts tid = Some t ->
  nth_error (assigns ts L) tid = Some (set_params t ps).
Proof.
  revert ts. induction L as [|a L IH]; simpl; intros ts N I T; [destruct I|]. inversion N as [|? ? NI ND]; subst.
  destruct I as [->|I].
  - simpl in *. unfold assigns. simpl. fold (assigns (assign1 ts (tid, ps)) L). rewrite assigns_other by auto.
    unfold assign1. simpl. rewrite T. apply upd_same. apply nth_error_Some. congruence.
  - unfold assigns. simpl. apply IH; auto. rewrite assign1_other; auto. intros E. apply NI. rewrite E. now apply (in_map fst) in I.
Qed.
Lemma assigns_app ts L L' : assigns ts (L ++ L') = assigns (assigns ts L) L'.
Proof. apply fold_left_app. Qed.
Lemma tv_assigns ts L nbf tid nb : (forall a, In a L -> tv ts (fst a) (nbf a) /\ length (snd a) = S (nbf a)) -> tv ts tid nb -> tv (assigns ts L) tid nb.
Proof.
  revert ts. induction L as [|a L IH]; intros ts H T; auto. unfold assigns. simpl. apply IH.
  - intros b B. destruct (H b (or_intror B)) as [H1 H2]. destruct (H a (or_introl eq_refl)) as [H3 H4]. split; auto.
    eapply tv_assign1; eauto.
  - destruct (H a (or_introl eq_refl)). eapply tv_assign1; eauto.
Qed.

Lemma set_tmpls_twice w a b : set_tmpls (set_tmpls w a) b = set_tmpls w b. Proof. reflexivity. Qed.
Lemma upd_upd {A} i (a b : A) l : upd i b (upd i a l) = upd i b l.
Proof. revert i; induction l; intros [|i]; simpl; auto. now rewrite IHl. Qed.

(** one step of Channel.update_parameters *)
Definition ustep (q : ((nat * R) * list xr) * list xr) : M unit :=
  let '(((tid, eff), y), n) := q in
  _ <- on_tmpl tid (fun t => yield_setter t (VArr (map (fun v => xmul v (Fin eff)) y))) ;;;
  on_tmpl tid (fun t => nui_setter t (VArr n)).
Definition uassign (q : ((nat * R) * list xr) * list xr) : nat * list xr :=
  let '(((tid, eff), y), n) := q in (tid, xmul (hd NaN y) (Fin eff) :: n).
Lemma ustep_assign w tid eff y n nb : tv (w_tmpls w) tid nb -> length y = 1%nat -> length n = nb ->
  ustep (((tid, eff), y), n) w = (set_tmpls w (assign1 (w_tmpls w) (uassign (((tid, eff), y), n))), Ok tt).
Proof.
  intros (t & T & L & N) Y NL. destruct y as [|y0 [|]]; try discriminate. unfold ustep, uassign, assign1. simpl fst. simpl snd. rewrite T.
  unfold bind, on_tmpl at 1. rewrite T. simpl. destruct (t_params t) as [|p ps] eqn:P; [simpl in L; lia|].
  unfold on_tmpl. simpl. rewrite upd_same by (apply nth_error_Some; congruence). simpl.
  rewrite NL, N, Nat.eqb_refl. simpl. unfold set_tmpls at 1. simpl. rewrite upd_upd. reflexivity.
Qed.
Lemma forM_ustep L nbf : forall w, (forall q, In q L -> tv (w_tmpls w) (fst (fst (fst q))) (nbf q) /\ length (snd (fst q)) = 1%nat /\ length (snd q) = nbf q) ->
  forM ustep L w = (set_tmpls w (assigns (w_tmpls w) (map uassign L)), Ok tt).
Proof.
  induction L as [|q L IH]; intros w H.
  - simpl. unfold ret, assigns. simpl. destruct w; reflexivity.
  - simpl. unfold bind. destruct (H q (or_introl eq_refl)) as (H1 & H2 & H3). destruct q as [[[tid eff] y] n]. simpl in H1, H2, H3.
    rewrite (ustep_assign w tid eff y n _ H1 H2 H3). rewrite IH; [reflexivity|].
    intros q Q. destruct (H q (or_intror Q)) as (A & B & C). split; auto. simpl. eapply tv_assign1; eauto. simpl. congruence.
Qed.

(** the assignments of one channel *)
Definition ch_assign (c : chan) (y nui : list xr) : list (nat * list xr) :=
  map uassign (combine (combine (combine (map snd (c_tmpls c)) (map snd (c_effs c))) (blocks (repeat 1%nat (length (c_tmpls c))) y))
                       (blocks (repeat (bins_of c) (length (c_tmpls c))) nui)).

Lemma in_combine_nth {A B} (a : list A) (b : list B) x y : In (x, y) (combine a b) -> exists i, nth_error a i = Some x /\ nth_error b i = Some y.
Proof.
  revert b; induction a as [|a0 a IH]; intros [|b0 b]; simpl; try tauto. intros [H|H].
  - exists O. simpl. split; congruence. - destruct (IH _ H) as (i & ? & ?). exists (S i). auto.
Qed.
Lemma nth_combine {A B} (a : list A) (b : list B) i x y : nth_error a i = Some x -> nth_error b i = Some y -> nth_error (combine a b) i = Some (x, y).
Proof. revert b i; induction a as [|a0 a IH]; intros [|b0 b] [|i]; simpl; try discriminate; auto. congruence. Qed.

Lemma ch_update_spec w cid c y nui nbt : nth_error (w_chans w) cid = Some c -> num_templates c = length (c_tmpls c) -> c_tmpls c <> [] ->
  nbt = bins_of c -> (forall p tid, In (p, tid) (c_tmpls c) -> tv (w_tmpls w) tid nbt) ->
  length y = length (c_tmpls c) -> length nui = (length (c_tmpls c) * bins_of c)%nat ->
  ch_update_parameters cid y nui w = (set_tmpls w (assigns (w_tmpls w) (ch_assign c y nui)), Ok tt).
Proof.
  intros C NT NE -> TV LY LN. unfold ch_update_parameters, bind at 1, get_chan. rewrite C. rewrite NT.
  assert (K : length (c_tmpls c) <> O) by (destruct (c_tmpls c); [congruence|discriminate]).
  rewrite (split_n_blocks _ 1 y K) by lia. rewrite (split_n_blocks _ (bins_of c) nui K) by lia.
  unfold bind, lift. unfold ch_assign. apply (forM_ustep _ (fun _ => bins_of c)).
  intros [[[tid eff] yy] nn] Q. simpl. apply in_combine_nth in Q as (k & Q & Qn). 
  assert (kl : (k < length (c_tmpls c))%nat). { rewrite <- (repeat_length (bins_of c)), <- (blocks_length (repeat (bins_of c) (length (c_tmpls c))) nui). apply nth_error_Some. congruence. }
  apply nth_error_In in Q as Q'. apply in_combine_nth in Q' as (k' & Q1 & Qy).
  assert (kl' : (k' < length (c_tmpls c))%nat). { rewrite <- (repeat_length 1%nat), <- (blocks_length (repeat 1%nat (length (c_tmpls c))) y). apply nth_error_Some. congruence. }
  apply nth_error_In in Q1. apply in_combine_l in Q1. apply in_map_iff in Q1 as ([p tid'] & E & I). simpl in E. subst tid'.
  split; [eapply TV; eauto|]. rewrite blocks_repeat_nth in Qn, Qy by auto. split.
  - assert (X : yy = firstn 1 (skipn (k' * 1) y)) by congruence. rewrite X, firstn_length, skipn_length. lia.
  - assert (X : nn = firstn (bins_of c) (skipn (k * bins_of c) nui)) by congruence. rewrite X, firstn_length, skipn_length. nia.
Qed.

(** contents of the assignments of a channel *)
Lemma ch_assign_fst c y nui : length (c_effs c) = length (c_tmpls c) -> map fst (ch_assign c y nui) = map snd (c_tmpls c).
Proof.
  intros H. unfold ch_assign. rewrite map_map.
  assert (X : forall (a : list nat) (e : list R) (b b' : list (list xr)), length e = length a -> length b = length a -> length b' = length a ->
     map (fun x => fst (uassign x)) (combine (combine (combine a e) b) b') = a).
  { induction a; intros [|? ?] [|? ?] [|? ?]; simpl; intros; try discriminate; auto. f_equal. apply IHa; congruence. }
  apply X; rewrite ?map_length, ?blocks_length, ?repeat_length; auto.
Qed.
Lemma ch_assign_in c y nui k p tid eff y0 : nth_error (c_tmpls c) k = Some (p, tid) -> nth_error (c_effs c) k = Some (p, eff) ->
  nth_error y k = Some y0 ->
  In (tid, xmul y0 (Fin eff) :: firstn (bins_of c) (skipn (k * bins_of c) nui)) (ch_assign c y nui).
Proof.
  intros H E Y. unfold ch_assign. apply in_map_iff.
  assert (kl : (k < length (c_tmpls c))%nat) by (apply nth_error_Some; congruence).
  exists (((tid, eff), [y0]), firstn (bins_of c) (skipn (k * bins_of c) nui)). split; [reflexivity|].
  apply (nth_error_In _ k). apply nth_combine; [apply nth_combine; [apply nth_combine|]|].
  - apply (map_nth_error snd) in H. exact H.
  - apply (map_nth_error snd) in E. exact E.
  - rewrite blocks_repeat_nth by auto. f_equal. rewrite Nat.mul_1_r. 
    assert (X : nth_error (skipn k y) 0 = Some y0) by (rewrite nth_skipn, Nat.add_0_r; auto).
    destruct (skipn k y); simpl in *; congruence.
  - now apply blocks_repeat_nth.
Qed.

Lemma NoDup_concat {A} (ls : list (list A)) :
  (forall i i' k k' l l' a, nth_error ls i = Some l -> nth_error ls i' = Some l' -> nth_error l k = Some a -> nth_error l' k' = Some a -> i = i' /\ k = k') ->
  NoDup (concat ls).
Proof.
  induction ls as [|l ls IH]; simpl; intros H; [constructor|].
  assert (NL : NoDup l).
  { apply NoDup_nth_error. intros k k' K E. destruct (nth_error l k) as [a|] eqn:A1; [|apply nth_error_Some in K; congruence].
    apply (H O O k k' l l a); auto. }
  assert (D : forall x, In x l -> ~ In x (concat ls)).
  { intros x X Y. apply in_concat in Y as (l' & L' & Y). apply In_nth_error in X as (k & X), Y as (k' & Y), L' as (i & L').
    destruct (H O (S i) k k' l l' x); auto. discriminate. }
  assert (NC : NoDup (concat ls)). { apply IH. intros i i' k k' l1 l2 a A1 A2 A3 A4. destruct (H (S i) (S i') k k' l1 l2 a); auto. }
  clear -NL D NC. induction l as [|a l IH]; simpl; auto. inversion NL; subst. constructor.
  - intros I. apply in_app_or in I as [I|I]; auto. apply (D a); auto. left; auto.
  - apply IH; auto. intros x X. apply D. right; auto.
Qed.

Lemma dget_nth {V} (d : list (string * V)) k p v : NoDup (keys d) -> nth_error d k = Some (p, v) -> dget String.eqb d p = Some v.
Proof. intros N H. apply In_dget; auto. eapply nth_error_In; eauto. Qed.
Lemma effs_nth hs ts ps c k p tid : chan_ok hs ts ps c -> nth_error (c_tmpls c) k = Some (p, tid) -> exists eff, nth_error (c_effs c) k = Some (p, eff).
Proof.
  intros O H. assert (K : nth_error (keys (c_effs c)) k = Some p).
  { rewrite (co_ekeys _ _ _ _ O), <- (co_keys _ _ _ _ O). apply (map_nth_error fst) in H. exact H. }
  destruct (nth_error (c_effs c) k) as [[p' e]|] eqn:E.
  - apply (map_nth_error fst) in E. unfold keys in K. rewrite K in E. simpl in E. exists e. congruence.
  - apply nth_error_None in E. assert (k < length (keys (c_effs c)))%nat by (apply nth_error_Some; congruence). unfold keys in H0. rewrite map_length in H0. lia.
Qed.

(** ** update_parameters *)
Definition all_assigns (w : world) (ys ns : list (list xr)) : list (nat * list xr) :=
  concat (map (fun q => ch_assign (fst q) (fst (snd q)) (snd (snd q))) (combine (mct_chans w) (combine ys ns))).

Lemma wf_tv w i n c p tid : WF w -> channel_at w i n c -> In (p, tid) (c_tmpls c) -> tv (w_tmpls w) tid (bins_of c).
Proof.
  intros W H I. apply In_nth_error in I as (k & K). destruct (template_at_ok w i n c k p tid W H K) as (t & (_ & T) & T3 & T4 & _).
  exists t. rewrite <- T4. repeat split; auto. apply (to_params _ _ T3).
Qed.

Lemma forM_channels w : WF w -> forall chs cs ys ns w1,
  Forall2 (fun nc c => nth_error (w_chans w) (snd nc) = Some c) chs cs -> incl chs (w_channels w) ->
  core_eq w (set_tmpls w1 (w_tmpls w)) ->
  (forall tid nb, tv (w_tmpls w) tid nb -> tv (w_tmpls w1) tid nb) ->
  Forall2 (fun c y => length y = length (c_tmpls c)) cs ys -> Forall2 (fun c n => length n = (length (c_tmpls c) * bins_of c)%nat) cs ns ->
  (forall c, In c cs -> c_tmpls c <> []) ->
  forM (fun q => ch_update_parameters (fst q) (fst (snd q)) (snd (snd q))) (combine (map snd chs) (combine ys ns)) w1 =
  (set_tmpls w1 (assigns (w_tmpls w1) (concat (map (fun q => ch_assign (fst q) (fst (snd q)) (snd (snd q))) (combine cs (combine ys ns))))), Ok tt).
Proof.
  intros W chs cs ys ns w1 F. revert ys ns w1. induction F as [|[n cid] c chs cs H1 H2 IH]; intros ys ns w1 I CE TV FY FN NE.
  - simpl. unfold ret, assigns. simpl. destruct w1; reflexivity.
  - inversion FY as [|? y ? ys' LY FY']; subst. inversion FN as [|? nu ? ns' LN FN']; subst. simpl in H1.
    assert (J : In (n, cid) (w_channels w)) by (apply I; left; auto). apply In_nth_error in J as (i & J).
    assert (CA : channel_at w i n c) by (exists cid; auto).
    pose proof (chan_ok_at w i n c W CA) as O.
    assert (C1 : nth_error (w_chans w1) cid = Some c) by (pose proof (ce_chans _ _ CE) as E; simpl in E; now rewrite E).
    simpl. unfold bind. rewrite (ch_update_spec w1 cid c y nu (bins_of c)); auto.
    + rewrite IH; auto.
      * simpl. rewrite assigns_app. reflexivity.
      * intros x X. apply I. right; auto.
      * intros tid nb T. simpl. apply (tv_assigns _ _ (fun _ => bins_of c)); auto.
        intros a A. split.
        -- assert (X : In (fst a) (map snd (c_tmpls c))) by (rewrite <- (ch_assign_fst c y nu (effs_length _ _ _ _ O)); now apply in_map).
           apply in_map_iff in X as ([p tid'] & E & X). simpl in E. rewrite <- E. apply TV. eapply wf_tv; eauto.
        -- unfold ch_assign in A. apply in_map_iff in A as ([[[t0 e0] y0] n0] & E & A). subst a. simpl.
           apply in_combine_nth in A as (k & _ & A). 
           assert (kl : (k < length (c_tmpls c))%nat). { rewrite <- (repeat_length (bins_of c)), <- (blocks_length (repeat (bins_of c) (length (c_tmpls c))) nu). apply nth_error_Some. congruence. }
           rewrite blocks_repeat_nth in A by auto. assert (X : n0 = firstn (bins_of c) (skipn (k * bins_of c) nu)) by congruence. rewrite X, firstn_length, skipn_length. nia.
      * intros c' C'. apply NE. right; auto.
    + symmetry. apply (tmpls_procs _ _ _ _ O).
    + apply NE. left; auto.
    + intros p tid P. apply TV. eapply wf_tv; eauto.
Qed.

Lemma pi_value_lengths w x : WF w -> w_channels w <> [] -> length x = num_params w ->
  exists ys ns, per_channel_res w x = Ok (ys, ns) /\
    Forall2 (fun c y => (idx <- pi_res (w_procs w) c ;; np_take (firstn (length (w_procs w)) x) idx) = Ok y) (mct_chans w) ys /\
    ns = blocks (map ch_num_nui (mct_chans w)) (skipn (length (w_procs w)) x) /\
    Forall2 (fun c y => length y = length (c_tmpls c)) (mct_chans w) ys /\
    Forall2 (fun c n => length n = (length (c_tmpls c) * bins_of c)%nat) (mct_chans w) ns.
Proof.
  intros W NE L. destruct (per_channel_value w x W NE L) as (ys & ns & E & F & B). exists ys, ns. repeat split; auto.
  - assert (X : forall cs ys, incl cs (mct_chans w) -> Forall2 (fun c y => (idx <- pi_res (w_procs w) c ;; np_take (firstn (length (w_procs w)) x) idx) = Ok y) cs ys ->
       Forall2 (fun c y => length y = length (c_tmpls c)) cs ys).
    { intros cs ys0 I G. induction G as [|c y cs ys0 G1 G2 IH]; constructor.
      - destruct (take_yields w c x W (I c (or_introl eq_refl))) as (y' & Y1 & Y2 & _); [unfold num_params in L; lia|]. congruence.
      - apply IH. intros a A. apply I. right; auto. }
    apply X; auto. apply incl_refl.
  - subst ns. assert (LS : length (skipn (length (w_procs w)) x) = list_sum (map ch_num_nui (mct_chans w))).
    { rewrite skipn_length, L. unfold num_params. rewrite <- (nui_total w W). unfold mct_num_nui. lia. }
    revert LS. generalize (skipn (length (w_procs w)) x) as l0.
    assert (X : forall cs, incl cs (mct_chans w) -> forall l0 : list xr, length l0 = list_sum (map ch_num_nui cs) ->
       Forall2 (fun c (n : list xr) => length n = (length (c_tmpls c) * bins_of c)%nat) cs (blocks (map ch_num_nui cs) l0)).
    { induction cs as [|c cs IH]; intros I l0 H; simpl; constructor.
      - rewrite firstn_length_le by (simpl in H; lia). eapply num_nui_spec, chan_ok_in; eauto. apply I. left; auto.
      - apply IH; [intros a A; apply I; right; auto|]. rewrite skipn_length. simpl in H. lia. }
    apply X, incl_refl.
Qed.

Theorem update_spec w x : WF w -> cohG false w -> w_channels w <> [] -> all_have_templates w -> length x = num_params w ->
  exists w1 ys ns, core_eq w w1 /\ per_channel_res w x = Ok (ys, ns) /\
    update_parameters x w = (set_tmpls w1 (assigns (w_tmpls w) (all_assigns w ys ns)), Ok tt).
Proof.
  intros W CO NE AT L. destruct (pi_value_lengths w x W NE L) as (ys & ns & E & F & B & FY & FN).
  unfold update_parameters, bind at 1. destruct (pure_per_channel w x w (po_refl _ core_po w) CO) as (w1 & E1 & C1 & _).
  rewrite E1, E. exists w1, ys, ns. repeat split; try apply C1. unfold bind at 1, gets. simpl fst. simpl snd.
  rewrite (ce_channels _ _ C1). rewrite <- (ce_tmpls _ _ C1) at 1. apply (forM_channels w W); auto.
  - apply chans_forall2; auto. - apply incl_refl.
  - destruct C1. constructor; auto.
  - intros tid nb. now rewrite (ce_tmpls _ _ C1).
  - intros c C. apply In_nth_error in C as (i & C). apply (chans_channel_at w i c W) in C as (n & C). eapply AT; eauto.
Qed.
