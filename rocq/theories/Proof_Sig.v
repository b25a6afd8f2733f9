(** Proofs about TemplateFitter.get_significance. *)
From Coq Require Import Reals String ZArith Bool Arith List Lra Lia.
From Verif Require Import Model_Num Model_Hist Model_Utility Model_Template Model_World Model_Ops Model_Minimizer Model_Fitter
  Spec_Matrix Spec_Min Spec_World Spec_Fit Spec_Stale Proof_HistHeap Proof_Eval Proof_Route Proof_Monad Proof_World Proof_Names Proof_Yield Proof_Update Proof_Valid Proof_Min Proof_Fit Proof_Fit2 Proof_Fit3 Proof_Fit4 Proof_Pool Proof_Profile.
Import ListNotations.
Local Open Scope R_scope.

(** ** set_yield changes parameters of templates only *)
Lemma op_po : preorder only_params.
Proof.
  split.
  - intros w. repeat split. intros tid t H. exists (t_params t). now rewrite <- set_params_id.
  - intros a b c (A1 & A2 & A3 & A4 & A5 & A6 & A7 & A8 & A9) (B1 & B2 & B3 & B4 & B5 & B6 & B7 & B8 & B9). repeat split; try congruence.
    intros tid t H. destruct (A9 _ _ H) as (ps & H1). destruct (B9 _ _ H1) as (ps' & H2). exists ps'. exact H2.
Qed.
Lemma op_on_tmpl {A} i (f : tmpl -> tmpl * res A) : (forall t, exists ps, fst (f t) = set_params t ps) -> pres only_params (on_tmpl i f).
Proof.
  intros H w. unfold on_tmpl. destruct (nth_error (w_tmpls w) i) as [t|] eqn:E; [|apply op_po]. destruct (H t) as (ps & P). destruct (f t) as [t1 r]. simpl in *. subst t1.
  repeat split; simpl; auto; [apply upd_length|]. intros tid t' T. destruct (Nat.eq_dec i tid) as [<-|N].
  - exists ps. rewrite upd_same by (apply nth_error_Some; congruence). congruence.
  - exists (t_params t'). rewrite upd_other, <- set_params_id by auto. exact T.
Qed.
Lemma op_set_yield p v : pres only_params (set_yield p v).
Proof.
  unfold set_yield. pres_tac op_po. destruct (smem p a); pres_tac op_po.
  destruct (dget String.eqb (c_tmpls a2) p); pres_tac op_po. destruct (dget String.eqb (c_effs a2) p); pres_tac op_po.
  apply op_on_tmpl. apply ppar_yield.
Qed.
Lemma op_lookup w w' i : only_params w w' -> match nth_error (w_tmpls w) i with None => nth_error (w_tmpls w') i = None | Some t => exists ps, nth_error (w_tmpls w') i = Some (set_params t ps) end.
Proof.
  intros (_ & _ & _ & _ & _ & _ & _ & L & H). destruct (nth_error (w_tmpls w) i) eqn:E; [apply H; exact E|]. apply nth_error_None. apply nth_error_None in E. lia.
Qed.
Lemma flat_map_ext' {A B} (f g : A -> list B) l : (forall a, f a = g a) -> flat_map f l = flat_map g l.
Proof. intros H. induction l; simpl; [reflexivity|]. now rewrite H, IHl. Qed.
Lemma op_names w w' : only_params w w' -> param_names w' = param_names w.
Proof.
  intros O. pose proof O as (_ & A2 & A3 & A4 & _). unfold param_names. rewrite A2, A3, A4. f_equal. apply flat_map_ext'. intros nc. destruct (nth_error (w_chans w) (snd nc)); [|reflexivity].
  apply flat_map_ext'. intros pt. pose proof (op_lookup w w' (snd pt) O) as L. destruct (nth_error (w_tmpls w) (snd pt)); [destruct L as (ps & ->); reflexivity|rewrite L; reflexivity].
Qed.
Lemma op_mct_chans w w' : only_params w w' -> mct_chans w' = mct_chans w.
Proof. intros (_ & A2 & A3 & _). unfold mct_chans. now rewrite A2, A3. Qed.
Lemma op_nui_ids w w' : only_params w w' -> nui_ids w' = nui_ids w.
Proof. intros O. unfold nui_ids, mct_num_nui. rewrite (op_mct_chans _ _ O). destruct O as (_ & _ & _ & -> & _). reflexivity. Qed.
Lemma op_nll w w' x : only_params w w' -> nll_res w' x = nll_res w x.
Proof.
  intros O. pose proof O as (A1 & A2 & A3 & A4 & A5 & A6 & A7 & _). unfold nll_res.
  assert (PC : per_channel_res w' x = per_channel_res w x) by (unfold per_channel_res, mct_num_nui; rewrite (op_mct_chans _ _ O), A2, A3, A4; reflexivity).
  rewrite PC, A2, A3.
  assert (G : forall i, (exists t ps, oget (w_tmpls w) i = Ok t /\ oget (w_tmpls w') i = Ok (set_params t ps)) \/ oget (w_tmpls w') i = oget (w_tmpls w) i /\ exists e, oget (w_tmpls w) i = Err e).
  { intros i. unfold oget. pose proof (op_lookup w w' i O) as L. destruct (nth_error (w_tmpls w) i) as [t|]; [destruct L as (ps & ->); left; eauto|rewrite L; right; eauto]. }
  destruct (per_channel_res w x) as [yn|e]; [|reflexivity]. cbn [rbind].
  assert (C : forall c y nu, contribution_res w' c y nu = contribution_res w c y nu).
  { intros c y nu. unfold contribution_res. rewrite A1. destruct (c_data c) as [hid|]; [|reflexivity]. destruct (oget (w_hists w) hid) as [h|]; [|reflexivity]. cbn [rbind].
    assert (EX : expected_res w' c y nu = expected_res w c y nu).
    { unfold expected_res, fractions_res. destruct (bcast xmul y (eff_vec c)); [|reflexivity]. cbn [rbind]. destruct (np_split_n nu (num_templates c)); [|reflexivity]. cbn [rbind]. f_equal.
      apply mapr_ext. intros q _. destruct (G (fst q)) as [(t & ps & -> & ->)|(-> & _)]; reflexivity. }
    assert (GR : gauss_res w' c nu = gauss_res w c nu).
    { unfold gauss_res. f_equal. unfold inv_res.
      assert (IV : forall l : list (string * nat), rmap (map t_inv) (mapr (fun p => oget (w_tmpls w') (snd p)) l) = rmap (map t_inv) (mapr (fun p => oget (w_tmpls w) (snd p)) l)).
      { induction l as [|p l IH]; [reflexivity|]. cbn [mapr]. destruct (G (snd p)) as [(t & ps & -> & ->)|(-> & e & ->)]; [|reflexivity]. cbn [rbind].
        destruct (mapr (fun p => oget (w_tmpls w') (snd p)) l), (mapr (fun p => oget (w_tmpls w) (snd p)) l); cbn [rmap rbind map set_params t_inv] in *; try discriminate; congruence. }
      specialize (IV (c_tmpls c)). destruct (mapr (fun p => oget (w_tmpls w') (snd p)) (c_tmpls c)) as [l1|e1], (mapr (fun p => oget (w_tmpls w) (snd p)) (c_tmpls c)) as [l2|e2]; cbn [rmap rbind] in *; try discriminate; [|congruence].
      injection IV as IV. destruct l1, l2; cbn [map] in *; try discriminate; [reflexivity|]. now rewrite IV. }
    rewrite EX, GR. reflexivity. }
  replace (mapr (constraint_term w' x) (w_cnames w')) with (mapr (constraint_term w x) (w_cnames w)).
  2:{ rewrite A5. apply mapr_ext. intros p _. unfold constraint_term. now rewrite A4, A6, A7. }
  rewrite (mapr_ext _ (fun q => c <- oget (w_chans w) (fst q) ;; contribution_res w c (fst (snd q)) (snd (snd q)))); [reflexivity|].
  intros q _. destruct (oget (w_chans w) (fst q)); [apply C|reflexivity].
Qed.

(** ** configuration *)
Lemma bound_all_ok names bs m m' : bound_all names m bs = Ok m' -> m' = calls names m (map cbounds bs).
Proof.
  intros H. assert (F : Forall (fun ib => exists k, resolves names (fst ib) k) bs).
  { revert m' H. unfold bound_all. induction bs as [|p bs IH] using rev_ind; intros m' H; [constructor|]. rewrite fold_left_app in H. simpl in H.
    destruct (fold_left _ bs (Ok m)) as [m1|e]; [|discriminate]. simpl in H. apply Forall_app. split; [eapply IH; reflexivity|]. constructor; [|constructor].
    unfold set_param_bounds in H. destruct (id_to_index names (fst p)) as [k|e] eqn:E; [|discriminate]. exists k. now apply resolve_iff. }
  rewrite Forall_forall in F. rewrite bound_all_calls in H by exact F. congruence.
Qed.
Lemma same_names w w' : same_objects w w' -> param_names w' = param_names w /\ nui_ids w' = nui_ids w.
Proof.
  intros (_ & A2 & A3 & A4 & A5 & _). unfold param_names, nui_ids, mct_num_nui, mct_chans. rewrite A2, A3, A4, A5. auto.
Qed.
Ltac minrun H :=
  let G := fresh "PL" in
  match type of H with minimize_from _ ?a _ _ (mk_fstate _ (?ps ++ [_]) _) = _ => rewrite min_from_last in H by assumption end; cbv zeta in H.
Lemma sig_ok E i p fn s s' z : get_significance E i p fn s = (s', Ok z) ->
  let w := fs_w s in let names := param_names w in
  exists f kind x p1 r1 k y w1, nth_error (fs_fitters s) i = Some f /\ minimizer_class (ft_id f) = Ok kind /\ nll_x0 w = Ok x /\
    (exists m, play nll (minimize E x true (mk_mstate (pars_new names) (calls names (min_new kind names (length (fs_pars s))) (requests w f fn)))) w = (w1, (mk_mstate p1 m, Ok r1))) /\
    resolves names (PStr (p ++ "_yield")) k /\ nth_error (p_values p1) k = Some y /\
    ((xltb y (Fin 0) = true /\ z = Fin 0 /\ fs_w s' = w1) \/
     (xltb y (Fin 0) = false /\ exists w2 x2 p2 r2, set_yield p 0 w1 = (w2, Ok tt) /\ nll_x0 w2 = Ok x2 /\
        (exists m, play nll (minimize E x2 true (mk_mstate (pars_new names) (calls names (min_new kind names (S (length (fs_pars s)))) (requests w f fn ++ [CFix (PStr (p ++ "_yield"))])))) w2 = (fs_w s', (mk_mstate p2 m, Ok r2))) /\
        z = xsqrt (xmul (Fin 2) (xsub (r_fcn_min r2) (r_fcn_min r1))))).
Proof.
  intros H w names. destruct s as [w0 ps fs]. cbn [fs_w fs_pars fs_fitters] in *. subst w. unfold get_significance in H.
  fok H. unfold get_fitter in G. cbn [fs_fitters] in G. destruct (nth_error fs i) as [f|]; [|discriminate]. injection G as <- <-.
  fok H. injection G as <- <-. fok H. injection G as <- <-. cbn [fs_w] in H. fold names in H.
  assert (CF : forall (m0 : minimizer) a1 a2 a3, (if fn then fix_all names m0 (nui_ids w0) else Ok m0) = Ok a1 -> fix_all names a1 (ft_fixed f) = Ok a2 -> bound_all names a2 (ft_bounds f) = Ok a3 -> a3 = calls names m0 (requests w0 f fn)).
  { intros m0 a1 a2 a3 X1 X2 X3. assert (a1 = calls names m0 (if fn then map CFix (nui_ids w0) else [])) by (destruct fn; [apply fix_all_ok in X1; exact X1|injection X1 as <-; reflexivity]).
    apply fix_all_ok in X2. apply bound_all_ok in X3. unfold requests. rewrite !calls_app. subst a3 a2 a1. reflexivity. }
  fok H. unfold new_minimizer in G. cbn [fs_w fs_pars fs_fitters] in G. destruct (minimizer_class (ft_id f)) as [kind|] eqn:MC; [|discriminate]. injection G as <- <-. fold names in H.
  fok H. unfold flift in G. injection G as <- G1. fok H. unfold flift in G. injection G as <- G2. fok H. unfold flift in G. injection G as <- G3.
  pose proof (CF _ _ _ _ G1 G2 G3) as CL. clear G1 G2 G3. 
  fok H. unfold x0 in G. cbn [fs_w] in G. injection G as <- NX. rename a2 into x.
  assert (MP : m_params a1 = length ps) by (rewrite CL, calls_params; reflexivity).
  fok H. rewrite min_from_last in G by exact MP. cbv zeta in G.
  destruct (play nll (minimize E x true (mk_mstate (pars_new names) a1)) w0) as (w1 & st & r) eqn:PL. cbn [fst snd] in G.
  pose proof (minimize_keep E x true _ _ _ _ _ _ _ PL) as (K1 & _). cbn [ms_p pars_new p_names] in K1.
  destruct r as [r|e]; cbn [rmap] in G; [|discriminate]. injection G as <- <-.
  pose proof (minimize_result nll _ _ _ _ _ _ _ _ PL) as RP. cbn [ms_m] in RP. cbn [fst snd] in H. destruct st as [p1 m1]. cbn [ms_p ms_m] in *.
  fok H. unfold get_pars in G. cbn [fs_pars] in G. rewrite RP, MP, nth_error_app2 in G by lia. rewrite Nat.sub_diag in G. cbn [nth_error] in G. injection G as <- <-.
  fok H. unfold flift in G. injection G as <- G. destruct a2 as (vv & ee). cbn [fst snd] in H.
  unfold getitem, param_id_to_index in G. rewrite K1 in G. destruct (id_to_index names (PStr (yield_name p))) as [k|] eqn:IK; [|discriminate]. cbn [rbind] in G. unfold at_ in G.
  destruct (nth_error (p_values p1) k) as [v0|] eqn:V; [|discriminate]. cbn [rbind] in G. destruct (nth_error (p_errors p1) k) as [e0|] eqn:EE; [|discriminate]. cbn [rbind] in G. injection G as -> ->.
  pose proof (proj1 (resolve_iff _ _ _) IK) as RS.
  exists f, kind, x, p1, r, k, vv, w1. split; [reflexivity|]. split; [exact MC|]. split; [exact NX|]. rewrite CL in PL. split; [exists m1; exact PL|]. split; [exact RS|]. split; [exact V|].
  destruct (xltb vv (Fin 0)) eqn:LT; [left; unfold fret in H; injection H as <- <-; auto|right]. split; [reflexivity|].
  pose proof (play_same (minimize E x true (mk_mstate (pars_new names) (calls names (min_new kind names (length ps)) (requests w0 f fn)))) w0) as S1. rewrite PL in S1. cbn [fst] in S1.
  destruct (same_names _ _ S1) as (N1 & _).
  fok H. unfold on_world in G. cbn [fs_w fs_pars fs_fitters] in G. destruct (set_yield p 0 w1) as (w2 & q) eqn:SY. injection G as <- ->. destruct a2.
  pose proof (op_set_yield p 0 w1) as O2. rewrite SY in O2. cbn [fst] in O2. pose proof (op_names _ _ O2) as N2. rewrite N1 in N2. fold names in N2.
  fok H. unfold new_minimizer in G. cbn [fs_w fs_pars fs_fitters] in G. rewrite MC in G. rewrite N2 in G. injection G as <- <-.
  fok H. unfold flift in G. injection G as <- G1. fok H. unfold flift in G. injection G as <- G2. fok H. unfold flift in G. injection G as <- G3.
  pose proof (CF _ _ _ _ G1 G2 G3) as CL2. clear G1 G2 G3.
  fok H. unfold flift in G. injection G as <- G1. apply fix_all_ok in G1. rewrite CL2, <- calls_app in G1. clear CL2.
  fok H. unfold x0 in G. cbn [fs_w] in G. injection G as <- NX2. rename a6 into x2.
  assert (MP2 : m_params a5 = length (ps ++ [p1])) by (rewrite G1, calls_params; reflexivity).
  fok H. rewrite min_from_last in G by exact MP2. cbv zeta in G.
  destruct (play nll (minimize E x2 true (mk_mstate (pars_new names) a5)) w2) as (w3 & st & r2) eqn:PL2. cbn [fst snd] in G.
  destruct r2 as [r2|e]; cbn [rmap] in G; [|discriminate]. injection G as <- <-. cbv zeta in H. unfold fret in H. injection H as <- <-. cbn [fs_w snd].
  destruct st as [p2 m2]. exists w2, x2, p2, r2. split; [reflexivity|]. split; [exact NX2|]. split; [|reflexivity]. exists m2. rewrite G1 in PL2. rewrite app_length, Nat.add_1_r in PL2. exact PL2.
Qed.

(** ** start values after set_yield *)
From Verif Require Import Prop_World Prop_Params.
Lemma nth_ext_eq {A} : forall l l' : list A, (forall j, nth_error l j = nth_error l' j) -> l = l'.
Proof.
  induction l as [|a l IH]; intros [|b l'] H; [reflexivity|specialize (H 0%nat); discriminate|specialize (H 0%nat); discriminate|].
  f_equal; [specialize (H 0%nat); simpl in H; congruence|]. apply IH. intros j. exact (H (S j)).
Qed.
Lemma x0_set_yield inv l p v w' q x x' : inv_spec inv -> let w := reached inv l in distinct_templates w -> nth_error (w_procs w) q = Some p ->
  set_yield p v w = (w', Ok tt) -> nll_x0 w = Ok x -> nll_x0 w' = Ok x' -> x' = upd q (Fin (v * total_eff w p)) x.
Proof.
  intros I w D Q SY X X'. assert (W : WF w) by now apply reached_wf. pose proof (nth_error_In _ _ Q) as P.
  destruct (C35_set_yield_only_named_process inv l p v I) as (_ & H). fold w in H. destruct (H P) as (ts' & SY' & OT & HT). specialize (HT D). rewrite SY in SY'. injection SY' as ->. clear H.
  assert (T : forall c q' tid, In c (mct_chans w) -> In (q', tid) (c_tmpls c) -> exists t t', nth_error (w_tmpls w) tid = Some t /\ nth_error ts' tid = Some t' /\ t_nui t' = t_nui t /\ (q' <> p -> t' = t)).
  { intros c q' tid C T. apply In_nth_error in C as (i & C). apply (chans_channel_at w i c W) in C as (n & C). apply In_nth_error in T as (k & K).
    destruct (template_at_ok w i n c k q' tid W C K) as (t & TA & _). destruct (string_dec q' p) as [->|NQ].
    - destruct (HT i n c k tid t C TA) as (eff & _ & E'). exists t. eexists. split; [apply TA|]. split; [exact E'|]. split; [reflexivity|congruence].
    - exists t, t. split; [apply TA|]. split; [|auto]. rewrite OT; [apply TA|]. intros (i' & n' & c' & k' & t' & C' & TA'). destruct (D _ _ _ _ _ _ _ _ _ _ _ _ _ C C' TA TA') as (<- & <-).
      destruct C as (cid & C1 & C2), C' as (cid' & C1' & C2'). rewrite C1 in C1'. injection C1' as <- <-. rewrite C2 in C2'. injection C2' as <-. destruct TA as (K1 & _), TA' as (K1' & _). congruence. }
  assert (NB : nui_blocks (set_tmpls w ts') = nui_blocks w).
  { unfold nui_blocks. change (mct_chans (set_tmpls w ts')) with (mct_chans w). cbn [set_tmpls w_tmpls]. rewrite !flat_map_concat_map. f_equal. apply map_ext_in. intros c C. apply map_ext_in. intros (q' & tid) T1. cbn [snd].
    destruct (T c q' tid C T1) as (t & t' & -> & -> & E & _). exact E. }
  assert (PY : forall q' p', nth_error (w_procs w) q' = Some p' -> p' <> p -> process_yield (set_tmpls w ts') p' = process_yield w p').
  { intros q' p' _ N. unfold process_yield. change (mct_chans (set_tmpls w ts')) with (mct_chans w). cbn [set_tmpls w_tmpls]. revert T. generalize (mct_chans w) (Fin 0). generalize (w_tmpls w). clear - N.
    intros ts cs0. induction cs0 as [|c cs IH]; intros z T; [reflexivity|]. cbn [fold_left]. destruct (dget String.eqb (c_tmpls c) p') as [tid|] eqn:DG.
    - destruct (T c p' tid (or_introl eq_refl) (dget_In _ _ _ DG)) as (t & t' & E1 & E2 & _ & E). rewrite E1, E2, (E N). apply IH. intros c' q' tid' C' T'. apply (T c' q' tid'); [right; auto|auto].
    - apply IH. intros c' q' tid' C' T'. apply (T c' q' tid'); [right; auto|auto]. }
  assert (PP : process_yield (set_tmpls w ts') p = Fin (v * total_eff w p)).
  { destruct (C34_get_after_set_partial inv l p v I P D) as (w2 & S2 & G2 & _). fold w in S2, G2. rewrite SY in S2. injection S2 as <-.
    rewrite get_yield_value in G2; [|exact P|apply (wf_procs w W)]. cbn [snd] in G2. congruence. }
  unfold nll_x0, nui_params in X, X'. rewrite NB in X'. destruct (nui_blocks w) as [|b bs]; [discriminate|]. cbn [rbind] in X, X'. apply (f_equal (fun r => match r with Ok a => a | Err _ => [] end)) in X. apply (f_equal (fun r => match r with Ok a => a | Err _ => [] end)) in X'. cbv beta iota in X, X'. subst x x'.
  assert (LQ : (q < length (w_procs w))%nat) by (apply nth_error_Some; congruence).
  assert (U : forall {A} (l1 l2 : list A) j a, (j < length l1)%nat -> upd j a (l1 ++ l2) = upd j a l1 ++ l2).
  { intros A l1. induction l1 as [|a0 l1 IH]; intros l2 [|j] a J; simpl in *; try lia; [reflexivity|]. rewrite IH by lia. reflexivity. }
  rewrite U by (unfold process_yields; rewrite map_length; exact LQ). f_equal. unfold process_yields. change (w_procs (set_tmpls w ts')) with (w_procs w).
  apply nth_ext_eq. intros j. destruct (Nat.eq_dec q j) as [<-|NE].
  - rewrite upd_same by (rewrite map_length; exact LQ). rewrite nth_error_map, Q. cbn [option_map]. now rewrite PP.
  - rewrite upd_other by auto. rewrite !nth_error_map. destruct (nth_error (w_procs w) j) as [p'|] eqn:J; [|reflexivity]. cbn [option_map]. f_equal. apply (PY j p' J).
    intros ->. apply NE. apply (proj1 (NoDup_nth_error (w_procs w)) (wf_procs w W)); [exact LQ|congruence].
Qed.
(** the position of a yield parameter *)
Lemma yield_resolves inv l p k q : inv_spec inv -> let w := reached inv l in nth_error (w_procs w) q = Some p -> resolves (param_names w) (PStr (p ++ "_yield")) k -> k = q.
Proof.
  intros I w Q (R1 & R2). assert (W : WF w) by now apply reached_wf. destruct (C30_aligned inv l I) as (_ & _ & N & _). fold w in N.
  destruct (Nat.lt_ge_cases q k) as [LT|GE]; [exfalso; exact (R2 q LT (N q p Q))|].
  assert (K : (k < length (w_procs w))%nat) by (assert (q < length (w_procs w))%nat by (apply nth_error_Some; congruence); lia).
  destruct (nth_error (w_procs w) k) as [p'|] eqn:PK; [|apply nth_error_None in PK; lia].
  pose proof (N k p' PK) as NK. unfold yield_pos in NK. rewrite NK in R1. injection R1 as R1.
  assert (AI : forall a b c : string, (a ++ c)%string = (b ++ c)%string -> a = b).
  { clear. intros a b c H. assert (L : String.length a = String.length b).
    { apply (f_equal String.length) in H. assert (X : forall u v : string, String.length (u ++ v) = (String.length u + String.length v)%nat) by (intros u v; induction u; simpl; auto). rewrite !X in H. lia. }
    revert b L H. induction a as [|x a IH]; intros [|y b] L H; simpl in *; try lia; [reflexivity|]. injection H as -> H. f_equal. apply IH; [lia|exact H]. }
  apply AI in R1. subst p'. apply (proj1 (NoDup_nth_error (w_procs w)) (wf_procs w W)); [exact K|congruence].
Qed.

(** ** set_yield(p, 0) *)
Lemma set_params_twice t a b : set_params (set_params t a) b = set_params t b. Proof. reflexivity. Qed.
Lemma assigns_const ts L tid ps t : (forall a, In a L -> fst a = tid -> snd a = ps) -> In tid (map fst L) -> nth_error ts tid = Some t ->
  nth_error (assigns ts L) tid = Some (set_params t ps).
Proof.
  revert ts t. induction L as [|a L IH]; intros ts t H I T; [destruct I|]. unfold assigns. cbn [fold_left]. fold (assigns (assign1 ts a) L).
  destruct (Nat.eq_dec (fst a) tid) as [E|E].
  - assert (A1 : nth_error (assign1 ts a) tid = Some (set_params t ps)).
    { unfold assign1. rewrite E, T. rewrite (H a (or_introl eq_refl) E). apply upd_same. apply nth_error_Some. congruence. }
    destruct (in_dec Nat.eq_dec tid (map fst L)) as [J|J].
    + rewrite (IH _ (set_params t ps)); auto. intros a' A'. apply H. right. exact A'.
    + now rewrite assigns_other.
  - apply IH; [intros a' A'; apply H; right; exact A'| |rewrite assign1_other; auto]. destruct I as [I|I]; [contradiction|exact I].
Qed.
Lemma zero_yield w p : WF w -> In p (w_procs w) -> exists w', set_yield p 0 w = (w', Ok tt) /\ yields_zeroed true p w w'.
Proof.
  intros W P. rewrite (set_yield_spec w p 0 W P). eexists. split; [reflexivity|]. set (L := flat_map (sy_assign (w_tmpls w) p 0) (mct_chans w)).
  assert (LI : forall tid, In tid (map fst L) <-> uses_template_of w p tid).
  { intros tid. split.
    - intros Y. apply in_map_iff in Y as (a & EA & Y). unfold L in Y. apply in_flat_map in Y as (c & C & Y).
      assert (Z : In tid (map fst (sy_assign (w_tmpls w) p 0 c))) by (rewrite <- EA; now apply in_map). apply sy_assign_fst in Z.
      apply In_nth_error in C as (i & C). apply (chans_channel_at w i c W) in C as (n & C). apply In_nth_error in Z as (k & K).
      destruct (template_at_ok w i n c k p tid W C K) as (t & TA & _). exists i, n, c, k, t. auto.
    - intros (i & n & c & k & t & C & TA). pose proof (chan_ok_at w i n c W C) as O. destruct (effs_nth _ _ _ c k p tid O (proj1 TA)) as (eff & EF).
      apply in_map_iff. exists (tid, Fin (0 * eff) :: t_nui t). split; [reflexivity|]. unfold L. apply in_flat_map. exists c. split; [eapply nth_error_In, channel_at_chans; eauto|].
      rewrite (sy_assign_in w c k p tid t eff 0 i n W C TA EF). left. reflexivity. }
  assert (LV : forall tid t, nth_error (w_tmpls w) tid = Some t -> forall a, In a L -> fst a = tid -> snd a = Fin 0 :: t_nui t).
  { intros tid t T a A EA. unfold L in A. apply in_flat_map in A as (c & C & A). unfold sy_assign in A. destruct (dget String.eqb (c_tmpls c) p) as [tid'|]; [|destruct A]. destruct (dget String.eqb (c_effs c) p) as [eff|]; [|destruct A].
    destruct (nth_error (w_tmpls w) tid') as [t'|] eqn:T'; [|destruct A]. destruct A as [<-|[]]. cbn [fst snd] in *. subst tid'. assert (t' = t) by congruence. subst t'. now rewrite Rmult_0_l. }
  unfold yields_zeroed. cbn [set_tmpls w_hists w_chans w_channels w_procs w_cnames w_cvals w_cerrs w_tmpls]. do 7 (split; [reflexivity|]). split.
  { clear. generalize (w_tmpls w). induction L as [|a L IH]; intros ts; [reflexivity|]. unfold assigns. cbn [fold_left]. fold (assigns (assign1 ts a) L). rewrite IH. unfold assign1. destruct (nth_error ts (fst a)); [apply upd_length|reflexivity]. }
  intros tid t T. split.
  - intros N. rewrite assigns_other; [exact T|]. intros Y. apply N. now apply LI.
  - intros U. left. apply assigns_const; [apply LV; exact T|now apply LI|exact T].
Qed.
Lemma zeroed_false p w w' : yields_zeroed true p w w' -> yields_zeroed false p w w'.
Proof.
  intros (A1 & A2 & A3 & A4 & A5 & A6 & A7 & A8 & A9). do 8 (split; [assumption|]). intros tid t T. destruct (A9 tid t T) as (B1 & B2). split; [exact B1|]. intros U. destruct (B2 U) as [X|(X & _)]; [left; exact X|discriminate].
Qed.
Lemma zeroed_refl p w w' : same_objects w w' -> yields_zeroed false p w w'.
Proof.
  intros (A1 & A2 & A3 & A4 & A5 & A6 & A7 & A8). unfold yields_zeroed. rewrite A2. do 8 (split; [congruence|]). intros tid t T. split; auto.
Qed.
Lemma zeroed_uses b p w w' tid : yields_zeroed b p w w' -> uses_template_of w p tid -> uses_template_of w' p tid.
Proof.
  intros (A1 & A2 & A3 & A4 & A5 & A6 & A7 & A8 & A9) U. pose proof U as (i & n & c & k & t & (cid & C1 & C2) & (T1 & T2)). destruct (A9 tid t T2) as (_ & H). destruct (H U) as [X|(_ & X)].
  - exists i, n, c, k, (set_params t (Fin 0 :: t_nui t)). split; [exists cid; split; congruence|split; assumption].
  - exists i, n, c, k, t. split; [exists cid; split; congruence|split; assumption].
Qed.
Lemma zeroed_uses' b p w w' tid t : yields_zeroed b p w w' -> nth_error (w_tmpls w) tid = Some t -> uses_template_of w' p tid -> uses_template_of w p tid.
Proof.
  intros (A1 & A2 & A3 & A4 & A5 & A6 & A7 & A8 & A9) T (i & n & c & k & t' & (cid & C1 & C2) & (T1 & T2)). exists i, n, c, k, t. split; [exists cid; split; congruence|split; assumption].
Qed.
Lemma zeroed_trans b b' p w1 w2 w3 : yields_zeroed b p w1 w2 -> yields_zeroed b' p w2 w3 -> yields_zeroed (b || b') p w1 w3.
Proof.
  intros Z1 Z2. pose proof Z1 as (A1 & A2 & A3 & A4 & A5 & A6 & A7 & A8 & A9). pose proof Z2 as (B1 & B2 & B3 & B4 & B5 & B6 & B7 & B8 & B9).
  do 8 (split; [congruence|]). intros tid t T. destruct (A9 tid t T) as (X1 & X2). split.
  - intros N. specialize (X1 N). apply (B9 tid t X1). intros U. apply N. eapply zeroed_uses'; eauto.
  - intros U. pose proof (zeroed_uses _ _ _ _ _ Z1 U) as U2. destruct (X2 U) as [Y|(Y1 & Y)]; destruct (B9 _ _ Y) as (_ & V); destruct (V U2) as [V'|(V1 & V')].
    + left. rewrite V'. reflexivity.
    + left. exact V'.
    + left. exact V'.
    + right. subst. auto.
Qed.
Lemma nll_same x w : same_objects w (fst (nll x w)).
Proof. pose proof (play_same (Ask x (fun r => Stop r)) w) as H. cbn [play] in H. destruct (nll x w) as (w1 & r). exact H. Qed.
Definition sig_op (p : string) (o : op) : Prop := match o with ONll _ => True | OSetYield q v => q = p /\ v = 0 | _ => False end.
Lemma zeroed_run inv p l : inv_spec inv -> Forall (sig_op p) l -> forall w, WF w -> yields_zeroed false p w (run inv l w).
Proof.
  intros I F. induction F as [|o l O F IH]; intros w W; [apply zeroed_refl; repeat split|]. rewrite run_cons. change false with (false || false)%bool. eapply zeroed_trans; [|apply IH; apply (wf_step inv o I w W)].
  destruct o; try contradiction.
  - destruct O as (-> & ->). destruct (in_dec string_dec p (w_procs w)) as [P|P].
    + destruct (zero_yield w p W P) as (w' & E & Z). simpl. rewrite E. now apply zeroed_false.
    + simpl. rewrite set_yield_unknown by exact P. apply zeroed_refl. repeat split.
  - apply zeroed_refl. simpl. pose proof (nll_same x w) as S. unfold bind. destruct (nll x w) as (w1 & [v|e]); exact S.
Qed.
Lemma sig_zeroed inv l E i p fn : inv_spec inv -> let s := freached inv l in yields_zeroed false p (fs_w s) (fs_w (fst (get_significance E i p fn s))).
Proof.
  intros I s. destruct (significance_frame inv (sig_op p) s (fun _ => Logic.I) E i p fn) with (s := s) as (_ & _ & _ & l' & F & ->).
  - split; reflexivity.
  - apply frame_refl'.
  - apply zeroed_run; auto. destruct (freached_world inv l) as (l2 & EW). unfold s. rewrite EW. now apply reached_wf.
Qed.
