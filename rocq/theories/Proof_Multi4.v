(** Several MultiChannelTemplates: the answers of a model depend on its own objects only *)
From Coq Require Import Reals String ZArith Bool Arith List Lra Lia.
From Verif Require Import Model_Num Model_Hist Model_Utility Model_Template Model_World Model_Ops Model_Multi
  Spec_Matrix Spec_Multi Proof_Hist Proof_Matrix Proof_Template Proof_HistHeap Proof_Monad Proof_World Proof_Eval Proof_Multi Proof_Multi2 Proof_Multi3.
Import ListNotations.
Local Open Scope R_scope.

Lemma flat_map_ext_in {A B} (f g : A -> list B) l : (forall a, In a l -> f a = g a) -> flat_map f l = flat_map g l.
Proof. induction l as [|a l IH]; simpl; intros H; auto. rewrite H by (left; auto). rewrite IH; auto. Qed.
Lemma fold_left_ext_in {A B} (f g : A -> B -> A) l : (forall a b, In b l -> f a b = g a b) -> forall a, fold_left f l a = fold_left g l a.
Proof. induction l as [|b l IH]; simpl; intros H a; auto. rewrite H by (left; auto). apply IH. auto. Qed.
Lemma rbind_ext {A B} (r : res A) (f g : A -> res B) : (forall a, r = Ok a -> f a = g a) -> rbind r f = rbind r g.
Proof. intros H. destruct r; simpl; auto. Qed.

Section Chan.
  Variables (w w' : world) (c : chan).
  Hypothesis T : forall p tid, In (p, tid) (c_tmpls c) -> same_tmpl w w' tid.
  Hypothesis D : forall hid, c_data c = Some hid -> same_hist w w' hid.
  Lemma sc_tmpl p tid : In (p, tid) (c_tmpls c) -> nth_error (w_tmpls w') tid = nth_error (w_tmpls w) tid.
  Proof. intros I. destruct (T _ _ I) as (t & A & B & _). congruence. Qed.
  Lemma sc_inv : inv_res (w_tmpls w') c = inv_res (w_tmpls w) c.
  Proof.
    unfold inv_res. rewrite (mapr_ext (fun p => oget (w_tmpls w') (snd p)) (fun p => oget (w_tmpls w) (snd p))); auto.
    intros [p tid] I. unfold oget. cbn [snd]. now rewrite (sc_tmpl p tid I).
  Qed.
  Lemma sc_fractions nui : fractions_res w' c nui = fractions_res w c nui.
  Proof.
    unfold fractions_res. apply rbind_ext. intros ns _. apply mapr_ext. intros [tid v] I. apply in_combine_l in I. apply in_map_iff in I as ([p t'] & <- & I).
    cbn [fst snd]. unfold oget. now rewrite (sc_tmpl p t' I).
  Qed.
  Lemma sc_expected y nui : expected_res w' c y nui = expected_res w c y nui.
  Proof. unfold expected_res. apply rbind_ext. intros ye _. now rewrite sc_fractions. Qed.
  Lemma sc_contribution y nui : contribution_res w' c y nui = contribution_res w c y nui.
  Proof.
    unfold contribution_res. destruct (c_data c) as [hid|] eqn:E; auto. destruct (D hid eq_refl) as (h & A & B). assert (HH : oget (w_hists w') hid = oget (w_hists w) hid) by (unfold oget; now rewrite A, B). rewrite HH.
    rewrite sc_expected. unfold gauss_res. now rewrite sc_inv.
  Qed.
  Lemma sc_values : mapr (fun p => t <- oget (w_tmpls w') (snd p) ;; t_values t) (c_tmpls c) = mapr (fun p => t <- oget (w_tmpls w) (snd p) ;; t_values t) (c_tmpls c).
  Proof. apply mapr_ext. intros [p tid] I. cbn [snd]. unfold oget. now rewrite (sc_tmpl p tid I). Qed.
End Chan.

(** the values of the data-set methods *)
Definition sum_res (w : world) (c : chan) : res (list xr) :=
  vs <- mapr (fun p => t <- oget (w_tmpls w) (snd p) ;; t_values t) (c_tmpls c) ;; Ok (vec_sum vs).
Definition edges_res (w : world) (c : chan) : res (list edges) :=
  match c_tmpls c with [] => Err IndexError | (_, tid) :: _ => t <- oget (w_tmpls w) tid ;; h <- oget (w_hists w) (t_hist t) ;; Ok (h_edges h) end.
Definition asimov_res (w : world) (c : chan) (b : bool) : res hist :=
  s <- sum_res w c ;;
  match c_ttype c with
  | None => Err AttributeError
  | Some k => let counts := if b then map xrint s else s in
              es <- edges_res w c ;; from_binned k (mk_nd (c_bins c) counts) es (Some (mk_nd (c_bins c) (map xsqrt counts)))
  end.
Definition toy_res (w : world) (c : chan) (d : list nat) : res hist :=
  s <- sum_res w c ;;
  match c_ttype c with
  | None => Err (match rvs d s with Err e => e | Ok _ => AttributeError end)
  | Some k => counts <- rvs d s ;;
              es <- edges_res w c ;; from_binned k (mk_nd (c_bins c) counts) es (Some (mk_nd (c_bins c) (map xsqrt counts)))
  end.
Lemma reads_mapM {A B} (f : A -> M B) g w l : (forall a, In a l -> f a w = (w, g a)) -> mapM f l w = (w, mapr g l).
Proof.
  induction l as [|a l IH]; intros H; simpl; [reflexivity|]. unfold bind at 1. rewrite (H a) by (left; auto). destruct (g a); simpl; [|reflexivity].
  unfold bind at 1. rewrite IH by (intros; apply H; right; auto). destruct (mapr g l); reflexivity.
Qed.
Lemma sum_is w cid c : nth_error (w_chans w) cid = Some c -> ch_template_sum cid w = (w, sum_res w c).
Proof.
  intros C. unfold ch_template_sum, sum_res. unfold bind at 1, get_chan. rewrite C. unfold bind at 1.
  rewrite (reads_mapM _ (fun p => t <- oget (w_tmpls w) (snd p) ;; t_values t)).
  - destruct (mapr _ _); reflexivity.
  - intros [p tid] _. unfold bind, get_tmpl, oget, lift. cbn [snd]. destruct (nth_error (w_tmpls w) tid); reflexivity.
Qed.
Lemma edges_is w cid c : nth_error (w_chans w) cid = Some c -> ch_bin_edges cid w = (w, edges_res w c).
Proof.
  intros C. unfold ch_bin_edges, edges_res. unfold bind at 1, get_chan. rewrite C. destruct (c_tmpls c) as [|[p tid] l]; [reflexivity|].
  unfold bind, get_tmpl, get_hist, oget. destruct (nth_error (w_tmpls w) tid) as [t|]; [|reflexivity]. cbn [rbind]. destruct (nth_error (w_hists w) (t_hist t)); reflexivity.
Qed.
Lemma asimov_is w cid c b : nth_error (w_chans w) cid = Some c -> ch_asimov cid b w = (w, asimov_res w c b).
Proof.
  intros C. unfold ch_asimov, asimov_res. unfold bind at 1. rewrite (sum_is w cid c C). destruct (sum_res w c) as [s|e]; [|reflexivity]. cbn [rbind].
  unfold bind at 1, get_chan. rewrite C. destruct (c_ttype c); [|reflexivity]. unfold bind. rewrite (edges_is w cid c C). destruct (edges_res w c); reflexivity.
Qed.
Lemma toy_is w cid c d : nth_error (w_chans w) cid = Some c -> ch_toy cid d w = (w, toy_res w c d).
Proof.
  intros C. unfold ch_toy, toy_res. unfold bind at 1. rewrite (sum_is w cid c C). destruct (sum_res w c) as [s|e]; [|reflexivity]. cbn [rbind].
  unfold bind at 1, get_chan. rewrite C. destruct (c_ttype c); [|reflexivity]. unfold bind at 1, lift at 1. destruct (rvs d s) as [n|e]; [|reflexivity]. cbn [rbind].
  unfold bind. rewrite (edges_is w cid c C). destruct (edges_res w c); reflexivity.
Qed.
Section Chan2.
  Variables (w w' : world) (c : chan).
  Hypothesis T : forall p tid, In (p, tid) (c_tmpls c) -> same_tmpl w w' tid.
  Lemma sc_sum : sum_res w' c = sum_res w c. Proof. unfold sum_res. now rewrite (sc_values w w' c T). Qed.
  Lemma sc_edges : edges_res w' c = edges_res w c.
  Proof.
    unfold edges_res. destruct (c_tmpls c) as [|[p tid] l]; auto. destruct (T p tid (or_introl eq_refl)) as (t & A & B & h & H & H').
    unfold oget. rewrite A, B. cbn [rbind]. rewrite H, H'. reflexivity.
  Qed.
  Lemma sc_asimov b : asimov_res w' c b = asimov_res w c b. Proof. unfold asimov_res. now rewrite sc_sum, sc_edges. Qed.
  Lemma sc_toy d : toy_res w' c d = toy_res w c d. Proof. unfold toy_res. now rewrite sc_sum, sc_edges. Qed.
End Chan2.

Section Model.
  Variables (m : model) (w w' : world).
  Hypothesis F : fp m w w'.
  Lemma fp_chan n cid : In (n, cid) (m_channels m) -> nth_error (w_chans w') cid = nth_error (w_chans w) cid.
  Proof. intros I. destruct (F n cid I) as (c & A & B & _). congruence. Qed.
  Lemma fp_in_chan n cid c : In (n, cid) (m_channels m) -> nth_error (w_chans w) cid = Some c ->
    (forall p tid, In (p, tid) (c_tmpls c) -> same_tmpl w w' tid) /\ (forall hid, c_data c = Some hid -> same_hist w w' hid).
  Proof. intros I C. destruct (F n cid I) as (c' & A & B & X & Y). assert (c' = c) by congruence. subst. auto. Qed.
  Lemma fp_chans : mct_chans (load m w') = mct_chans (load m w).
  Proof. unfold mct_chans. simpl. apply flat_map_ext_in. intros [n cid] I. cbn [snd]. now rewrite (fp_chan n cid I). Qed.
  Lemma fp_in_chans c : In c (mct_chans (load m w)) -> forall p tid, In (p, tid) (c_tmpls c) -> nth_error (w_tmpls w') tid = nth_error (w_tmpls w) tid.
  Proof.
    intros I. unfold mct_chans in I. apply in_flat_map in I as ([n cid] & I & J). simpl in I, J. destruct (nth_error (w_chans w) cid) as [c'|] eqn:C; [|contradiction].
    destruct J as [->|[]]. destruct (fp_in_chan n cid c I C) as [X _]. intros p tid. now apply sc_tmpl.
  Qed.
  Lemma fp_yields : process_yields (load m w') = process_yields (load m w).
  Proof.
    unfold process_yields. simpl. apply map_ext. intros p. unfold process_yield. rewrite fp_chans. apply fold_left_ext_in. intros a c I.
    destruct (dget String.eqb (c_tmpls c) p) as [tid|] eqn:D; auto. simpl. apply dict_in in D. now rewrite (fp_in_chans c I p tid D).
  Qed.
  Lemma fp_get_yield p : snd (get_yield p (load m w')) = snd (get_yield p (load m w)).
  Proof. unfold get_yield, bind, gets, lift. simpl. destruct (index_of p (m_procs m)); [|reflexivity]. cbn [snd]. now rewrite fp_yields. Qed.
  Lemma fp_nui : nui_params (load m w') = nui_params (load m w).
  Proof.
    unfold nui_params. replace (nui_blocks (load m w')) with (nui_blocks (load m w)); auto. unfold nui_blocks. rewrite fp_chans. apply flat_map_ext_in. intros c I.
    apply map_ext_in. intros [p tid] J. simpl. now rewrite (fp_in_chans c I p tid J).
  Qed.
  Lemma fp_x0 : nll_x0 (load m w') = nll_x0 (load m w).
  Proof. unfold nll_x0. now rewrite fp_nui, fp_yields. Qed.
  Lemma fp_names : param_names (load m w') = param_names (load m w).
  Proof.
    unfold param_names. simpl. f_equal. apply flat_map_ext_in. intros [n cid] I. cbn [fst snd]. rewrite (fp_chan n cid I).
    destruct (nth_error (w_chans w) cid) as [c|] eqn:C; auto. apply flat_map_ext_in. intros [p tid] J. cbn [fst snd].
    destruct (fp_in_chan n cid c I C) as [X _]. now rewrite (sc_tmpl w w' c X p tid J).
  Qed.
  Lemma fp_ids cid : In cid (map snd (m_channels m)) -> exists n, In (n, cid) (m_channels m).
  Proof. intros H. apply in_map_iff in H as ([n i] & <- & H). eauto. Qed.
  Lemma fp_per_channel x : per_channel_res (load m w') x = per_channel_res (load m w) x.
  Proof.
    unfold per_channel_res, mct_num_nui. rewrite fp_chans. cbn [load w_channels w_chans w_procs]. f_equal. apply mapr_ext. intros cid I.
    destruct (fp_ids cid I) as (n & J). unfold oget. now rewrite (fp_chan n cid J).
  Qed.
  Lemma fp_nll x : nll_res (load m w') x = nll_res (load m w) x.
  Proof.
    unfold nll_res. rewrite fp_per_channel. apply rbind_ext. intros yn _. cbn [load w_channels w_chans w_cnames]. f_equal. apply mapr_ext. intros [cid [y nu]] I.
    cbn [fst snd]. apply in_combine_l in I. destruct (fp_ids cid I) as (n & J). unfold oget. rewrite (fp_chan n cid J).
    destruct (nth_error (w_chans w) cid) as [c|] eqn:C; auto. cbn [rbind]. destruct (fp_in_chan n cid c J C) as [X Y].
    change (contribution_res w' c y nu = contribution_res w c y nu). now apply sc_contribution.
  Qed.
End Model.

Lemma nll_is w x : coh w -> snd (nll x w) = nll_res w x.
Proof. intros C. destruct (pure_nll w x w (po_refl _ core_po w) C) as (w1 & -> & _). reflexivity. Qed.
Lemma contribution_is w cid y n : coh w -> snd (nll_contribution cid y n w) = (c <- oget (w_chans w) cid ;; contribution_res w c y n).
Proof. intros C. destruct (pure_contribution w cid y n w (po_refl _ core_po w) C) as (w1 & -> & _). reflexivity. Qed.
Lemma bin_counts_is w cid x : coh w -> snd (bin_counts_from_param_values cid x w) =
  (c <- oget (w_chans w) cid ;; expected_res w c (fst (split_parameter_array c x)) (snd (split_parameter_array c x))).
Proof.
  intros C. unfold bin_counts_from_param_values. unfold bind, get_chan, oget. destruct (nth_error (w_chans w) cid) as [c|] eqn:E; [|reflexivity]. cbn [rbind].
  destruct (pure_expected w cid (fst (split_parameter_array c x)) (snd (split_parameter_array c x)) w (po_refl _ core_po w) C) as (w1 & X & _).
  unfold oget in X. rewrite E in X. cbn [rbind] in X. rewrite X. reflexivity.
Qed.
