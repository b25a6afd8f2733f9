(** Vocabulary for data sets. *)
From Coq Require Import Reals String ZArith Bool Arith List.
From Verif Require Import Model_Num Model_Hist Model_Utility Model_Template Model_World Model_Ops Spec_Matrix Spec_World.
Import ListNotations.
Local Open Scope R_scope.

(** es are the bin edges of the histogram of the channel's first template *)
Definition first_edges (w : world) (c : chan) (es : list edges) : Prop :=
  exists p tid t h, hd_error (c_tmpls c) = Some (p, tid) /\ nth_error (w_tmpls w) tid = Some t /\
    nth_error (w_hists w) (t_hist t) = Some h /\ h_edges h = es.
(** s is the sum over the channel's templates of their values, bin by bin *)
Definition sum_of_templates (w : world) (c : chan) (s : list xr) : Prop :=
  exists vs, Forall2 (fun p v => exists t, nth_error (w_tmpls w) (snd p) = Some t /\ t_values t = Ok v) (c_tmpls c) vs /\
    length s = bins_of c /\
    forall b, (b < bins_of c)%nat -> nth_error s b = Some (fold_left xadd (map (fun v => nth b v NaN) vs) (Fin 0)).
(** h has the geometry of the channel and the given contents with Poisson errors *)
Definition data_hist (w : world) (c : chan) (counts : list xr) (h : hist) : Prop :=
  h_shape h = c_bins c /\ h_range h = c_range c /\ (exists es, first_edges w c es /\ h_edges h = es) /\
  c_ttype c = Some (h_kind h) /\ h_counts h = mk_nd (c_bins c) counts /\
  h_errs_sq h = mk_nd (c_bins c) (map (fun x => xsq (xsqrt x)) counts) /\ h_empty h = false.
(** every dimension of every channel has a bin *)
Definition all_have_bins (w : world) : Prop := forall i n c, channel_at w i n c -> forall k, In k (c_bins c) -> (1 <= k)%nat.
(** same MultiChannelTemplate and templates; histograms may have been added *)
Definition same_but_new_hists (w w' : world) : Prop :=
  w_tmpls w' = w_tmpls w /\ w_chans w' = w_chans w /\ w_channels w' = w_channels w /\ w_procs w' = w_procs w /\
  w_cnames w' = w_cnames w /\ w_cvals w' = w_cvals w /\ w_cerrs w' = w_cerrs w /\ exists hs, w_hists w' = w_hists w ++ hs.
(** the channel with other data *)
Definition with_data (c : chan) (d : option nat) : chan :=
  mk_chan (c_name c) (c_tmpls c) (c_effs c) (c_procs c) (c_bins c) (c_range c) d (c_dim c) (c_ttype c).
(** integer nearest to r, ties to even *)
Definition nearest (r : R) (z : Z) : Prop := Rabs (r - IZR z) <= 1 / 2 /\ (Rabs (r - IZR z) = 1 / 2 -> Z.even z = true).
(** nothing but the data of channels differs *)
Definition only_data (w w' : world) : Prop :=
  w' = set_chans w (w_chans w') /\ length (w_chans w') = length (w_chans w) /\
  forall cid c, nth_error (w_chans w) cid = Some c -> exists d, nth_error (w_chans w') cid = Some (with_data c d).
(** the entry (channel name, histogram) of a data set can be added: the channel exists and has the shape and range of the histogram *)
Definition fits (w : world) (kv : string * nat) : Prop :=
  exists cid c h, dget String.eqb (w_channels w) (fst kv) = Some cid /\ nth_error (w_chans w) cid = Some c /\
    nth_error (w_hists w) (snd kv) = Some h /\ h_shape h = c_bins c /\ h_range h = c_range c.
(** the state after the dictionary kw has been processed *)
Definition data_of (w : world) (kw : list (string * nat)) (w' : world) : Prop :=
  w' = set_chans w (w_chans w') /\ length (w_chans w') = length (w_chans w) /\
  (forall n hid cid c, In (n, hid) kw -> dget String.eqb (w_channels w) n = Some cid -> nth_error (w_chans w) cid = Some c ->
     nth_error (w_chans w') cid = Some (with_data c (Some hid))) /\
  (forall cid, (forall n hid, In (n, hid) kw -> dget String.eqb (w_channels w) n <> Some cid) -> nth_error (w_chans w') cid = nth_error (w_chans w) cid).

