(** Programs of a user: sequences of calls of the public methods modelled in Model_Hist, Model_Template
    and Model_World on one MultiChannelTemplate (several, and direct calls of Channel methods: Model_Multi).  Channels are reached through it
    only (calls like mct["ch"].add_template(...) on the Channel object itself are in Model_Multi). *)
From Coq Require Import Reals String ZArith Bool Arith List.
From Verif Require Import Model_Num Model_Hist Model_Utility Model_Template Model_World.
Import ListNotations.
Local Open Scope R_scope.

Inductive op : Type :=
  | OHist1 (bins : bins1) (range : option (R * R)) (data : option (list R)) (w : weights)
  | OHist2 (bins : bins2) (range : option ((R * R) * (R * R))) (data : option (list R * list R)) (w : weights)
  | OFromBinned (k : kind) (counts : nd) (es : list edges) (errors : option nd)
  | OFill1 (hid : nat) (data : list R) (w : weights)
  | OFill2 (hid : nat) (xs ys : list R) (w : weights)
  | OProjection (hid : nat) (axis_x : bool)
  | OTemplate (k : kind) (name : string) (hid : nat)
  | OSetParams (tid : nat) (v : pyval)
  | OSetYieldParam (tid : nat) (v : pyval)
  | OSetNui (tid : nat) (v : pyval)
  | OTReset (tid : nat)
  | OAddCov (tid : nat) (c : mat)
  | OAddVar (tid : nat) (d : vdata) (up down : weights)
  | ODefChannel (name : string) (bins : list nat) (range : list (R * R))
  | ODefProcess (name : string)
  | OAddTemplate (channel process : string) (tid : nat) (eff : R)
  | OAddData (kwargs : list (string * nat))
  | OConstraint (p : string) (v e : R)
  | OSetYield (p : string) (v : R)
  | OReset
  | OUpdate (x : list xr)
  | ONll (x : list xr)
  | OAsimov (integer_values : bool)
  | OToy (draws : nat -> list nat).

(** a method of the histogram classes applied to an object of the right class; the other class has
    another signature (not modelled) *)
Definition fill_op (k : kind) (f : hist -> hist * res unit) (h : hist) : hist * res unit :=
  if kind_eqb k (h_kind h) then f h else (h, Err OutOfModel).

Section Ops.
  Variable inv : mat -> res mat.  (* np.linalg.inv *)

  (** one call; results of the call that are not used in the sequence are dropped *)
  Definition step (o : op) : M unit :=
    match o with
    | OHist1 b r d w => h <- lift (hist1_new b r d w) ;;; _ <- alloc_hist h ;;; ret tt
    | OHist2 b r d w => h <- lift (hist2_new b r d w) ;;; _ <- alloc_hist h ;;; ret tt
    | OFromBinned k c es er => h <- lift (from_binned k c es er) ;;; _ <- alloc_hist h ;;; ret tt
    | OFill1 i d w => on_hist i (fill_op K1 (fun h => hist1_fill h d w))
    | OFill2 i xs ys w => on_hist i (fill_op K2 (fun h => hist2_fill h xs ys w))
    | OProjection i ax =>
        h <- get_hist i ;;;
        p <- lift (if kind_eqb (h_kind h) K2 then hist2_projection ax h else Err AttributeError) ;;;
        _ <- alloc_hist p ;;; ret tt
    | OTemplate k name i =>
        h <- get_hist i ;;;
        t <- lift (template_new k name i h) ;;;
        (fun w => (set_tmpls w (w_tmpls w ++ [t]), Ok tt))
    | OSetParams i v => on_tmpl i (fun t => params_setter t v)
    | OSetYieldParam i v => on_tmpl i (fun t => yield_setter t v)
    | OSetNui i v => on_tmpl i (fun t => nui_setter t v)
    | OTReset i => tmpl_reset i
    | OAddCov i c => on_tmpl i (fun t => t_add_cov_mat inv t c)
    | OAddVar i d up down => on_tmpl i (fun t => t_add_variation inv t d up down)
    | ODefChannel name b r => define_channel name b r
    | ODefProcess name => define_process name
    | OAddTemplate ch p i eff => mct_add_template ch p i eff
    | OAddData kw => mct_add_data kw
    | OConstraint p v e => add_gaussian_constraint p v e
    | OSetYield p v => set_yield p v
    | OReset => reset_parameters
    | OUpdate x => update_parameters x
    | ONll x => _ <- nll x ;;; ret tt
    | OAsimov b => _ <- generate_asimov_dataset b ;;; ret tt
    | OToy d => _ <- generate_toy_dataset d ;;; ret tt
    end.

  (** a sequence of calls; exceptions are caught by the user *)
  Definition run (l : list op) (w : world) : world := fold_left (fun w o => fst (step o w)) l w.
End Ops.
