(** Programs with several MultiChannelTemplates and direct calls of Channel methods.

    Histograms, templates and channels are objects that every MultiChannelTemplate of the process can refer to, and the
    three functools.lru_cache decorators of Channel (channel.py:149, 459, 486) are caches of the class: all channels of all
    models share them.  The functions are those of Model_World and Model_Ops. *)
From Coq Require Import Reals String ZArith Bool Arith List.
From Verif Require Import Model_Num Model_Hist Model_Utility Model_Template Model_World Model_Ops.
Import ListNotations.
Local Open Scope R_scope.

(** multi_channel_template.py:18-23, the attributes of one MultiChannelTemplate *)
Record model : Type := mk_model {
  m_channels : list (string * nat);
  m_procs : list string;
  m_cnames : list string;
  m_cvals : list (string * R);
  m_cerrs : list (string * R) }.
Definition model_new : model := mk_model [] [] [] [] [].

(** the objects of the process (with the attributes of no MultiChannelTemplate) and all MultiChannelTemplates *)
Record mworld : Type := mk_mworld { mw_heap : world; mw_models : list model }.
Definition mworld_init : mworld := mk_mworld world_init [].

(** the objects as seen by one MultiChannelTemplate, and back *)
Definition load (m : model) (w : world) : world :=
  mk_world (w_hists w) (w_tmpls w) (w_chans w) (m_channels m) (m_procs m) (m_cnames m) (m_cvals m) (m_cerrs m)
           (w_cache_pi w) (w_cache_eff w) (w_cache_inv w).
Definition store (w : world) : model := mk_model (w_channels w) (w_procs w) (w_cnames w) (w_cvals w) (w_cerrs w).

(** Methods of a Channel object called directly: on a Channel made with Channel(name, bins, range) or on one taken from
    mct.channels (channel.py:32, 111, 132, 107, 156, 354, 200, 387, 377) *)
Inductive cop : Type :=
  | CNew (name : string) (bins : list nat) (range : list (R * R))
  | CAddTemplate (cid : nat) (process : string) (tid : nat) (eff : R)
  | CAddData (cid hid : nat)
  | CReset (cid : nat)
  | CUpdate (cid : nat) (yields nui : list xr)
  | CNll (cid : nat) (yields nui : list xr)
  | CBinCounts (cid : nat) (x : list xr)
  | CAsimov (cid : nat) (integer_values : bool)
  | CToy (cid : nat) (draw : list nat).

Definition cstep (c : cop) : M unit :=
  match c with
  | CNew n b r => fun w => (set_chans w (w_chans w ++ [chan_new n b r]), Ok tt)
  | CAddTemplate cid p tid eff => t <- get_tmpl tid ;;; on_chan cid (fun c => ch_add_template c p tid t eff)
  | CAddData cid hid => h <- get_hist hid ;;; on_chan cid (fun c => ch_add_data c hid h)
  | CReset cid => ch_reset cid
  | CUpdate cid y n => ch_update_parameters cid y n
  | CNll cid y n => _ <- nll_contribution cid y n ;;; ret tt
  | CBinCounts cid x => _ <- bin_counts_from_param_values cid x ;;; ret tt
  | CAsimov cid b => h <- ch_asimov cid b ;;; _ <- alloc_hist h ;;; ret tt
  | CToy cid d => h <- ch_toy cid d ;;; _ <- alloc_hist h ;;; ret tt
  end.

(** one call: a new MultiChannelTemplate(), a call of Model_Ops with the MultiChannelTemplate number k (its number is
    irrelevant for the calls on histograms and templates), or a direct call of a Channel method *)
Inductive mop : Type := MNew | MCall (k : nat) (o : op) | MChan (c : cop).

Section Multi.
  Variable inv : mat -> res mat.  (* np.linalg.inv *)
  Definition mstep (o : mop) (s : mworld) : mworld * res unit :=
    match o with
    | MNew => (mk_mworld (mw_heap s) (mw_models s ++ [model_new]), Ok tt)
    | MCall k o =>
        match nth_error (mw_models s) k with
        | None => (s, Err OutOfModel)
        | Some m => let '(w, r) := step inv o (load m (mw_heap s)) in
                    (mk_mworld (load model_new w) (upd k (store w) (mw_models s)), r)
        end
    | MChan c => let '(w, r) := cstep c (mw_heap s) in (mk_mworld w (mw_models s), r)
    end.
  (** a sequence of calls; exceptions are caught by the user *)
  Definition mrun (l : list mop) (s : mworld) : mworld := fold_left (fun s o => fst (mstep o s)) l s.
End Multi.

(** the answer to a call of a method of MultiChannelTemplate number k *)
Definition ask {A} (k : nat) (f : M A) (s : mworld) : res A :=
  match nth_error (mw_models s) k with Some m => snd (f (load m (mw_heap s))) | None => Err OutOfModel end.
(** the answer to a call of a method of a Channel object *)
Definition askc {A} (f : M A) (s : mworld) : res A := snd (f (mw_heap s)).
