(** Vocabulary for programs with several MultiChannelTemplates and fitters. *)
From Coq Require Import Reals String ZArith Bool Arith List.
From Verif Require Import Model_Num Model_Hist Model_Template Model_World Model_Ops Model_Multi Model_Minimizer Model_Fitter Model_MultiFit Spec_Multi.
Import ListNotations.
Local Open Scope R_scope.

(** the call is a fit, a scan or a significance computed with fitter i *)
Definition fits_with (o : xop) (i : nat) : Prop :=
  match o with XDoFit _ j _ _ _ _ | XProfile _ j _ _ _ _ _ _ _ | XSignificance _ j _ _ => j = i | _ => False end.
(** the call may change the parameters of the templates of the model of fitter i *)
Definition fit_updates (o : xop) (i : nat) : Prop :=
  match o with XDoFit _ j true _ _ _ | XSignificance _ j _ _ => j = i | _ => False end.
(** the call configures fitter i *)
Definition configures (o : xop) (i : nat) : Prop :=
  match o with XFixNui j | XFixed j _ | XBounds j _ _ => j = i | _ => False end.

(** The call changes something that belongs to model k: a call of Model_Multi that does, or a fit (of any model that has
    a template in common with model k) that may update templates. *)
Definition xtouches (s : xstate) (o : xop) (k : nat) : Prop :=
  match o with
  | XCall c => touches (xs_m s) c k
  | _ => exists i j tid, fit_updates o i /\ nth_error (xs_owner s) i = Some j /\ model_template (xs_m s) j tid /\ model_template (xs_m s) k tid
  end.
(** none of the calls l does, and none configures fitter i *)
Fixpoint xleaves (inv : mat -> res mat) (i k : nat) (s : xstate) (l : list xop) : Prop :=
  match l with [] => True | o :: l' => ~ xtouches s o k /\ ~ configures o i /\ xleaves inv i k (fst (xstep inv o s)) l' end.

(** No channel gets templates or uncertainties after its own first evaluation (a fit evaluates the channels of its
    model). *)
Definition xevaluates (s : xstate) (o : xop) (cid : nat) : Prop :=
  match o with
  | XCall c => evaluates_channel (xs_m s) c cid
  | _ => exists i k, fits_with o i /\ nth_error (xs_owner s) i = Some k /\ in_model (xs_m s) k cid
  end.
Definition xcompletes (s : xstate) (o : xop) (cid : nat) : Prop :=
  match o with XCall c => completes_channel (xs_m s) c cid | _ => False end.
Fixpoint xcomplete_when_used (inv : mat -> res mat) (ev : nat -> Prop) (s : xstate) (l : list xop) : Prop :=
  match l with
  | [] => True
  | o :: l' => (forall cid, xcompletes s o cid -> ~ ev cid) /\
               xcomplete_when_used inv (fun cid => ev cid \/ xevaluates s o cid) (fst (xstep inv o s)) l'
  end.
Definition xreached (inv : mat -> res mat) (l : list xop) : xstate := xrun inv l xstate_init.
Definition xdisciplined (inv : mat -> res mat) (l : list xop) : Prop := xcomplete_when_used inv (fun _ => False) xstate_init l.
(** the same objects, models and fitters in a process in which nothing has been evaluated and no fit has been made *)
Definition xfresh (s : xstate) : xstate := mk_xstate (mfresh (xs_m s)) [] (xs_fitters s) (xs_owner s).
