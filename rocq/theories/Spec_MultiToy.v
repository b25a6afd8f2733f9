(** Vocabulary for programs with several MultiChannelTemplates, fitters and toy studies. *)
From Coq Require Import Reals String ZArith Bool Arith List.
From Verif Require Import Model_Num Model_Hist Model_Template Model_World Model_Ops Model_Multi Model_Minimizer Model_Fitter Model_MultiFit Model_Toy Model_MultiToy
  Spec_Multi Spec_MultiFit.
Import ListNotations.
Local Open Scope R_scope.

(** study i belongs to model k *)
Definition study_of (s : zstate) (i k : nat) : Prop := nth_error (z_owner s) i = Some k.

(** The call changes something that belongs to model k: a call of Model_MultiFit that does, a toy study or a linearity
    test of model k, or a linearity test of a model that has a template in common with model k. *)
Definition ztouches (s : zstate) (o : zop) (k : nat) : Prop :=
  match o with
  | ZX o => xtouches (z_x s) o k
  | ZStudy _ _ => False
  | ZExperiments i _ _ _ => study_of s i k
  | ZLinearity i _ _ _ _ _ _ =>
      study_of s i k \/ exists j tid, study_of s i j /\ model_template (xs_m (z_x s)) j tid /\ model_template (xs_m (z_x s)) k tid
  end.
Definition zconfigures (o : zop) (i : nat) : Prop := match o with ZX o => configures o i | _ => False end.
(** none of the calls l does, and none configures fitter i *)
Fixpoint zleaves (inv : mat -> res mat) (i k : nat) (s : zstate) (l : list zop) : Prop :=
  match l with [] => True | o :: l' => ~ ztouches s o k /\ ~ zconfigures o i /\ zleaves inv i k (fst (zstep inv o s)) l' end.

(** No channel gets templates or uncertainties after its own first evaluation (a toy study evaluates the channels of its
    model). *)
Definition zevaluates (s : zstate) (o : zop) (cid : nat) : Prop :=
  match o with
  | ZX o => xevaluates (z_x s) o cid
  | ZStudy _ _ => False
  | ZExperiments i _ _ _ | ZLinearity i _ _ _ _ _ _ => exists k, study_of s i k /\ in_model (xs_m (z_x s)) k cid
  end.
Definition zcompletes (s : zstate) (o : zop) (cid : nat) : Prop :=
  match o with ZX o => xcompletes (z_x s) o cid | _ => False end.
Fixpoint zcomplete_when_used (inv : mat -> res mat) (ev : nat -> Prop) (s : zstate) (l : list zop) : Prop :=
  match l with
  | [] => True
  | o :: l' => (forall cid, zcompletes s o cid -> ~ ev cid) /\
               zcomplete_when_used inv (fun cid => ev cid \/ zevaluates s o cid) (fst (zstep inv o s)) l'
  end.
Definition zreached (inv : mat -> res mat) (l : list zop) : zstate := zrun inv l zstate_init.
Definition zdisciplined (inv : mat -> res mat) (l : list zop) : Prop := zcomplete_when_used inv (fun _ => False) zstate_init l.
