(** Vocabulary for questions to toy studies. *)
From Coq Require Import List.
From Verif Require Import Model_Num Model_Ops Model_Multi Model_MultiFit Model_MultiToy Spec_MultiFit Spec_MultiToy.
Import ListNotations.
(** the same objects, models, fitters and studies in a process in which nothing has been evaluated and no fit made *)
Definition zfresh (s : zstate) : zstate := mk_zstate (xfresh (z_x s)) (z_studies s) (z_owner s).
(** none of the calls l changes something that belongs to model k *)
Fixpoint zkeeps (inv : mat -> res mat) (k : nat) (s : zstate) (l : list zop) : Prop :=
  match l with [] => True | o :: l' => ~ ztouches s o k /\ zkeeps inv k (fst (zstep inv o s)) l' end.
(** the call gives channels (of model k or of others) other data, or is do_experiments of a study of model k (which does
    that, too) *)
Definition replaces_data (s : zstate) (o : zop) (k : nat) : Prop :=
  match o with
  | ZX (XCall (MCall k' (OAddData _))) => k' = k
  | ZX (XCall (MChan (CAddData _ _))) => True
  | ZExperiments i _ _ _ => study_of s i k
  | _ => False
  end.
(** none of the calls l changes something that belongs to model k, but for its data *)
Fixpoint zkeeps_but_data (inv : mat -> res mat) (k : nat) (s : zstate) (l : list zop) : Prop :=
  match l with [] => True | o :: l' => (~ ztouches s o k \/ replaces_data s o k) /\ zkeeps_but_data inv k (fst (zstep inv o s)) l' end.
