(** Programs with several MultiChannelTemplates, TemplateFitters and ToyStudies of them.

    A ToyStudy belongs to one MultiChannelTemplate (toy_study.py:27-31, _templates); in every experiment it makes a new
    TemplateFitter of it (toy_study.py:62-64).  The functions are those of Model_Toy and Model_MultiFit. *)
From Coq Require Import Reals String ZArith Bool Arith List.
From Verif Require Import Model_Num Model_Hist Model_Utility Model_Template Model_World Model_Ops Model_Multi Model_Minimizer Model_Fitter Model_MultiFit Model_Toy.
Import ListNotations.
Local Open Scope R_scope.

(** the objects, the ToyStudies and the number of the MultiChannelTemplate each of them was created for *)
Record zstate : Type := mk_zstate { z_x : xstate; z_studies : list study; z_owner : list nat }.
Definition zstate_init : zstate := mk_zstate xstate_init [] [].

(** a method of a ToyStudy, run on the objects as seen by MultiChannelTemplate k; the TemplateFitters it makes belong to k *)
Definition on_zmodel {A} (k : nat) (f : T A) (s : zstate) : zstate * res A :=
  match nth_error (mw_models (xs_m (z_x s))) k with
  | None => (s, Err OutOfModel)
  | Some m =>
      let x := z_x s in
      let '(t, r) := f (mk_tstate (mk_fstate (load m (mw_heap (xs_m x))) (xs_pars x) (xs_fitters x)) (z_studies s)) in
      let t' := ts_f t in
      (mk_zstate (mk_xstate (mk_mworld (load model_new (fs_w t')) (upd k (store (fs_w t')) (mw_models (xs_m x)))) (fs_pars t') (fs_fitters t')
                            (xs_owner x ++ repeat k (length (fs_fitters t') - length (xs_fitters x))))
                 (ts_studies t) (z_owner s), r)
  end.
(** a method of study i *)
Definition of_study {A} (i : nat) (f : T A) (s : zstate) : zstate * res A :=
  match nth_error (z_owner s) i with Some k => on_zmodel k f s | None => (s, Err OutOfModel) end.

Inductive zop : Type :=
  | ZX (o : xop)
  | ZStudy (k : nat) (id : string)    (* toy_study.py:27-31 ToyStudy(models[k], id) *)
  | ZExperiments (i : nat) (envs : nat -> env) (n_exp max_tries : nat)  (* toy_study.py:33-51 *)
  | ZLinearity (i : nat) (envs : nat -> env) (p : string) (lo hi : R) (n_points n_exp : nat).  (* toy_study.py:81-120 *)
Definition zdrop {A} (q : zstate * res A) : zstate * res unit := (fst q, match snd q with Ok _ => Ok tt | Err e => Err e end).

Section Run.
  Variable inv : mat -> res mat.  (* np.linalg.inv *)
  Definition zstep (o : zop) (s : zstate) : zstate * res unit :=
    match o with
    | ZX o => let '(x, r) := xstep inv o (z_x s) in (mk_zstate x (z_studies s) (z_owner s), r)
    | ZStudy k id =>
        match nth_error (mw_models (xs_m (z_x s))) k with
        | None => (s, Err OutOfModel)
        | Some _ => let '(t, r) := on_zmodel k (study_new id) s in
                    (mk_zstate (z_x t) (z_studies t) (z_owner t ++ [k]), match r with Ok _ => Ok tt | Err e => Err e end)
        end
    | ZExperiments i envs n mt => of_study i (do_experiments envs i n mt) s
    | ZLinearity i envs p lo hi np ne => zdrop (of_study i (do_linearity_test envs i p lo hi np ne) s)
    end.
  (** a sequence of calls; exceptions are caught by the user *)
  Definition zrun (l : list zop) (s : zstate) : zstate := fold_left (fun s o => fst (zstep o s)) l s.
End Run.
