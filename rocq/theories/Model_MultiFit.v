(** Programs with several MultiChannelTemplates and TemplateFitters of them.

    Every TemplateFitter belongs to one MultiChannelTemplate (fitter.py:36-43: _nll is the likelihood wrapper of it).  The
    templates, channels, histograms, the caches of Channel and the Parameters objects are shared by the whole process.  The
    functions are those of Model_Fitter and Model_Multi. *)
From Coq Require Import Reals String ZArith Bool Arith List.
From Verif Require Import Model_Num Model_Hist Model_Utility Model_Template Model_World Model_Ops Model_Multi Model_Minimizer Model_Fitter.
Import ListNotations.
Local Open Scope R_scope.

(** the objects and MultiChannelTemplates, the Parameters objects, the TemplateFitters and the number of the
    MultiChannelTemplate each of them was created for *)
Record xstate : Type := mk_xstate { xs_m : mworld; xs_pars : list pars; xs_fitters : list fitter; xs_owner : list nat }.
Definition xstate_init : xstate := mk_xstate mworld_init [] [] [].

(** a method of a fitter, run on the objects as seen by MultiChannelTemplate k *)
Definition on_model {A} (k : nat) (f : F A) (s : xstate) : xstate * res A :=
  match nth_error (mw_models (xs_m s)) k with
  | None => (s, Err OutOfModel)
  | Some m =>
      let '(t, r) := f (mk_fstate (load m (mw_heap (xs_m s))) (xs_pars s) (xs_fitters s)) in
      (mk_xstate (mk_mworld (load model_new (fs_w t)) (upd k (store (fs_w t)) (mw_models (xs_m s)))) (fs_pars t) (fs_fitters t) (xs_owner s), r)
  end.
(** a method of fitter i *)
Definition of_fitter {A} (i : nat) (f : F A) (s : xstate) : xstate * res A :=
  match nth_error (xs_owner s) i with Some k => on_model k f s | None => (s, Err OutOfModel) end.

Inductive xop : Type :=
  | XCall (o : mop)
  | XNew (k : nat) (id : string)     (* fitter.py:36-43 TemplateFitter(models[k], id) *)
  | XFixNui (i : nat)                (* fitter.py:45-46 *)
  | XFixed (i : nat) (p : pid)       (* fitter.py:115-123 *)
  | XBounds (i : nat) (p : pid) (b : bound)  (* fitter.py:125-137 *)
  | XDoFit (E : ext) (i : nat) (update_templates get_hesse fix_nui : bool) (nui_limits : option bound)  (* fitter.py:48-113 *)
  | XProfile (E : ext) (i : nat) (p : pid) (num_cpu num_points : nat) (sigma : R) (subtract_min fix_nui : bool) (sch : list event)  (* fitter.py:173-249 *)
  | XSignificance (E : ext) (i : nat) (process : string) (fix_nui : bool).  (* fitter.py:290-373 *)
Definition drop {A} (q : xstate * res A) : xstate * res unit := (fst q, match snd q with Ok _ => Ok tt | Err e => Err e end).

Section Run.
  Variable inv : mat -> res mat.  (* np.linalg.inv *)
  Definition xstep (o : xop) (s : xstate) : xstate * res unit :=
    match o with
    | XCall o => let '(m, r) := mstep inv o (xs_m s) in (mk_xstate m (xs_pars s) (xs_fitters s) (xs_owner s), r)
    | XNew k id =>
        match nth_error (mw_models (xs_m s)) k with
        | None => (s, Err OutOfModel)
        | Some _ => let '(t, r) := on_model k (fitter_new id) s in
                    (mk_xstate (xs_m t) (xs_pars t) (xs_fitters t) (xs_owner t ++ [k]), match r with Ok _ => Ok tt | Err e => Err e end)
        end
    | XFixNui i => of_fitter i (fix_nui_params i) s
    | XFixed i p => of_fitter i (set_parameter_fixed i p) s
    | XBounds i p b => of_fitter i (set_parameter_bounds i p b) s
    | XDoFit E i u g n l => drop (of_fitter i (do_fit E i u g n l) s)
    | XProfile E i p c n sg sm fn sch => drop (of_fitter i (profile E i p c n sg sm fn sch) s)
    | XSignificance E i p n => drop (of_fitter i (get_significance E i p n) s)
    end.
  (** a sequence of calls; exceptions are caught by the user *)
  Definition xrun (l : list xop) (s : xstate) : xstate := fold_left (fun s o => fst (xstep o s)) l s.
End Run.

(** ** Questions to one fitter and its model, and what the user sees *)
Inductive question : Type :=
  | QFit (E : ext) (update_templates get_hesse fix_nui : bool) (nui_limits : option bound)
  | QProfile (E : ext) (p : pid) (num_cpu num_points : nat) (sigma : R) (subtract_min fix_nui : bool) (sch : list event)
  | QSignificance (E : ext) (process : string) (fix_nui : bool)
  | QNll (x : list xr)
  | QStart
  | QYield (process : string)
  | QSetYield (process : string) (v : R)
  | QUpdate (x : list xr).
Inductive answer : Type :=
  | AFit (fcn_min : xr) (success : bool) (params : pars)
  | AScan (points values hesse : list xr)
  | AValue (v : xr)
  | ANumbers (x : list xr)
  | ANone.
(** The result of a fit is given with the contents of its Parameters object. *)
Definition answer_of (i : nat) (q : question) : F answer :=
  match q with
  | QFit E u g n l => r <~ do_fit E i u g n l ;; p <~ get_pars (r_params r) ;; fret (AFit (r_fcn_min r) (r_success r) p)
  | QProfile E p c n sg sm fn sch => r <~ profile E i p c n sg sm fn sch ;; fret (AScan (fst (fst r)) (snd (fst r)) (snd r))
  | QSignificance E p n => v <~ get_significance E i p n ;; fret (AValue v)
  | QNll x => v <~ on_world (nll x) ;; fret (AValue v)
  | QStart => x <~ x0 ;; fret (ANumbers x)
  | QYield p => v <~ on_world (get_yield p) ;; fret (AValue v)
  | QSetYield p v => _ <~ on_world (set_yield p v) ;; fret ANone
  | QUpdate x => _ <~ on_world (update_parameters x) ;; fret ANone
  end.
(** the answers (or exceptions) to a sequence of questions to fitter i, asked one after the other in state s *)
Fixpoint answers (i : nat) (l : list question) (s : xstate) : list (res answer) :=
  match l with
  | [] => []
  | q :: l' => let '(s', r) := of_fitter i (answer_of i q) s in r :: answers i l' s'
  end.
