(** Model of templatefitter/fitter.py (TemplateFitter) for the templates of one MultiChannelTemplate. *)
From Coq Require Import Reals String ZArith Bool Arith List.
From Verif Require Import Model_Num Model_Hist Model_Utility Model_Template Model_World Model_Ops Model_Minimizer.
Import ListNotations.
Local Open Scope R_scope.

(** fitter.py:36-43.  _nll is a wrapper of the templates without state of its own
    (multi_channel_template.py:356-359), _fit_result is never used. *)
Record fitter : Type := mk_fitter {
  ft_id : string;                    (* _minimizer_id *)
  ft_fixed : list pid;               (* _fixed_parameters *)
  ft_bounds : list (pid * bound);    (* _bound_parameters, a dictionary *)
  ft_fix_nui : bool                  (* _fix_nui_params *)
}.
(** the templates, the heap of Parameters objects and the fitters *)
Record fstate : Type := mk_fstate { fs_w : world; fs_pars : list pars; fs_fitters : list fitter }.
Definition F (A : Type) : Type := fstate -> fstate * res A.
Definition fret {A} (a : A) : F A := fun s => (s, Ok a).
Definition fbind {A B} (m : F A) (k : A -> F B) : F B :=
  fun s => match m s with (s', Ok a) => k a s' | (s', Err e) => (s', Err e) end.
Notation "x <~ e ;; k" := (fbind e (fun x => k)) (at level 61, e at next level, right associativity).
Definition flift {A} (r : res A) : F A := fun s => (s, r).
Definition fget {A} (f : fstate -> A) : F A := fun s => (s, Ok (f s)).
Definition on_world {A} (m : M A) : F A :=
  fun s => let (w, r) := m (fs_w s) in (mk_fstate w (fs_pars s) (fs_fitters s), r).
Definition get_fitter (i : nat) : F fitter :=
  fun s => (s, match nth_error (fs_fitters s) i with Some f => Ok f | None => Err OutOfModel end).
Definition get_pars (i : nat) : F pars :=
  fun s => (s, match nth_error (fs_pars s) i with Some f => Ok f | None => Err OutOfModel end).
Definition on_fitter (i : nat) (g : fitter -> fitter) : F unit :=
  fun s => match nth_error (fs_fitters s) i with
           | Some f => (mk_fstate (fs_w s) (fs_pars s) (upd i (g f) (fs_fitters s)), Ok tt)
           | None => (s, Err OutOfModel)
           end.

(** equality of dictionary keys: True == 1 and False == 0 in python.  Identifiers that are neither
    str nor int are not distinguished: the first use of one raises ValueError anyway. *)
Definition pid_eqb (a b : pid) : bool :=
  let num p := match p with PInt z => Some z | PBool true => Some 1%Z | PBool false => Some 0%Z | _ => None end in
  match num a, num b with
  | Some x, Some y => Z.eqb x y
  | None, None => match a, b with PStr s, PStr t => String.eqb s t | POther, POther => true | _, _ => false end
  | _, _ => false
  end.

(** fitter.py:36-43 TemplateFitter(templates, minimizer_id) *)
Definition fitter_new (id : string) : F nat :=
  fun s => (mk_fstate (fs_w s) (fs_pars s) (fs_fitters s ++ [mk_fitter id [] [] false]), Ok (length (fs_fitters s))).
(** fitter.py:45-46 *)
Definition fix_nui_params (i : nat) : F unit := on_fitter i (fun f => mk_fitter (ft_id f) (ft_fixed f) (ft_bounds f) true).
(** fitter.py:115-123 *)
Definition set_parameter_fixed (i : nat) (p : pid) : F unit :=
  on_fitter i (fun f => mk_fitter (ft_id f) (ft_fixed f ++ [p]) (ft_bounds f) (ft_fix_nui f)).
(** fitter.py:125-137 *)
Definition set_parameter_bounds (i : nat) (p : pid) (b : bound) : F unit :=
  on_fitter i (fun f => mk_fitter (ft_id f) (ft_fixed f) (dset pid_eqb (ft_bounds f) p b) (ft_fix_nui f)).

(** fitter.py:75-77, 205-207, 327-329, 351-353: minimizer_factory(self._minimizer_id, self._nll,
    self._nll.param_names).  The Parameters object is allocated; the minimizer is a local variable of
    the caller. *)
Definition new_minimizer (id : string) : F minimizer :=
  fun s => let names := param_names (fs_w s) in
           match minimizer_class id with
           | Err e => (s, Err e)
           | Ok k => (mk_fstate (fs_w s) (fs_pars s ++ [pars_new names]) (fs_fitters s),
                      Ok (min_new k names (length (fs_pars s))))
           end.
(** loops over minimizer.set_param_fixed / set_param_bounds; an exception leaves the method and the
    minimizer is lost *)
Definition fix_all (names : list string) (m : minimizer) (ids : list pid) : res minimizer :=
  fold_left (fun r i => m <- r ;; match set_param_fixed names m i with (m', Ok _) => Ok m' | (_, Err e) => Err e end) ids (Ok m).
Definition bound_all (names : list string) (m : minimizer) (bs : list (pid * bound)) : res minimizer :=
  fold_left (fun r ib => m <- r ;; match set_param_bounds names m (fst ib) (snd ib) with (m', Ok _) => Ok m' | (_, Err e) => Err e end) bs (Ok m).
(** range(num_processes, num_nui_params + num_processes) *)
Definition nui_ids (w : world) : list pid := map (fun i => PInt (Z.of_nat i)) (seq (length (w_procs w)) (mct_num_nui w)).

(** minimizer.minimize(self._nll.x0, ...) for a local minimizer whose Parameters object is on the heap *)
Definition minimize_from (E : ext) (m : minimizer) (x0 : list xr) (get_hesse : bool) : F (minimizer * mresult) :=
  fun s =>
    match nth_error (fs_pars s) (m_params m) with
    | None => (s, Err OutOfModel)
    | Some p =>
        let '(w, (st, r)) := play nll (minimize E x0 get_hesse (mk_mstate p m)) (fs_w s) in
        (mk_fstate w (upd (m_params m) (ms_p st) (fs_pars s)) (fs_fitters s), rmap (fun v => (ms_m st, v)) r)
    end.
Definition x0 : F (list xr) := fun s => (s, nll_x0 (fs_w s)).

(** fitter.py:48-113 do_fit (verbose only prints) *)
Definition do_fit (E : ext) (i : nat) (update_templates get_hesse fix_nui : bool) (nui_limits : option bound) : F mresult :=
  f <~ get_fitter i ;;
  names <~ fget (fun s => param_names (fs_w s)) ;;
  nuis <~ fget (fun s => nui_ids (fs_w s)) ;;
  m <~ new_minimizer (ft_id f) ;;
  m <~ flift (if fix_nui then fix_all names m nuis else Ok m) ;;
  m <~ flift (match nui_limits with Some b => bound_all names m (map (fun j => (j, b)) nuis) | None => Ok m end) ;;
  m <~ flift (fix_all names m (ft_fixed f)) ;;
  m <~ flift (bound_all names m (ft_bounds f)) ;;
  x <~ x0 ;;
  mr <~ minimize_from E m x get_hesse ;;
  p <~ get_pars (r_params (snd mr)) ;;
  _ <~ (if update_templates then on_world (update_parameters (p_values p)) else fret tt) ;;
  fret (snd mr).

(** fitter.py:139-171 _get_hesse_approx *)
Definition get_hesse_approx (p : pars) (fmin : xr) (i : pid) (points : list xr) : res (list xr) :=
  r <- get_param_value p i ;;
  k <- param_id_to_index p i ;;
  e <- at_ (p_errors p) k ;;
  Ok (map (fun x => xadd (xmul (xmul (Fin (1 / 2)) (xsq (xdiv (Fin 1) e))) (xsq (xsub x r))) fmin) points).

(** ** The process pool, fitter.py:226-240.
    Every task (minimizer, point, values, param_id) is pickled: the worker that takes it gets its own copy
    of all objects, in which nothing is cached (functools.lru_cache tables are not part of the pickled
    objects and are keyed by object identity).  result.params.values is the array stored in the pickled
    Parameters object, and stays so in the copy. *)
Definition unpickled (w : world) : world :=
  mk_world (w_hists w) (w_tmpls w) (w_chans w) (w_channels w) (w_procs w) (w_cnames w) (w_cvals w) (w_cerrs w) [] [] [].
Record task : Type := mk_task { tk_w : world; tk_st : mstate; tk_point : xr; tk_id : pid }.

(** fitter.py:251-287 _profile_helper: a program of the worker, calling the objective function of the copy *)
Definition profile_helper (E : ext) (t : task) : prog (res xr) :=
  let p := ms_p (tk_st t) in
  let names := p_names p in
  let m := release_params names (ms_m (tk_st t)) in
  match id_to_index names (tk_id t) with
  | Err e => Stop (Err e)
  | Ok k =>
      if Nat.ltb k (length (p_values p)) then
        let initial_values := upd k (tk_point t) (p_values p) in
        let p' := mk_pars names initial_values (p_errors p) (p_cov p) (p_corr p) in
        match set_param_fixed names m (tk_id t) with
        | (_, Err e) => Stop (Err e)
        | (m', Ok _) =>
            pbind (minimize E initial_values false (mk_mstate p' m'))
                  (fun q => Stop (match snd q with
                                  | Ok r => Ok (r_fcn_min r)
                                  | Err RuntimeError => Ok NaN
                                  | Err e => Err e
                                  end))
        end
      else Stop (Err IndexError)
  end.

(** A worker is idle or executes a task on its copy of the objects; the next task of the queue may be taken
    by any idle worker and any busy worker may make a step (an evaluation of the objective or the delivery of
    its result) at any time. *)
Inductive worker : Type := Idle | Busy (i : nat) (w : world) (p : prog (res xr)).
Record pool : Type := mk_pool { pl_next : nat; pl_workers : list worker; pl_done : list (option (res xr)) }.
Inductive event : Type := Take (j : nat) | Step (j : nat).
Section Pool.
  Variable E : ext.
  Variable tasks : list task.
  Definition pool_new (num_cpu : nat) : pool := mk_pool 0 (repeat Idle num_cpu) (repeat None (length tasks)).
  Definition pool_step (e : event) (q : pool) : pool :=
    match e with
    | Take j =>
        match nth_error (pl_workers q) j, nth_error tasks (pl_next q) with
        | Some Idle, Some t => mk_pool (S (pl_next q)) (upd j (Busy (pl_next q) (unpickled (tk_w t)) (profile_helper E t)) (pl_workers q)) (pl_done q)
        | _, _ => q
        end
    | Step j =>
        match nth_error (pl_workers q) j with
        | Some (Busy i w (Ask x k)) => mk_pool (pl_next q) (upd j (Busy i (fst (nll x w)) (k (snd (nll x w)))) (pl_workers q)) (pl_done q)
        | Some (Busy i w (Stop r)) => mk_pool (pl_next q) (upd j Idle (pl_workers q)) (upd i (Some r) (pl_done q))
        | _ => q
        end
    end.
  Definition pool_run (sch : list event) (q : pool) : pool := fold_left (fun q e => pool_step e q) sch q.
End Pool.
(** list(pool.imap(...)): the results in the order of the tasks, or the first exception in this order;
    None while it is still waiting for a result *)
Fixpoint imap_results (l : list (option (res xr))) : option (res (list xr)) :=
  match l with
  | [] => Some (Ok [])
  | None :: _ => None
  | Some (Err e) :: _ => Some (Err e)
  | Some (Ok v) :: l' => match imap_results l' with Some (Ok vs) => Some (Ok (v :: vs)) | r => r end
  end.

(** np.linspace with finite limits (others are not modelled) *)
Definition xlinspace (lo hi : xr) (n : nat) : res (list xr) :=
  match lo, hi with Fin a, Fin b => Ok (map Fin (np_linspace a b n)) | _, _ => Err OutOfModel end.

(** fitter.py:173-249 profile.  [sch] is the schedule of the pool; a schedule that does not deliver the
    results is one of a call that has not returned yet (OutOfModel). *)
Definition profile (E : ext) (i : nat) (param_id : pid) (num_cpu num_points : nat) (sigma : R) (subtract_min fix_nui : bool)
    (sch : list event) : F (list xr * list xr * list xr) :=
  f <~ get_fitter i ;;
  names <~ fget (fun s => param_names (fs_w s)) ;;
  nuis <~ fget (fun s => nui_ids (fs_w s)) ;;
  m <~ new_minimizer (ft_id f) ;;
  m <~ flift (if fix_nui then fix_all names m nuis else Ok m) ;;
  x <~ x0 ;;
  mr <~ minimize_from E m x true ;;
  let m := fst mr in
  let minimum := r_fcn_min (snd mr) in
  p <~ get_pars (m_params m) ;;
  ve <~ flift (getitem p param_id) ;;
  points <~ flift (xlinspace (xsub (fst ve) (xmul (Fin sigma) (snd ve))) (xadd (fst ve) (xmul (Fin sigma) (snd ve))) num_points) ;;
  pr <~ get_pars (r_params (snd mr)) ;;
  hesse <~ flift (get_hesse_approx pr minimum param_id points) ;;
  w <~ fget fs_w ;;
  let tasks := map (fun pt => mk_task w (mk_mstate p m) pt param_id) points in
  (* Pool(0) raises ValueError *)
  values <~ flift (if Nat.eqb num_cpu 0 then Err ValueError
                   else match imap_results (pl_done (pool_run E tasks sch (pool_new tasks num_cpu))) with Some r => r | None => Err OutOfModel end) ;;
  fret (if subtract_min then (points, map (fun v => xsub v minimum) values, map (fun v => xsub v minimum) hesse)
        else (points, values, hesse)).

(** fitter.py:290-373 get_significance (verbose only prints) *)
Definition get_significance (E : ext) (i : nat) (process : string) (fix_nui : bool) : F xr :=
  f <~ get_fitter i ;;
  names <~ fget (fun s => param_names (fs_w s)) ;;
  nuis <~ fget (fun s => nui_ids (fs_w s)) ;;
  m <~ new_minimizer (ft_id f) ;;
  m <~ flift (if fix_nui then fix_all names m nuis else Ok m) ;;
  m <~ flift (fix_all names m (ft_fixed f)) ;;
  m <~ flift (bound_all names m (ft_bounds f)) ;;
  x <~ x0 ;;
  fit <~ minimize_from E m x true ;;
  p <~ get_pars (r_params (snd fit)) ;;
  ve <~ flift (getitem p (PStr (yield_name process))) ;;
  if xltb (fst ve) (Fin 0) then fret (Fin 0)
  else
    _ <~ on_world (set_yield process 0) ;;
    m <~ new_minimizer (ft_id f) ;;
    m <~ flift (if fix_nui then fix_all names m nuis else Ok m) ;;
    m <~ flift (fix_all names m (ft_fixed f)) ;;
    m <~ flift (bound_all names m (ft_bounds f)) ;;
    m <~ flift (fix_all names m [PStr (yield_name process)]) ;;
    x <~ x0 ;;
    prof <~ minimize_from E m x true ;;
    let q0 := xmul (Fin 2) (xsub (r_fcn_min (snd prof)) (r_fcn_min (snd fit))) in
    fret (xsqrt q0).

(** ** Histories *)
Inductive fop : Type :=
  | FOp (o : op)
  | FNew (id : string)
  | FFixNui (i : nat)
  | FFixed (i : nat) (p : pid)
  | FBounds (i : nat) (p : pid) (b : bound)
  | FDoFit (E : ext) (i : nat) (update_templates get_hesse fix_nui : bool) (nui_limits : option bound)
  | FProfile (E : ext) (i : nat) (p : pid) (num_cpu num_points : nat) (sigma : R) (subtract_min fix_nui : bool) (sch : list event)
  | FSignificance (E : ext) (i : nat) (process : string) (fix_nui : bool).
Definition fstate_init : fstate := mk_fstate world_init [] [].
Section Run.
  Variable inv : mat -> res mat.  (* np.linalg.inv *)
  Definition fstep (o : fop) : F unit :=
    match o with
    | FOp o => on_world (step inv o)
    | FNew id => _ <~ fitter_new id ;; fret tt
    | FFixNui i => fix_nui_params i
    | FFixed i p => set_parameter_fixed i p
    | FBounds i p b => set_parameter_bounds i p b
    | FDoFit E i u g n l => _ <~ do_fit E i u g n l ;; fret tt
    | FProfile E i p c n sg sm fn sch => _ <~ profile E i p c n sg sm fn sch ;; fret tt
    | FSignificance E i p n => _ <~ get_significance E i p n ;; fret tt
    end.
  (** a sequence of calls; exceptions are caught by the user *)
  Definition frun (l : list fop) (s : fstate) : fstate := fold_left (fun s o => fst (fstep o s)) l s.
End Run.
