(** Model of templatefitter/minimizer.py.  The optimizers themselves (iminuit.Minuit,
    scipy.optimize.minimize, numdifftools.Hessian) are external programs: they are arbitrary
    terminating programs that may call the objective function at points of their choice. *)
From Coq Require Import Reals String Ascii ZArith Bool Arith List.
From Verif Require Import Model_Num Model_Utility Model_World.
Import ListNotations.
Local Open Scope R_scope.

(** ** Parameters, minimizer.py:30-176 *)
Record pars : Type := mk_pars {
  p_names : list string;
  p_values : list xr;
  p_errors : list xr;
  p_cov : mat;
  p_corr : mat
}.
(** minimizer.py:43-49.  _nparams is len(names); the names list itself is never changed. *)
Definition pars_new (names : list string) : pars :=
  let n := length names in
  mk_pars names (repeat (Fin 0) n) (repeat (Fin 0) n) (repeat (repeat (Fin 0) n) n) (repeat (repeat (Fin 0) n) n).
Definition num_pars (p : pars) : nat := length (p_names p).
(** minimizer.py:131-137 (values.setter) and 144-150 (errors.setter): the setters store the object *)
Definition set_values (p : pars) (v : list xr) : pars * res unit :=
  if Nat.eqb (length v) (num_pars p) then (mk_pars (p_names p) v (p_errors p) (p_cov p) (p_corr p), Ok tt)
  else (p, Err ValueError).
Definition set_errors (p : pars) (v : list xr) : pars * res unit :=
  if Nat.eqb (length v) (num_pars p) then (mk_pars (p_names p) (p_values p) v (p_cov p) (p_corr p), Ok tt)
  else (p, Err ValueError).
(** minimizer.py:157-160 and 167-170 (no check) *)
Definition set_cov (p : pars) (m : mat) : pars * res unit := (mk_pars (p_names p) (p_values p) (p_errors p) m (p_corr p), Ok tt).
Definition set_corr (p : pars) (m : mat) : pars * res unit := (mk_pars (p_names p) (p_values p) (p_errors p) (p_cov p) m, Ok tt).
(** array[index] *)
Definition at_ {A} (l : list A) (i : nat) : res A := match nth_error l i with Some a => Ok a | None => Err IndexError end.
(** minimizer.py:107-120 param_id_to_index, 61-74 get_param_value, 76-89 get_param_error, 91-105 __getitem__ *)
Definition param_id_to_index (p : pars) (i : pid) : res nat := id_to_index (p_names p) i.
Definition get_param_value (p : pars) (i : pid) : res xr := k <- param_id_to_index p i ;; at_ (p_values p) k.
Definition get_param_error (p : pars) (i : pid) : res xr := k <- param_id_to_index p i ;; at_ (p_errors p) k.
Definition getitem (p : pars) (i : pid) : res (xr * xr) :=
  k <- param_id_to_index p i ;; v <- at_ (p_values p) k ;; e <- at_ (p_errors p) k ;; Ok (v, e).

(** ** Programs calling the objective function: ask for its value at a point (and see the value or the
    exception it raised), or stop with a result *)
Inductive prog (A : Type) : Type := Stop (a : A) | Ask (x : list xr) (k : res xr -> prog A).
Arguments Stop {A} _. Arguments Ask {A} _ _.
Fixpoint pbind {A B} (p : prog A) (f : A -> prog B) : prog B :=
  match p with Stop a => f a | Ask x k => Ask x (fun v => pbind (k v) f) end.
(** execution with an objective function that may have state (the caches of the channels) *)
Fixpoint play {S A} (fcn : list xr -> S -> S * res xr) (p : prog A) (w : S) : S * A :=
  match p with
  | Stop a => (w, a)
  | Ask x k => play fcn (k (snd (fcn x w))) (fst (fcn x w))
  end.

Definition bound : Type := option R * option R.

(** the keyword arguments of Minuit.from_array_func, minimizer.py:282-291 *)
Record minuit_args : Type := mk_margs {
  ma_start : list xr; ma_error : list xr; ma_errordef : R; ma_fix : list bool;
  ma_name : list string; ma_limit : list bound
}.
(** what is read from the Minuit object after the two migrad calls, minimizer.py:298-306;
    np_matrix raises if there is no covariance *)
Record minuit_out : Type := mk_mout {
  mo_fval : xr; mo_values : list xr; mo_errors : list xr; mo_matrix : res mat; mo_corr : res mat;
  mo_valid : bool (* is_valid and has_valid_parameters and has_covariance *)
}.
(** scipy's OptimizeResult, minimizer.py:371-384 *)
Record opt_out : Type := mk_oout { oo_success : bool; oo_x : list xr; oo_fun : xr }.
(** a constraint handed to scipy ("type": "eq"): a function of the point, zero where satisfied *)
Definition constr : Type := list xr -> res xr.

Record ext : Type := mk_ext {
  ex_minuit : minuit_args -> prog (res minuit_out);
  ex_slsqp : list xr -> list bound -> list constr -> prog (res opt_out);
  ex_hessian : list xr -> prog (res mat);
  ex_inv : mat -> res mat
}.

(** ** Minimizers, minimizer.py:190-446.  [m_fixed]: IMinuitMinimizer has one flag per parameter,
    ScipyMinimizer a list of indices.  [m_params] is the address of the Parameters object. *)
Inductive fixes : Type := Flags (l : list bool) | Indices (l : list nat).
Record minimizer : Type := mk_min {
  m_params : nat;
  m_fixed : fixes;
  m_bounds : list bound;
  m_fcn_min : option xr;
  m_success : option bool
}.
Inductive min_kind : Type := IMinuit | Scipy.
(** minimizer.py:414-418 / 315-317 release_params: the new value of _fixed_params *)
Definition released (f : fixes) (n : nat) : fixes :=
  match f with Flags _ => Flags (repeat false n) | Indices _ => Indices [] end.
(** minimizer.py:191-203 and 276-278, 336-337 *)
Definition min_new (k : min_kind) (names : list string) (addr : nat) : minimizer :=
  mk_min addr (match k with IMinuit => Flags (repeat false (length names)) | Scipy => Indices [] end)
         (repeat (None, None) (length names)) None None.
(** minimizer.py:311-313 and 401-412 set_param_fixed; [names] are the names of the Parameters object *)
Definition set_param_fixed (names : list string) (m : minimizer) (i : pid) : minimizer * res unit :=
  match id_to_index names i with
  | Err e => (m, Err e)
  | Ok k => (mk_min (m_params m) (match m_fixed m with Flags l => Flags (upd k true l) | Indices l => Indices (l ++ [k]) end)
                    (m_bounds m) (m_fcn_min m) (m_success m), Ok tt)
  end.
Definition release_params (names : list string) (m : minimizer) : minimizer :=
  mk_min (m_params m) (released (m_fixed m) (length names)) (m_bounds m) (m_fcn_min m) (m_success m).
(** minimizer.py:217-231 *)
Definition set_param_bounds (names : list string) (m : minimizer) (i : pid) (b : bound) : minimizer * res unit :=
  match id_to_index names i with
  | Err e => (m, Err e)
  | Ok k => (mk_min (m_params m) (m_fixed m) (upd k b (m_bounds m)) (m_fcn_min m) (m_success m), Ok tt)
  end.

(** minimizer.py:420-446 _create_constraints.  The lambda reads the loop variable fixed_param when it
    is called, not when it is created: a closure is a function of the variable's content ([cell]).
    The loop threads the variable and the list; the closures are called after the loop. *)
Definition closure : Type := option nat -> constr.
Definition create_constraints (init : list xr) (fixed : list nat) : list constr :=
  let loop := fold_left (fun (st : option nat * list closure) (fixed_param : nat) =>
      (Some fixed_param,
       snd st ++ [fun (cell : option nat) (x : list xr) =>
                    match cell with
                    | None => Err OutOfModel
                    | Some i => a <- at_ x i ;; b <- at_ init i ;; Ok (xsub a b)
                    end])) fixed (None, []) in
  map (fun c => c (fst loop)) (snd loop).

(** namedtuple MinimizeResult, minimizer.py:179; [r_params] is the address of the Parameters object *)
Record mresult : Type := mk_mresult { r_fcn_min : xr; r_params : nat; r_success : bool }.

(** ** minimize: a program changing the Parameters object and the minimizer, that may call the objective *)
Record mstate : Type := mk_mstate { ms_p : pars; ms_m : minimizer }.
Definition MM (A : Type) : Type := mstate -> prog (mstate * res A).
Definition mbind {A B} (m : MM A) (k : A -> MM B) : MM B :=
  fun s => pbind (m s) (fun q => match q with (s', Ok a) => k a s' | (s', Err e) => Stop (s', Err e) end).
Notation "x <-- e ;; k" := (mbind e (fun x => k)) (at level 61, e at next level, right associativity).
Definition mplay {A} (p : prog (res A)) : MM A := fun s => pbind p (fun r => Stop (s, r)).
Definition mlift {A} (r : res A) : MM A := fun s => Stop (s, r).
Definition mget {A} (f : mstate -> A) : MM A := fun s => Stop (s, Ok (f s)).
Definition mpars (f : pars -> pars * res unit) : MM unit :=
  fun s => let (p, r) := f (ms_p s) in Stop (mk_mstate p (ms_m s), r).
Definition mset_fcn_min (v : xr) : MM unit :=
  fun s => let m := ms_m s in
           Stop (mk_mstate (ms_p s) (mk_min (m_params m) (m_fixed m) (m_bounds m) (Some v) (m_success m)), Ok tt).
Definition mset_success (b : bool) : MM unit :=
  fun s => let m := ms_m s in
           Stop (mk_mstate (ms_p s) (mk_min (m_params m) (m_fixed m) (m_bounds m) (m_fcn_min m) (Some b)), Ok tt).

Section Minimize.
  Variable E : ext.

  (** minimizer.py:280-309 IMinuitMinimizer.minimize (the keyword get_hesse is swallowed by **kwargs;
      verbose only prints) *)
  Definition minimize_iminuit (flags : list bool) (x0 : list xr) : MM mresult :=
    m <-- mget ms_m ;;
    names <-- mget (fun s => p_names (ms_p s)) ;;
    o <-- mplay (ex_minuit E (mk_margs x0 (map (xmul (Fin (5 / 100))) x0) (1 / 2) flags names (m_bounds m))) ;;
    _ <-- mset_fcn_min (mo_fval o) ;;
    _ <-- mpars (fun p => set_values p (mo_values o)) ;;
    _ <-- mpars (fun p => set_errors p (mo_errors o)) ;;
    c <-- mlift (mo_matrix o) ;;
    _ <-- mpars (fun p => set_cov p c) ;;
    r <-- mlift (mo_corr o) ;;
    _ <-- mpars (fun p => set_corr p r) ;;
    _ <-- mset_success (mo_valid o) ;;
    mlift (Ok (mk_mresult (mo_fval o) (m_params m) (mo_valid o))).

  (** minimizer.py:339-399 ScipyMinimizer.minimize without additional_args *)
  Definition minimize_scipy (fixed : list nat) (x0 : list xr) (get_hesse : bool) : MM mresult :=
    m <-- mget ms_m ;;
    o <-- mplay (ex_slsqp E x0 (m_bounds m) (create_constraints x0 fixed)) ;;
    _ <-- mset_success (oo_success o) ;;
    if oo_success o then
      _ <-- mpars (fun p => set_values p (oo_x o)) ;;
      _ <-- mset_fcn_min (oo_fun o) ;;
      _ <-- (if get_hesse then
               h <-- mplay (ex_hessian E (oo_x o)) ;;
               c <-- mlift (ex_inv E h) ;;
               _ <-- mpars (fun p => set_cov p c) ;;
               _ <-- mpars (fun p => set_corr p (cov2corr c)) ;;
               mpars (fun p => set_errors p (map xsqrt (np_diagonal c)))
             else mlift (Ok tt)) ;;
      mlift (Ok (mk_mresult (oo_fun o) (m_params m) (oo_success o)))
    else mlift (Err RuntimeError).

  Definition minimize (x0 : list xr) (get_hesse : bool) : MM mresult :=
    m <-- mget ms_m ;;
    match m_fixed m with
    | Flags l => minimize_iminuit l x0
    | Indices l => minimize_scipy l x0 get_hesse
    end.
End Minimize.
(** str.lower on ASCII letters (other characters are not modelled) *)
Definition lower_char (a : ascii) : ascii :=
  let n := nat_of_ascii a in if andb (Nat.leb 65 n) (Nat.leb n 90) then ascii_of_nat (n + 32) else a.
Fixpoint lower (s : string) : string :=
  match s with EmptyString => EmptyString | String a s' => String (lower_char a) (lower s') end.
(** minimizer.py:470-473 minimizer_factory: which class *)
Definition minimizer_class (id : string) : res min_kind :=
  if String.eqb (lower id) "scipy" then Ok Scipy
  else if String.eqb (lower id) "iminuit" then Ok IMinuit else Err KeyError.
