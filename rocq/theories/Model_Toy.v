(** Model of templatefitter/toy_study.py (ToyStudy) for the templates of one MultiChannelTemplate. *)
From Coq Require Import Reals String ZArith Bool Arith List.
From Verif Require Import Model_Num Model_Hist Model_Utility Model_Template Model_World Model_Ops Model_Minimizer Model_Fitter.
Import ListNotations.
Local Open Scope R_scope.

(** toy_study.py:27-31.  The arrays appended to the lists are the ones stored in the Parameters object of a
    minimizer that is not used again (fitter.py:75-113); they are modelled as copies. *)
Record study : Type := mk_study {
  st_id : string;                  (* _mimizer_id *)
  st_params : list (list xr);      (* _toy_results["parameters"] *)
  st_errors : list (list xr);      (* _toy_results["uncertainties"] *)
  st_fitted : bool                 (* _is_fitted *)
}.
Record tstate : Type := mk_tstate { ts_f : fstate; ts_studies : list study }.
Definition T (A : Type) : Type := tstate -> tstate * res A.
Definition tret {A} (a : A) : T A := fun s => (s, Ok a).
Definition tbind {A B} (m : T A) (k : A -> T B) : T B :=
  fun s => match m s with (s', Ok a) => k a s' | (s', Err e) => (s', Err e) end.
Notation "x <:- e ;; k" := (tbind e (fun x => k)) (at level 61, e at next level, right associativity).
Definition tlift {A} (r : res A) : T A := fun s => (s, r).
Definition on_f {A} (m : F A) : T A := fun s => let (f, r) := m (ts_f s) in (mk_tstate f (ts_studies s), r).
Definition on_w {A} (m : M A) : T A := on_f (on_world m).
Definition get_study (i : nat) : T study :=
  fun s => (s, match nth_error (ts_studies s) i with Some x => Ok x | None => Err OutOfModel end).
Definition on_study (i : nat) (g : study -> study) : T unit :=
  fun s => match nth_error (ts_studies s) i with
           | Some x => (mk_tstate (ts_f s) (upd i (g x) (ts_studies s)), Ok tt)
           | None => (s, Err OutOfModel)
           end.

(** toy_study.py:27-31 ToyStudy(templates, minimizer_id) *)
Definition study_new (id : string) : T nat :=
  fun s => (mk_tstate (ts_f s) (ts_studies s ++ [mk_study id [] [] false]), Ok (length (ts_studies s))).

(** What is outside python: the optimizers and the numbers drawn by poisson.rvs.  They may be different in
    every attempt of an experiment. *)
Record env : Type := mk_env { en_ext : ext; en_draws : nat -> list nat }.

(** toy_study.py:58-73 the body of the try statement in _experiment *)
Definition attempt (i : nat) (v : env) (get_hesse : bool) : T unit :=
  ds <:- on_w (generate_toy_dataset (en_draws v)) ;;
  _ <:- on_w (mct_add_data ds) ;;
  st <:- get_study i ;;
  fi <:- on_f (fitter_new (st_id st)) ;;
  r <:- on_f (do_fit (en_ext v) fi false get_hesse true None) ;;
  p <:- on_f (get_pars (r_params r)) ;;
  _ <:- on_study i (fun st => mk_study (st_id st) (st_params st ++ [p_values p]) (st_errors st) (st_fitted st)) ;;
  on_study i (fun st => mk_study (st_id st) (st_params st) (st_errors st ++ [p_errors p]) (st_fitted st)).

(** toy_study.py:53-79 _experiment(max_tries, get_hesse); only RuntimeError (of which
    RecursionError is a subclass) is caught.  [k] numbers the
    attempts of the whole study; the result is the number of the next one. *)
Fixpoint experiment (envs : nat -> env) (i : nat) (get_hesse : bool) (max_tries k : nat) : T nat :=
  match max_tries with
  | 0%nat => fun s => (s, Err RuntimeError)
  | S n => fun s =>
      match attempt i (envs k) get_hesse s with
      | (s', Ok _) => (s', Ok (S k))
      | (s', Err RuntimeError) | (s', Err RecursionError) => experiment envs i get_hesse n (S k) s'
      | (s', Err e) => (s', Err e)
      end
  end.
(** for _ in range(n): self._experiment(...) *)
Fixpoint experiments (envs : nat -> env) (i : nat) (get_hesse : bool) (max_tries n k : nat) : T nat :=
  match n with
  | 0%nat => tret k
  | S m => k' <:- experiment envs i get_hesse max_tries k ;; experiments envs i get_hesse max_tries m k'
  end.

(** toy_study.py:204-211 _reset_state *)
Definition reset_state (i : nat) : T unit := on_study i (fun st => mk_study (st_id st) [] [] false).
Definition set_fitted (i : nat) : T unit := on_study i (fun st => mk_study (st_id st) (st_params st) (st_errors st) true).
(** toy_study.py:189-202 _check_state *)
Definition check_state (i : nat) : T unit :=
  st <:- get_study i ;; if st_fitted st then tret tt else tlift (Err RuntimeError).

(** toy_study.py:33-51 do_experiments *)
Definition do_experiments (envs : nat -> env) (i n_exp max_tries : nat) : T unit :=
  _ <:- reset_state i ;;
  _ <:- experiments envs i true max_tries n_exp 0 ;;
  set_fitted i.

(** toy_study.py:122-134 result_parameters, result_uncertainties (an array with one row per experiment) *)
Definition result_parameters (i : nat) : T (list (list xr)) := _ <:- check_state i ;; st <:- get_study i ;; tret (st_params st).
Definition result_uncertainties (i : nat) : T (list (list xr)) := _ <:- check_state i ;; st <:- get_study i ;; tret (st_errors st).

(** np.array(rows)[:, k].  np.array([]) has one dimension.  Rows of different lengths are not modelled. *)
Definition column (rows : list (list xr)) (k : nat) : res (list xr) :=
  match rows with
  | [] => Err IndexError
  | r :: _ => if forallb (fun r' => Nat.eqb (length r') (length r)) rows
              then mapr (fun r' => match nth_error r' k with Some v => Ok v | None => Err IndexError end) rows
              else Err OutOfModel
  end.
(** toy_study.py:136-158 get_toy_results; multi_channel_template.py:175-177 process_to_index *)
Definition get_toy_results (i : nat) (p : string) : T (list xr * list xr) :=
  _ <:- check_state i ;;
  procs <:- (fun s => (s, Ok (w_procs (fs_w (ts_f s))))) ;;
  k <:- tlift (match index_of p procs with Some k => Ok k | None => Err ValueError end) ;;
  ps <:- result_parameters i ;; c1 <:- tlift (column ps k) ;;
  es <:- result_uncertainties i ;; c2 <:- tlift (column es k) ;;
  tret (c1, c2).
(** toy_study.py:160-187 get_toy_result_pulls *)
Definition get_toy_result_pulls (i : nat) (p : string) : T (list xr) :=
  _ <:- check_state i ;;
  pe <:- get_toy_results i p ;;
  y <:- on_w (get_yield p) ;;
  tret (map (fun q => xdiv (xsub (fst q) y) (snd q)) (combine (fst pe) (snd pe))).

(** np.mean and np.std of a non-empty list *)
Definition xmean (l : list xr) : xr := xdiv (fold_left xadd l (Fin 0)) (Fin (INR (length l))).
Definition xstd (l : list xr) : xr := xsqrt (xmean (map (fun x => xsq (xsub x (xmean l))) l)).

(** toy_study.py:101-116 one point of a linearity test; result: mean, standard deviation and the number of
    the next attempt *)
Definition linearity_point (envs : nat -> env) (i : nat) (p : string) (n_exp k : nat) (v : R) : T (xr * xr * nat) :=
  _ <:- reset_state i ;;
  _ <:- on_w reset_parameters ;;
  _ <:- on_w (set_yield p v) ;;
  k' <:- experiments envs i false 10 n_exp k ;;
  _ <:- set_fitted i ;;
  r <:- get_toy_results i p ;;
  tret (xmean (fst r), xstd (fst r), k').
Fixpoint linearity_points (envs : nat -> env) (i : nat) (p : string) (n_exp k : nat) (points : list R) : T (list xr * list xr) :=
  match points with
  | [] => tret ([], [])
  | v :: points' =>
      r <:- linearity_point envs i p n_exp k v ;;
      rs <:- linearity_points envs i p n_exp (snd r) points' ;;
      tret (fst (fst r) :: fst rs, snd (fst r) :: snd rs)
  end.
(** toy_study.py:81-120 do_linearity_test *)
Definition do_linearity_test (envs : nat -> env) (i : nat) (p : string) (lo hi : R) (n_points n_exp : nat) : T (list R * list xr * list xr) :=
  let points := np_linspace lo hi n_points in
  r <:- linearity_points envs i p n_exp 0 points ;;
  tret (points, fst r, snd r).

(** ** Histories *)
Inductive top : Type :=
  | TF (o : fop)
  | TNew (id : string)
  | TExperiments (i : nat) (envs : nat -> env) (n_exp max_tries : nat)
  | TLinearity (i : nat) (envs : nat -> env) (p : string) (lo hi : R) (n_points n_exp : nat).
Definition tstate_init : tstate := mk_tstate fstate_init [].
Section Run.
  Variable inv : mat -> res mat.  (* np.linalg.inv *)
  Definition tstep (o : top) : T unit :=
    match o with
    | TF o => on_f (fstep inv o)
    | TNew id => _ <:- study_new id ;; tret tt
    | TExperiments i envs n mt => do_experiments envs i n mt
    | TLinearity i envs p lo hi np ne => _ <:- do_linearity_test envs i p lo hi np ne ;; tret tt
    end.
  (** a sequence of calls; exceptions are caught by the user *)
  Definition trun (l : list top) (s : tstate) : tstate := fold_left (fun s o => fst (tstep o s)) l s.
End Run.
