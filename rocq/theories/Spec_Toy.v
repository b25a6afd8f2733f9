(** Vocabulary: toy studies. *)
From Coq Require Import Reals String ZArith Bool Arith List.
From Verif Require Import Model_Num Model_Hist Model_Utility Model_Template Model_World Model_Ops Model_Minimizer Model_Fitter Model_Toy Spec_World Spec_Data Spec_Fit.
Import ListNotations.
Local Open Scope R_scope.

(** the state after a sequence of calls *)
Definition treached (inv : mat -> res mat) (l : list top) : tstate := trun inv l tstate_init.

(** A toy fit in terms of the other classes: generate a toy data set from the current templates, use it as data,
    and fit it with a new TemplateFitter, nuisance parameters fixed, not updating the templates.  The result
    is (values, errors). *)
Definition toy_fit (v : env) (id : string) (get_hesse : bool) : F (list xr * list xr) :=
  ds <~ on_world (generate_toy_dataset (en_draws v)) ;;
  _ <~ on_world (mct_add_data ds) ;;
  fi <~ fitter_new id ;;
  r <~ do_fit (en_ext v) fi false get_hesse true None ;;
  p <~ get_pars (r_params r) ;;
  fret (p_values p, p_errors p).

(** python: issubclass(e, RuntimeError) *)
Definition runtime_error (e : exn) : Prop := e = RuntimeError \/ e = RecursionError.

Section Study.
  Variables (envs : nat -> env) (id : string) (gh : bool).
  (** the toy fits number k, ..., k + j - 1, one after the other, raise RuntimeError *)
  Inductive fails : nat -> nat -> fstate -> fstate -> Prop :=
  | fails_0 k f : fails k 0 f f
  | fails_S k j f f1 f2 e : toy_fit (envs k) id gh f = (f1, Err e) -> runtime_error e -> fails (S k) j f1 f2 -> fails k (S j) f f2.
  (** A number of experiments, starting with toy fit number k.  Every one consists of less than max_tries
      failing toy fits followed by a successful one, which yields a row of the results.  k' is the number of
      the next toy fit. *)
  Inductive succeed (max_tries : nat) : nat -> fstate -> nat -> fstate -> list (list xr * list xr) -> Prop :=
  | succeed_nil k f : succeed max_tries k f k f []
  | succeed_cons k j f f1 f2 row k' f' rows :
      fails k j f f1 -> (j < max_tries)%nat -> toy_fit (envs (k + j)) id gh f1 = (f2, Ok row) ->
      succeed max_tries (S (k + j)) f2 k' f' rows -> succeed max_tries k f k' f' (row :: rows).
  (** An experiment starting with toy fit number k fails: max_tries RuntimeErrors, or another exception after
      less than max_tries RuntimeErrors. *)
  Inductive gives_up (max_tries k : nat) (f f' : fstate) : exn -> Prop :=
  | gives_up_tries : fails k max_tries f f' -> gives_up max_tries k f f' RuntimeError
  | gives_up_other j f1 e : fails k j f f1 -> (j < max_tries)%nat -> ~ runtime_error e ->
      toy_fit (envs (k + j)) id gh f1 = (f', Err e) -> gives_up max_tries k f f' e.
End Study.

(** o performs a study with study object i (a linearity test without points performs none) *)
Definition studies (i : nat) (o : top) : bool :=
  match o with
  | TExperiments i' _ _ _ => Nat.eqb i i'
  | TLinearity i' _ _ _ _ np _ => Nat.eqb i i' && negb (Nat.eqb np 0)
  | _ => false
  end.
(** no result is left behind: linearity tests with n_exp = 0 raise IndexError with the study marked as fitted *)
Definition at_least_one (o : top) : Prop := match o with TLinearity _ _ _ _ _ _ ne => (0 < ne)%nat | _ => True end.

(** Between w and w' nothing changed except that channels may have got other data, and that new histogram
    objects may exist. *)
Definition data_replaced (w w' : world) : Prop :=
  w_tmpls w' = w_tmpls w /\ w_channels w' = w_channels w /\ w_procs w' = w_procs w /\
  w_cnames w' = w_cnames w /\ w_cvals w' = w_cvals w /\ w_cerrs w' = w_cerrs w /\
  (exists new, w_hists w' = w_hists w ++ new) /\
  Forall2 (fun c c' => exists d, c' = with_data c d) (w_chans w) (w_chans w').
(** ... and no fitter and no result of a fit changed; new ones may exist *)
Definition data_replaced_only (f f' : fstate) : Prop :=
  data_replaced (fs_w f) (fs_w f') /\ (exists new, fs_fitters f' = fs_fitters f ++ new) /\ exists new, fs_pars f' = fs_pars f ++ new.

(** a linearity test: every point is a reset of all parameters, set_yield(p, point) and n_exp experiments *)
Inductive linearity (envs : nat -> env) (id p : string) (n_exp : nat) : nat -> fstate -> list R -> nat -> fstate -> list (list (list xr * list xr)) -> Prop :=
| linearity_nil k f : linearity envs id p n_exp k f [] k f []
| linearity_cons k f v f1 f2 k1 f3 rows points k' f' rest :
    on_world reset_parameters f = (f1, Ok tt) -> on_world (set_yield p v) f1 = (f2, Ok tt) ->
    length rows = n_exp -> succeed envs id false 10 k f2 k1 f3 rows ->
    linearity envs id p n_exp k1 f3 points k' f' rest -> linearity envs id p n_exp k f (v :: points) k' f' (rows :: rest).
(** entry number q of the rows of values *)
Definition fitted (q : nat) (rows : list (list xr * list xr)) : list xr := map (fun row => nth q (fst row) NaN) rows.
Definition fit_errors (q : nat) (rows : list (list xr * list xr)) : list xr := map (fun row => nth q (snd row) NaN) rows.
(** n_exp of a call that performs a study *)
Definition rows_of (o : top) : nat := match o with TExperiments _ _ n _ => n | TLinearity _ _ _ _ _ _ ne => ne | _ => 0%nat end.

(** Every template in use has the parameters of a new template of its histogram object (yield = sum of the
    counts, nuisance parameters 0), except that templates of process p have the yield v times their
    efficiency.  Nothing but parameters differs from w. *)
Definition nominal_except (w : world) (p : string) (v : R) (w2 : world) : Prop :=
  only_params w w2 /\
  forall j n c k p' tid t, channel_at w2 j n c -> template_at w2 c k p' tid t ->
    exists h eff, nth_error (w_hists w2) (t_hist t) = Some h /\ nth_error (c_effs c) k = Some (p', eff) /\
      t_params t = (if String.eqb p' p then Fin (v * eff) else np_sum (nd_flat (h_counts h))) :: repeat (Fin 0) (t_nb t).
(** the experiments of a linearity test: for every point the toy fits start from nominal parameters except
    for the yield of p *)
Inductive tested (envs : nat -> env) (id p : string) (n_exp : nat) : nat -> fstate -> list R -> nat -> fstate -> list (list (list xr * list xr)) -> Prop :=
| tested_nil k f : tested envs id p n_exp k f [] k f []
| tested_cons k f v w2 k1 f3 rows points k' f' rest :
    nominal_except (fs_w f) p v w2 -> length rows = n_exp -> succeed envs id false 10 k (mk_fstate w2 (fs_pars f) (fs_fitters f)) k1 f3 rows ->
    tested envs id p n_exp k1 f3 points k' f' rest -> tested envs id p n_exp k f (v :: points) k' f' (rows :: rest).
(** mean and standard deviation *)
Definition mean (l : list R) : R := fold_right Rplus 0 l / INR (length l).
Definition std_dev (l : list R) : R := sqrt (mean (map (fun x => (x - mean l) ^ 2) l)).
(** Between f and f' parameters of templates and data of channels may have changed; new histograms, fitters and fit
    results may exist; everything else is the same. *)
Definition params_and_data_only (f f' : fstate) : Prop :=
  let w := fs_w f in let w' := fs_w f' in
  Forall2 (fun t t' => exists ps, t' = set_params t ps) (w_tmpls w) (w_tmpls w') /\
  w_channels w' = w_channels w /\ w_procs w' = w_procs w /\
  w_cnames w' = w_cnames w /\ w_cvals w' = w_cvals w /\ w_cerrs w' = w_cerrs w /\
  (exists new, w_hists w' = w_hists w ++ new) /\
  Forall2 (fun c c' => exists d, c' = with_data c d) (w_chans w) (w_chans w') /\
  (exists new, fs_fitters f' = fs_fitters f ++ new) /\ exists new, fs_pars f' = fs_pars f ++ new.
