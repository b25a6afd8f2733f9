(** Vocabulary: TemplateFitter histories. *)
From Coq Require Import Reals String ZArith Bool Arith List.
From Verif Require Import Model_Num Model_Utility Model_Template Model_World Model_Ops Model_Minimizer Model_Fitter Spec_Min Spec_World.
Import ListNotations.
Local Open Scope R_scope.

(** the state after a sequence of calls, starting with an empty MultiChannelTemplate *)
Definition freached (inv : mat -> res mat) (l : list fop) : fstate := frun inv l fstate_init.
(** the number of fitters created: the address of the next one *)
Definition num_fitters (l : list fop) : nat := length (filter (fun o => match o with FNew _ => true | _ => false end) l).
(** every identifier passed to set_parameter_fixed or set_parameter_bounds of fitter i denotes a parameter *)
Definition all_resolve (names : list string) (l : list fop) (i : nat) : Prop :=
  (forall p, In (FFixed i p) l -> exists k, resolves names p k) /\
  (forall p b, In (FBounds i p b) l -> exists k, resolves names p k).
(** the last set_parameter_bounds call of fitter i for parameter k *)
Definition last_bounds (names : list string) (l : list fop) (i k : nat) (b : bound) : Prop :=
  exists l1 p l2, l = l1 ++ FBounds i p b :: l2 /\ resolves names p k /\ forall p' b', In (FBounds i p' b') l2 -> ~ resolves names p' k.
Definition no_bounds (names : list string) (l : list fop) (i k : nat) : Prop :=
  forall p b, In (FBounds i p b) l -> ~ resolves names p k.
(** identifiers used in set_parameter_bounds for the same parameter are equal (as python values) *)
Definition consistent_ids (names : list string) (l : list fop) (i : nat) : Prop :=
  forall p b p' b' k, In (FBounds i p b) l -> In (FBounds i p' b') l -> resolves names p k -> resolves names p' k -> pid_eqb p p' = true.
(** parameter k is a nuisance parameter (parameters are the yields of the processes followed by them) *)
Definition is_nuisance (w : world) (k : nat) : Prop := (length (w_procs w) <= k < num_params w)%nat.
(** parameter k is to be fixed in do_fit(fix_nui_params=n) of fitter i, configured by l *)
Definition requested_fixed (w : world) (l : list fop) (i : nat) (n : bool) (k : nat) : Prop :=
  (n = true /\ is_nuisance w k) \/ exists p, In (FFixed i p) l /\ resolves (param_names w) p k.
(** limits are as requested: the last bounds set for a parameter; otherwise nui_param_limits for nuisance
    parameters; otherwise none *)
Definition limits_as_requested (w : world) (l : list fop) (i : nat) (lim : option bound) (limits : list bound) : Prop :=
  length limits = num_params w /\
  (forall k b, last_bounds (param_names w) l i k b -> nth_error limits k = Some b) /\
  forall k, (k < num_params w)%nat -> no_bounds (param_names w) l i k ->
    (forall b, lim = Some b -> is_nuisance w k -> nth_error limits k = Some b) /\
    (lim = None \/ ~ is_nuisance w k -> nth_error limits k = Some (None, None)).

(** Histories without add_template, add_cov_mat and add_variation after the first evaluation of the
    likelihood, update_parameters or fit. *)
Definition fadds (o : fop) : bool := match o with FOp o => adds o | _ => false end.
Definition fuses (o : fop) : bool :=
  match o with FOp o => uses o | FDoFit _ _ _ _ _ _ | FProfile _ _ _ _ _ _ _ _ _ | FSignificance _ _ _ _ => true | _ => false end.
Definition fbuilt_then_used (l : list fop) : Prop :=
  exists l1 l2, l = l1 ++ l2 /\ Forall (fun o => fuses o = false) l1 /\ Forall (fun o => fadds o = false) l2.
(** Histories without add_template after the first of these. *)
Definition fadds_template (o : fop) : bool := match o with FOp o => adds_template o | _ => false end.
Definition ftemplates_then_used (l : list fop) : Prop :=
  exists l1 l2, l = l1 ++ l2 /\ Forall (fun o => fuses o = false) l1 /\ Forall (fun o => fadds_template o = false) l2.

(** The minimum found by a new minimizer of the given kind, configured by calls cl of its methods and
    started at x, for the objects in w; NaN if it raises RuntimeError. *)
Definition minimum_found (E : ext) (kind : min_kind) (names : list string) (cl : list mcall) (x : list xr) (gh : bool) (w : world) : res xr :=
  match snd (snd (play nll (minimize E x gh (mk_mstate (pars_new names) (calls names (min_new kind names 0) cl))) w)) with
  | Ok r => Ok (r_fcn_min r)
  | Err RuntimeError => Ok NaN
  | Err e => Err e
  end.
(** The nominal fit of a profile scan: a new minimizer with the nuisance parameters fixed if requested (and
    no other configuration), started at x, leaves the parameters p and returns r. *)
Definition nominal_fit (E : ext) (kind : min_kind) (fix_nui : bool) (w : world) (x : list xr) (p : pars) (r : mresult) : Prop :=
  exists a w' m, play nll (minimize E x true (mk_mstate (pars_new (param_names w))
      (calls (param_names w) (min_new kind (param_names w) a) (if fix_nui then map CFix (nui_ids w) else [])))) w = (w', (mk_mstate p m, Ok r)).
(** A schedule of a pool of c workers consists of at least n rounds in each of which every worker gets its turn. *)
Definition fair (c n : nat) (sch : list event) : Prop :=
  exists rounds : list (list event), sch = concat rounds /\ (n <= length rounds)%nat /\
    Forall (fun rd => forall j, (j < c)%nat -> In (Take j) rd /\ In (Step j) rd) rounds.
(** The configuration of fitter f as calls of methods of a minimizer, with the nuisance parameters fixed
    if requested. *)
Definition requests (w : world) (f : fitter) (fix_nui : bool) : list mcall :=
  (if fix_nui then map CFix (nui_ids w) else []) ++ map CFix (ft_fixed f) ++ map (fun ib => CBounds (fst ib) (snd ib)) (ft_bounds f).
(** A new minimizer configured by cl and started at x leaves the parameters p and returns r. *)
Definition fit_run (E : ext) (kind : min_kind) (w : world) (cl : list mcall) (x : list xr) (p : pars) (r : mresult) : Prop :=
  exists a w' m, play nll (minimize E x true (mk_mstate (pars_new (param_names w)) (calls (param_names w) (min_new kind (param_names w) a) cl))) w = (w', (mk_mstate p m, Ok r)).
(** the points Minuit may choose: fixed parameters keep their start values, limits are respected *)
Definition within (b : bound) (v : R) : Prop :=
  (forall lo, fst b = Some lo -> lo <= v) /\ (forall hi, snd b = Some hi -> v <= hi).
Definition in_domain (args : minuit_args) (v : list R) : Prop :=
  length v = length (ma_start args) /\
  (forall j, nth_error (ma_fix args) j = Some true -> nth_error (map Fin v) j = nth_error (ma_start args) j) /\
  (forall j b y, nth_error (ma_limit args) j = Some b -> nth_error v j = Some y -> within b y).
(** m is the minimum of the objective function on a domain *)
Definition is_minimum (obj : list xr -> res xr) (dom : list R -> Prop) (m : R) : Prop :=
  (exists v, dom v /\ obj (map Fin v) = Ok (Fin m)) /\ forall v y, dom v -> obj (map Fin v) = Ok (Fin y) -> m <= y.

(** Between w and w' nothing changed except that the yields of some (all) templates of process p became 0. *)
Definition yields_zeroed (all : bool) (p : string) (w w' : world) : Prop :=
  w_hists w' = w_hists w /\ w_chans w' = w_chans w /\ w_channels w' = w_channels w /\ w_procs w' = w_procs w /\
  w_cnames w' = w_cnames w /\ w_cvals w' = w_cvals w /\ w_cerrs w' = w_cerrs w /\ length (w_tmpls w') = length (w_tmpls w) /\
  forall tid t, nth_error (w_tmpls w) tid = Some t ->
    (~ uses_template_of w p tid -> nth_error (w_tmpls w') tid = Some t) /\
    (uses_template_of w p tid -> nth_error (w_tmpls w') tid = Some (set_params t (Fin 0 :: t_nui t)) \/
       (all = false /\ nth_error (w_tmpls w') tid = Some t)).
