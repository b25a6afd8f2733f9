(** Vocabulary: parameter identifiers, Parameters and minimizers. *)
From Coq Require Import Reals String ZArith Bool Arith List.
From Verif Require Import Model_Num Model_Utility Model_Minimizer.
Import ListNotations.
Local Open Scope R_scope.

(** identifier i denotes parameter number k of the list of names: a string the first parameter of this
    name, an integer (True and False are the integers 1 and 0 in python) the parameter of this index *)
Definition resolves (names : list string) (i : pid) (k : nat) : Prop :=
  match i with
  | PStr s => nth_error names k = Some s /\ forall j, (j < k)%nat -> nth_error names j <> Some s
  | PInt z => z = Z.of_nat k /\ (k < length names)%nat
  | PBool b => (if b then k = 1%nat else k = 0%nat) /\ (k < length names)%nat
  | POther => False
  end.

(** assignments to the properties of a Parameters object *)
Inductive passign : Type := AValues (v : list xr) | AErrors (v : list xr) | ACov (m : mat) | ACorr (m : mat).
Definition assign (p : pars) (a : passign) : pars * res unit :=
  match a with AValues v => set_values p v | AErrors v => set_errors p v | ACov m => set_cov p m | ACorr m => set_corr p m end.
Definition assign_all (p : pars) (l : list passign) : pars := fold_left (fun p a => fst (assign p a)) l p.

(** calls of the methods of a minimizer (exceptions are caught) *)
Inductive mcall : Type := CFix (i : pid) | CBounds (i : pid) (b : bound) | CRelease.
Definition call (names : list string) (m : minimizer) (c : mcall) : minimizer :=
  match c with
  | CFix i => fst (set_param_fixed names m i)
  | CBounds i b => fst (set_param_bounds names m i b)
  | CRelease => release_params names m
  end.
Definition calls (names : list string) (m : minimizer) (l : list mcall) : minimizer := fold_left (call names) l m.

(** parameter k was fixed and not released afterwards *)
Definition fixed_by (names : list string) (l : list mcall) (k : nat) : Prop :=
  exists l1 i l2, l = l1 ++ CFix i :: l2 /\ resolves names i k /\ ~ In CRelease l2.
(** the last bounds set for parameter k are b; without any call there are none *)
Definition bounds_by (names : list string) (l : list mcall) (k : nat) (b : bound) : Prop :=
  (exists l1 i l2, l = l1 ++ CBounds i b :: l2 /\ resolves names i k /\ (forall i' b', In (CBounds i' b') l2 -> ~ resolves names i' k)) \/
  ((forall i' b', In (CBounds i' b') l -> ~ resolves names i' k) /\ b = (None, None)).

(** the point x satisfies all equality constraints *)
Definition satisfied (cs : list constr) (x : list xr) : Prop := Forall (fun c => c x = Ok (Fin 0)) cs.
