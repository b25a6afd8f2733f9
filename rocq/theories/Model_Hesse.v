(** Model of ScipyMinimizer.calculate_hesse_matrix, minimizer.py:448-467: a static method behind one
    functools.lru_cache(maxsize=128) of the class.  The differentiation program (numdifftools.Hessian) is an
    arbitrary program asking for values of the objective, as in Model_Minimizer.  Not modelled: NaN and
    infinities in the arguments (comparison of keys is then by object identity), keyword arguments. *)
From Coq Require Import Reals String ZArith Bool Arith List.
From Verif Require Import Model_Num Model_Minimizer.
Import ListNotations.
Local Open Scope R_scope.

(** the argument x: an ndarray (or list), which has no hash, or a tuple of floats *)
Inductive point : Type := HArray (l : list R) | HTuple (l : list R).
(** the cache key (fcn, x, args).  Functions hash and compare by identity (a number), tuples by value *)
Definition hkey : Type := (nat * list R * list R)%type.
Fixpoint rlist_eqb (a b : list R) : bool :=
  match a, b with
  | [], [] => true
  | x :: a', y :: b' => Reqb x y && rlist_eqb a' b'
  | _, _ => false
  end.
Definition hkey_eqb (p q : hkey) : bool :=
  let '(f, x, a) := p in let '(g, y, b) := q in Nat.eqb f g && rlist_eqb x y && rlist_eqb a b.

(** [S] is the state an objective function reads (templates, data, ...), [obj f s x args] its value *)
Section Hesse.
  Context {S : Type} (obj : nat -> S -> list xr -> list R -> res xr) (hessian : list xr -> prog (res mat)).
  (** the states of the functions, the returned arrays and the cache, which holds the addresses of arrays *)
  Record hstate : Type := mk_hstate { h_fun : nat -> S; h_heap : list mat; h_cache : list (hkey * nat) }.
  Definition hstate_init (s : nat -> S) : hstate := mk_hstate s [] [].
  (** minimizer.py:467 return ndt.Hessian(fcn)(x, *args) *)
  Definition compute_hesse (st : hstate) (f : nat) (x args : list R) : res mat :=
    snd (play (fun p s => (s, obj f s p args)) (hessian (map Fin x)) (h_fun st f)).
  (** minimizer.py:448-467: the key is hashed before the call; a hit returns the stored array object *)
  Definition calculate_hesse_matrix (st : hstate) (f : nat) (x : point) (args : list R) : hstate * res nat :=
    match x with
    | HArray _ => (st, Err TypeError)
    | HTuple l =>
        let new := length (h_heap st) in
        let r := compute_hesse st f l args in
        let '(c, a) := lru_call hkey_eqb (h_cache st) (f, l, args) (rbind r (fun _ => Ok new)) in
        (mk_hstate (h_fun st)
           (match a, r with
            | Ok i, Ok m => if Nat.eqb i new then h_heap st ++ [m] else h_heap st (* a new array, or the stored one *)
            | _, _ => h_heap st
            end) c, a)
    end.
  (** what can happen: a call, a change of what function f computes, a caller writing into a returned array *)
  Inductive hop : Type := HCall (f : nat) (x : point) (args : list R) | HChange (f : nat) (s : S) | HWrite (i : nat) (m : mat).
  Definition hstep (st : hstate) (o : hop) : hstate :=
    match o with
    | HCall f x args => fst (calculate_hesse_matrix st f x args)
    | HChange f s => mk_hstate (fun g => if Nat.eqb g f then s else h_fun st g) (h_heap st) (h_cache st)
    | HWrite i m => mk_hstate (h_fun st) (upd i m (h_heap st)) (h_cache st)
    end.
  Definition hrun (st : hstate) (l : list hop) : hstate := fold_left hstep l st.
End Hesse.
Arguments hop S : clear implicits.
Arguments hstate S : clear implicits.
