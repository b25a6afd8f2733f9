(** Vocabulary for the parameter arrays of templates (C87). *)
From Coq Require Import Reals String ZArith Bool Arith List.
From Verif Require Import Model_Num Model_Hist Model_Template Model_Dtype Model_Legacy Model_ParamHeap.
Import ListNotations.
Local Open Scope R_scope.

(** what t.params shows: yield, then nuisance parameters *)
Definition params_seen (w : pworld) (t : nat) : option (list xr) :=
  match nth_error (p_tms w) t with Some tm => Some (pread w (pt_ref tm)) | None => None end.
(** array number b is the parameter array of template t *)
Definition holds (w : pworld) (t b : nat) : Prop := exists tm, nth_error (p_tms w) t = Some tm /\ a_buf (pt_ref tm) = b.
Definition is_float (w : pworld) (b : nat) : Prop := exists arr, nth_error (p_bufs w) b = Some arr /\ pa_int arr = false.

(** A polite user assigns to params only arrays of floats which no other template has, and does not write into the
    array of a template. *)
Definition polite_pcall (w : pworld) (o : pop) : Prop :=
  match o with
  | PParams t a => is_float w (a_buf a) /\ forall t', t' <> t -> ~ holds w t' (a_buf a)
  | PWrite a _ _ => forall t, ~ holds w t (a_buf a)
  | _ => True
  end.
Fixpoint polite_history (w : pworld) (l : list pop) : Prop :=
  match l with [] => True | o :: l' => polite_pcall w o /\ polite_history (fst (pstep w o)) l' end.

(** the template whose parameters the call is about *)
Definition about (o : pop) (t : nat) : Prop :=
  match o with PParams t' _ => t' = t | PYield t' _ => t' = t | PNui t' _ => t' = t | PReset t' => t' = t | _ => False end.
(** the number given to yield_param *)
Definition number (v : pyval) (x : xr) : Prop :=
  match v with VFloat y => x = y | VInt z => x = Fin (IZR z) | VArr l => l = [x] | VOther => False end.
(** what the call is documented to do to the parameters p of its template, w being the state before *)
Definition documented (w : pworld) (o : pop) (p p' : list xr) : Prop :=
  match o with
  | PParams _ a => p' = pread w a /\ length p' = length p
  | PYield _ v => exists y x nui, p = y :: nui /\ number v x /\ p' = x :: nui
  | PNui _ a => exists y nui, p = y :: nui /\ p' = y :: pread w a /\ length p' = length p
  | PReset t => exists tm, nth_error (p_tms w) t = Some tm /\ p' = pt_sum tm :: repeat (Fin 0) (pt_nb tm)
  | _ => True
  end.
