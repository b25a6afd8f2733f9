(** The parameter arrays of templates with their identity (templates/abstract_template.py:75-133).  The setter of
    [params] keeps the array it is given; the setters of yield_param and nui_params write into it; the properties
    params and nui_params return it or a view of it.  Model_Template.v describes the values only. *)
From Coq Require Import Reals String ZArith Bool Arith List.
From Verif Require Import Model_Num Model_Hist Model_Template Model_Dtype Model_Legacy.
Import ListNotations.
Local Open Scope R_scope.

(** an array: element type (integers or floats) and contents; [aref] is a view (buffer, offset, length) *)
Record parr : Type := mk_parr { pa_int : bool; pa_vals : list xr }.
(** a template: number of bins, sum of the counts of its histogram (not filled again here), and [_params] *)
Record ptm : Type := mk_ptm { pt_nb : nat; pt_sum : xr; pt_ref : aref }.
Record pworld : Type := mk_pw { p_bufs : list parr; p_tms : list ptm }.
Definition pw_empty : pworld := mk_pw [] [].

(** contents of a view *)
Definition pread (w : pworld) (a : aref) : list xr :=
  match nth_error (p_bufs w) (a_buf a) with
  | Some b => slice (a_off a) (a_off a + a_len a) (pa_vals b) | None => [] end.
Definition paref_ok (w : pworld) (a : aref) : bool :=
  match nth_error (p_bufs w) (a_buf a) with
  | Some b => Nat.leb (a_off a + a_len a) (length (pa_vals b)) | None => false end.
(** a[i] = v *)
Definition pwrite (w : pworld) (a : aref) (i : nat) (v : xr) : pworld :=
  match nth_error (p_bufs w) (a_buf a) with
  | None => w
  | Some b => mk_pw (upd (a_buf a) (mk_parr (pa_int b) (upd (a_off a + i) (stored (pa_int b) v) (pa_vals b))) (p_bufs w)) (p_tms w)
  end.
(** a[i], a[i+1], ... = vs *)
Fixpoint pwrites (w : pworld) (a : aref) (i : nat) (vs : list xr) : pworld :=
  match vs with [] => w | v :: vs' => pwrites (pwrite w a i v) a (S i) vs' end.

Inductive pop : Type :=
  | PArray (is_int : bool) (l : list xr)         (* the caller makes an array *)
  | PWrite (a : aref) (i : nat) (v : xr)         (* the caller writes a[i] = v; a may be t.params or t.nui_params *)
  | PNew (counts : list xr)                      (* a template of a histogram with these counts *)
  | PParams (t : nat) (a : aref)                 (* t.params = a *)
  | PYield (t : nat) (v : pyval)                 (* t.yield_param = v *)
  | PNui (t : nat) (a : aref)                    (* t.nui_params = a *)
  | PReset (t : nat).                            (* t.reset() *)

Definition set_ref (t : ptm) (a : aref) : ptm := mk_ptm (pt_nb t) (pt_sum t) a.
Definition with_tm (w : pworld) (t : nat) (f : ptm -> pworld * res unit) : pworld * res unit :=
  match nth_error (p_tms w) t with None => (w, Err OutOfModel) | Some tm => f tm end.
(** abstract_template.py:129-133 _init_params: a new array *)
Definition init_arr (nb : nat) (s : xr) : parr := mk_parr false (s :: repeat (Fin 0) nb).
Definition fresh_ref (w : pworld) (nb : nat) : aref := mk_aref (length (p_bufs w)) 0 (S nb).

(** One call; views have to be views of existing arrays. *)
Definition pstep (w : pworld) (o : pop) : pworld * res unit :=
  match o with
  | PArray i l => (mk_pw (p_bufs w ++ [mk_parr i l]) (p_tms w), Ok tt)
  | PWrite a i v => if paref_ok w a then if Nat.ltb i (a_len a) then (pwrite w a i v, Ok tt) else (w, Err IndexError)
                    else (w, Err OutOfModel)
  | PNew counts =>
      let nb := length counts in
      (mk_pw (p_bufs w ++ [init_arr nb (np_sum counts)]) (p_tms w ++ [mk_ptm nb (np_sum counts) (fresh_ref w nb)]), Ok tt)
  | PParams t a => (* abstract_template.py:83-91 *)
      if paref_ok w a then
        with_tm w t (fun tm => if Nat.eqb (a_len a) (a_len (pt_ref tm))
                               then (mk_pw (p_bufs w) (upd t (set_ref tm a) (p_tms w)), Ok tt) else (w, Err RuntimeError))
      else (w, Err OutOfModel)
  | PYield t v => (* abstract_template.py:99-107 *)
      with_tm w t (fun tm =>
        let store x := if Nat.eqb (a_len (pt_ref tm)) 0 then (w, Err IndexError) else (pwrite w (pt_ref tm) 0 x, Ok tt) in
        match v with
        | VFloat x => store x
        | VInt z => store (Fin (IZR z))
        | VArr [x] => store x
        | VArr [] => (w, Err ValueError)
        | VArr _ => (w, Err RuntimeError)
        | VOther => (w, Err RuntimeError)
        end)
  | PNui t a => (* abstract_template.py:115-122; the values are read before they are written *)
      if paref_ok w a then
        with_tm w t (fun tm => if Nat.eqb (a_len a) (pt_nb tm)
                               then (pwrites w (pt_ref tm) 1 (pread w a), Ok tt) else (w, Err RuntimeError))
      else (w, Err OutOfModel)
  | PReset t => (* abstract_template.py:124-133 *)
      with_tm w t (fun tm =>
        (mk_pw (p_bufs w ++ [init_arr (pt_nb tm) (pt_sum tm)]) (upd t (set_ref tm (fresh_ref w (pt_nb tm))) (p_tms w)), Ok tt))
  end.
Fixpoint prun (w : pworld) (l : list pop) : pworld :=
  match l with [] => w | o :: l' => prun (fst (pstep w o)) l' end.
