(** The compatibility checks of channels with the container types of the arguments.  Model_World.v compares the numbers
    only; python distinguishes tuples and lists.  Arrays as ranges are not modelled (the comparison raises ValueError). *)
From Coq Require Import Reals Bool Arith List.
From Verif Require Import Model_Num.
Import ListNotations.
Local Open Scope R_scope.

(** numbers, tuples and lists *)
Inductive py : Type := Num (x : R) | Tup (l : list py) | Lst (l : list py).
(** python's == : a tuple and a list are never equal, int and float compare by value *)
Fixpoint py_eqb (a b : py) {struct a} : bool :=
  let fix eqs (l m : list py) {struct l} : bool :=
    match l, m with
    | [], [] => true
    | x :: l', y :: m' => py_eqb x y && eqs l' m'
    | _, _ => false
    end in
  match a, b with
  | Num x, Num y => Reqb x y
  | Tup l, Tup m => eqs l m
  | Lst l, Lst m => eqs l m
  | _, _ => false
  end.

(** channel.py:37-38: bins if isinstance(bins, tuple) else (bins,); the range is stored as given *)
Record channel : Type := mk_channel { ch_bins : py; ch_range : py }.
Definition define_channel (bins range : py) : channel :=
  mk_channel (match bins with Tup l => Tup l | b => Tup [b] end) range.

(** arguments bins and range of a histogram: hist1d.py:27-39 and hist2d.py:27-39 (numbers of bins with a range in some
    container, or edges) *)
Inductive binning : Type :=
  | Int1 (n : nat) (range : py) | Edges1 (es : list R)
  | Int2 (nx ny : nat) (range : py) | Edges2 (ex ey : list R).
Definition int (n : nat) : py := Num (INR n).
(** hist_utils.py:19-22 get_bin_range returns a tuple *)
Definition ends (es : list R) : py := Tup [Num (hd 0 es); Num (last es 0)].
(** hist.shape is always a tuple of ints; hist.range is the given object or a tuple of the first and last edge *)
Definition hist_shape (b : binning) : py :=
  match b with
  | Int1 n _ => Tup [int n]
  | Edges1 es => Tup [int (length es - 1)]
  | Int2 nx ny _ => Tup [int nx; int ny]
  | Edges2 ex ey => Tup [int (length ex - 1); int (length ey - 1)]
  end.
Definition hist_range (b : binning) : py :=
  match b with
  | Int1 _ r => r
  | Edges1 es => ends es
  | Int2 _ _ r => r
  | Edges2 ex ey => Tup [ends ex; ends ey]
  end.
(** channel.py:497-505 _check_template (template.bins is hist.shape, template.range is hist.range) and _check_hist:
    add_template and add_data raise RuntimeError if it is false *)
Definition accepts (c : channel) (b : binning) : bool :=
  py_eqb (ch_bins c) (hist_shape b) && py_eqb (ch_range c) (hist_range b).
