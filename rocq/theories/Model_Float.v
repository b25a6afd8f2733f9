(** Double precision.  The other models compute with real numbers.  Here the sums of hist1d.py (fill), the bin edges
    (np.linspace) and the sums of templates are modelled with the rounding of IEEE binary64 (round to nearest, ties to
    even, with subnormal numbers).  Not modelled: overflow (the largest double is not part of this format), NaN,
    infinities and signed zeros. *)
From Coq Require Import Reals ZArith Bool Arith List Permutation.
From Flocq Require Import Core.
From Verif Require Import Model_Num Model_Hist.
Import ListNotations.
Local Open Scope R_scope.

(** the double nearest to x, and the operations of the processor *)
Definition fl (x : R) : R := round radix2 (FLT_exp (-1074) 53) ZnearestE x.
Definition fadd (a b : R) : R := fl (a + b).
Definition fsub (a b : R) : R := fl (a - b).
Definition fmul (a b : R) : R := fl (a * b).
Definition fdiv (a b : R) : R := fl (a / b).
Definition fsqrt (a : R) : R := fl (sqrt a).

(** np.bincount(numbers, weights)[b]: the weights are added one after the other, starting from 0 *)
Definition bincount_fl (b : nat) (numbers : list nat) (ws : list R) : R :=
  fold_left (fun acc p => if Nat.eqb (fst p) b then fadd acc (snd p) else acc) (combine numbers ws) 0.
(** scipy.stats.binned_statistic(xs, ws, 'sum', es) as in Model_Hist.v *)
Definition binned_fl (es xs ws : list R) : list R :=
  map (fun b => bincount_fl b (map (fun x => bin_number x es) xs) ws) (seq 1 (length es - 1)).
(** hist1d.py:41-73 fill: bin counts and squared errors *)
Definition fill_fl (es : list R) (h : list R * list R) (xs ws : list R) : list R * list R :=
  (map2 fadd (fst h) (binned_fl es xs ws), map2 fadd (snd h) (binned_fl es xs (map (fun w => fmul w w) ws))).
(** hist1d.py:16-25: np.zeros, then a number of fills; without weights they are np.ones *)
Definition fills_fl (es : list R) (l : list (list R * list R)) : list R * list R :=
  fold_left (fun h f => fill_fl es h (fst f) (snd f)) l (repeat 0 (length es - 1), repeat 0 (length es - 1)).

(** np.sum: numpy adds pairwise, in blocks, in an order that depends on the length and the processor.  [sum_fl l s]:
    s is the result for some order of the additions. *)
Inductive sum_fl : list R -> R -> Prop :=
  | sum_none : sum_fl [] 0
  | sum_one x : sum_fl [x] x
  | sum_two l1 l2 s1 s2 : sum_fl l1 s1 -> sum_fl l2 s2 -> sum_fl (l1 ++ l2) (fadd s1 s2)
  | sum_order l1 l2 s : Permutation l1 l2 -> sum_fl l1 s -> sum_fl l2 s.

(** np.linspace(lo, hi, n + 1) (hist1d.py:33): numpy computes arange(0, n+1) * step + lo with step = (hi - lo) / n and
    replaces the last entry by hi; a step that is 0 is treated differently (numpy gh-5437) *)
Definition linspace_fl (lo hi : R) (n : nat) : list R :=
  let delta := fsub hi lo in
  let step := fdiv delta (INR n) in
  map (fun i => if Nat.eqb i n && negb (Nat.eqb n 0) then hi
                else fadd (if Req_EM_T step 0 then fmul (fdiv (INR i) (INR n)) delta else fmul (INR i) step) lo)
      (seq 0 (n + 1)).

(** multi_channel_template.py:194-200 set_yield, 30-43 process_yields and 215-217 get_yield for one process with
    efficiencies effs in the channels that have it: value * efficiency is stored, the stored yields are added *)
Definition get_after_set_fl (effs : list R) (v : R) : R := fold_left fadd (map (fmul v) effs) 0.
