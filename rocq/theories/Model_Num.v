(** Numbers, arrays, exceptions and library functions used by the model.

    A Python float (numpy.float64) is modelled as an extended real: exact real
    arithmetic plus the IEEE-754 rules for infinities and NaN.  Rounding,
    overflow and the sign of zero (every zero is +0) are NOT modelled. *)
From Coq Require Import Reals String ZArith Bool Arith List.
Import ListNotations.
Local Open Scope R_scope.

Inductive xr : Type := Fin (r : R) | PInf | NInf | NaN.

(** Decidable comparisons of reals as booleans. *)
Definition Rltb (a b : R) : bool := if Rlt_dec a b then true else false.
Definition Rleb (a b : R) : bool := if Rle_dec a b then true else false.
Definition Reqb (a b : R) : bool := if Req_EM_T a b then true else false.

(** ** IEEE operations on extended reals (numpy error model: no exceptions) *)

Definition xopp (a : xr) : xr :=
  match a with Fin r => Fin (- r) | PInf => NInf | NInf => PInf | NaN => NaN end.

Definition xadd (a b : xr) : xr :=
  match a, b with
  | NaN, _ => NaN | _, NaN => NaN
  | Fin x, Fin y => Fin (x + y)
  | PInf, NInf => NaN | NInf, PInf => NaN
  | PInf, _ => PInf | _, PInf => PInf
  | NInf, _ => NInf | _, NInf => NInf
  end.

Definition xsub (a b : xr) : xr := xadd a (xopp b).

(** [xinf_sign neg]: infinity with the given sign. *)
Definition xinf (neg : bool) : xr := if neg then NInf else PInf.

(** infinity times a finite number *)
Definition xinf_mul (neg : bool) (r : R) : xr :=
  if Reqb r 0 then NaN else xinf (xorb neg (Rltb r 0)).

Definition xmul (a b : xr) : xr :=
  match a, b with
  | NaN, _ => NaN | _, NaN => NaN
  | Fin x, Fin y => Fin (x * y)
  | PInf, Fin y => xinf_mul false y
  | NInf, Fin y => xinf_mul true y
  | Fin x, PInf => xinf_mul false x
  | Fin x, NInf => xinf_mul true x
  | PInf, PInf => PInf | NInf, NInf => PInf
  | PInf, NInf => NInf | NInf, PInf => NInf
  end.

(** division; x/0 is +-inf with the sign of x (zeros are +0), 0/0 is NaN *)
Definition xdiv (a b : xr) : xr :=
  match a, b with
  | NaN, _ => NaN | _, NaN => NaN
  | Fin x, Fin y =>
      if Reqb y 0 then (if Reqb x 0 then NaN else xinf (Rltb x 0)) else Fin (x / y)
  | PInf, Fin y => xinf (Rltb y 0)
  | NInf, Fin y => xinf (negb (Rltb y 0))
  | Fin _, PInf => Fin 0 | Fin _, NInf => Fin 0
  | _, _ => NaN
  end.

Definition xsqrt (a : xr) : xr :=
  match a with
  | Fin r => if Rltb r 0 then NaN else Fin (sqrt r)
  | PInf => PInf | NInf => NaN | NaN => NaN
  end.

Definition xabs (a : xr) : xr :=
  match a with Fin r => Fin (Rabs r) | PInf => PInf | NInf => PInf | NaN => NaN end.

(** np.log *)
Definition xlog (a : xr) : xr :=
  match a with
  | Fin r => if Rltb r 0 then NaN else if Reqb r 0 then NInf else Fin (ln r)
  | PInf => PInf | NInf => NaN | NaN => NaN
  end.

(** np.log1p *)
Definition xlog1p (a : xr) : xr :=
  match a with
  | Fin r => if Rltb r (-1) then NaN else if Reqb r (-1) then NInf else Fin (ln (1 + r))
  | PInf => PInf | NInf => NaN | NaN => NaN
  end.

(** x ** 2 *)
Definition xsq (a : xr) : xr := xmul a a.

Definition xisnan (a : xr) : bool := match a with NaN => true | _ => false end.

(** a < b, false if one is NaN *)
Definition xltb (a b : xr) : bool :=
  match a, b with
  | NaN, _ => false | _, NaN => false
  | Fin x, Fin y => Rltb x y
  | NInf, NInf => false | NInf, _ => true
  | _, NInf => false
  | PInf, _ => false | Fin _, PInf => true
  end.

(** a == b, false if one is NaN *)
Definition xeqb (a b : xr) : bool :=
  match a, b with
  | Fin x, Fin y => Reqb x y
  | PInf, PInf => true | NInf, NInf => true
  | _, _ => false
  end.

(** largest finite float64 *)
Definition dbl_max : R := (2 - / 2 ^ 52) * 2 ^ 1023.

(** np.nan_to_num with its default arguments *)
Definition xnan_to_num (a : xr) : xr :=
  match a with
  | NaN => Fin 0 | PInf => Fin dbl_max | NInf => Fin (- dbl_max) | Fin r => Fin r
  end.

(** np.rint: nearest integer, ties to even *)
Definition Rrint (r : R) : R :=
  let f := Int_part r in
  let d := r - IZR f in
  if Rltb d (1/2) then IZR f
  else if Reqb d (1/2) then (if Z.even f then IZR f else IZR (f + 1))
  else IZR (f + 1).
Definition xrint (a : xr) : xr := match a with Fin r => Fin (Rrint r) | _ => a end.

(** ** Exceptions *)

Inductive exn : Type :=
  | RuntimeError | ValueError | TypeError | KeyError | IndexError | AttributeError
  | ZeroDivisionError | LinAlgError | RecursionError
  | OutOfModel.  (* a situation the model does not describe; no theorem claims anything about it *)

Inductive res (A : Type) : Type := Ok (a : A) | Err (e : exn).
Arguments Ok {A} a.
Arguments Err {A} e.

Definition rbind {A B} (r : res A) (k : A -> res B) : res B :=
  match r with Ok a => k a | Err e => Err e end.
Notation "x <- e ;; k" := (rbind e (fun x => k)) (at level 61, e at next level, right associativity).

Definition rmap {A B} (f : A -> B) (r : res A) : res B :=
  match r with Ok a => Ok (f a) | Err e => Err e end.

(** list comprehension whose body may raise *)
Fixpoint mapr {A B} (f : A -> res B) (l : list A) : res (list B) :=
  match l with
  | [] => Ok []
  | a :: l' => b <- f a ;; bs <- mapr f l' ;; Ok (b :: bs)
  end.

(** ** Arrays *)

(** An n-dimensional numpy array: shape and entries in C (row-major) order. *)
Record nd : Type := mk_nd { nd_shape : list nat; nd_flat : list xr }.

Definition nprod (l : list nat) : nat := fold_right Nat.mul 1%nat l.

(** np.zeros *)
Definition np_zeros (shape : list nat) : nd := mk_nd shape (repeat (Fin 0) (nprod shape)).

Definition natlist_eqb (a b : list nat) : bool :=
  if list_eq_dec Nat.eq_dec a b then true else false.

Fixpoint map2 {A B C} (f : A -> B -> C) (a : list A) (b : list B) : list C :=
  match a, b with x :: a', y :: b' => f x y :: map2 f a' b' | _, _ => [] end.

(** elementwise binary operation on 1-d arrays with numpy broadcasting *)
Definition bcast {A B C} (f : A -> B -> C) (a : list A) (b : list B) : res (list C) :=
  if Nat.eqb (length a) (length b) then Ok (map2 f a b)
  else match a, b with
       | [x], _ => Ok (map (f x) b)
       | _, [y] => Ok (map (fun x => f x y) a)
       | _, _ => Err ValueError
       end.

(** np.sum of all entries *)
Definition np_sum (l : list xr) : xr := fold_right xadd (Fin 0) l.

(** entry i of a vector / (i,j) of a matrix given as list of rows.  NaN outside;
    uses are guarded by explicit length checks. *)
Definition vnth (l : list xr) (i : nat) : xr := nth i l NaN.
Definition mnth (m : list (list xr)) (i j : nat) : xr := vnth (nth i m []) j.

Definition mat := list (list xr).

(** sum_{i<n} f i *)
Definition xsum_n (n : nat) (f : nat -> xr) : xr := np_sum (map f (seq 0 n)).

(** np.diag of a vector (matrix) and of a matrix (vector) *)
Definition np_diag (v : list xr) : mat :=
  map (fun i => map (fun j => if Nat.eqb i j then vnth v i else Fin 0) (seq 0 (length v)))
      (seq 0 (length v)).
Definition np_diagonal (m : mat) : list xr :=
  map (fun i => mnth m i i) (seq 0 (length m)).

(** all rows have length n *)
Definition rows_ok (n : nat) (m : mat) : bool := forallb (fun r => Nat.eqb (length r) n) m.
Definition square (n : nat) (m : mat) : bool := Nat.eqb (length m) n && rows_ok n m.

(** np.matmul of two n x n matrices *)
Definition np_matmul (n : nat) (a b : mat) : mat :=
  map (fun i => map (fun j => xsum_n n (fun k => xmul (mnth a i k) (mnth b k j))) (seq 0 n)) (seq 0 n).

(** elementwise a + b of two n x n matrices *)
Definition np_madd (a b : mat) : mat := map2 (map2 xadd) a b.

(** np.outer *)
Definition np_outer (a b : list xr) : mat := map (fun x => map (fun y => xmul x y) b) a.

(** vector @ vector *)
Definition np_dot (a b : list xr) : res xr :=
  if Nat.eqb (length a) (length b) then Ok (np_sum (map2 xmul a b)) else Err ValueError.

(** vector @ matrix; the matrix is a non-empty list of rows of equal length *)
Definition np_vecmat (v : list xr) (m : mat) : res (list xr) :=
  match m with
  | [] => Err OutOfModel
  | row :: _ =>
      if negb (rows_ok (length row) m) then Err OutOfModel
      else if Nat.eqb (length v) (length m)
      then Ok (map (fun j => xsum_n (length m) (fun i => xmul (vnth v i) (mnth m i j))) (seq 0 (length row)))
      else Err ValueError
  end.

(** scipy.linalg.block_diag of square blocks *)
Fixpoint block_diag (ms : list mat) : mat :=
  match ms with
  | [] => []
  | m :: ms' =>
      let rest := block_diag ms' in
      map (fun row => row ++ repeat (Fin 0) (length rest)) m
      ++ map (fun row => repeat (Fin 0) (length m) ++ row) rest
  end.

(** np.split(ary, sections): [sections] equal parts *)
Fixpoint chunks {A} (k size : nat) (l : list A) : list (list A) :=
  match k with O => [] | S k' => firstn size l :: chunks k' size (skipn size l) end.
Definition np_split_n {A} (l : list A) (k : nat) : res (list (list A)) :=
  match k with
  | O => Err ZeroDivisionError
  | _ => if Nat.eqb (length l mod k) 0 then Ok (chunks k (length l / k) l) else Err ValueError
  end.

(** np.split(ary, indices): pieces between consecutive indices (python slices) *)
Definition slice {A} (a b : nat) (l : list A) : list A := firstn (b - a) (skipn a l).
Fixpoint np_split_from {A} (start : nat) (idx : list nat) (l : list A) : list (list A) :=
  match idx with
  | [] => [skipn start l]
  | i :: idx' => slice start i l :: np_split_from i idx' l
  end.
Definition np_split_at {A} (l : list A) (idx : list nat) : list (list A) := np_split_from 0 idx l.

(** np.cumsum *)
Fixpoint cumsum_from (acc : nat) (l : list nat) : list nat :=
  match l with [] => [] | n :: l' => (acc + n)%nat :: cumsum_from (acc + n) l' end.
Definition np_cumsum (l : list nat) : list nat := cumsum_from 0 l.

(** fancy indexing a[[i,j,...]] *)
Definition np_take {A} (l : list A) (idx : list nat) : res (list A) :=
  mapr (fun i => match nth_error l i with Some a => Ok a | None => Err IndexError end) idx.

(** np.linspace(lo, hi, num) *)
Definition np_linspace (lo hi : R) (num : nat) : list R :=
  match num with
  | O => []
  | S O => [lo]
  | S (S k) => map (fun i => lo + INR i * ((hi - lo) / INR (S k))) (seq 0 num)
  end.

(** ** Insertion-ordered dictionaries *)
Section Dict.
  Context {K V : Type} (eqb : K -> K -> bool).
  Fixpoint dget (d : list (K * V)) (k : K) : option V :=
    match d with [] => None | (k', v) :: d' => if eqb k k' then Some v else dget d' k end.
  (** d[k] = v: an existing key keeps its position *)
  Fixpoint dset (d : list (K * V)) (k : K) (v : V) : list (K * V) :=
    match d with
    | [] => [(k, v)]
    | (k', v') :: d' => if eqb k k' then (k', v) :: d' else (k', v') :: dset d' k v
    end.
End Dict.

(** tuple.index / list.index *)
Fixpoint index_of (s : string) (l : list string) : option nat :=
  match l with
  | [] => None
  | s' :: l' => if String.eqb s s' then Some O else option_map S (index_of s l')
  end.
Definition smem (s : string) (l : list string) : bool := existsb (String.eqb s) l.

(** ** functools.lru_cache(): maxsize 128, least recently used entry evicted.
    The list is ordered from most to least recently used. *)
Section Lru.
  Context {K V : Type} (eqb : K -> K -> bool).
  Definition lru_maxsize : nat := 128.
  Fixpoint lru_del (c : list (K * V)) (k : K) : list (K * V) :=
    match c with [] => [] | (k', v) :: c' => if eqb k k' then c' else (k', v) :: lru_del c' k end.
  (** a call of the decorated function: new cache and result; exceptions are not cached *)
  Definition lru_call (c : list (K * V)) (k : K) (compute : res V) : list (K * V) * res V :=
    match dget eqb c k with
    | Some v => ((k, v) :: lru_del c k, Ok v)
    | None =>
        match compute with
        | Ok v => (firstn lru_maxsize ((k, v) :: c), Ok v)
        | Err e => (c, Err e)
        end
    end.
End Lru.

(** ** Heaps: objects are addressed by their position *)
Fixpoint upd {A} (i : nat) (a : A) (l : list A) : list A :=
  match l, i with
  | [], _ => []
  | _ :: l', O => a :: l'
  | x :: l', S i' => x :: upd i' a l'
  end.
