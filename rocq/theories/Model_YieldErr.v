(** Model of MultiChannelTemplate.process_yield_errors (templates/multi_channel_template.py:45-58). *)
From Coq Require Import Reals String ZArith Bool Arith List.
From Verif Require Import Model_Num Model_Hist Model_Template Model_World.
Import ListNotations.
Local Open Scope R_scope.

(** lines 50-57: the sum for one process over the channels that have a template of it.  np.sum(errors ** 2) sums over
    all bins; an exception of [errors] is passed on. *)
Definition yield_error_sq (w : world) (p : string) : res xr :=
  fold_left (fun acc c =>
    a <- acc ;;
    match dget String.eqb (c_tmpls c) p with
    | None => Ok a
    | Some tid => match nth_error (w_tmpls w) tid with
                  | Some t => er <- t_errors t ;; Ok (xadd a (np_sum (map xsq er)))
                  | None => Err OutOfModel
                  end
    end) (mct_chans w) (Ok (Fin 0)).
(** the whole property: one entry per process in the order of definition (the names of processes are distinct, so
    process_to_index(process) is the position in the loop) *)
Definition process_yield_errors (w : world) : res (list xr) :=
  e <- mapr (yield_error_sq w) (w_procs w) ;; Ok (map xsqrt e).
