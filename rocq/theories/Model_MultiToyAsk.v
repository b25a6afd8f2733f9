(** Questions to a ToyStudy and to the model it belongs to, and what the user sees (Model_MultiToy). *)
From Coq Require Import Reals String ZArith Bool Arith List.
From Verif Require Import Model_Num Model_Hist Model_Utility Model_Template Model_World Model_Ops Model_Multi Model_Minimizer Model_Fitter Model_MultiFit Model_Toy Model_MultiToy.
Import ListNotations.
Local Open Scope R_scope.

Inductive squestion : Type :=
  | SExperiments (envs : nat -> env) (n_exp max_tries : nat)          (* toy_study.py:33-51 do_experiments *)
  | SLinearity (envs : nat -> env) (p : string) (lo hi : R) (n_points n_exp : nat)  (* toy_study.py:81-120 do_linearity_test *)
  | SRows                         (* toy_study.py:122-134 result_parameters, result_uncertainties *)
  | SResults (p : string)         (* toy_study.py:136-158 get_toy_results *)
  | SPulls (p : string)           (* toy_study.py:160-187 get_toy_result_pulls *)
  | SYield (p : string)           (* multi_channel_template.py:202-217 get_yield of the model of the study *)
  | SSetYield (p : string) (v : R)  (* multi_channel_template.py:179-200 set_yield *)
  | SReset                        (* multi_channel_template.py:219-227 reset_parameters *)
  | SNll (x : list xr).           (* the likelihood of the model, with the data of the last toy experiment *)
Inductive sanswer : Type :=
  | SNone
  | SPoints (points : list R) (means stds : list xr)
  | STable (parameters uncertainties : list (list xr))
  | SColumns (parameters uncertainties : list xr)
  | SNumbers (x : list xr)
  | SNumber (v : xr).
Definition study_answer (i : nat) (q : squestion) : T sanswer :=
  match q with
  | SExperiments envs n mt => _ <:- do_experiments envs i n mt ;; tret SNone
  | SLinearity envs p lo hi np ne => r <:- do_linearity_test envs i p lo hi np ne ;; tret (SPoints (fst (fst r)) (snd (fst r)) (snd r))
  | SRows => a <:- result_parameters i ;; b <:- result_uncertainties i ;; tret (STable a b)
  | SResults p => r <:- get_toy_results i p ;; tret (SColumns (fst r) (snd r))
  | SPulls p => r <:- get_toy_result_pulls i p ;; tret (SNumbers r)
  | SYield p => v <:- on_w (get_yield p) ;; tret (SNumber v)
  | SSetYield p v => _ <:- on_w (set_yield p v) ;; tret SNone
  | SReset => _ <:- on_w reset_parameters ;; tret SNone
  | SNll x => v <:- on_w (nll x) ;; tret (SNumber v)
  end.
(** the answers (or exceptions) to a sequence of questions to study i, asked one after the other in state s *)
Fixpoint study_answers (i : nat) (l : list squestion) (s : zstate) : list (res sanswer) :=
  match l with
  | [] => []
  | q :: l' => let '(s', r) := of_study i (study_answer i q) s in r :: study_answers i l' s'
  end.
