(** Model of templatefitter/templates/channel.py and multi_channel_template.py.

    Objects with identity (histograms, templates, channels) live in heaps and are referred to by their
    address (position).  There is one MultiChannelTemplate (programs with several: Model_Multi).  The three
    functools.lru_cache decorators of Channel are class level caches keyed by the channel object. *)
From Coq Require Import Reals String ZArith Bool Arith List.
From Verif Require Import Model_Num Model_Hist Model_Utility Model_Template.
Import ListNotations.
Local Open Scope R_scope.

(** channel.py:32-43 attributes of a Channel.  Tuples, lists and arrays are not distinguished in
    the comparisons of bins and range (channel.py:497-505). *)
Record chan : Type := mk_chan {
  c_name : string;
  c_tmpls : list (string * nat);       (* _template_dict: process -> template object *)
  c_effs : list (string * R);          (* _efficiency_dict *)
  c_procs : list string;               (* _processes *)
  c_bins : list nat;
  c_range : list (R * R);
  c_data : option nat;                 (* _hdata: histogram object *)
  c_dim : option nat;
  c_ttype : option kind }.             (* _template_type and _htype *)

(** multi_channel_template.py:18-23 and the heaps *)
Record world : Type := mk_world {
  w_hists : list hist;
  w_tmpls : list tmpl;
  w_chans : list chan;
  w_channels : list (string * nat);    (* _channel_dict *)
  w_procs : list string;               (* _processes *)
  w_cnames : list string;              (* _constrained_yields *)
  w_cvals : list (string * R);         (* _constrained_yield_values *)
  w_cerrs : list (string * R);         (* _constrained_yield_errors *)
  w_cache_pi : list ((nat * list string) * list nat);  (* Channel.process_indices *)
  w_cache_eff : list (nat * list xr);                  (* Channel._get_efficiencies_as_array *)
  w_cache_inv : list (nat * mat) }.                    (* Channel._create_block_diag_inv_corr_mat *)

Definition world_init : world := mk_world [] [] [] [] [] [] [] [] [] [] [].

Definition set_hists w v := mk_world v (w_tmpls w) (w_chans w) (w_channels w) (w_procs w) (w_cnames w) (w_cvals w) (w_cerrs w) (w_cache_pi w) (w_cache_eff w) (w_cache_inv w).
Definition set_tmpls w v := mk_world (w_hists w) v (w_chans w) (w_channels w) (w_procs w) (w_cnames w) (w_cvals w) (w_cerrs w) (w_cache_pi w) (w_cache_eff w) (w_cache_inv w).
Definition set_chans w v := mk_world (w_hists w) (w_tmpls w) v (w_channels w) (w_procs w) (w_cnames w) (w_cvals w) (w_cerrs w) (w_cache_pi w) (w_cache_eff w) (w_cache_inv w).
Definition set_channels w v := mk_world (w_hists w) (w_tmpls w) (w_chans w) v (w_procs w) (w_cnames w) (w_cvals w) (w_cerrs w) (w_cache_pi w) (w_cache_eff w) (w_cache_inv w).
Definition set_procs w v := mk_world (w_hists w) (w_tmpls w) (w_chans w) (w_channels w) v (w_cnames w) (w_cvals w) (w_cerrs w) (w_cache_pi w) (w_cache_eff w) (w_cache_inv w).
Definition set_constr w a b c := mk_world (w_hists w) (w_tmpls w) (w_chans w) (w_channels w) (w_procs w) a b c (w_cache_pi w) (w_cache_eff w) (w_cache_inv w).
Definition set_cache_pi w v := mk_world (w_hists w) (w_tmpls w) (w_chans w) (w_channels w) (w_procs w) (w_cnames w) (w_cvals w) (w_cerrs w) v (w_cache_eff w) (w_cache_inv w).
Definition set_cache_eff w v := mk_world (w_hists w) (w_tmpls w) (w_chans w) (w_channels w) (w_procs w) (w_cnames w) (w_cvals w) (w_cerrs w) (w_cache_pi w) v (w_cache_inv w).
Definition set_cache_inv w v := mk_world (w_hists w) (w_tmpls w) (w_chans w) (w_channels w) (w_procs w) (w_cnames w) (w_cvals w) (w_cerrs w) (w_cache_pi w) (w_cache_eff w) v.

(** ** State and exception monad: the state reached when an exception is raised is kept *)
Definition M (A : Type) : Type := world -> world * res A.
Definition ret {A} (a : A) : M A := fun w => (w, Ok a).
Definition raise {A} (e : exn) : M A := fun w => (w, Err e).
Definition bind {A B} (m : M A) (k : A -> M B) : M B :=
  fun w => match m w with (w', Ok a) => k a w' | (w', Err e) => (w', Err e) end.
Notation "x <- e ;;; k" := (bind e (fun x => k)) (at level 61, e at next level, right associativity).
Definition lift {A} (r : res A) : M A := fun w => (w, r).
Definition gets {A} (f : world -> A) : M A := fun w => (w, Ok (f w)).
Fixpoint mapM {A B} (f : A -> M B) (l : list A) : M (list B) :=
  match l with
  | [] => ret []
  | a :: l' => b <- f a ;;; bs <- mapM f l' ;;; ret (b :: bs)
  end.
Fixpoint forM {A} (f : A -> M unit) (l : list A) : M unit :=
  match l with
  | [] => ret tt
  | a :: l' => _ <- f a ;;; forM f l'
  end.

(** dereferencing; a dangling address cannot occur (proved as part of the world invariant) *)
Definition get_hist (i : nat) : M hist := fun w => (w, match nth_error (w_hists w) i with Some h => Ok h | None => Err OutOfModel end).
Definition get_tmpl (i : nat) : M tmpl := fun w => (w, match nth_error (w_tmpls w) i with Some h => Ok h | None => Err OutOfModel end).
Definition get_chan (i : nat) : M chan := fun w => (w, match nth_error (w_chans w) i with Some h => Ok h | None => Err OutOfModel end).
(** run a method of an object that returns the new object and a result *)
Definition on_hist {A} (i : nat) (f : hist -> hist * res A) : M A :=
  fun w => match nth_error (w_hists w) i with
           | None => (w, Err OutOfModel)
           | Some h => let '(h', r) := f h in (set_hists w (upd i h' (w_hists w)), r)
           end.
Definition on_tmpl {A} (i : nat) (f : tmpl -> tmpl * res A) : M A :=
  fun w => match nth_error (w_tmpls w) i with
           | None => (w, Err OutOfModel)
           | Some h => let '(h', r) := f h in (set_tmpls w (upd i h' (w_tmpls w)), r)
           end.
Definition on_chan {A} (i : nat) (f : chan -> chan * res A) : M A :=
  fun w => match nth_error (w_chans w) i with
           | None => (w, Err OutOfModel)
           | Some h => let '(h', r) := f h in (set_chans w (upd i h' (w_chans w)), r)
           end.

Definition keys {A} (d : list (string * A)) : list string := map fst d.

(** ** Channel *)

(** channel.py:32-43 *)
Definition chan_new (name : string) (bins : list nat) (range : list (R * R)) : chan :=
  mk_chan name [] [] [] bins range None None None.

(** channel.py:45-48 num_templates, 55-58 num_bins, 86-89 num_nui_params *)
Definition num_templates (c : chan) : nat := length (c_procs c).
Definition num_bins (c : chan) : nat := nprod (c_bins c).
Definition ch_num_nui (c : chan) : nat := num_templates c * num_bins c.

Definition pairR_eqb (a b : R * R) : bool := Reqb (fst a) (fst b) && Reqb (snd a) (snd b).
Fixpoint ranges_eqb (a b : list (R * R)) : bool :=
  match a, b with
  | [], [] => true
  | x :: a', y :: b' => pairR_eqb x y && ranges_eqb a' b'
  | _, _ => false
  end.

(** channel.py:497-500 _check_template, 502-505 _check_hist *)
Definition check_template (c : chan) (t : tmpl) : bool :=
  natlist_eqb (c_bins c) (t_bins t) && ranges_eqb (c_range c) (t_range t).
Definition check_hist (c : chan) (h : hist) : bool :=
  natlist_eqb (c_bins c) (h_shape h) && ranges_eqb (c_range c) (h_range h).

(** channel.py:406-426 _add_template *)
Definition add_template_raw (c : chan) (process : string) (tid : nat) (t : tmpl) (eff : R) : chan * res unit :=
  if smem process (keys (c_tmpls c)) then (c, Err RuntimeError)
  else
    let dim := match c_dim c with None => Some (length (t_bins t)) | d => d end in
    let ty := match c_ttype c with None => t_kind t | Some k => k end in
    let c1 := mk_chan (c_name c) (c_tmpls c) (c_effs c) (c_procs c) (c_bins c) (c_range c) (c_data c) dim (Some ty) in
    if negb (kind_eqb (t_kind t) ty) then (c1, Err RuntimeError)
    else (mk_chan (c_name c) (dset String.eqb (c_tmpls c) process tid) (dset String.eqb (c_effs c) process eff)
            (c_procs c ++ [process]) (c_bins c) (c_range c) (c_data c) dim (Some ty), Ok tt).

(** channel.py:111-130 add_template *)
Definition ch_add_template (c : chan) (process : string) (tid : nat) (t : tmpl) (eff : R) : chan * res unit :=
  if check_template c t then add_template_raw c process tid t eff else (c, Err RuntimeError).

(** channel.py:132-147 add_data *)
Definition ch_add_data (c : chan) (hid : nat) (h : hist) : chan * res unit :=
  if check_hist c h
  then (mk_chan (c_name c) (c_tmpls c) (c_effs c) (c_procs c) (c_bins c) (c_range c) (Some hid) (c_dim c) (c_ttype c), Ok tt)
  else (c, Err RuntimeError).

(** channel.py:107-109 reset *)
Definition tmpl_reset (tid : nat) : M unit :=
  t <- get_tmpl tid ;;; h <- get_hist (t_hist t) ;;; on_tmpl tid (fun t => (t_reset t h, Ok tt)).
Definition ch_reset (cid : nat) : M unit :=
  c <- get_chan cid ;;; forM (fun p => tmpl_reset (snd p)) (c_tmpls c).

Definition strlist_eqb (a b : list string) : bool := if list_eq_dec string_dec a b then true else false.
Definition pi_key_eqb (a b : nat * list string) : bool := Nat.eqb (fst a) (fst b) && strlist_eqb (snd a) (snd b).

(** channel.py:149-154 process_indices (lru_cache) *)
Definition process_indices (cid : nat) (outer : list string) : M (list nat) :=
  c <- get_chan cid ;;;
  (fun w =>
     let '(cache, r) := lru_call pi_key_eqb (w_cache_pi w) (cid, outer)
        (mapr (fun p => match index_of p outer with Some i => Ok i | None => Err ValueError end) (keys (c_tmpls c))) in
     (set_cache_pi w cache, r)).

(** channel.py:459-464 _get_efficiencies_as_array (lru_cache) *)
Definition efficiencies_as_array (cid : nat) : M (list xr) :=
  c <- get_chan cid ;;;
  (fun w =>
     let '(cache, r) := lru_call Nat.eqb (w_cache_eff w) cid (Ok (map (fun p => Fin (snd p)) (c_effs c))) in
     (set_cache_eff w cache, r)).

(** channel.py:486-491 _create_block_diag_inv_corr_mat (lru_cache).  block_diag() of nothing is a
    1x0 array: not modelled. *)
Definition block_diag_inv_corr_mat (cid : nat) : M mat :=
  c <- get_chan cid ;;;
  ts <- mapM (fun p => get_tmpl (snd p)) (c_tmpls c) ;;;
  (fun w =>
     let '(cache, r) := lru_call Nat.eqb (w_cache_inv w) cid
        (match ts with [] => Err OutOfModel | _ => Ok (block_diag (map t_inv ts)) end) in
     (set_cache_inv w cache, r)).

(** channel.py:156-164 update_parameters.  zip of templates, efficiencies and the two splits. *)
Definition ch_update_parameters (cid : nat) (yields nui : list xr) : M unit :=
  c <- get_chan cid ;;;
  ys <- lift (np_split_n yields (num_templates c)) ;;;
  ns <- lift (np_split_n nui (num_templates c)) ;;;
  forM (fun q => let '(((tid, eff), y), n) := q in
          _ <- on_tmpl tid (fun t => yield_setter t (VArr (map (fun v => xmul v (Fin eff)) y))) ;;;
          on_tmpl tid (fun t => nui_setter t (VArr n)))
       (combine (combine (combine (map snd (c_tmpls c)) (map snd (c_effs c))) ys) ns).

(** channel.py:428-457 _fractions *)
Definition ch_fractions (cid : nat) (nui : list xr) : M (list (list xr)) :=
  c <- get_chan cid ;;;
  ns <- lift (np_split_n nui (num_templates c)) ;;;
  mapM (fun q => t <- get_tmpl (fst q) ;;; lift (t_fractions t (snd q))) (combine (map snd (c_tmpls c)) ns).

(** channel.py:466-484 _expected_evts_per_bin *)
Definition expected_evts_per_bin (cid : nat) (yields nui : list xr) : M (list xr) :=
  effs <- efficiencies_as_array cid ;;;
  ye <- lift (bcast xmul yields effs) ;;;
  fr <- ch_fractions cid nui ;;;
  lift (np_vecmat ye fr).

(** channel.py:493-495 _gauss_term *)
Definition gauss_term (cid : nat) (nui : list xr) : M xr :=
  m <- block_diag_inv_corr_mat cid ;;;
  v <- lift (np_vecmat nui m) ;;;
  s <- lift (np_dot v nui) ;;;
  ret (xmul (Fin (1/2)) s).

(** channel.py:354-375 nll_contribution *)
Definition nll_contribution (cid : nat) (yields nui : list xr) : M xr :=
  c <- get_chan cid ;;;
  match c_data c with
  | None => raise AttributeError
  | Some hid =>
      h <- get_hist hid ;;;
      let data := nd_flat (h_counts h) in
      e <- expected_evts_per_bin cid yields nui ;;;
      d <- lift (bcast xsub e data) ;;;
      l <- lift (bcast xlogyx data e) ;;;
      p <- lift (bcast xsub d l) ;;;
      g <- gauss_term cid nui ;;;
      ret (xadd (np_sum p) g)
  end.

(** channel.py:166-174 split_parameter_array, 200-207 bin_counts_from_param_values *)
Definition split_parameter_array (c : chan) (x : list xr) : list xr * list xr :=
  (firstn (num_templates c) x, skipn (num_templates c) x).
Definition bin_counts_from_param_values (cid : nat) (x : list xr) : M (list xr) :=
  c <- get_chan cid ;;;
  expected_evts_per_bin cid (fst (split_parameter_array c x)) (snd (split_parameter_array c x)).

(** python's sum([a, b, ...]) of arrays of equal shape, starting with 0 *)
Definition vec_sum (l : list (list xr)) : list xr :=
  match l with [] => [] | a :: l' => fold_left (map2 xadd) l' (map (xadd (Fin 0)) a) end.

(** channel.py:60-62 bin_edges (of the first template's histogram) *)
Definition ch_bin_edges (cid : nat) : M (list edges) :=
  c <- get_chan cid ;;;
  match c_tmpls c with
  | [] => raise IndexError
  | (_, tid) :: _ => t <- get_tmpl tid ;;; h <- get_hist (t_hist t) ;;; ret (h_edges h)
  end.

Definition ch_template_sum (cid : nat) : M (list xr) :=
  c <- get_chan cid ;;;
  vs <- mapM (fun p => t <- get_tmpl (snd p) ;;; lift (t_values t)) (c_tmpls c) ;;;
  ret (vec_sum vs).

(** channel.py:387-398 generate_asimov_dataset.  Without templates _htype is None: AttributeError. *)
Definition ch_asimov (cid : nat) (integer_values : bool) : M hist :=
  s <- ch_template_sum cid ;;;
  c <- get_chan cid ;;;
  match c_ttype c with
  | None => raise AttributeError
  | Some k =>
      let counts := if integer_values then map xrint s else s in
      es <- ch_bin_edges cid ;;;
      lift (from_binned k (mk_nd (c_bins c) counts) es (Some (mk_nd (c_bins c) (map xsqrt counts))))
  end.

(** channel.py:377-385 generate_toy_dataset; [draw] is what poisson.rvs returns for the
    expectation (one non-negative integer per bin); rvs raises ValueError for negative or nan means. *)
Definition rvs (draw : list nat) (mu : list xr) : res (list xr) :=
  if existsb (fun m => xisnan m || xltb m (Fin 0)) mu then Err ValueError
  else if Nat.eqb (length draw) (length mu) then Ok (map (fun n => Fin (INR n)) draw) else Err OutOfModel.
Definition ch_toy (cid : nat) (draw : list nat) : M hist :=
  s <- ch_template_sum cid ;;;
  c <- get_chan cid ;;;
  match c_ttype c with
  | None => raise (match rvs draw s with Err e => e | Ok _ => AttributeError end)
  | Some k =>
      counts <- lift (rvs draw s) ;;;
      es <- ch_bin_edges cid ;;;
      lift (from_binned k (mk_nd (c_bins c) counts) es (Some (mk_nd (c_bins c) (map xsqrt counts))))
  end.

(** ** MultiChannelTemplate *)

(** the channels in definition order *)
Definition mct_chans (w : world) : list chan :=
  flat_map (fun p => match nth_error (w_chans w) (snd p) with Some c => [c] | None => [] end) (w_channels w).

(** multi_channel_template.py:25-28 *)
Definition mct_num_nui (w : world) : nat := list_sum (map ch_num_nui (mct_chans w)).

(** multi_channel_template.py:30-43 process_yields: sum over the channels having a template of the
    process (KeyError is skipped).  The indexed accumulation is written per process: names in
    _processes are unique by define_process. *)
Definition process_yield (w : world) (p : string) : xr :=
  fold_left (fun acc c => match dget String.eqb (c_tmpls c) p with
                          | None => acc
                          | Some tid => match nth_error (w_tmpls w) tid with
                                        | Some t => xadd acc (t_yield t) | None => NaN end
                          end) (mct_chans w) (Fin 0).
Definition process_yields (w : world) : list xr := map (process_yield w) (w_procs w).

(** multi_channel_template.py:60-68 nui_params; np.concatenate of an empty list raises ValueError *)
Definition nui_blocks (w : world) : list (list xr) :=
  flat_map (fun c => map (fun p => match nth_error (w_tmpls w) (snd p) with Some t => t_nui t | None => [] end) (c_tmpls c))
           (mct_chans w).
Definition nui_params (w : world) : res (list xr) :=
  match nui_blocks w with [] => Err ValueError | bs => Ok (concat bs) end.

(** multi_channel_template.py:90-97 *)
Definition add_gaussian_constraint (p : string) (v e : R) : M unit :=
  fun w => if smem p (w_procs w)
           then (set_constr w (w_cnames w ++ [p]) (dset String.eqb (w_cvals w) p v) (dset String.eqb (w_cerrs w) p e), Ok tt)
           else (w, Err RuntimeError).

(** multi_channel_template.py:111-119 define_channel: an existing channel of that name is replaced *)
Definition define_channel (name : string) (bins : list nat) (range : list (R * R)) : M unit :=
  fun w => (set_channels (set_chans w (w_chans w ++ [chan_new name bins range]))
              (dset String.eqb (w_channels w) name (length (w_chans w))), Ok tt).

(** multi_channel_template.py:121-135 define_process *)
Definition define_process (name : string) : M unit :=
  fun w => if smem name (w_procs w) then (w, Err RuntimeError) else (set_procs w (w_procs w ++ [name]), Ok tt).

(** multi_channel_template.py:137-156 add_template *)
Definition mct_add_template (channel process : string) (tid : nat) (eff : R) : M unit :=
  fun w => match dget String.eqb (w_channels w) channel with
           | None => (w, Err RuntimeError)
           | Some cid =>
               if smem process (w_procs w)
               then (t <- get_tmpl tid ;;; on_chan cid (fun c => ch_add_template c process tid t eff)) w
               else (w, Err RuntimeError)
           end.

(** multi_channel_template.py:158-173 add_data *)
Definition mct_add_data (kwargs : list (string * nat)) : M unit :=
  forM (fun kv w => match dget String.eqb (w_channels w) (fst kv) with
                    | None => (w, Err RuntimeError)
                    | Some cid => (h <- get_hist (snd kv) ;;; on_chan cid (fun c => ch_add_data c (snd kv) h)) w
                    end) kwargs.

(** multi_channel_template.py:179-200 set_yield; a KeyError (no template of the process) is skipped *)
Definition set_yield (p : string) (v : R) : M unit :=
  procs <- gets w_procs ;;;
  if smem p procs then
    chs <- gets (fun w => map snd (w_channels w)) ;;;
    forM (fun cid =>
            c <- get_chan cid ;;;
            match dget String.eqb (c_tmpls c) p, dget String.eqb (c_effs c) p with
            | Some tid, Some eff => on_tmpl tid (fun t => yield_setter t (VFloat (Fin (v * eff))))
            | _, _ => ret tt
            end) chs
  else raise RuntimeError.

(** multi_channel_template.py:202-217 get_yield *)
Definition get_yield (p : string) : M xr :=
  procs <- gets w_procs ;;;
  match index_of p procs with
  | None => raise RuntimeError
  | Some i => ys <- gets process_yields ;;;
              lift (match nth_error ys i with Some y => Ok y | None => Err IndexError end)
  end.

(** multi_channel_template.py:219-227 reset_parameters *)
Definition reset_parameters : M unit :=
  chs <- gets (fun w => map snd (w_channels w)) ;;; forM ch_reset chs.

(** multi_channel_template.py:229-256 generate_per_channel_parameters *)
Definition generate_per_channel_parameters (x : list xr) : M (list (list xr) * list (list xr)) :=
  np <- gets (fun w => length (w_procs w)) ;;;
  nn <- gets mct_num_nui ;;;
  procs <- gets w_procs ;;;
  let yields := firstn np x in
  let nui := slice np (nn + np) x in
  chs <- gets (fun w => map snd (w_channels w)) ;;;
  per_channel_yields <- mapM (fun cid => idx <- process_indices cid procs ;;; lift (np_take yields idx)) chs ;;;
  sizes <- gets (fun w => map ch_num_nui (mct_chans w)) ;;;
  ret (per_channel_yields, np_split_at nui (removelast (np_cumsum sizes))).

(** multi_channel_template.py:258-277 update_parameters *)
Definition update_parameters (x : list xr) : M unit :=
  yn <- generate_per_channel_parameters x ;;;
  chs <- gets (fun w => map snd (w_channels w)) ;;;
  forM (fun q => ch_update_parameters (fst q) (fst (snd q)) (snd (snd q))) (combine chs (combine (fst yn) (snd yn))).

(** multi_channel_template.py:288-302 / 304-325: dictionaries of data sets.  The created histogram
    objects are allocated; the result maps channel names to their addresses. *)
Definition alloc_hist (h : hist) : M nat := fun w => (set_hists w (w_hists w ++ [h]), Ok (length (w_hists w))).
Definition generate_asimov_dataset (integer_values : bool) : M (list (string * nat)) :=
  chs <- gets w_channels ;;;
  mapM (fun nc => h <- ch_asimov (snd nc) integer_values ;;; a <- alloc_hist h ;;; ret (fst nc, a)) chs.
Definition generate_toy_dataset (draws : nat -> list nat) : M (list (string * nat)) :=
  chs <- gets w_channels ;;;
  mapM (fun nc => h <- ch_toy (snd nc) (draws (snd nc)) ;;; a <- alloc_hist h ;;; ret (fst nc, a)) chs.

(** ** NegLogLikelihood *)

(** multi_channel_template.py:362-367 x0 *)
Definition nll_x0 (w : world) : res (list xr) := n <- nui_params w ;; Ok (process_yields w ++ n).

(** decimal representation of a number (f"{i}") *)
Definition digit (n : nat) : string :=
  match n with
  | 0 => "0" | 1 => "1" | 2 => "2" | 3 => "3" | 4 => "4"
  | 5 => "5" | 6 => "6" | 7 => "7" | 8 => "8" | _ => "9" end%string%nat.
Fixpoint decimal_aux (fuel n : nat) (acc : string) : string :=
  let acc' := String.append (digit (n mod 10)) acc in
  match fuel with
  | O => acc'
  | S fuel' => if Nat.eqb (n / 10) 0 then acc' else decimal_aux fuel' (n / 10) acc'
  end.
Definition decimal (n : nat) : string := decimal_aux n n EmptyString.

(** multi_channel_template.py:369-383 param_names *)
Definition yield_name (p : string) : string := String.append p "_yield".
Definition nui_name (ch p : string) (i : nat) : string :=
  String.append ch (String.append "_" (String.append p (String.append "_bin_" (decimal i)))).
Definition param_names (w : world) : list string :=
  map yield_name (w_procs w) ++
  flat_map (fun nc =>
      match nth_error (w_chans w) (snd nc) with
      | None => []
      | Some c =>
          flat_map (fun pt => match nth_error (w_tmpls w) (snd pt) with
                              | None => []
                              | Some t => map (nui_name (fst nc) (fst pt)) (seq 0 (t_nb t))
                              end) (c_tmpls c)
      end) (w_channels w).

(** multi_channel_template.py:395-405: one Gaussian constraint term *)
Definition constraint_term (w : world) (x : list xr) (p : string) : res xr :=
  match index_of p (w_procs w) with
  | None => Err ValueError
  | Some i =>
      match nth_error x i, dget String.eqb (w_cvals w) p, dget String.eqb (w_cerrs w) p with
      | Some y, Some v, Some e => Ok (xdiv (xmul (Fin (1/2)) (xsq (xsub y (Fin v)))) (xsq (Fin e)))
      | None, _, _ => Err IndexError
      | _, _, _ => Err KeyError
      end
  end.

(** multi_channel_template.py:385-407 NegLogLikelihood.__call__ *)
Definition nll (x : list xr) : M xr :=
  yn <- generate_per_channel_parameters x ;;;
  chs <- gets (fun w => map snd (w_channels w)) ;;;
  contribs <- mapM (fun q => nll_contribution (fst q) (fst (snd q)) (snd (snd q)))
                   (combine chs (combine (fst yn) (snd yn))) ;;;
  names <- gets w_cnames ;;;
  terms <- mapM (fun p => (fun w => (w, constraint_term w x p))) names ;;;
  ret (fold_left xadd (contribs ++ terms) (Fin 0)).

(** ** Error propagation *)

(** a @ b for a of shape (r,k) and b of shape (k,c) *)
Definition np_mm (r k c : nat) (a b : mat) : mat :=
  map (fun i => map (fun j => xsum_n k (fun l => xmul (mnth a i l) (mnth b l j))) (seq 0 c)) (seq 0 r).
(** np.transpose of a matrix of shape (r,c) *)
Definition np_transpose (r c : nat) (a : mat) : mat := map (fun j => map (fun i => mnth a i j) (seq 0 r)) (seq 0 c).

(** channel.py:176-192 propagate_parameter_uncertainties.  [jac] is what numdifftools returns for
    the bins x params Jacobian (shape (nb, np)), [cov] the covariance of the fit result. *)
Definition propagate_parameter_uncertainties (nb np : nat) (jac cov : mat) : mat :=
  np_mm nb np nb (np_mm nb np np jac cov) (np_transpose nb np jac).
(** channel.py:194-198 get_post_fit_bin_uncertainty *)
Definition get_post_fit_bin_uncertainty (nb np : nat) (jac cov : mat) : list xr :=
  map xsqrt (np_diagonal (propagate_parameter_uncertainties nb np jac cov)).

(** channel.py:314-318: post fit errors with post_fit_uncertainties="scale": [errors] are the errors
    of all fit parameters, [pre] the errors of the templates (one row per template).
    reshape((n_templates, -1)) raises ValueError if the length does not fit. *)
Definition scaled_post_fit_errors (errors : list xr) (pre : list (list xr)) : res (list xr) :=
  let nt := length pre in
  rows <- np_split_n (skipn nt errors) nt ;;
  sq <- mapr (fun rp => bcast (fun a b => xsq (xmul a b)) (fst rp) (snd rp)) (combine rows pre) ;;
  Ok (map xsqrt (vec_sum sq)).
