(** Model of templatefitter/templates_legacy.py and templatefitter/nll.py, with the legacy Hist1d of
    templatefitter/histogram_legacy.py:221-315.

    The statements of the legacy Hist1d.fill (lines 282-315) are those of histograms/hist1d.py without the flag
    is_empty, therefore [hist], [hist1_new] and [hist1_fill] of Model_Hist.v are used and the flag is ignored.

    Nuisance parameters are numpy arrays which are kept by reference, and np.split returns views, so arrays live in
    buffers and are referred to by (buffer, offset, length).  Not modelled: plot_on, generate_toy_dataset, pandas
    data frames (the two columns are given as lists), assignments of values that are not one-dimensional arrays. *)
From Coq Require Import Reals String ZArith Bool Arith List.
From Verif Require Import Model_Num Model_Hist Model_Utility Model_Template Model_World.
Import ListNotations.
Local Open Scope R_scope.

(** a one-dimensional contiguous view of a buffer *)
Record aref : Type := mk_aref { a_buf : nat; a_off : nat; a_len : nat }.

(** templates_legacy.py:32-37 TemplateParameter, for the yield (a number) and for the nuisance parameters (arrays) *)
Record yparam : Type := mk_y { y_val : xr; y_orig : xr; y_err : xr; y_orig_err : xr }.
Record nparam : Type := mk_n { n_val : aref; n_orig : aref; n_err : aref; n_orig_err : aref }.

(** templates_legacy.py:144-169, attributes of Template; the histogram is private, its counts never change *)
Record ltmpl : Type := mk_lt {
  lt_name : string; lt_var : string; lt_nb : nat; lt_limits : R * R;
  lt_counts : list xr; lt_errs_sq : list xr;
  lt_cov : mat; lt_corr : mat; lt_inv : mat; lt_rel : list xr;
  lt_yield : yparam; lt_nui : nparam }.

(** templates_legacy.py:391-401, attributes of StackedTemplate; the dictionary maps ids to template objects *)
Record lstack : Type := mk_ls {
  ls_name : string; ls_var : string; ls_nb : nat; ls_limits : R * R; ls_edges : list R;
  ls_dict : list (string * nat) }.

(** nll.py:34-38 and 111-114, attributes of StackedTemplateNegLogLikelihood.  _d is the array of counts of the
    dataset object, which fill updates in place. *)
Record lnll : Type := mk_lnll { ln_data : nat; ln_stack : nat; ln_block : mat }.

(** all objects, addressed by the order of their creation; [g_bufs] are the arrays *)
Record gworld : Type := mk_g {
  g_bufs : list (list xr);
  g_hists : list hist;
  g_tmpls : list ltmpl;
  g_stacks : list lstack;
  g_nlls : list lnll }.
Definition g_empty : gworld := mk_g [] [] [] [] [].

Definition set_bufs (w : gworld) (b : list (list xr)) : gworld := mk_g b (g_hists w) (g_tmpls w) (g_stacks w) (g_nlls w).
Definition set_ghists (w : gworld) (b : list hist) : gworld := mk_g (g_bufs w) b (g_tmpls w) (g_stacks w) (g_nlls w).
Definition set_gtmpls (w : gworld) (b : list ltmpl) : gworld := mk_g (g_bufs w) (g_hists w) b (g_stacks w) (g_nlls w).
Definition set_gstacks (w : gworld) (b : list lstack) : gworld := mk_g (g_bufs w) (g_hists w) (g_tmpls w) b (g_nlls w).
Definition set_gnlls (w : gworld) (b : list lnll) : gworld := mk_g (g_bufs w) (g_hists w) (g_tmpls w) (g_stacks w) b.

(** contents of a view *)
Definition aread (w : gworld) (a : aref) : list xr :=
  match nth_error (g_bufs w) (a_buf a) with Some b => slice (a_off a) (a_off a + a_len a) b | None => [] end.
(** a[:k] and a[k:] *)
Definition ahead (k : nat) (a : aref) : aref := mk_aref (a_buf a) (a_off a) (Nat.min k (a_len a)).
Definition atail (k : nat) (a : aref) : aref :=
  mk_aref (a_buf a) (a_off a + Nat.min k (a_len a)) (a_len a - Nat.min k (a_len a)).
(** np.split(a, k): views of equal length *)
Definition asplit (a : aref) (k : nat) : res (list aref) :=
  match k with
  | O => Err ZeroDivisionError
  | _ => if Nat.eqb (a_len a mod k) 0
         then Ok (map (fun j => mk_aref (a_buf a) (a_off a + j * (a_len a / k)) (a_len a / k)) (seq 0 k))
         else Err ValueError
  end.
(** a[i] = v in place *)
Definition awrite (w : gworld) (a : aref) (i : nat) (v : xr) : gworld * res unit :=
  match nth_error (g_bufs w) (a_buf a) with
  | None => (w, Err OutOfModel)
  | Some b => if Nat.ltb i (a_len a) then (set_bufs w (upd (a_buf a) (upd (a_off a + i) v b) (g_bufs w)), Ok tt)
              else (w, Err IndexError)
  end.

(** ** Template *)

(** templates_legacy.py:144-188 Template.__init__ and _init_errors.  The two arrays of the nuisance parameters
    are new buffers; line 155 reads bin_edges[1]. *)
Definition lt_create (w : gworld) (name var : string) (nb : Z) (limits : R * R) (data ws : list R) : gworld * res nat :=
  match hist1_new (B1Int nb) (Some limits) (Some data) (WArr ws) with
  | Err e => (w, Err e)
  | Ok h =>
      let n := Z.to_nat nb in
      if Nat.eqb n 0 then (w, Err IndexError)
      else
        let counts := nd_flat (h_counts h) in
        let errs := nd_flat (h_errs_sq h) in
        let cov := stat_cov errs in
        let ones := np_diag (repeat (Fin 1) n) in
        let zero := mk_aref (length (g_bufs w)) 0 n in
        let one := mk_aref (S (length (g_bufs w))) 0 n in
        let y := np_sum counts in
        let ye := xsqrt (np_sum errs) in
        let t := mk_lt name var n limits counts errs cov ones ones (relative_errors cov counts)
                   (mk_y y y ye ye) (mk_n zero zero one one) in
        (mk_g (g_bufs w ++ [repeat (Fin 0) n; repeat (Fin 1) n]) (g_hists w) (g_tmpls w ++ [t]) (g_stacks w) (g_nlls w),
         Ok (length (g_tmpls w)))
  end.

Section Inv.
  (** np.linalg.inv *)
  Variable inv : mat -> res mat.

  (** templates_legacy.py:190-210 add_covariance_matrix.  A matrix of another shape makes += raise ValueError (shapes
      that broadcast are not modelled); if inv raises, the covariance and correlation matrices have been updated. *)
  Definition lt_add_cov (t : ltmpl) (c : mat) : ltmpl * res unit :=
    if negb (square (lt_nb t) c) then (t, Err (if Nat.leb (length c) 1 then OutOfModel else ValueError))
    else
      let cov := np_madd (lt_cov t) c in
      let corr := cov2corr cov in
      let mk i rel := mk_lt (lt_name t) (lt_var t) (lt_nb t) (lt_limits t) (lt_counts t) (lt_errs_sq t) cov corr i rel
                        (lt_yield t) (lt_nui t) in
      match inv corr with
      | Err e => (mk (lt_inv t) (lt_rel t), Err e)
      | Ok i => (mk i (relative_errors cov (lt_counts t)), Ok tt)
      end.
End Inv.

(** templates_legacy.py:228-254 fractions *)
Definition lt_fractions (t : ltmpl) (nui : list xr) : res (list xr) := bin_fractions nui (lt_counts t) (lt_rel t).
(** templates_legacy.py:218-226 values *)
Definition lt_values (w : gworld) (t : ltmpl) : res (list xr) :=
  f <- lt_fractions t (aread w (n_val (lt_nui t))) ;; Ok (map (xmul (y_val (lt_yield t))) f).
(** templates_legacy.py:212-216 errors *)
Definition lt_errors (w : gworld) (t : ltmpl) : res (list xr) := v <- lt_values w t ;; bcast xmul (lt_rel t) v.

Definition set_yield (t : ltmpl) (y : yparam) : ltmpl :=
  mk_lt (lt_name t) (lt_var t) (lt_nb t) (lt_limits t) (lt_counts t) (lt_errs_sq t) (lt_cov t) (lt_corr t) (lt_inv t) (lt_rel t) y (lt_nui t).
Definition set_nui (t : ltmpl) (n : nparam) : ltmpl :=
  mk_lt (lt_name t) (lt_var t) (lt_nb t) (lt_limits t) (lt_counts t) (lt_errs_sq t) (lt_cov t) (lt_corr t) (lt_inv t) (lt_rel t) (lt_yield t) n.

(** templates_legacy.py:330-332, 339-341, 354-356, 364-366: the property setters *)
Definition lt_set_yield (v : xr) (t : ltmpl) : ltmpl :=
  let y := lt_yield t in set_yield t (mk_y v (y_orig y) (y_err y) (y_orig_err y)).
Definition lt_set_yield_err (v : xr) (t : ltmpl) : ltmpl :=
  let y := lt_yield t in set_yield t (mk_y (y_val y) (y_orig y) v (y_orig_err y)).
Definition lt_set_nui (a : aref) (t : ltmpl) : ltmpl :=
  let n := lt_nui t in set_nui t (mk_n a (n_orig n) (n_err n) (n_orig_err n)).
Definition lt_set_nui_err (a : aref) (t : ltmpl) : ltmpl :=
  let n := lt_nui t in set_nui t (mk_n (n_val n) (n_orig n) a (n_orig_err n)).

(** templates_legacy.py:39-41 TemplateParameter.reset, 312-316 Template.reset_parameters *)
Definition lt_reset (t : ltmpl) : ltmpl :=
  let n := lt_nui t in let y := lt_yield t in
  set_yield (set_nui t (mk_n (n_orig n) (n_orig n) (n_orig_err n) (n_orig_err n)))
    (mk_y (y_orig y) (y_orig y) (y_orig_err y) (y_orig_err y)).

(** templates_legacy.py:374-378 corr_mat: the property returns [self.corr_mat], so evaluating it evaluates it again;
    [limit] is the number of nested calls the interpreter allows *)
Fixpoint lt_corr_mat (limit : nat) (t : ltmpl) : res mat :=
  match limit with O => Err RecursionError | S k => lt_corr_mat k t end.

(** ** StackedTemplate *)

(** templates_legacy.py:391-401 __init__: lines 398-399 need two edges *)
Definition ls_create (w : gworld) (name var : string) (nb : Z) (limits : R * R) : gworld * res nat :=
  if Z.ltb nb (-1) then (w, Err ValueError)
  else if Z.ltb nb 1 then (w, Err IndexError)
  else let n := Z.to_nat nb in
       (set_gstacks w (g_stacks w ++ [mk_ls name var n limits (np_linspace (fst limits) (snd limits) (n + 1)) []]),
        Ok (length (g_stacks w))).

Definition upd_stack (w : gworld) (s : nat) (st : lstack) : gworld := set_gstacks w (upd s st (g_stacks w)).
Definition set_dict (s : lstack) (d : list (string * nat)) : lstack :=
  mk_ls (ls_name s) (ls_var s) (ls_nb s) (ls_limits s) (ls_edges s) d.

Definition limits_eqb (a b : R * R) : bool := Reqb (fst a) (fst b) && Reqb (snd a) (snd b).

(** templates_legacy.py:403-420 add_template, 441-461 _check_template_validity *)
Definition ls_add_template (w : gworld) (s : nat) (tid : string) (t : nat) : gworld * res unit :=
  match nth_error (g_stacks w) s, nth_error (g_tmpls w) t with
  | Some st, Some tm =>
      if String.eqb (ls_var st) (lt_var tm) && Nat.eqb (ls_nb st) (lt_nb tm) && limits_eqb (ls_limits st) (lt_limits tm)
      then (upd_stack w s (set_dict st (dset String.eqb (ls_dict st) tid t)), Ok tt)
      else (w, Err ValueError)
  | _, _ => (w, Err OutOfModel)
  end.

(** templates_legacy.py:422-439 create_template *)
Definition ls_create_template (w : gworld) (s : nat) (tid : string) (data ws : list R) : gworld * res unit :=
  match nth_error (g_stacks w) s with
  | None => (w, Err OutOfModel)
  | Some st =>
      match lt_create w tid (ls_var st) (Z.of_nat (ls_nb st)) (ls_limits st) data ws with
      | (w', Ok t) => (upd_stack w' s (set_dict st (dset String.eqb (ls_dict st) tid t)), Ok tt)
      | (w', Err e) => (w', Err e)
      end
  end.

(** the template objects of the container in the order of the dictionary (lines 471, 483, ...) *)
Definition ls_ids (st : lstack) : list nat := map snd (ls_dict st).
Definition g_tmpl (w : gworld) (t : nat) : res ltmpl :=
  match nth_error (g_tmpls w) t with Some tm => Ok tm | None => Err OutOfModel end.
Definition ls_templates (w : gworld) (st : lstack) : res (list ltmpl) := mapr (g_tmpl w) (ls_ids st).

(** np.sum(np.array(rows), axis=0) for rows of the same length *)
Definition col_sums (rows : list (list xr)) : res (list xr) :=
  match rows with
  | [] => Err OutOfModel
  | r :: _ => if rows_ok (length r) rows
              then Ok (map (fun j => xsum_n (length rows) (fun i => mnth rows i j)) (seq 0 (length r)))
              else Err OutOfModel
  end.

(** templates_legacy.py:477-486 values *)
Definition ls_values (w : gworld) (st : lstack) : res (list xr) :=
  ts <- ls_templates w st ;; vs <- mapr (lt_values w) ts ;; col_sums vs.
(** templates_legacy.py:463-475 errors *)
Definition ls_errors (w : gworld) (st : lstack) : res (list xr) :=
  ts <- ls_templates w st ;; vs <- mapr (lt_errors w) ts ;;
  s <- col_sums (map (map xsq) vs) ;; Ok (map xsqrt s).
(** templates_legacy.py:488-513 fractions *)
Definition ls_fractions (w : gworld) (st : lstack) (nui : list xr) : res mat :=
  parts <- np_split_n nui (length (ls_dict st)) ;;
  ts <- ls_templates w st ;;
  mapr (fun p => lt_fractions (fst p) (snd p)) (combine ts parts).

(** templates_legacy.py:559-580 generate_asimov_dataset *)
Definition ls_asimov (w : gworld) (st : lstack) (integer_values : bool) : res hist :=
  v <- ls_values w st ;;
  hist1_from_binned (nd1 (if integer_values then map xrint v else v)) (mk_edges false (ls_edges st)) None.

(** Setting an attribute of several template objects, one after the other: for template, value in zip(...) *)
Fixpoint set_each {V} (f : V -> ltmpl -> ltmpl) (ids : list nat) (vs : list V) (ts : list ltmpl) : list ltmpl :=
  match ids, vs with
  | t :: ids', v :: vs' =>
      set_each f ids' vs' (match nth_error ts t with Some tm => upd t (f v tm) ts | None => ts end)
  | _, _ => ts
  end.

(** templates_legacy.py:669-672 and 683-686: assignments to yield_param_values and yield_param_errors *)
Definition ls_set_yields (w : gworld) (st : lstack) (vs : list xr) : gworld :=
  set_gtmpls w (set_each lt_set_yield (ls_ids st) vs (g_tmpls w)).
Definition ls_set_yield_errs (w : gworld) (st : lstack) (vs : list xr) : gworld :=
  set_gtmpls w (set_each lt_set_yield_err (ls_ids st) vs (g_tmpls w)).
(** templates_legacy.py:697-701 and 712-716: assignments to nui_param_values and nui_param_errors *)
Definition ls_set_nuis (w : gworld) (st : lstack) (a : aref) : gworld * res unit :=
  match asplit a (length (ls_dict st)) with
  | Err e => (w, Err e)
  | Ok parts => (set_gtmpls w (set_each lt_set_nui (ls_ids st) parts (g_tmpls w)), Ok tt)
  end.
Definition ls_set_nui_errs (w : gworld) (st : lstack) (a : aref) : gworld * res unit :=
  match asplit a (length (ls_dict st)) with
  | Err e => (w, Err e)
  | Ok parts => (set_gtmpls w (set_each lt_set_nui_err (ls_ids st) parts (g_tmpls w)), Ok tt)
  end.

(** templates_legacy.py:617-637 update_parameters *)
Definition ls_update (w : gworld) (st : lstack) (x e : aref) : gworld * res unit :=
  let T := length (ls_dict st) in
  let w1 := ls_set_yields w st (aread w (ahead T x)) in
  match ls_set_nuis w1 st (atail T x) with
  | (w2, Err er) => (w2, Err er)
  | (w2, Ok _) =>
      let w3 := ls_set_yield_errs w2 st (aread w2 (ahead T e)) in
      ls_set_nui_errs w3 st (atail T e)
  end.

(** templates_legacy.py:595-600 reset_parameters *)
Definition ls_reset (w : gworld) (st : lstack) : gworld :=
  set_gtmpls w (set_each (fun _ : unit => lt_reset) (ls_ids st) (repeat tt (length (ls_dict st))) (g_tmpls w)).

(** ** The likelihood (nll.py) *)

(** nll.py:160-165 xlogyx (elementwise); nan_to_num(..., nan=inf) turns NaN into inf and infinities into the
    largest numbers *)
Definition lnan_to_num (a : xr) : xr :=
  match a with NaN => PInf | PInf => Fin dbl_max | NInf => Fin (- dbl_max) | Fin r => Fin r end.
Definition lxlogyx (x y : xr) : xr :=
  lnan_to_num (if xltb x y then xmul x (xlog1p (xdiv (xsub y x) x)) else xmul (xopp x) (xlog1p (xdiv (xsub x y) y))).

(** templates_legacy.py:602-615 create_nll, nll.py:34-38, 111-114.  block_diag() of nothing is a matrix of shape
    (1, 0): not modelled. *)
Definition nll_create (w : gworld) (s data : nat) : gworld * res nat :=
  match nth_error (g_stacks w) s, nth_error (g_hists w) data with
  | Some st, Some _ =>
      match ls_templates w st with
      | Ok (t :: ts) =>
          (set_gnlls w (g_nlls w ++ [mk_lnll data s (block_diag (map lt_inv (t :: ts)))]), Ok (length (g_nlls w)))
      | Ok [] => (w, Err OutOfModel)
      | Err e => (w, Err e)
      end
  | _, _ => (w, Err OutOfModel)
  end.

(** nll.py:136-158 __call__ *)
Definition nll_call (w : gworld) (f : lnll) (x : list xr) : res xr :=
  match nth_error (g_stacks w) (ln_stack f), nth_error (g_hists w) (ln_data f) with
  | Some st, Some h =>
      let T := length (ls_dict st) in
      let poi := firstn T x in
      let nui := skipn T x in
      let d := nd_flat (h_counts h) in
      fr <- ls_fractions w st nui ;;
      ev <- np_vecmat poi fr ;;
      diff <- bcast xsub ev d ;;
      lg <- bcast lxlogyx d ev ;;
      terms <- bcast xsub diff lg ;;
      v <- np_vecmat nui (ln_block f) ;;
      q <- np_dot v nui ;;
      Ok (xadd (np_sum terms) (xmul (Fin (1/2)) q))
  | _, _ => Err OutOfModel
  end.

(** nll.py:116-121 x0 *)
Definition nll_x0 (w : gworld) (f : lnll) : res (list xr) :=
  match nth_error (g_stacks w) (ln_stack f) with
  | None => Err OutOfModel
  | Some st =>
      ts <- ls_templates w st ;;
      let nuis := map (fun t => aread w (n_val (lt_nui t))) ts in
      match nuis with
      | [] => Err OutOfModel
      | r :: _ => if rows_ok (length r) nuis then Ok (map (fun t => y_val (lt_yield t)) ts ++ concat nuis) else Err OutOfModel
      end
  end.

(** nll.py:123-134 param_names *)
Definition nll_names (w : gworld) (f : lnll) : res (list string) :=
  match nth_error (g_stacks w) (ln_stack f) with
  | None => Err OutOfModel
  | Some st =>
      ts <- ls_templates w st ;;
      Ok (map (fun t => String.append (lt_name t) "_yield") ts ++
          flat_map (fun t => map (fun i => String.append (String.append (lt_name t) "_nui") (String.append "_" (decimal i)))
                                 (seq 0 (ls_nb st))) ts)
  end.

(** ** Calls of a user *)
Inductive gop : Type :=
  | GArray (l : list xr)                                   (* np.array(l) *)
  | GWrite (a : aref) (i : nat) (v : xr)                   (* a[i] = v on any array, also one returned by a property *)
  | GHist (bins : bins1) (range : option (R * R)) (data : option (list R)) (ws : weights)
  | GBinned (e : edges) (counts : nd) (errors : option nd) (* Hist1d.from_binned_data *)
  | GFill (h : nat) (data : list R) (ws : weights)
  | GAsimov (s : nat) (integer_values : bool)
  | GTemplate (name var : string) (nb : Z) (limits : R * R) (data ws : list R)
  | GAddCov (t : nat) (c : mat)
  | GSetYield (t : nat) (v : xr) | GSetYieldErr (t : nat) (v : xr)
  | GSetNui (t : nat) (a : aref) | GSetNuiErr (t : nat) (a : aref)
  | GReset (t : nat)
  | GStack (name var : string) (nb : Z) (limits : R * R)
  | GAddTemplate (s : nat) (tid : string) (t : nat)
  | GCreateTemplate (s : nat) (tid : string) (data ws : list R)
  | GSetYields (s : nat) (a : aref) | GSetYieldErrs (s : nat) (a : aref)
  | GSetNuis (s : nat) (a : aref) | GSetNuiErrs (s : nat) (a : aref)
  | GUpdate (s : nat) (x e : aref)
  | GSReset (s : nat)
  | GNll (s data : nat).

Definition as_unit {A} (p : gworld * res A) : gworld * res unit := let '(w, r) := p in (w, x <- r ;; Ok tt).
Definition on_tmpl (w : gworld) (t : nat) (f : ltmpl -> ltmpl * res unit) : gworld * res unit :=
  match nth_error (g_tmpls w) t with
  | None => (w, Err OutOfModel)
  | Some tm => let '(tm', r) := f tm in (set_gtmpls w (upd t tm' (g_tmpls w)), r)
  end.
Definition on_stack (w : gworld) (s : nat) (f : lstack -> gworld * res unit) : gworld * res unit :=
  match nth_error (g_stacks w) s with None => (w, Err OutOfModel) | Some st => f st end.
Definition new_hist (w : gworld) (r : res hist) : gworld * res unit :=
  match r with Ok h => (set_ghists w (g_hists w ++ [h]), Ok tt) | Err e => (w, Err e) end.

(** One call.  An array argument has to be an existing one. *)
Definition aref_ok (w : gworld) (a : aref) : bool :=
  match nth_error (g_bufs w) (a_buf a) with Some b => Nat.leb (a_off a + a_len a) (length b) | None => false end.

Definition gstep (inv : mat -> res mat) (w : gworld) (o : gop) : gworld * res unit :=
  let arr a (k : gworld * res unit) := if aref_ok w a then k else (w, Err OutOfModel) in
  match o with
  | GArray l => (set_bufs w (g_bufs w ++ [l]), Ok tt)
  | GWrite a i v => arr a (awrite w a i v)
  | GHist b r d ws => new_hist w (hist1_new b r d ws)
  | GBinned e c er => new_hist w (hist1_from_binned c e er)
  | GFill i d ws =>
      match nth_error (g_hists w) i with
      | None => (w, Err OutOfModel)
      | Some h => let '(h', r) := hist1_fill h d ws in (set_ghists w (upd i h' (g_hists w)), r)
      end
  | GAsimov s iv => on_stack w s (fun st => new_hist w (ls_asimov w st iv))
  | GTemplate n v nb lim d ws => as_unit (lt_create w n v nb lim d ws)
  | GAddCov t c => on_tmpl w t (fun tm => lt_add_cov inv tm c)
  | GSetYield t v => on_tmpl w t (fun tm => (lt_set_yield v tm, Ok tt))
  | GSetYieldErr t v => on_tmpl w t (fun tm => (lt_set_yield_err v tm, Ok tt))
  | GSetNui t a => arr a (on_tmpl w t (fun tm => (lt_set_nui a tm, Ok tt)))
  | GSetNuiErr t a => arr a (on_tmpl w t (fun tm => (lt_set_nui_err a tm, Ok tt)))
  | GReset t => on_tmpl w t (fun tm => (lt_reset tm, Ok tt))
  | GStack n v nb lim => as_unit (ls_create w n v nb lim)
  | GAddTemplate s tid t => ls_add_template w s tid t
  | GCreateTemplate s tid d ws => ls_create_template w s tid d ws
  | GSetYields s a => arr a (on_stack w s (fun st => (ls_set_yields w st (aread w a), Ok tt)))
  | GSetYieldErrs s a => arr a (on_stack w s (fun st => (ls_set_yield_errs w st (aread w a), Ok tt)))
  | GSetNuis s a => arr a (on_stack w s (fun st => ls_set_nuis w st a))
  | GSetNuiErrs s a => arr a (on_stack w s (fun st => ls_set_nui_errs w st a))
  | GUpdate s x e => arr x (arr e (on_stack w s (fun st => ls_update w st x e)))
  | GSReset s => on_stack w s (fun st => (ls_reset w st, Ok tt))
  | GNll s d => as_unit (nll_create w s d)
  end.

(** A history; exceptions are caught and the history goes on. *)
Fixpoint grun (inv : mat -> res mat) (w : gworld) (l : list gop) : gworld :=
  match l with [] => w | o :: l' => grun inv (fst (gstep inv w o)) l' end.
