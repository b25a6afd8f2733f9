(** Vocabulary for properties of MultiChannelTemplate states. *)
From Coq Require Import Reals String ZArith Bool Arith List.
From Verif Require Import Model_Num Model_Hist Model_Template Model_World Model_Ops Spec_Matrix.
Import ListNotations.
Local Open Scope R_scope.

(** w is reached from a new MultiChannelTemplate by a sequence of calls *)
Definition reached (inv : mat -> res mat) (l : list op) : world := run inv l world_init.

(** the channel with the given name; the template object of a process in a channel *)
Definition channel_named (w : world) (n : string) : option chan :=
  match dget String.eqb (w_channels w) n with Some i => nth_error (w_chans w) i | None => None end.
Definition template_named (w : world) (n p : string) : option tmpl :=
  match channel_named w n with
  | Some c => match dget String.eqb (c_tmpls c) p with Some i => nth_error (w_tmpls w) i | None => None end
  | None => None
  end.

(** channel number i (in the order of definition) has name n and is the object c *)
Definition channel_at (w : world) (i : nat) (n : string) (c : chan) : Prop :=
  exists cid, nth_error (w_channels w) i = Some (n, cid) /\ nth_error (w_chans w) cid = Some c.
(** template number k of channel c belongs to process p and is the object t with address tid *)
Definition template_at (w : world) (c : chan) (k : nat) (p : string) (tid : nat) (t : tmpl) : Prop :=
  nth_error (c_tmpls c) k = Some (p, tid) /\ nth_error (w_tmpls w) tid = Some t.

(** number of bins of a channel: product over the dimensions *)
Definition bins_of (c : chan) : nat := fold_right Nat.mul 1%nat (c_bins c).
(** number of nuisance parameters of channels before channel number i: one per bin and template *)
Definition nui_offset (w : world) (i : nat) : nat :=
  list_sum (map (fun nc => match nth_error (w_chans w) (snd nc) with
                           | Some c => (length (c_tmpls c) * bins_of c)%nat | None => O end)
                (firstn i (w_channels w))).
(** number of parameters of the likelihood *)
Definition num_params (w : world) : nat := (length (w_procs w) + nui_offset w (length (w_channels w)))%nat.

(** Histories without add_template, add_cov_mat and add_variation after the first evaluation of the
    likelihood or update_parameters. *)
Definition adds (o : op) : bool :=
  match o with OAddTemplate _ _ _ _ => true | OAddCov _ _ => true | OAddVar _ _ _ _ => true | _ => false end.
Definition uses (o : op) : bool := match o with OUpdate _ => true | ONll _ => true | _ => false end.
Definition built_then_used (l : list op) : Prop :=
  exists l1 l2, l = l1 ++ l2 /\ Forall (fun o => uses o = false) l1 /\ Forall (fun o => adds o = false) l2.
(** Histories without add_template after the first evaluation of the likelihood or update_parameters. *)
Definition adds_template (o : op) : bool := match o with OAddTemplate _ _ _ _ => true | _ => false end.
Definition templates_then_used (l : list op) : Prop :=
  exists l1 l2, l = l1 ++ l2 /\ Forall (fun o => uses o = false) l1 /\ Forall (fun o => adds_template o = false) l2.

(** all channels have a template; no template object is used twice *)
Definition all_have_templates (w : world) : Prop := forall i n c, channel_at w i n c -> c_tmpls c <> [].
Definition distinct_templates (w : world) : Prop :=
  forall i i' n n' c c' k k' p p' tid t t', channel_at w i n c -> channel_at w i' n' c' ->
    template_at w c k p tid t -> template_at w c' k' p' tid t' -> i = i' /\ k = k'.

(** all parameter positions: process q's yield, and bin b of template number k of channel number i *)
Definition yield_pos (q : nat) : nat := q.
Definition nui_pos (w : world) (i : nat) (c : chan) (k b : nat) : nat :=
  (length (w_procs w) + (nui_offset w i + k * bins_of c + b))%nat.

(** no two templates give the same string channel_process *)
Definition unambiguous (w : world) : Prop :=
  forall i n c p i' n' c' p', channel_at w i n c -> channel_at w i' n' c' ->
    In p (map fst (c_tmpls c)) -> In p' (map fst (c_tmpls c')) ->
    String.append n (String.append "_" p) = String.append n' (String.append "_" p') -> n = n'.
Fixpoint has_char (a : Ascii.ascii) (s : string) : Prop :=
  match s with EmptyString => False | String b s' => a = b \/ has_char a s' end.

(** sum of the efficiencies of process p over all channels that have a template of it *)
Definition total_eff (w : world) (p : string) : R :=
  fold_right Rplus 0
    (map (fun nc => match nth_error (w_chans w) (snd nc) with
                    | Some c => match dget String.eqb (c_effs c) p with Some e => e | None => 0 end
                    | None => 0 end) (w_channels w)).
(** nothing but template parameters (and caches) differs *)
Definition only_params (w w' : world) : Prop :=
  w_hists w' = w_hists w /\ w_chans w' = w_chans w /\ w_channels w' = w_channels w /\ w_procs w' = w_procs w /\
  w_cnames w' = w_cnames w /\ w_cvals w' = w_cvals w /\ w_cerrs w' = w_cerrs w /\
  length (w_tmpls w') = length (w_tmpls w) /\
  forall tid t, nth_error (w_tmpls w) tid = Some t -> exists ps, nth_error (w_tmpls w') tid = Some (set_params t ps).
(** template object tid is in use in channel c as process p *)
Definition uses_template (w : world) (tid : nat) : Prop := exists i n c k p t, channel_at w i n c /\ template_at w c k p tid t.
Definition uses_template_of (w : world) (p : string) (tid : nat) : Prop := exists i n c k t, channel_at w i n c /\ template_at w c k p tid t.
