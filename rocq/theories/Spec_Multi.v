(** Vocabulary for programs with several MultiChannelTemplates. *)
From Coq Require Import Reals String ZArith Bool Arith List.
From Verif Require Import Model_Num Model_Hist Model_Template Model_World Model_Ops Model_Multi Spec_Matrix Spec_Template Spec_World Spec_Nll.
Import ListNotations.
Local Open Scope R_scope.

(** ** What belongs to a model *)

(** channel object cid is a channel of model k; it holds template object tid; model k uses template tid *)
Definition in_model (s : mworld) (k cid : nat) : Prop :=
  exists m n, nth_error (mw_models s) k = Some m /\ In (n, cid) (m_channels m).
Definition in_channel (s : mworld) (cid tid : nat) : Prop :=
  exists c p, nth_error (w_chans (mw_heap s)) cid = Some c /\ In (p, tid) (c_tmpls c).
Definition model_template (s : mworld) (k tid : nat) : Prop := exists cid, in_model s k cid /\ in_channel s cid tid.
(** histogram hid is the data of a channel of model k, or the histogram of a template of it *)
Definition model_hist (s : mworld) (k hid : nat) : Prop :=
  (exists cid c, in_model s k cid /\ nth_error (w_chans (mw_heap s)) cid = Some c /\ c_data c = Some hid) \/
  (exists tid t, model_template s k tid /\ nth_error (w_tmpls (mw_heap s)) tid = Some t /\ t_hist t = hid).

(** ** What a call may change *)

(** own attributes of model k: its channels, processes and constraints *)
Definition changes_model (o : mop) (k : nat) : Prop :=
  match o with
  | MCall j (ODefChannel _ _ _) | MCall j (ODefProcess _) | MCall j (OConstraint _ _ _) => j = k
  | _ => False
  end.
(** the channel of that name in model j *)
Definition named (s : mworld) (j : nat) (n : string) (cid : nat) : Prop :=
  exists m, nth_error (mw_models s) j = Some m /\ dget String.eqb (m_channels m) n = Some cid.
(** templates or data of channel object cid *)
Definition changes_channel (s : mworld) (o : mop) (cid : nat) : Prop :=
  match o with
  | MCall j (OAddTemplate n _ _ _) => named s j n cid
  | MCall j (OAddData kwargs) => exists n h, In (n, h) kwargs /\ named s j n cid
  | MChan (CAddTemplate i _ _ _) | MChan (CAddData i _) => i = cid
  | _ => False
  end.
(** template object tid *)
Definition changes_template (s : mworld) (o : mop) (tid : nat) : Prop :=
  match o with
  | MCall _ (OSetParams i _) | MCall _ (OSetYieldParam i _) | MCall _ (OSetNui i _) | MCall _ (OTReset i)
  | MCall _ (OAddCov i _) | MCall _ (OAddVar i _ _ _) => i = tid
  | MCall j (OSetYield _ _) | MCall j OReset | MCall j (OUpdate _) => model_template s j tid
  | MChan (CReset cid) | MChan (CUpdate cid _ _) => in_channel s cid tid
  | _ => False
  end.
(** histogram object hid *)
Definition changes_hist (o : mop) (hid : nat) : Prop :=
  match o with MCall _ (OFill1 i _ _) | MCall _ (OFill2 i _ _ _) => i = hid | _ => False end.

(** the call changes something that belongs to model k *)
Definition touches (s : mworld) (o : mop) (k : nat) : Prop :=
  changes_model o k \/
  (exists cid, in_model s k cid /\ changes_channel s o cid) \/
  (exists tid, model_template s k tid /\ changes_template s o tid) \/
  (exists hid, model_hist s k hid /\ changes_hist o hid).
(** none of the calls l, made one after the other in state s, does *)
Fixpoint leaves (inv : mat -> res mat) (k : nat) (s : mworld) (l : list mop) : Prop :=
  match l with [] => True | o :: l' => ~ touches s o k /\ leaves inv k (fst (mstep inv o s)) l' end.

(** ** Models are complete before they are used *)

(** the call evaluates channel object cid (and so fills the caches for it) *)
Definition evaluates_channel (s : mworld) (o : mop) (cid : nat) : Prop :=
  match o with
  | MCall k (OUpdate _) | MCall k (ONll _) => in_model s k cid
  | MChan (CNll i _ _) | MChan (CBinCounts i _) => i = cid
  | _ => False
  end.
(** the call adds a template to channel object cid, or an uncertainty to one of its templates *)
Definition completes_channel (s : mworld) (o : mop) (cid : nat) : Prop :=
  match o with
  | MCall j (OAddTemplate n _ _ _) => named s j n cid
  | MChan (CAddTemplate i _ _ _) => i = cid
  | MCall _ (OAddCov tid _) | MCall _ (OAddVar tid _ _ _) => in_channel s cid tid
  | _ => False
  end.
(** No channel gets templates or uncertainties after its own first evaluation; the models may be built and used in any
    interleaving.  [ev] are the channels evaluated so far. *)
Fixpoint complete_when_used (inv : mat -> res mat) (ev : nat -> Prop) (s : mworld) (l : list mop) : Prop :=
  match l with
  | [] => True
  | o :: l' => (forall cid, completes_channel s o cid -> ~ ev cid) /\
               complete_when_used inv (fun cid => ev cid \/ evaluates_channel s o cid) (fst (mstep inv o s)) l'
  end.
(** the state after the calls l in a new process *)
Definition mreached (inv : mat -> res mat) (l : list mop) : mworld := mrun inv l mworld_init.
Definition disciplined (inv : mat -> res mat) (l : list mop) : Prop := complete_when_used inv (fun _ => False) mworld_init l.

(** the same objects in a process in which nothing has been evaluated yet *)
Definition mfresh (s : mworld) : mworld :=
  mk_mworld (mk_world (w_hists (mw_heap s)) (w_tmpls (mw_heap s)) (w_chans (mw_heap s)) [] [] [] [] [] [] [] []) (mw_models s).

(** ** One channel object *)

(** The templates and the data of channel object c give the view v of it (Spec_Nll), whatever yields and nuisance
    parameters v has. *)
Definition channel_reads (w : world) (c : chan) (v : cview) : Prop :=
  v_nb v = bins_of c /\ v_nt v = length (c_tmpls c) /\
  (forall k p tid t, template_at w c k p tid t ->
     nth_error (c_effs c) k = Some (p, v_eff v k) /\
     (exists e covs, error_state t (v_nb v) (v_cnt v k) e covs /\
        forall a b, v_cov v k a b = msum (stat_cov_of e :: covs) a b) /\
     inverse_of (v_nb v) (correlation (v_cov v k)) (v_prec v k)) /\
  (exists hid h, c_data c = Some hid /\ nth_error (w_hists w) hid = Some h /\
     nd_flat (h_counts h) = vec_of (v_nb v) (v_data v)).
