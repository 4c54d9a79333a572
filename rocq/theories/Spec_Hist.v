(** Spec_Hist.v: what each public mutator of Run / Qrels is supposed to do to the
    nested map, independently of how the code does it. *)
From Verif Require Import Base Dict Num Env M_Common M_Qrels M_Run M_History Spec_DS.
Open Scope list_scope.

Section S.
Context {N : Num}.

Definition spec_run_step (m : smap F) (o : run_op) : smap F :=
  match o with
  | RAddScore q d s => s_add_score m q d s
  | RAdd q ds ss => s_add m q ds ss
  | RAddMulti qs dss sss => s_add_multi m qs dss sss
  | RSort => m
  | RMakeComparable qr => s_restrict m (fun q => dmem (q_map qr) q)
  | RToTypedList => m
  end.

Definition spec_qrels_step (m : smap Z) (o : qrels_op) : smap Z :=
  match o with
  | QAddScore q d s => s_add_score m q d s
  | QAdd q ds ss => s_add m q ds ss
  | QAddMulti qs dss sss => s_add_multi m qs dss sss
  | QSort => m
  | QSetRelevanceLevel l => s_shift m l
  | QToTypedList => m
  end.

(** A call is well shaped when its parallel lists have equal lengths. *)
Definition same_shape {V} (qs : list string) (dss : list (list string)) (sss : list (list V)) :=
  length qs = length dss /\ length qs = length sss /\
  Forall2 (fun ds ss => length ds = length ss) dss sss.

Definition run_op_shape (o : run_op) : Prop :=
  match o with
  | RAdd _ ds ss => length ds = length ss
  | RAddMulti qs dss sss => same_shape qs dss sss
  | _ => True
  end.
Definition qrels_op_shape (o : qrels_op) : Prop :=
  match o with
  | QAdd _ ds ss => length ds = length ss
  | QAddMulti qs dss sss => same_shape qs dss sss
  | _ => True
  end.

(** No NaN among the scores passed to a call. *)
Definition run_op_nan_free (o : run_op) : Prop :=
  match o with
  | RAddScore _ _ s => is_nan s = false
  | RAdd _ _ ss => Forall (fun s => is_nan s = false) ss
  | RAddMulti _ _ sss => Forall (Forall (fun s => is_nan s = false)) sss
  | _ => True
  end.

(** The order a container promises when its [sorted] flag is set. *)
Definition run_in_order (m : dict (dict F)) : Prop :=
  StronglySorted (fun a b => str_ltb a b = true) (dkeys m) /\
  forall q r, dget m q = Some r ->
         StronglySorted (fun a b : string * F => fleb (snd b) (snd a) = true) r.
Definition qrels_in_order (m : dict (dict Z)) : Prop :=
  StronglySorted (fun a b => str_ltb a b = true) (dkeys m) /\
  forall q r, dget m q = Some r ->
         StronglySorted (fun a b : string * Z => (snd b <= snd a)%Z) r.
End S.
