(** Spec_DS.v: independent specification of Qrels/Run objects as nested maps.
    Read without the model: a container is (which queries exist, which score each
    (query, document) pair has). *)
From Verif Require Import Base Dict.
Open Scope list_scope.

Record smap (V : Type) := SMap {
  s_has : string -> bool;                       (* query present? *)
  s_get : string -> string -> option V          (* score of (query, doc) *)
}.
Arguments SMap {V}. Arguments s_has {V}. Arguments s_get {V}.

Definition smap_eq {V} (a b : smap V) : Prop :=
  (forall q, s_has a q = s_has b q) /\ (forall q d, s_get a q d = s_get b q d).

(** The nested map held by a dictionary of dictionaries. *)
Definition smap_of {V} (m : dict (dict V)) : smap V :=
  SMap (fun q => dmem m q) (fun q d => dget2 m q d).

Definition s_empty {V} : smap V := SMap (fun _ => false) (fun _ _ => None).

(** add_score(q, d, s): exactly one pair changes. *)
Definition s_add_score {V} (m : smap V) (q d : string) (s : V) : smap V :=
  SMap (fun q' => if String.eqb q' q then true else s_has m q')
       (fun q' d' => if String.eqb q' q && String.eqb d' d then Some s else s_get m q' d').

(** score given to document [d] by parallel lists: the last occurrence wins. *)
Fixpoint assoc_last {V} (ds : list string) (ss : list V) (d : string) : option V :=
  match ds, ss with
  | d' :: ds', s :: ss' =>
      match assoc_last ds' ss' d with
      | Some r => Some r
      | None => if String.eqb d d' then Some s else None
      end
  | _, _ => None
  end.

(** add(q, ds, ss): query q now has exactly the listed documents. *)
Definition s_add {V} (m : smap V) (q : string) (ds : list string) (ss : list V) : smap V :=
  SMap (fun q' => if String.eqb q' q then true else s_has m q')
       (fun q' d' => if String.eqb q' q then assoc_last ds ss d' else s_get m q' d').

(** add_multi: one [add] per listed query, in order. *)
Fixpoint s_add_multi {V} (m : smap V) (qs : list string) (dss : list (list string))
         (sss : list (list V)) : smap V :=
  match qs, dss, sss with
  | q :: qs', ds :: dss', ss :: sss' => s_add_multi (s_add m q ds ss) qs' dss' sss'
  | _, _, _ => m
  end.

(** make_comparable: exactly the queries of the qrels remain. *)
Definition s_restrict {V} (m : smap V) (has : string -> bool) : smap V :=
  SMap has (fun q d => if has q then s_get m q d else None).

(** set_relevance_level(l): every judgment shifts by l - 1. *)
Definition s_shift (m : smap Z) (l : Z) : smap Z :=
  SMap (s_has m) (fun q d => option_map (fun v => (v - (l - 1))%Z) (s_get m q d)).
