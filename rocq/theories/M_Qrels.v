(** M_Qrels.v: model of ranx/data_structures/qrels.py (class Qrels).
    Files and data frames are in M_IO.v, reading methods and ir_datasets in M_Container.v. *)
From Verif Require Import Base Dict Num Env M_Common.
Open Scope list_scope.

(** qrels.py 62-87: the attributes of a Qrels. *)
Record Qrels := mkQrels {
  q_map : dict (dict Z);
  q_sorted : bool;
  q_name : option string
}.

Section QrelsMethods.
Context {N : Num} (E : env N).

(** int64 judgment to float64, and its negation to float64. *)
Definition q_tof (v : Z) : F := fofZ v.
Definition q_negf (v : Z) : F := fofZ (- v).

(** qrels.py 62-87 [Qrels()] *)
Definition Qrels_empty : Qrels := mkQrels [] false None.

(** qrels.py 62-87 [Qrels(d, name)] with a dict *)
Definition Qrels_init (d : dict (dict Z)) (name : option string) : result Qrels :=
  do m <- build_from_dict E q_negf d; Ok (mkQrels m true name).

(** qrels.py 220-248 [Qrels.from_dict(d)] *)
Definition Qrels_from_dict (d : dict (dict Z)) : result Qrels :=
  do m <- build_from_dict E q_negf d; Ok (mkQrels m true None).

(** qrels.py 89-91 [keys] *)
Definition Qrels_keys (q : Qrels) : list string := dkeys (q_map q).

(** qrels.py 93-107 [add_score] *)
Definition Qrels_add_score (x : Qrels) (q d : string) (s : Z) : Qrels :=
  mkQrels (add_score_map (q_map x) q d s) false (q_name x).

(** qrels.py 119-137 [add_multi]; the first component is the object as the call
    leaves it, the second the exception if one is raised (the object is then
    half-updated because add_bulk works in place, and [sorted] is unchanged). *)
Definition Qrels_add_multi (x : Qrels) q_ids doc_ids scores : Qrels * option exn :=
  match add_and_sort E q_negf (q_map x) q_ids doc_ids scores with
  | (_, Ok m) => (mkQrels m true (q_name x), None)
  | (m, Err e) => (mkQrels m (q_sorted x) (q_name x), Some e)
  end.

(** qrels.py 109-117 [add] *)
Definition Qrels_add (x : Qrels) (q : string) ds ss : Qrels * option exn :=
  Qrels_add_multi x [q] [ds] [ss].

(** qrels.py 23-35 [_set_relevance_level]: prange over the queries; iteration i only
    writes into the inner dictionary of query i, whose items were copied into
    [doc_ids]/[scores] at the beginning of the iteration. *)
Definition set_relevance_level_map (m : dict (dict Z)) (rel_lvl : Z) : dict (dict Z) :=
  let q_ids := dkeys m in
  let results := dvals m in
  fold_left
    (fun acc i =>
       match nth_error q_ids i, nth_error results i with
       | Some q, Some r =>
           fold_left
             (fun acc' ds =>
                match dget acc' q with
                | Some inner => dset acc' q (dset inner (fst ds) (snd ds - (rel_lvl - 1))%Z)
                | None => acc'
                end) r acc
       | _, _ => acc
       end)
    (e_sched E "_set_relevance_level" (length q_ids)) m.

(** qrels.py 139-141 [set_relevance_level] *)
Definition Qrels_set_relevance_level (x : Qrels) (rel_lvl : Z) : Qrels :=
  mkQrels (set_relevance_level_map (q_map x) rel_lvl) (q_sorted x) (q_name x).

(** qrels.py 152-156 [sort] *)
Definition Qrels_sort (x : Qrels) : Qrels :=
  mkQrels (sort_dict_of_dict_by_value E q_negf (sort_dict_by_key (q_map x)))
          true (q_name x).

(** qrels.py 158-162 [to_typed_list]: sorts the object in place if needed. *)
Definition Qrels_to_typed_list (x : Qrels) : Qrels * list rows :=
  let x' := if q_sorted x then x else Qrels_sort x in
  (x', to_typed_list E q_tof (q_map x')).

(** qrels.py 164-173 [to_dict] *)
Definition Qrels_to_dict (x : Qrels) : dict (dict Z) := to_dict_map (q_map x).

End QrelsMethods.
