(** M_Common.v: model of ranx/data_structures/common.py and generic.py *)
From Verif Require Import Base Dict Num Env.
Open Scope list_scope.

(** A (doc id, score) row of a numba typed list; the id is a float64 holding a
    rounded hash, kept as an integer. *)
Definition row {N : Num} := (Z * F)%type.
Definition rows {N : Num} := list row.

Section Common.
Context {N : Num} (E : env N) {V : Type}.
(** [tof v] is [float(v)]; [negf v] is [float(-v)].  For Run the scores are
    float64; for Qrels they are int64. *)
Variable tof negf : V -> F.

(** common.py 7-28 [to_typed_list].  (njit without parallel=True: its [prange] is a
    sequential range.)  [np.column_stack] of the two columns is the list of pairs. *)
Definition to_rows (r : dict V) : rows :=
  map (fun kv => (doc_key E (fst kv), tof (snd kv))) r.
Definition to_typed_list (d : dict (dict V)) : list rows :=
  map to_rows (dvals d).

(** common.py 46-51 [create_dict_from_lists]: [values[i]] raises IndexError when
    the second list is shorter. *)
Definition create_dict_from_lists {W} (ks : list string) (vs : list W) : result (dict W) :=
  foldr_m (fun d ik => do v <- nth_r vs (fst ik); Ok (dset d (snd ik) v))
          (enumerate ks) [].

(** common.py 54-59 [typed_list_argosrt] *)
Definition typed_list_argsort (l : list F) : list nat := e_argsort E l.

(** common.py 62-72 [sort_dict_by_key] *)
Definition sort_dict_by_key {W} (d : dict W) : dict W :=
  fold_left (fun nd k => match dget d k with Some v => dset nd k v | None => nd end)
            (str_sort (dkeys d)) [].

(** common.py 75-85 [sort_dict_by_value] *)
Definition sort_dict_by_value (d : dict V) : dict V :=
  let ks := dkeys d in
  let vs := dvals d in
  fold_left (fun nd i => match nth_error ks i, nth_error vs i with
                         | Some k, Some v => dset nd k v
                         | _, _ => nd
                         end)
            (typed_list_argsort (map negf vs)) [].

(** common.py 88-96 [sort_dict_of_dict_by_value] *)
Definition sort_dict_of_dict_by_value (d : dict (dict V)) : dict (dict V) :=
  let ks := dkeys d in
  let vs := map sort_dict_by_value (dvals d) in
  fold_left (fun nd ik => match nth_error vs (fst ik) with
                          | Some v => dset nd (snd ik) v
                          | None => nd
                          end)
            (enumerate ks) [].

(** common.py 99-104 [add_bulk].  It updates [d] in place, so when it raises the
    queries processed before the exception have already been replaced: the model
    returns the dictionary as it is left, and the exception if any. *)
Fixpoint add_bulk_from (i : nat) (d : dict (dict V)) (q_ids : list string)
         (doc_ids : list (list string)) (scores : list (list V))
  : dict (dict V) * option exn :=
  match q_ids with
  | [] => (d, None)
  | q :: q_ids' =>
      match nth_error doc_ids i, nth_error scores i with
      | Some ds, Some ss =>
          match create_dict_from_lists ds ss with
          | Ok r => add_bulk_from (S i) (dset d q r) q_ids' doc_ids scores
          | Err e => (d, Some e)
          end
      | _, _ => (d, Some IndexError)
      end
  end.
Definition add_bulk (d : dict (dict V)) q_ids doc_ids scores :=
  add_bulk_from 0 d q_ids doc_ids scores.

(** common.py 107-116 [add_and_sort]: on success returns the sorted dictionary; on
    failure the caller's dictionary is left half-updated (first component). *)
Definition add_and_sort (d : dict (dict V)) q_ids doc_ids scores
  : dict (dict V) * result (dict (dict V)) :=
  match add_bulk d q_ids doc_ids scores with
  | (d', Some e) => (d', Err e)
  | (d', None) => (d', Ok (sort_dict_of_dict_by_value (sort_dict_by_key d')))
  end.

(** common.py 120-127 [create_bulk] *)
Definition create_bulk (q_ids : list string) doc_ids (scores : list (list V))
  : result (dict (dict V)) :=
  match add_bulk [] q_ids doc_ids scores with
  | (d, None) => Ok d
  | (_, Some e) => Err e
  end.

(** common.py 130-139 [create_and_sort] *)
Definition create_and_sort (q_ids : list string) doc_ids (scores : list (list V))
  : result (dict (dict V)) :=
  do d <- create_bulk q_ids doc_ids scores;
  Ok (sort_dict_of_dict_by_value (sort_dict_by_key d)).

(** The body shared by [Qrels.from_dict] (qrels.py 230-245), [Qrels.__init__] (70-85),
    [Run.from_dict] (run.py 236-251) and [Run.__init__] (55-69):
    [max(len(y) for x in doc_ids for y in x)] raises ValueError on an empty
    generator; the dtype [<U{max_len}] is wide enough for every id. *)
Definition build_from_dict (d : dict (dict V)) : result (dict (dict V)) :=
  let q_ids := dkeys d in
  let doc_ids := map dkeys (dvals d) in
  let scores := map dvals (dvals d) in
  match concat doc_ids with
  | [] => Err ValueError
  | _ => create_and_sort q_ids doc_ids scores
  end.

(** The body shared by [Qrels.add_score] (qrels.py 101-106) and [Run.add_score]
    (run.py 89-94). *)
Definition add_score_map (d : dict (dict V)) (q doc : string) (s : V) : dict (dict V) :=
  let d1 := match dget d q with None => dset d q [] | Some _ => d end in
  match dget d1 q with
  | Some r => dset d1 q (dset r doc s)
  | None => d1
  end.

(** [to_dict] (qrels.py 164-173, run.py 164-173): a defaultdict filled in key order. *)
Definition to_dict_map (d : dict (dict V)) : dict (dict V) :=
  fold_left (fun acc q => match dget d q with Some r => dset acc q r | None => acc end)
            (dkeys d) [].

End Common.

(** common.py 31-43 [set_relevance_level] on typed lists (unused by the package). *)
Definition set_relevance_level_rows {N : Num} (tl : list rows) (lvl : F) : list rows :=
  map (map (fun r => (fst r, fsub (snd r) lvl))) tl.
