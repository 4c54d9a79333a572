(** M_Run.v: model of ranx/data_structures/run.py (class Run).
    Files and data frames are in M_IO.v; the [metadata] attribute is not modelled. *)
From Verif Require Import Base Dict Num Env M_Common M_Qrels.
Open Scope list_scope.

Section RunMethods.
Context {N : Num}.

(** run.py 47-75: the attributes of a Run. [r_scores] is [scores[metric][q_id]]. *)
Record Run := mkRun {
  r_map : dict (dict F);
  r_sorted : bool;
  r_name : option string;
  r_scores : dict (dict F);
  r_mean : dict F;
  r_std : dict F
}.

Context (E : env N).

Definition r_tof (v : F) : F := v.
Definition r_negf (v : F) : F := fopp v.

(** run.py 47-75 [Run()] *)
Definition Run_empty : Run := mkRun [] false None [] [] [].

(** replace the results dictionary / flag, keep the rest *)
Definition Run_with_map (x : Run) (m : dict (dict F)) (s : bool) : Run :=
  mkRun m s (r_name x) (r_scores x) (r_mean x) (r_std x).

(** run.py 47-75 [Run(d, name)] with a dict *)
Definition Run_init (d : dict (dict F)) (name : option string) : result Run :=
  do m <- build_from_dict E r_negf d; Ok (mkRun m true name [] [] []).

(** run.py 224-255 [Run.from_dict(d, name)] *)
Definition Run_from_dict (d : dict (dict F)) (name : option string) : result Run :=
  do m <- build_from_dict E r_negf d; Ok (mkRun m true name [] [] []).

(** run.py 77-79 [keys], 127-129 [get_query_ids] *)
Definition Run_keys (x : Run) : list string := dkeys (r_map x).

(** run.py 81-95 [add_score] *)
Definition Run_add_score (x : Run) (q d : string) (s : F) : Run :=
  Run_with_map x (add_score_map (r_map x) q d s) false.

(** run.py 107-125 [add_multi]; see [Qrels_add_multi] for the exceptional case. *)
Definition Run_add_multi (x : Run) q_ids doc_ids scores : Run * option exn :=
  match add_and_sort E r_negf (r_map x) q_ids doc_ids scores with
  | (_, Ok m) => (Run_with_map x m true, None)
  | (m, Err e) => (Run_with_map x m (r_sorted x), Some e)
  end.

(** run.py 97-105 [add] *)
Definition Run_add (x : Run) (q : string) ds ss : Run * option exn :=
  Run_add_multi x [q] [ds] [ss].

(** run.py 136-140 [sort] *)
Definition Run_sort (x : Run) : Run :=
  Run_with_map x (sort_dict_of_dict_by_value E r_negf (sort_dict_by_key (r_map x))) true.

(** run.py 142-156 [make_comparable].  Iterating over a numba typed dict from Python
    walks a snapshot of its keys, so deleting inside the loop is well defined. *)
Definition make_comparable_map (m : dict (dict F)) (qm : dict (dict Z)) : dict (dict F) :=
  let m1 := fold_left (fun (acc : dict (dict F)) q => if dmem acc q then acc else dset acc q ([] : dict F))
                      (dkeys qm) m in
  fold_left (fun acc q => if dmem qm q then acc else ddel acc q) (dkeys m1) m1.
Definition Run_make_comparable (x : Run) (qr : Qrels) : Run :=
  Run_sort (Run_with_map x (make_comparable_map (r_map x) (q_map qr)) (r_sorted x)).

(** run.py 158-162 [to_typed_list]: sorts the object in place if needed. *)
Definition Run_to_typed_list (x : Run) : Run * list rows :=
  let x' := if r_sorted x then x else Run_sort x in
  (x', to_typed_list E r_tof (r_map x')).

(** run.py 164-173 [to_dict] *)
Definition Run_to_dict (x : Run) : dict (dict F) := to_dict_map (r_map x).

End RunMethods.
Arguments Run _ : clear implicits.
