(** M_Container.v: the reading methods of Qrels (qrels.py 89-91, 143-149, 352-363) and
    Run (run.py 77-79, 127-133, 378-386), and Qrels.from_ir_datasets (qrels.py 341-350). *)
From Verif Require Import Base Dict Num Env M_Common M_Qrels M_Run.
Open Scope list_scope.

(** qrels.py 143-145: [list(self.qrels.keys())] *)
Definition Qrels_get_query_ids (x : Qrels) : list string := dkeys (q_map x).
(** qrels.py 147-149: [list(self.qrels.values())] (read at once; writes through the
    returned references are the subject of M_Heap.v) *)
Definition Qrels_get_doc_ids_and_scores (x : Qrels) : list (dict Z) := dvals (q_map x).
(** qrels.py 352-354 *)
Definition Qrels_size (x : Qrels) : nat := length (q_map x).
(** qrels.py 356-357: [dict(self.qrels[q_id])]; numba's typed dict raises KeyError *)
Definition Qrels_getitem (x : Qrels) (q : string) : result (dict Z) := dget_r (q_map x) q.
(** qrels.py 359-360 *)
Definition Qrels_len (x : Qrels) : nat := length (q_map x).

Section Runs.
Context {N : Num}.
(** run.py 127-129 *)
Definition Run_get_query_ids (x : Run N) : list string := dkeys (r_map x).
(** run.py 131-133 *)
Definition Run_get_doc_ids_and_scores (x : Run N) : list (dict F) := dvals (r_map x).
(** run.py 378-380 *)
Definition Run_size (x : Run N) : nat := length (r_map x).
(** run.py 382-383 *)
Definition Run_getitem (x : Run N) (q : string) : result (dict F) := dget_r (r_map x) q.
(** run.py 385-386 *)
Definition Run_len (x : Run N) : nat := length (r_map x).

(** qrels.py 341-350 [Qrels.from_ir_datasets(dataset_id)].  The library ir_datasets is
    the parameter [catalog]: what [ir_datasets.load(id).qrels_dict()] returns or raises. *)
Definition Qrels_from_ir_datasets (E : env N)
    (catalog : string -> result (dict (dict Z))) (dataset_id : string) : result Qrels :=
  do d <- catalog dataset_id;
  do x <- Qrels_from_dict E d;
  Ok (mkQrels (q_map x) (q_sorted x) (Some dataset_id)).
End Runs.
