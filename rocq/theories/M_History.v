(** M_History.v: histories of public method calls on Qrels and Run objects. *)
From Verif Require Import Base Dict Num Env M_Common M_Qrels M_Run.
Open Scope list_scope.

Section Hist.
Context {N : Num} (E : env N).

(** The mutating public methods of Run (run.py 81-162). [to_typed_list] is what
    evaluate and the training functions call; it may sort in place. *)
Inductive run_op :=
| RAddScore (q d : string) (s : F)
| RAdd (q : string) (ds : list string) (ss : list F)
| RAddMulti (qs : list string) (dss : list (list string)) (sss : list (list F))
| RSort
| RMakeComparable (qr : Qrels)
| RToTypedList.

Definition run_step (x : Run N) (o : run_op) : Run N * option exn :=
  match o with
  | RAddScore q d s => (Run_add_score x q d s, None)
  | RAdd q ds ss => Run_add E x q ds ss
  | RAddMulti qs dss sss => Run_add_multi E x qs dss sss
  | RSort => (Run_sort E x, None)
  | RMakeComparable qr => (Run_make_comparable E x qr, None)
  | RToTypedList => (fst (Run_to_typed_list E x), None)
  end.

(** The object after a history; exceptions are caught by the caller and the
    program goes on with the object as it was left. *)
Definition run_hist (x : Run N) (os : list run_op) : Run N :=
  fold_left (fun x o => fst (run_step x o)) os x.

(** The mutating public methods of Qrels (qrels.py 93-162). *)
Inductive qrels_op :=
| QAddScore (q d : string) (s : Z)
| QAdd (q : string) (ds : list string) (ss : list Z)
| QAddMulti (qs : list string) (dss : list (list string)) (sss : list (list Z))
| QSort
| QSetRelevanceLevel (l : Z)
| QToTypedList.

Definition qrels_step (x : Qrels) (o : qrels_op) : Qrels * option exn :=
  match o with
  | QAddScore q d s => (Qrels_add_score x q d s, None)
  | QAdd q ds ss => Qrels_add E x q ds ss
  | QAddMulti qs dss sss => Qrels_add_multi E x qs dss sss
  | QSort => (Qrels_sort E x, None)
  | QSetRelevanceLevel l => (Qrels_set_relevance_level E x l, None)
  | QToTypedList => (fst (Qrels_to_typed_list E x), None)
  end.

Definition qrels_hist (x : Qrels) (os : list qrels_op) : Qrels :=
  fold_left (fun x o => fst (qrels_step x o)) os x.

End Hist.
