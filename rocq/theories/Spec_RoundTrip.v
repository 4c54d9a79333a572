(** Spec_RoundTrip.v: saving judgments and results and evaluating them after loading them again (C91). *)
From Coq Require Import Reals.
From Verif Require Import Base Dict Num Env M_Common M_Qrels M_Run M_Strings M_IO Spec_DS Spec_IO Spec_Metrics Spec_Eval Spec_Meta T_IO2.
Open Scope string_scope.
Open Scope list_scope.
Open Scope nat_scope.

(** the reader documented for files of a kind *)
Definition read_qrels (E : env NumR) (fs : dict (file NumR Z)) (path : string) (kind : option string) (k : string) : result Qrels :=
  if String.eqb k "parquet" then Qrels_from_parquet E fs path "q_id" "doc_id" "score" [] else Qrels_from_file E fs path kind.
Definition read_run (E : env NumR) (fl : floats NumR) (fs : dict (file NumR R)) (path : string) (kind : option string) (k : string) (name : option string) : result (Run NumR) :=
  if String.eqb k "parquet" then Run_from_parquet E fs path "q_id" "doc_id" "score" [] name else Run_from_file E fl fs path kind name.

(** judgments a file of kind [k] can hold: TREC files hold ids without blanks; TREC and parquet files have no
    line for a query without documents; gzipped TREC is never read back (C10) *)
Definition qrels_fit (k : string) (m : dict (dict Z)) : Prop :=
  some_doc m /\
  (k = "json" \/ (k = "parquet" /\ Spec_IO.no_empty_query m) \/ (k = "trec" /\ Spec_IO.no_empty_query m /\ ids_are_words m)).
(** results a file of kind [k] can hold: in addition, JSON holds finite scores only, and in a TREC file the name of
    the run must be a word and the scores must be read as they were printed *)
Definition run_fits (fl : floats NumR) (k : string) (x : Run NumR) : Prop :=
  some_doc (r_map x) /\
  (k = "lz4" \/ (k = "json" /\ forall q d v, dget2 (r_map x) q d = Some v -> fl_json fl v = true) \/
   (k = "parquet" /\ Spec_IO.no_empty_query (r_map x)) \/
   (k = "trec" /\ Spec_IO.no_empty_query (r_map x) /\ ids_are_words (r_map x) /\ scores_ok fl (r_map x) /\
    forall n, r_name x = Some n -> word n)).

(** no query has two results with the same score *)
Definition all_tie_free (m : dict (dict R)) : Prop := forall q, In q (dkeys m) -> tie_free (of_query m q).
