(** Spec_MetricsAPI.v: what it means for a metric function of the package to compute a
    per-query score.  Used in the statements of T_Metrics.v. *)
From Coq Require Import Reals.
From Verif Require Import Base Dict Num Env M_Common M_Qrels M_Run Spec_Metrics.
Open Scope list_scope.

(** The typed lists handed to the metrics for queries with judgments [js] / results [rs]
    (in this order), i.e. what [Qrels.to_typed_list] / [Run.to_typed_list] return. *)
Definition qrels_arg (E : env NumR) (js : list (dict Z)) : list (@rows NumR) :=
  map (fun j => @to_rows NumR E Z (@q_tof NumR) j) js.
Definition run_arg (E : env NumR) (rs : list (dict R)) : list (@rows NumR) :=
  map (fun r => @to_rows NumR E R (@r_tof NumR) r) rs.

(** One query: no document is listed twice, and its documents have distinct ids. *)
Definition query_ok (E : env NumR) (j : dict Z) (r : dict R) : Prop :=
  dict_ok j /\ dict_ok r /\ ids_distinct (doc_key E) (dkeys j ++ dkeys r).
(** The two lists have the same length and every query is fine. *)
Definition aligned (E : env NumR) (js : list (dict Z)) (rs : list (dict R)) : Prop :=
  Forall2 (query_ok E) js rs.

(** Metric function [m] raises AssertionError for a negative cut-off and otherwise
    returns, query by query, the score [s judgments level ranking cutoff]. *)
Definition computes (E : env NumR)
           (m : list (@rows NumR) -> list (@rows NumR) -> Z -> Z -> result (list R))
           (s : dict Z -> Z -> list string -> nat -> R) : Prop :=
  forall js rs k lvl, aligned E js rs ->
  m (qrels_arg E js) (run_arg E rs) k lvl
  = if (k <? 0)%Z then Err AssertionError
    else Ok (per_query (fun j ds => s j lvl ds (Z.to_nat k)) js rs).
