(** Spec_Meta.v: vocabulary for properties that relate two calls of evaluate (C85, C86). *)
From Coq Require Import Reals.
From Verif Require Import Base Dict Num Env M_Common M_Qrels M_Run M_Metrics M_Evaluate Spec_Metrics Spec_Eval Spec_Closure.
Open Scope string_scope.
Open Scope list_scope.
Open Scope nat_scope.

(** [f] renames ids: different ids stay different, every id is used. *)
Definition renaming (f : string -> string) : Prop :=
  exists g, (forall d, g (f d) = d) /\ (forall d, f (g d) = d).
Definition increasing (g : R -> R) : Prop := forall a b, (a < b)%R -> (g a < g b)%R.

(** [j'] holds the judgments of [j] under the new document ids, in any order. *)
Definition judgments_renamed (f : string -> string) (j j' : dict Z) : Prop :=
  Permutation j' (map (fun dv => (f (fst dv), snd dv)) j).
(** [r'] holds the results of [r] under the new ids, in any order, with scores transformed by [g]. *)
Definition results_renamed (f : string -> string) (g : R -> R) (r r' : dict R) : Prop :=
  Permutation r' (map (fun dv => (f (fst dv), g (snd dv))) r).

(** no two results with the same score *)
Definition tie_free (r : dict R) : Prop := NoDup (dvals r).

(** the saved score of a query *)
Definition query_score (x : Run NumR) (metric q : string) : option R := dget2 (r_scores x) metric q.

(** [y], [x] are objects a program can hold (built, edited, loaded, normalised, fused, evaluated before, ...;
    see Spec_Closure.v) and can be evaluated with [metrics] in the environment [E] *)
Definition evaluable (E : env NumR) (y : Qrels) (x : Run NumR) (metrics : list string) : Prop :=
  obtained_qrels E y /\ obtained E x /\ q_map y <> [] /\ same_queries (q_map y) (r_map x) /\
  docs_distinct E (q_map y) (r_map x) /\ metrics_ok metrics (q_map y).

(** Two sets of judgments agree on which documents are relevant at level [lvl], and how relevant. *)
Definition same_relevant (lvl : Z) (j j' : dict Z) : Prop :=
  forall d v, (lvl <= v)%Z -> (dget j d = Some v <-> dget j' d = Some v).

(** [r'] is [r] without the documents that are not judged in [j]. *)
Definition only_judged (j : dict Z) (r r' : dict R) : Prop :=
  Permutation r' (filter (fun dv => dmem j (fst dv)) r).

(** [y'], [x'] are [y], [x] under other query ids ([h]) and, query by query, other document ids ([f]), with the
    scores of every query transformed by an increasing function. *)
Definition evaluation_renamed (h : string -> string) (f : string -> string -> string) (g : string -> R -> R)
  (y : Qrels) (x : Run NumR) (y' : Qrels) (x' : Run NumR) : Prop :=
  renaming h /\ (forall q, renaming (f q)) /\ (forall q, increasing (g q)) /\
  Permutation (dkeys (q_map y')) (map h (dkeys (q_map y))) /\
  forall q, In q (dkeys (q_map y)) ->
    judgments_renamed (f q) (of_query (q_map y) q) (of_query (q_map y') (h q)) /\
    results_renamed (f q) (g q) (of_query (r_map x) q) (of_query (r_map x') (h q)) /\
    tie_free (of_query (r_map x) q).

(** evaluate returned the mean [m] for the metric [s] *)
Definition mean_returned (res : result (@outcome NumR)) (s : string) (m : R) : Prop :=
  res = Ok (@OutOne NumR (@OMean NumR m)) \/ exists d, res = Ok (@OutDict NumR d) /\ dget d s = Some (@OMean NumR m).

(** [y1], [x1] hold the judgments and results of some queries of [y], [x]. *)
Definition part_of (y : Qrels) (x : Run NumR) (y1 : Qrels) (x1 : Run NumR) : Prop :=
  forall q, In q (dkeys (q_map y1)) ->
    Permutation (of_query (q_map y1) q) (of_query (q_map y) q) /\
    Permutation (of_query (r_map x1) q) (of_query (r_map x) q) /\ tie_free (of_query (r_map x) q).

(** [r'] holds the best [n] results of [r] (all of them if there are fewer), in any order. *)
Definition best_results (n : nat) (r r' : dict R) : Prop :=
  exists rk, Permutation r rk /\ StronglySorted (fun a b : string * R => (snd b <= snd a)%R) rk /\
             Permutation r' (firstn n rk).
(** the metrics that look at the first k results only *)
Definition truncated_metrics : list string :=
  ["hits"; "hit_rate"; "precision"; "recall"; "f1"; "mrr"; "map"; "dcg"; "dcg_burges"; "ndcg"; "ndcg_burges"].
