(** Spec_Perfect.v: what a perfect ranking is, for each metric.  Nothing here refers to the model.
    [j]: judgments of the query, [lvl]: relevance level, [ds]: the ranking, [k]: cut-off (0: none). *)
From Coq Require Import Reals.
From Verif Require Import Base Dict Spec_Metrics.
Open Scope list_scope.
Open Scope nat_scope.

(** the ranking has at least [n] documents and the first [n] are all relevant *)
Definition starts_with (j : dict Z) (lvl : Z) (ds : list string) (n : nat) : Prop :=
  n <= length ds /\ forall d, In d (firstn n ds) -> relevant j lvl d = true.
(** every relevant document is among the first [k] *)
Definition finds_all (j : dict Z) (lvl : Z) (ds : list string) (k : nat) : Prop :=
  forall d, relevant j lvl d = true -> In d (top ds k).
(** the gain at a (0-based) position; nothing is gained after the end *)
Definition gain_at (j : dict Z) (lvl : Z) (ds : list string) (i : nat) : R :=
  match nth_error ds i with Some d => gain j lvl d | None => 0%R end.
(** at no position before the cut-off a document is missing that has a higher gain than the one there:
    all documents with a higher gain are ranked before it *)
Definition best_first (j : dict Z) (lvl : Z) (ds : list string) (k : nat) : Prop :=
  forall i d, k = 0 \/ i < k -> (gain_at j lvl ds i < gain j lvl d)%R -> In d (firstn i ds).
(** some relevant document is among the first [k] *)
Definition finds_one (j : dict Z) (lvl : Z) (ds : list string) (k : nat) : Prop :=
  exists d, In d (top ds k) /\ relevant j lvl d = true.
