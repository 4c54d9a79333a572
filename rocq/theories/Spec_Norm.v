(** Spec_Norm.v: vocabulary for normalisation and fusion, over the reals.  A run is read
    through the score it gives to (query, document) pairs and the order of its results. *)
From Coq Require Import Reals.
From Verif Require Import Base Dict Num Env M_Common M_Qrels M_Run Spec_Metrics Spec_Eval.
Open Scope string_scope.
Open Scope list_scope.
Open Scope nat_scope.

(** the results of a run are a dictionary of dictionaries (distinct keys) *)
Definition a_run (x : Run NumR) : Prop := dict2_ok (r_map x).
Definition has_query (x : Run NumR) (q : string) : Prop := In q (dkeys (r_map x)).
Definition score_of (x : Run NumR) (q d : string) : option R := @dget2 R (r_map x) q d.
Definition retrieves (x : Run NumR) (q d : string) : Prop := exists s, score_of x q d = Some s.
(** the results of query [q], in stored order *)
Definition results_of (x : Run NumR) (q : string) : dict R := @of_query R (r_map x) q.
Definition scores_for (x : Run NumR) (q : string) : list R := @dvals R (results_of x q).
(** [d] is at (0-based) position [i] of the stored results of [q] *)
Definition at_position (x : Run NumR) (q d : string) (i : nat) : Prop :=
  nth_error (dkeys (results_of x q)) i = Some d.
(** no query without results *)
Definition no_empty_results (x : Run NumR) : Prop := forall q, has_query x q -> results_of x q <> [].
(** every query's results are stored from the highest to the lowest score *)
Definition ranked (x : Run NumR) : Prop :=
  forall q, StronglySorted (fun a b : string * R => (snd b <= snd a)%R) (results_of x q).

Definition is_max_of (l : list R) (m : R) : Prop := In m l /\ forall v, In v l -> (v <= m)%R.
Definition is_min_of (l : list R) (m : R) : Prop := In m l /\ forall v, In v l -> (m <= v)%R.

(** the smallest denominator used, 10^-9 *)
Definition tiny : R := (1 / 10 ^ 9)%R.

(** the names accepted by normalize for one run *)
Definition single_norms : list string :=
  ["max"; "min_max"; "min-max"; "min_max_inverted"; "min-max-inverted"; "rank"; "sum"; "zmuv"].

(** [d] is retrieved for [q] by at least one of the runs *)
Definition candidate (xs : list (Run NumR)) (q d : string) : Prop := exists x, In x xs /\ retrieves x q d.
(** [cs] lists the candidates of [q] *)
Definition candidates_are (xs : list (Run NumR)) (q : string) (cs : list string) : Prop :=
  NoDup cs /\ forall d, In d cs <-> candidate xs q d.
(** all runs have the same query ids *)
Definition same_query_sets (xs : list (Run NumR)) : Prop :=
  forall x x' q, In x xs -> In x' xs -> has_query x q -> has_query x' q.
(** all runs store the same query ids in the same order *)
Definition same_query_order (xs : list (Run NumR)) : Prop :=
  forall x x', In x xs -> In x' xs -> dkeys (r_map x) = dkeys (r_map x').
(** query ids are stored in increasing order, as sort() leaves them *)
Definition queries_sorted (x : Run NumR) : Prop :=
  StronglySorted (fun a b => str_ltb a b = true) (dkeys (r_map x)).
