(** Spec_NormEval.v: normalisations that keep the ranking of a run (C102), over the reals *)
From Coq Require Import Reals.
From Verif Require Import Base Dict Num Env M_Common M_Qrels M_Run Spec_Metrics Spec_Eval Spec_Norm.
Open Scope string_scope.
Open Scope list_scope.
Open Scope nat_scope.

(** the norms that replace each score by an increasing function of it *)
Definition increasing_norms : list string := ["max"; "min_max"; "min-max"; "sum"; "zmuv"].
Definition inverting_norms : list string := ["min_max_inverted"; "min-max-inverted"].
(** [y] retrieves what [x] retrieves, and puts the same documents above one another *)
Definition ranks_like (x y : Run NumR) : Prop :=
  (forall q, has_query y q <-> has_query x q) /\ (forall q d, retrieves y q d <-> retrieves x q d) /\
  forall q d d' s s' v v', score_of x q d = Some s -> score_of x q d' = Some s' ->
    score_of y q d = Some v -> score_of y q d' = Some v' -> (s < s')%R -> (v < v')%R.
