(** Spec_Weights.v: scaling the weights of a fusion (C101), over the reals *)
From Coq Require Import Reals.
From Verif Require Import Base Dict Num Env M_Common M_Run Spec_Metrics Spec_Eval Spec_Norm.
Open Scope string_scope.
Open Scope list_scope.
Open Scope nat_scope.

(** [y'] holds the documents of [y], every score multiplied by [c] *)
Definition scaled_by (c : R) (y y' : Run NumR) : Prop :=
  (forall q, has_query y' q <-> has_query y q) /\
  forall q d, score_of y' q d = option_map (Rmult c) (score_of y q d).
(** no two documents of a query have the same score *)
Definition distinct_scores (y : Run NumR) : Prop :=
  forall q d d' s, score_of y q d = Some s -> score_of y q d' = Some s -> d = d'.
