(** Spec_Unanimity.v: when all runs agree that one document is at least as good as another *)
From Coq Require Import Reals.
From Verif Require Import Base Dict Num Env M_Common M_Qrels M_Run Spec_Metrics Spec_Eval Spec_Norm Spec_Fusion.
Open Scope string_scope.
Open Scope list_scope.
Open Scope nat_scope.

(** run [x] retrieves both or neither of [a] and [b] for [q], and scores [a] at least as high *)
Definition scores_both (x : Run NumR) (q a b : string) : Prop :=
  (retrieves x q a <-> retrieves x q b) /\
  forall sa sb, score_of x q a = Some sa -> score_of x q b = Some sb -> (sb <= sa)%R.
(** where run [x] retrieves [b], it retrieves [a] with at least the same score *)
Definition scores_more (x : Run NumR) (q a b : string) : Prop :=
  forall sb, score_of x q b = Some sb -> exists sa, score_of x q a = Some sa /\ (sb <= sa)%R.
(** where run [x] ranks [b], it ranks [a] and no later *)
Definition ranks_more (x : Run NumR) (q a b : string) : Prop :=
  forall rb, rank_of x q b = Some rb -> exists ra, rank_of x q a = Some ra /\ ra <= rb.
(** run [x] scores [a] strictly higher than [b] *)
Definition scores_strictly (x : Run NumR) (q a b : string) : Prop :=
  exists sa sb, score_of x q a = Some sa /\ score_of x q b = Some sb /\ (sb < sa)%R.
(** no run holds a negative score *)
Definition nonneg_scores (xs : list (Run NumR)) : Prop :=
  forall x q d s, In x xs -> score_of x q d = Some s -> (0 <= s)%R.

(** the call returns a run; if it holds [b] it holds [a] with at least the same score *)
Definition not_below (r : result (Run NumR)) (q a b : string) : Prop :=
  exists y, r = Ok y /\ forall sb, score_of y q b = Some sb -> exists sa, score_of y q a = Some sa /\ (sb <= sa)%R.
(** the call returns a run that scores [a] strictly higher than [b] and ranks it before [b] *)
Definition above (r : result (Run NumR)) (q a b : string) : Prop :=
  exists y sa sb, r = Ok y /\ score_of y q a = Some sa /\ score_of y q b = Some sb /\ (sb < sa)%R /\
    prefers y q a b = true.
