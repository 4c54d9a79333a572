(** Spec_Scale.v: a change of scale of a run's scores for one query (C89), over the reals *)
From Coq Require Import Reals.
From Verif Require Import Base Dict Num Env M_Common M_Qrels M_Run Spec_Metrics Spec_Eval Spec_Norm.
Open Scope string_scope.
Open Scope list_scope.
Open Scope nat_scope.

(** for query [q], [x'] holds the results of [x] in the same order, each score [s] replaced by
    [a * s + b] *)
Definition rescaled (q : string) (a b : R) (x x' : Run NumR) : Prop :=
  results_of x' q = map (fun ds => (fst ds, (a * snd ds + b)%R)) (results_of x q).

(** the denominator the norm divides by is not replaced by 10^-9: the highest score for "max",
    the difference of the highest and the lowest for the min-max norms, the total excess over
    the lowest for "sum", the standard deviation for "zmuv" *)
Definition wide (norm : string) (l : list R) : Prop :=
  l <> [] ->
  (norm = "max" -> forall hi, is_max_of l hi -> (tiny <= hi)%R) /\
  (In norm ["min_max"; "min-max"; "min_max_inverted"; "min-max-inverted"] ->
     forall lo hi, is_min_of l lo -> is_max_of l hi -> (tiny <= hi - lo)%R) /\
  (norm = "sum" -> forall lo, is_min_of l lo -> (tiny <= Rsum (map (fun s => s - lo) l))%R) /\
  (norm = "zmuv" -> (tiny <= std_of l)%R).

(** the change of scale that norm is meant to undo: multiplying by a positive number and, but for
    "max", adding a constant.  ("rank" and "borda" read only the order of the results.) *)
Definition same_up_to_scale (norm q : string) (x x' : Run NumR) : Prop :=
  exists a b, (0 < a)%R /\ (norm = "max" -> b = 0%R) /\ rescaled q a b x x' /\
    wide norm (scores_for x q) /\ wide norm (scores_for x' q).
