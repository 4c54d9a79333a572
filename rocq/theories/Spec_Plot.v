(** Spec_Plot.v: the precision-recall curve of a run, over the reals *)
From Coq Require Import Reals.
From Verif Require Import Base Dict Num Env Spec_Metrics Spec_Eval Spec_Train.
Open Scope string_scope.
Open Scope list_scope.
Open Scope nat_scope.

(** interpolated precision of one query at recall i/10: the largest precision at any rank by which at
    least the fraction i/10 of the relevant documents has been found; 0 if there is no such rank *)
Definition interpolated_at (j : dict Z) (ds : list string) (i : nat) : R :=
  if n_relevant j 1 =? 0 then 0%R else
  fold_right Rmax 0%R
    (map (precision_at j 1 ds)
         (filter (fun r => i * n_relevant j 1 <=? 10 * count (relevant j 1) (firstn r ds)) (seq 1 (length ds)))).
(** the curve: mean over the judged queries *)
Definition curve (jm : dict (dict Z)) (rk : string -> list string) (i : nat) : R :=
  mean_over jm (fun q => interpolated_at (of_query jm q) (rk q) i).
