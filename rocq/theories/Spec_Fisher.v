(** Spec_Fisher.v: Fisher's randomization test, over the reals *)
From Coq Require Import Reals.
From Verif Require Import Base Spec_Metrics Spec_Eval.
Open Scope list_scope.
Open Scope R_scope.

(** one random reassignment: query [q] gets the other system's score where [swap q] *)
Definition mixed (swap : nat -> bool) (a b : list R) : list R :=
  map (fun q => if swap q then nth q b 0 else nth q a 0) (seq 0 (length a)).
(** absolute difference of the means of two systems *)
Definition mean_gap (a b : list R) : R := Rabs (mean_of a - mean_of b).
(** the reassignment is at least as extreme as what was observed *)
Definition extreme (a b : list R) (swap : nat -> bool) : bool :=
  if Rle_dec (mean_gap a b) (mean_gap (mixed swap a b) (mixed swap b a)) then true else false.
(** the fraction of the [n] reassignments that are *)
Definition randomization_p (a b : list R) (rand : nat -> nat -> bool) (n : nat) : R :=
  INR (length (filter (fun i => extreme a b (rand i)) (seq 0 n))) / INR n.
