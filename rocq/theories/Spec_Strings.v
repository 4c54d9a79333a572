(** Spec_Strings.v: decimal numerals and the names of the metrics, for the statements about
    metric strings. *)
From Verif Require Import Base.
Open Scope string_scope.
Open Scope list_scope.

(** [numeral s n]: s is a non-empty string of decimal digits denoting n. *)
Fixpoint dec_val (acc : Z) (s : string) : Z :=
  match s with
  | EmptyString => acc
  | String c s' => dec_val (10 * acc + (Z.of_nat (nat_of_ascii c) - 48))%Z s'
  end.
Fixpoint all_digits (s : string) : Prop :=
  match s with
  | EmptyString => True
  | String c s' => (48 <= nat_of_ascii c <= 57)%nat /\ all_digits s'
  end.
Definition numeral (s : string) (n : Z) : Prop := s <> EmptyString /\ all_digits s /\ dec_val 0 s = n.

(** the metrics with an (optional) integer cut-off, and all metrics *)
Definition cutoff_metrics : list string :=
  ["hits"; "hit_rate"; "precision"; "recall"; "f1"; "r-precision"; "mrr"; "map"; "dcg";
   "dcg_burges"; "ndcg"; "ndcg_burges"; "bpref"].
Definition all_metrics : list string := cutoff_metrics ++ ["rbp"].
