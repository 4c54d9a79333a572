(** Spec_Local.v: vocabulary for "only the query's own results matter" (C88), for any number type *)
From Verif Require Import Base Dict Num Env M_Common M_Qrels M_Run M_Norm M_Fusion.
Open Scope string_scope.
Open Scope list_scope.
Open Scope nat_scope.

(** the results stored for query [q], in stored order; none when the query is absent *)
Definition stored {N : Num} (x : Run N) (q : string) : dict F :=
  match dget (r_map x) q with Some r => r | None => [] end.
(** a dictionary of dictionaries: distinct query ids, distinct document ids per query *)
Definition well_formed {N : Num} (x : Run N) : Prop := dict2_ok (r_map x).
(** two processes in which sorting breaks ties, and sets are iterated, in the same way; the
    hashes of the ids and the schedules of the parallel loops may differ *)
Definition same_orders {N : Num} (E E' : env N) : Prop :=
  (forall l, e_argsort E l = e_argsort E' l) /\ (forall l, e_setorder E l = e_setorder E' l).
(** the lists of runs agree, run by run, on the results of query [q] *)
Definition agree_on {N : Num} (q : string) (xs xs' : list (Run N)) : Prop :=
  Forall2 (fun x x' => stored x q = stored x' q) xs xs'.
(** all runs store the same query ids in the same order *)
Definition same_order {N : Num} (xs : list (Run N)) : Prop :=
  forall x x', In x xs -> In x' xs -> dkeys (r_map x) = dkeys (r_map x').
(** the calls relying on the order of the query ids being the same in all runs *)
Definition borda_call (norm : option string) (method : string) : Prop :=
  norm = Some "borda" \/ method = "bordafuse" \/ method = "w_bordafuse".
