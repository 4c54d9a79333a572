(** Spec_Judgments.v: which judgments an argument of evaluate holds, and when two judgments
    are on the same side of a relevance level. *)
From Verif Require Import Base Dict Num Env M_Common M_Qrels M_Run M_Metrics M_Evaluate.
Open Scope string_scope.
Open Scope list_scope.

(** the metrics that use the grade of a judgment *)
Definition graded_metrics : list string := ["dcg"; "dcg_burges"; "ndcg"; "ndcg_burges"; "rbp"].

Section S.
Context {N : Num}.

(** two judgments (or their absence) that a threshold [lvl] does not tell apart *)
Definition same_side (lvl : Z) (a b : option F) : Prop :=
  match a, b with
  | None, None => True
  | Some v, Some w => fleb (fofZ lvl) v = fleb (fofZ lvl) w /\ fltb v (fofZ lvl) = fltb w (fofZ lvl)
  | _, _ => False
  end.

(** [holds q qs J]: the argument [q] holds the judgments [J] and its queries are walked in
    the order [qs].  An object that is marked sorted has its ids in order (C03). *)
Inductive holds : @qarg N -> list string -> (string -> string -> option F) -> Prop :=
| H_obj y : dict2_ok (q_map y) ->
    (q_sorted y = true -> StronglySorted (fun a b => str_ltb a b = true) (dkeys (q_map y))) ->
    holds (QObj y) (str_sort (dkeys (q_map y))) (fun q d => option_map fofZ (dget2 (q_map y) q d))
| H_dict m : dict2_ok m -> m <> [] -> (forall q r, dget m q = Some r -> r <> []) ->
    holds (QDict m) (dkeys m) (dget2 m)
| H_subdict m : dict2_ok m -> m <> [] -> (forall q r, dget m q = Some r -> r <> []) ->
    holds (QSubDict m) (dkeys m) (dget2 m).

Definition is_subdict (q : @qarg N) : bool := match q with QSubDict _ => true | _ => false end.
Definition is_object (q : @qarg N) : bool := match q with QObj _ => true | _ => false end.
End S.
