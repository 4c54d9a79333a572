(** Spec_Compare.v: what compare is supposed to report *)
From Verif Require Import Base Dict Num Env M_Common M_Qrels M_Run M_Text M_Evaluate M_Compare.
Open Scope string_scope.
Open Scope list_scope.
Open Scope nat_scope.

Section S.
Context {N : Num} (E : env N).

(** [l] is the array of per-query scores that evaluate returns for run [x] and metric [m] *)
Definition query_scores (y : Qrels) (x : Run N) (metrics : list string) (mk : bool) (m : string) (l : list F) : Prop :=
  exists o, ev_res (evaluate E (QObj y) (RObj x) metrics false false true mk) = Ok o /\
    match o with
    | OutOne (OArr l') => metrics = [m] /\ l = l'
    | OutDict d => dget d m = Some (OArr l)
    | _ => False
    end.

(** Model [i] (from 0) is called by the name of its run, or run_1, run_2, ... *)
Definition model_name (i : nat) (x : Run N) : string :=
  match r_name x with Some s => s | None => "run_" ++ str_int (Z.of_nat i + 1) end.
Definition named (xs : list (Run N)) (i : nat) (a : string) (x : Run N) : Prop :=
  nth_error xs i = Some x /\ model_name i x = a.
(** [x] is the run whose scores are reported under the name [a]: the last one of that name *)
Definition stands_for (xs : list (Run N)) (a : string) (x : Run N) : Prop :=
  exists i, named xs i a x /\ forall j x', i < j -> ~ named xs j a x'.

(** how many positions of two arrays are related *)
Definition positions (rel : F -> F -> bool) (l1 l2 : list F) : nat :=
  length (filter (fun ab => rel (fst ab) (snd ab)) (combine l1 l2)).

(** the p-value of a test between two arrays *)
Definition p_value_of (T : tests N) (stat_test : string) (n_permutations : nat) (max_p : F) (c t : list F) (p : F) : Prop :=
  (stat_test = "student" /\ p = ttest T c t) \/
  (stat_test = "fisher" /\ exists i j m s, fisher_randomization_test E (draws T i j m) c t n_permutations max_p = Ok (p, s)).
End S.
