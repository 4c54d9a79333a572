(** Spec_Again.v: vocabulary of C97 — several evaluations of the same objects. *)
From Verif Require Import Base Dict Num Env M_Common M_Qrels M_Run M_Metrics M_Strings M_Evaluate.
Open Scope string_scope.
Open Scope list_scope.
Open Scope nat_scope.

Section Again.
Context {N : Num} (E : env N).

(** The options of one call [evaluate(qrels, run, metrics, return_mean, return_std,
    save_results_in_run, make_comparable=False)]. *)
Record ask := Ask { a_metrics : list string; a_mean : bool; a_std : bool; a_save : bool }.

Definition asked (q : qarg) (r : rarg) (a : ask) : eval_out :=
  @evaluate N E q r (a_metrics a) (a_mean a) (a_std a) (a_save a) false.

(** The caller's two objects after a series of calls on them, whether these return or
    raise (the caller catches the exceptions). *)
Fixpoint after (q : qarg) (r : rarg) (calls : list ask) : qarg * rarg :=
  match calls with
  | [] => (q, r)
  | a :: rest => after (ev_q (asked q r a)) (ev_r (asked q r a)) rest
  end.

(** The same with one qrels and several distinct run objects; a call names its run by
    position. *)
Fixpoint after_pool (q : qarg) (rs : list rarg) (calls : list (nat * ask)) : qarg * list rarg :=
  match calls with
  | [] => (q, rs)
  | (i, a) :: rest =>
      match nth_error rs i with
      | Some r => after_pool (ev_q (asked q r a)) (set_nth rs i (ev_r (asked q r a))) rest
      | None => after_pool q rs rest
      end
  end.

(** No dictionary of the argument has a query twice (true of every Python dict). *)
Definition qarg_ok (q : @qarg N) : Prop := match q with QObj y => NoDup (dkeys (q_map y)) | _ => True end.
Definition rarg_ok (r : @rarg N) : Prop := match r with RObj x => NoDup (dkeys (r_map x)) | _ => True end.

(** The elements of a list in order of first occurrence. *)
Fixpoint firsts (seen l : list string) : list string :=
  match l with
  | [] => []
  | a :: l' => if in_dec string_dec a seen then firsts seen l' else a :: firsts (a :: seen) l'
  end.

(** The run object after evaluating the metrics one after the other, each with a call of
    its own that saves its results. *)
Definition one_by_one (y : Qrels) (x : Run N) (metrics : list string) (mean std : bool) : qarg * rarg :=
  after (QObj y) (RObj x) (map (fun m => Ask [m] mean std true) metrics).
End Again.
