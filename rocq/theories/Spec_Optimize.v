(** Spec_Optimize.v: what optimize_fusion is supposed to return *)
From Coq Require Import Ascii.
From Verif Require Import Base Dict Num Env M_Common M_Qrels M_Run M_Text M_Evaluate M_Norm M_Fusion M_Optimize.
Open Scope string_scope.
Open Scope list_scope.
Open Scope nat_scope.

Section S.
Context {N : Num} (E : env N) (sh : shower N).

(** evaluate(qrels, run, metric, save_results_in_run=False) returns [s] *)
Definition evaluates_to (y : Qrels) (z : Run N) (metric : string) (s : F) : Prop :=
  ev_res (evaluate E (QObj y) (RObj z) [metric] true false false false) = Ok (OutOne (OMean s)).

(** Trial [i] is the last one with the largest score, which is at least 0.  (NaN is not
    comparable: a trial with score NaN is never chosen.) *)
Definition last_best (scores : list F) (i : nat) : Prop :=
  exists v, nth_error scores i = Some v /\ fleb (fofZ 0) v = true /\
    (forall j w, nth_error scores j = Some w -> is_nan w = false -> fleb w v = true) /\
    (forall j w, i < j -> nth_error scores j = Some w -> fleb v w = false).
(** what the optimiser picks among the trials; [None] (nothing) if no score reaches 0 *)
Definition chosen {A} (trials : list A) (scores : list F) (best : option A) : Prop :=
  match best with
  | Some b => exists i, last_best scores i /\ nth_error trials i = Some b
  | None => forall s, In s scores -> fleb (fofZ 0) s = false
  end.

(** [text], as printed by Python, has [d] digits after its decimal point; [text] has no point at all
    (an int, or a float printed in scientific notation without a point such as 1e-05) *)
Definition in_text (c : ascii) (text : string) : Prop := exists a b, text = (a ++ String c b)%string.
Definition digits_after_point (text : string) (d : nat) : Prop :=
  exists whole frac, text = (whole ++ "." ++ frac)%string /\ String.length frac = d /\ ~ in_text "." frac.

(** The methods tuned without training, the parameter tuned, and the trials: the values tried
    and their texts.  What the grids contain is the subject of C57_float_grid, C57_int_grid and C58. *)
Definition plain_methods : list string :=
  ["gmnz"; "logn_isr"; "rbc"; "rrf"; "mixed"; "w_bordafuse"; "w_condorcet"; "wmnz"; "wsum"].
Definition floats (lo hi : string) (kws : params) : result (list (@pval N * string)) :=
  do g <- float_grid sh (kwarg kws lo (PF (fdec 1 2))) (kwarg kws hi (PF (fofZ 1))) (kwarg kws "step" (PF (fdec 1 2)));
  Ok (map (fun x => (PF x, s_float sh x)) g).
Definition trial_grid (method : string) (n_runs : nat) (kws : params) : result (string * list (@pval N * string)) :=
  if String.eqb method "gmnz" then do l <- floats "min_gamma" "max_gamma" kws; Ok ("gamma", l)
  else if String.eqb method "logn_isr" then do l <- floats "min_sigma" "max_sigma" kws; Ok ("sigma", l)
  else if String.eqb method "rbc" then do l <- floats "min_phi" "max_phi" kws; Ok ("phi", l)
  else if String.eqb method "rrf" then
    do a <- as_Z (kwarg kws "min_k" (PZ 10)); do b <- as_Z (kwarg kws "max_k" (PZ 100)); do s <- as_Z (kwarg kws "step" (PZ 10));
    do l <- py_range a (b + 1) s; Ok ("k", map (fun k => (PZ k, str_int k)) l)
  else
    do w <- get_possible_weights sh (kwarg kws "step" (PF (fdec 1 1)));
    Ok ("weights", map (fun t => (PL t, s_tuple sh t)) (get_trial_configs w n_runs)).
End S.
