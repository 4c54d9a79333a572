(** Spec_Float2.v: sums of binary64 numbers in an unspecified order, and the mean of scores *)
From Coq Require Import Reals ZArith SpecFloat List Permutation.
From Coq Require Import String Sorted.
From Verif Require Import Base Dict Num Env M_Common M_Qrels M_Run M_Metrics M_Strings M_Evaluate Spec_DS Spec_Hist Spec_Metrics Spec_Float Spec_Eval.
Import ListNotations.
Open Scope R_scope.

(** [sum_order xs s]: some way of adding up the numbers [xs], two partial sums at a time and in any order,
    gives [s] (numpy adds in blocks, a loop adds from left to right starting with 0) *)
Inductive sum_order : list spec_float -> spec_float -> Prop :=
| SO_none : sum_order [] (sf_of_Z 0)
| SO_one x : sum_order [x] x
| SO_add xs ys a b : sum_order xs a -> sum_order ys b -> sum_order (xs ++ ys) (sf_add a b)
| SO_perm xs ys a : Permutation xs ys -> sum_order xs a -> sum_order ys a.

(** a score between 0 and 1 that agrees with the exact score [s] up to [c] roundings; [s] is 0 or not tiny *)
Definition score64 (c : nat) (x : spec_float) (s : R) : Prop :=
  near_score c x s /\ 0 <= s /\ (s = 0 \/ / 2 ^ 200 <= s).

(** [m] is a good mean of the scores [ss]: a number between 0 and 1 that agrees with the exact mean up to [c]
    roundings, 0 only if all scores are 0, and exactly 1.0 if all scores are 1 *)
Definition mean64 (c : nat) (m : spec_float) (ss : list R) : Prop :=
  within c m (mean_of ss) /\
  exists v, is64 m v /\ 0 <= v <= 1 /\ (v = 0 <-> Forall (fun s => s = 0) ss) /\ (Forall (fun s => s = 1) ss -> v = 1).

(** ** evaluate *)
(** A run without NaN and a qrels, whose sorted flags are right. *)
Definition sound_run {N : Num} (x : Run N) : Prop :=
  dict2_ok (r_map x) /\ (forall q d v, dget2 (r_map x) q d = Some v -> is_nan v = false) /\ (r_sorted x = true -> run_in_order (r_map x)).
Definition sound_qrels (y : Qrels) : Prop := dict2_ok (q_map y) /\ (q_sorted y = true -> qrels_in_order (q_map y)).

(** a ranking of the results [r]: all of them, highest score first *)
Definition ranks_in {N : Num} (r : dict F) (ds : list string) : Prop :=
  exists rk, Permutation r rk /\ StronglySorted (fun a b : string * F => fleb (snd b) (snd a) = true) rk /\ ds = dkeys rk.

(** metrics with scores between 0 and 1 that need no logarithm *)
Definition unit_metrics : list string := ["hit_rate"; "precision"; "recall"; "f1"; "r-precision"; "mrr"; "map"]%string.

(** the mean that evaluate reports for a metric, alone or with the standard deviation *)
Definition mean_part {N : Num} (v : outval) : option F := match v with OArr _ => None | OMean m => Some m | OStats m _ => Some m end.
(** evaluate returned [means s] as the mean of each metric string [s]: a single value for a single string, a dict otherwise *)
Definition returns_means {N : Num} (metrics : list string) (means : string -> F) (res : result outcome) : Prop :=
  match metrics with
  | [s] => exists v, res = Ok (OutOne v) /\ mean_part v = Some (means s)
  | _ => exists d, res = Ok (OutDict d) /\ forall s, (In s metrics -> exists v, dget d s = Some v /\ mean_part v = Some (means s)) /\
                   (~ In s metrics -> dget d s = None)
  end.
