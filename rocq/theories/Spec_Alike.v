(** Spec_Alike.v: runs that rank the same documents in the same order (C99), over the reals *)
From Coq Require Import Reals.
From Verif Require Import Base Dict Num Env M_Common M_Qrels M_Run M_Norm M_Fusion Spec_Metrics Spec_Eval Spec_Norm Spec_Fusion.
Open Scope string_scope.
Open Scope list_scope.
Open Scope nat_scope.

(** for query [q] the run stores exactly the documents [ds], in this order, with strictly
    decreasing scores *)
Definition ranks_as (x : Run NumR) (q : string) (ds : list string) : Prop :=
  dkeys (results_of x q) = ds /\
  StronglySorted (fun a b : string * R => (snd b < snd a)%R) (results_of x q).

(** normalisations that keep the direction of the scores; [None]: no normalisation *)
Definition keeping_norms : list (option string) :=
  [None; Some "max"; Some "min_max"; Some "min-max"; Some "rank"; Some "sum"; Some "zmuv"; Some "borda"].
(** those that reverse it *)
Definition reversing_norms : list (option string) := [Some "min_max_inverted"; Some "min-max-inverted"].

(** calls of [n] runs to a method that reads scores: names and the parameters meant *)
Inductive by_scores (n : nat) : string -> @params NumR -> Prop :=
| bs_plain m : In m ["sum"; "max"; "min"; "med"; "anz"; "mnz"] -> by_scores n m []
| bs_gmnz g : by_scores n "gmnz" [("gamma", PF g)]
| bs_weights m (ws : list R) : In m ["wsum"; "wmnz"; "mixed"] -> length ws = n -> (forall w, In w ws -> (0 < w)%R) ->
    by_scores n m [("weights", PL ws)].
(** calls to a method that reads ranks *)
Inductive by_ranks (n : nat) : string -> @params NumR -> Prop :=
| br_plain m : In m ["isr"; "log_isr"; "rrf"; "bordafuse"; "condorcet"] -> by_ranks n m []
| br_sigma s : (0 <= s <= 1)%R -> by_ranks n "logn_isr" [("sigma", PF s)]
| br_k k : (0 <= k)%Z -> by_ranks n "rrf" [("k", PZ k)]
| br_phi p : (0 < p < 1)%R -> by_ranks n "rbc" [("phi", PF p)]
| br_weights m (ws : list R) : In m ["w_bordafuse"; "w_condorcet"] -> length ws = n -> (forall w, In w ws -> (0 < w)%R) ->
    by_ranks n m [("weights", PL ws)].
