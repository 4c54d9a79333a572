(** Spec_Keywords.v: the keyword arguments of the fusion methods, written down from the signatures in
    ranx/fusion/*.py: for each method, the keywords that must be given, those that may be given besides
    [name], and the name of the fused run if none is given *)
From Coq Require Import List String.
Import ListNotations.
Open Scope string_scope.

Definition signatures : list (string * (list string * list string * string)) :=
  [("bayesfuse", (["log_odds"], [], "bayesfuse"));
   ("bordafuse", ([], [], "bordafuse"));
   ("anz", ([], [], "comb_anz"));
   ("gmnz", (["gamma"], [], "comb_gmnz"));
   ("max", ([], [], "comb_max"));
   ("med", ([], [], "comb_med"));
   ("min", ([], [], "comb_min"));
   ("mnz", ([], [], "comb_mnz"));
   ("sum", ([], [], "comb_sum"));
   ("condorcet", ([], [], "condorcet"));
   ("isr", ([], [], "isr"));
   ("log_isr", ([], [], "log_isr"));
   ("logn_isr", ([], ["sigma"], "logn_isr"));
   ("mapfuse", (["map_scores"], [], "mapfuse"));
   ("mixed", (["weights"], [], "mixed"));
   ("posfuse", (["probs"], [], "posfuse"));
   ("probfuse", (["probs"], [], "probfuse"));
   ("rbc", (["phi"], [], "rbc"));
   ("rrf", ([], ["k"], "rrf"));
   ("segfuse", (["probs"], [], "segfuse"));
   ("slidefuse", (["probs"; "w"], [], "slidefuse"));
   ("w_bordafuse", (["weights"], [], "weighted_bordafuse"));
   ("w_condorcet", (["weights"], [], "weighted_condorcet"));
   ("wmnz", (["weights"], [], "wmnz"));
   ("wsum", (["weights"], [], "weighted_sum"))].
