(** Spec_Float3.v: runs with binary64 scores, for the normalisations *)
From Coq Require Import Reals ZArith SpecFloat List String.
From Verif Require Import Base Dict Num Env M_Common M_Qrels M_Run Spec_Metrics Spec_Eval Spec_Norm Spec_Float.
Import ListNotations.
Open Scope R_scope.

Section S.
Context {l1 l2 : spec_float -> spec_float} {pw : spec_float -> spec_float -> spec_float}.
Notation N64 := (NumSF_with l1 l2 pw).

(** the run [x] gives document [d] of query [q] the finite score [r] *)
Definition value64 (x : Run N64) (q d : string) (r : R) : Prop :=
  exists s : spec_float, @dget2 spec_float (r_map x) q d = Some s /\ is64 s r.
(** a run all of whose scores are finite and at most 2^200 in absolute value *)
Definition run64 (x : Run N64) : Prop :=
  @dict2_ok spec_float (r_map x) /\
  forall q d s, @dget2 spec_float (r_map x) q d = Some s -> exists r, is64 s r /\ Rabs r <= 2 ^ 200.
(** the lowest and the highest score of query [q] *)
Definition lowest (x : Run N64) (q : string) (lo : R) : Prop := (exists d, value64 x q d lo) /\ forall d r, value64 x q d r -> lo <= r.
Definition highest (x : Run N64) (q : string) (hi : R) : Prop := (exists d, value64 x q d hi) /\ forall d r, value64 x q d r -> r <= hi.
(** the same queries, the same documents for each query, and every score is finite *)
Definition same_results (x y : Run N64) : Prop :=
  (forall q, In q (dkeys (r_map x)) <-> In q (dkeys (r_map y))) /\
  (forall q d, (exists s, @dget2 spec_float (r_map x) q d = Some s) <-> (exists s, @dget2 spec_float (r_map y) q d = Some s)) /\
  (forall q d s, @dget2 spec_float (r_map y) q d = Some s -> exists r, value64 y q d r).
(** [d] is at position [i] (from 0) of the [n] stored results of [q] *)
Definition position64 (x : Run N64) (q d : string) (i n : nat) : Prop :=
  nth_error (dkeys (@of_query spec_float (r_map x) q)) i = Some d /\ length (@of_query spec_float (r_map x) q) = n.
(** the order of the scores is kept, though different scores may become equal *)
Definition weakly_keeps_order (x y : Run N64) : Prop :=
  forall q d d' s s' v v', value64 x q d s -> value64 x q d' s' -> value64 y q d v -> value64 y q d' v' -> s <= s' -> v <= v'.
Definition weakly_reverses_order (x y : Run N64) : Prop :=
  forall q d d' s s' v v', value64 x q d s -> value64 x q d' s' -> value64 y q d v -> value64 y q d' v' -> s <= s' -> v' <= v.
End S.
