(** Spec_Float5.v: what the remaining metrics should compute in binary64 *)
From Coq Require Import Reals ZArith SpecFloat List String.
From Verif Require Import Base Dict Num Spec_Metrics Spec_Float.
Open Scope R_scope.

(** [x] is a number [>= 0] that agrees with [s] up to [n] roundings, and is 0 exactly if [s] is *)
Definition near_gain (n : nat) (x : spec_float) (s : R) : Prop :=
  within n x s /\ exists v, is64 x v /\ 0 <= v /\ (v = 0 <-> s = 0).

(** [x] is a number between 0 and 1 that agrees, up to [n] roundings, with a number that differs from [s] by at
    most 2^-53; it is 0 exactly if [s] is 0, and 1 if [s] is 1 *)
Definition close_score (n : nat) (x : spec_float) (s : R) : Prop :=
  (exists s', Rabs (s' - s) <= ulp64 /\ within n x s') /\
  exists v, is64 x v /\ 0 <= v <= 1 /\ (v = 0 <-> s = 0) /\ (s = 1 -> v = 1).

(** ** Interpolated precision
    The number of relevant documents that has to be reached for recall level i/10 if [n] are relevant: i*n/10,
    rounded up. *)
Definition recall_cutoff (i n : nat) : nat := ((i * n + 9) / 10)%nat.
(** In binary64 it can be one too low, if i*n/10 exceeds an integer by exactly 1/10. *)
Definition float_cutoff (i n c : nat) : Prop :=
  c = recall_cutoff i n \/ (i * n mod 10 = 1)%nat /\ (c + 1)%nat = recall_cutoff i n.
(** The 11 values of one query: the exact interpolated precision for such cut-offs, rounded once; the values do
    not increase. *)
Definition curve64 (j : dict Z) (lvl : Z) (ds : list string) (xs : list spec_float) : Prop :=
  List.length xs = 11%nat /\
  (forall i x, nth_error xs i = Some x ->
     exists c, float_cutoff i (n_relevant j lvl) c /\ rounded_score x (S_interpolated j lvl ds c)) /\
  (forall i i' x x' v v', (i <= i')%nat -> nth_error xs i = Some x -> nth_error xs i' = Some x' ->
     is64 x v -> is64 x' v' -> v' <= v).
