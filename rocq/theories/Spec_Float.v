(** Spec_Float.v: what a binary64 number stands for, in terms of the standard library's and Flocq's
    definitions only *)
From Coq Require Import Reals ZArith SpecFloat List String.
From Flocq Require Core.Core IEEE754.BinarySingleNaN.
Open Scope R_scope.

(** [x] is a finite binary64 number whose value is [r] (both zeros have the value 0) *)
Definition is64 (x : spec_float) (r : R) : Prop :=
  valid_binary 53 1024 x = true /\ BinarySingleNaN.is_finite_SF x = true /\ BinarySingleNaN.SF2R Zaux.radix2 x = r.

(** the nearest binary64 number (ties to even), ignoring the bound of the exponent *)
Definition rnd64 (r : R) : R :=
  Generic_fmt.round Zaux.radix2 (FLT.FLT_exp (-1074) 53) (Generic_fmt.Znearest (fun z => negb (Z.even z))) r.

(** the unit roundoff 2^-53 *)
Definition ulp64 : R := / 2 ^ 53.

(** the binary64 number [x] agrees with [s >= 0] up to [n] roundings *)
Definition within (n : nat) (x : spec_float) (s : R) : Prop :=
  exists r, is64 x r /\ s / (1 + ulp64) ^ n <= r <= s * (1 + ulp64) ^ n.

(** sizes and judgments that binary64 represents exactly *)
Definition small (z : Z) : Prop := (Z.abs z <= 2 ^ 53)%Z.

From Verif Require Import Base Dict Num Env M_Common M_Qrels M_Run Spec_Metrics.

(** A query whose judgments and relevance level are represented exactly (they are at most 2^53 in absolute
    value) with at most 2^52 judged and retrieved documents, for binary64 with any implementation of the
    library functions ln, log2 and pow. *)
Record query64 {l1 l2 pw} (E : @env (NumSF_with l1 l2 pw)) (lvl : Z) (j : dict Z) (r : dict spec_float) : Prop := {
  q64_j : dict_ok j;
  q64_r : dict_ok r;
  q64_ids : ids_distinct (doc_key E) (dkeys j ++ dkeys r);
  q64_vals : Forall (fun dv => small (snd dv)) j;
  q64_lvl : small lvl;
  q64_nj : (Z.of_nat (length j) <= 2 ^ 52)%Z;
  q64_nr : (Z.of_nat (length r) <= 2 ^ 52)%Z
}.

(** [x] is the exact score [s] rounded once; nothing is rounded to 0 or 1 that is not 0 or 1 *)
Definition rounded_score (x : spec_float) (s : R) : Prop :=
  is64 x (rnd64 s) /\ 0 <= rnd64 s <= 1 /\ (rnd64 s = 0 <-> s = 0) /\ (rnd64 s = 1 <-> s = 1).
(** [x] is a number between 0 and 1 that agrees with [s] up to [n] roundings, and exactly if [s] is 0 or 1 *)
Definition near_score (n : nat) (x : spec_float) (s : R) : Prop :=
  within n x s /\ exists r, is64 x r /\ 0 <= r <= 1 /\ (r = 0 <-> s = 0) /\ (s = 1 -> r = 1).

(** The arguments of a metric function, and a metric function that computes scores with property [P]. *)
Definition qrels_arg64 {l1 l2 pw} (E : @env (NumSF_with l1 l2 pw)) (js : list (dict Z)) : list (@rows (NumSF_with l1 l2 pw)) :=
  map (fun j => @to_rows (NumSF_with l1 l2 pw) E Z (@q_tof (NumSF_with l1 l2 pw)) j) js.
Definition run_arg64 {l1 l2 pw} (E : @env (NumSF_with l1 l2 pw)) (rs : list (dict spec_float)) : list (@rows (NumSF_with l1 l2 pw)) :=
  map (fun r => @to_rows (NumSF_with l1 l2 pw) E spec_float (@r_tof (NumSF_with l1 l2 pw)) r) rs.
Definition computes64 {l1 l2 pw} (E : @env (NumSF_with l1 l2 pw))
    (m : list (@rows (NumSF_with l1 l2 pw)) -> list (@rows (NumSF_with l1 l2 pw)) -> Z -> Z -> result (list spec_float))
    (P : dict Z -> Z -> list string -> nat -> spec_float -> Prop) : Prop :=
  forall js rs k lvl, Forall2 (query64 E lvl) js rs -> (0 <= k)%Z -> small k ->
  exists xs, m (qrels_arg64 E js) (run_arg64 E rs) k lvl = Ok xs /\
    Forall2 (fun jr x => P (fst jr) lvl (dkeys (snd jr)) (Z.to_nat k) x) (combine js rs) xs.

(** the library function log2 returns a number >= 1 that agrees with the exact logarithm up to [c] roundings,
    for the positions of a ranking; pow computes powers of two exactly *)
Definition log2_accurate (c : nat) (l2 : spec_float -> spec_float) : Prop :=
  forall n, (2 <= n <= 2 ^ 53)%Z ->
  within c (l2 (sf_of_Z n)) (log2 (IZR n)) /\ exists v, is64 (l2 (sf_of_Z n)) v /\ 1 <= v.
Definition log2_monotone (l2 : spec_float -> spec_float) : Prop :=
  forall n n' v v', (2 <= n <= n')%Z -> (n' <= 2 ^ 53)%Z -> is64 (l2 (sf_of_Z n)) v -> is64 (l2 (sf_of_Z n')) v' -> v <= v'.
Definition pow2_exact (pw : spec_float -> spec_float -> spec_float) : Prop :=
  forall v, (0 <= v <= 53)%Z -> is64 (pw (sf_of_Z 2) (sf_of_Z v)) (IZR (2 ^ v)).
