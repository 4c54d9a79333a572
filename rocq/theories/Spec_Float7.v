(** Spec_Float7.v: a run with binary64 scores read as a run with real scores *)
From Coq Require Import Reals ZArith SpecFloat List String.
From Flocq Require Import Core.Core IEEE754.BinarySingleNaN.
From Verif Require Import Base Dict Num Env M_Common M_Qrels M_Run Spec_Metrics Spec_Eval Spec_Norm Spec_Fusion Spec_Float Spec_Float3 Spec_Float4 Spec_Float6.
Import ListNotations.
Open Scope R_scope.

Section S.
Context {l1 l2 : spec_float -> spec_float} {pw : spec_float -> spec_float -> spec_float}.
Notation N64 := (NumSF_with l1 l2 pw).
(** the same queries and documents in the same order; every score is the real number that the binary64 number denotes *)
Definition read64 (x : Run N64) : Run NumR :=
  @mkRun NumR (map (fun qr : string * dict spec_float => (fst qr, map (fun ds : string * spec_float => (fst ds, SF2R radix2 (snd ds))) (snd qr))) (r_map x))
    (r_sorted x) (r_name x) [] [] [].
(** the call in binary64 and the call over the reals, on the runs read as real ones, return the same run *)
Definition same_as_exact (r : result (Run N64)) (r' : result (Run NumR)) : Prop :=
  exists y y', r = Ok y /\ r' = Ok y' /\ r_map (read64 y) = r_map y' /\ r_name y = r_name y' /\ r_sorted y = r_sorted y' /\
    forall q d s, @dget2 spec_float (r_map y) q d = Some s -> is64 s (SF2R radix2 s).
(** every query has at most 2^53 documents in all the runs together *)
Definition few_candidates (xs : list (Run N64)) : Prop := forall q cs, listing64 xs q cs -> (Z.of_nat (length cs) <= 2 ^ 53)%Z.
End S.
