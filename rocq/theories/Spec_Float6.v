(** Spec_Float6.v: BordaFuse with binary64 scores *)
From Coq Require Import Reals ZArith SpecFloat List String.
From Verif Require Import Base Dict Num Env M_Common M_Qrels M_Run Spec_Metrics Spec_Eval Spec_Norm Spec_Fusion Spec_Float Spec_Float3 Spec_Float4.
Import ListNotations.
Open Scope R_scope.

Section S.
Context {l1 l2 : spec_float -> spec_float} {pw : spec_float -> spec_float -> spec_float}.
Notation N64 := (NumSF_with l1 l2 pw).

(** [cs] lists, once each, the documents that some run holds for [q] *)
Definition listing64 (xs : list (Run N64)) (q : string) (cs : list string) : Prop :=
  NoDup cs /\ forall d, In d cs <-> exists x, In x xs /\ holds64 x q d.
(** the runs store their queries in the same order *)
Definition same_order64 (xs : list (Run N64)) : Prop := forall x x', In x xs -> In x' xs -> dkeys (r_map x) = dkeys (r_map x').
(** at most 2^26 runs, and at most 2^26 documents found by them for one query *)
Definition borda_sized (xs : list (Run N64)) : Prop :=
  (Z.of_nat (length xs) <= 2 ^ 26)%Z /\ forall q cs, listing64 xs q cs -> (Z.of_nat (length cs) <= 2 ^ 26)%Z.
(** the points run [x] gives to [d] when there are [n] candidates: n for its first result, n-1 for the second, ...; what
    is left of the n(n+1)/2 points is shared equally by the documents it does not hold *)
Definition points64 (n : nat) (x : Run N64) (q d : string) : R :=
  match rank_in (dkeys (@of_query spec_float (r_map x) q)) d with
  | Some r => INR n + 1 - INR r
  | None => (INR n - INR (length (@of_query spec_float (r_map x) q)) + 1) / 2
  end.
(** run [x] ranks [a], and [b] later or not at all *)
Definition ahead64 (x : Run N64) (q a b : string) : Prop :=
  exists ra, rank_in (dkeys (@of_query spec_float (r_map x) q)) a = Some ra /\
    forall rb, rank_in (dkeys (@of_query spec_float (r_map x) q)) b = Some rb -> (ra < rb)%nat.
Definition above64 (r : result (Run N64)) (q a b : string) : Prop :=
  exists y va, r = Ok y /\ value64 y q a va /\ forall vb, value64 y q b vb -> vb < va.
End S.
