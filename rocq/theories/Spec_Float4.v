(** Spec_Float4.v: fusion of runs with binary64 scores *)
From Coq Require Import Reals ZArith SpecFloat List String Permutation Sorting.Sorted.
From Verif Require Import Base Dict Num Env M_Common M_Qrels M_Run Spec_Metrics Spec_Eval Spec_Norm Spec_Fusion Spec_Float Spec_Float3.
Import ListNotations.
Open Scope R_scope.

(** adding up from left to right, rounding after every addition *)
Definition rsum64 (l : list R) : R := fold_left (fun acc r => rnd64 (acc + r)) l 0.

(** the middle value of [l], or half the rounded sum of the two middle ones *)
Definition median64 (l : list R) (m : R) : Prop :=
  exists s, Permutation s l /\ StronglySorted Rle s /\
    ((exists h a, length l = 2 * h + 1 /\ nth_error s h = Some a /\ m = a)%nat \/
     (exists h a b, (length l = 2 * h + 2 /\ nth_error s h = Some a /\ nth_error s (h + 1) = Some b)%nat /\ m = rnd64 (rnd64 (a + b) / 2))).
(** the scores [l] of a document, and [v] as well when some of the [n] runs gave it none *)
Definition with_default (v : R) (n : nat) (l : list R) : list R := (l ++ if (length l <? n)%nat then [v] else [])%list.

Section S.
Context {l1 l2 : spec_float -> spec_float} {pw : spec_float -> spec_float -> spec_float}.
Notation N64 := (NumSF_with l1 l2 pw).

Definition holds64 (x : Run N64) (q d : string) : Prop := exists s, @dget2 spec_float (r_map x) q d = Some s.
Definition query_of64 (x : Run N64) (q : string) : Prop := In q (dkeys (r_map x)).
(** what fusion is given: at least one and at most 2^53 runs over the same query ids *)
Definition fusable64 (xs : list (Run N64)) : Prop :=
  xs <> [] /\ Forall run64 xs /\ (Z.of_nat (length xs) <= 2 ^ 53)%Z /\
  forall x x' q, In x xs -> In x' xs -> query_of64 x q -> query_of64 x' q.
(** [l]: the scores given to [d] by the runs that retrieved it, in the order of the runs *)
Inductive given64 (q d : string) : list (Run N64) -> list R -> Prop :=
| given_nil : given64 q d [] []
| given_held x xs r l : value64 x q d r -> given64 q d xs l -> given64 q d (x :: xs) (r :: l)
| given_not x xs l : ~ holds64 x q d -> given64 q d xs l -> given64 q d (x :: xs) l.
(** the same with the weights of the runs *)
Inductive weighted64 (q d : string) : list R -> list (Run N64) -> list (R * R) -> Prop :=
| weighted_nil ws : weighted64 q d ws [] []
| weighted_held w ws x xs r l : value64 x q d r -> weighted64 q d ws xs l -> weighted64 q d (w :: ws) (x :: xs) ((w, r) :: l)
| weighted_not w ws x xs l : ~ holds64 x q d -> weighted64 q d ws xs l -> weighted64 q d (w :: ws) (x :: xs) l.
(** the ranks (from 1) given to [d] by the runs that retrieved it *)
Definition ranks64 (xs : list (Run N64)) (q d : string) : list nat :=
  concat (map (fun x : Run N64 => match rank_in (dkeys (@of_query spec_float (r_map x) q)) d with Some r => [r] | None => [] end) xs).

(** documents are stored by decreasing score *)
Definition ranked64 (y : Run N64) : Prop :=
  forall q d d' i j n v v', position64 y q d i n -> position64 y q d' j n -> (i < j)%nat -> value64 y q d v -> value64 y q d' v' -> v' <= v.
(** [y] holds the queries of the runs and, per query, exactly the documents held by some run, with finite scores,
    sorted; the score of a document that was given the scores [l] satisfies [P l] *)
Definition union64 (xs : list (Run N64)) (y : Run N64) : Prop :=
  (forall x q, In x xs -> (query_of64 y q <-> query_of64 x q)) /\
  (forall q d, holds64 y q d <-> exists x, In x xs /\ holds64 x q d) /\
  (forall q d, holds64 y q d -> exists v, value64 y q d v) /\ ranked64 y.
Definition fused64 (xs : list (Run N64)) (r : result (Run N64)) (P : list R -> R -> Prop) : Prop :=
  exists y, r = Ok y /\ union64 xs y /\
    forall q d l v, given64 q d xs l -> value64 y q d v -> P l v.

(** the same, with the weights of the runs, and from the ranks *)
Definition fusedw64 (ws : list R) (xs : list (Run N64)) (r : result (Run N64)) (P : list (R * R) -> R -> Prop) : Prop :=
  exists y, r = Ok y /\ union64 xs y /\
    forall q d l v, weighted64 q d ws xs l -> value64 y q d v -> P l v.
Definition fusedr64 (xs : list (Run N64)) (r : result (Run N64)) (P : list nat -> R -> Prop) : Prop :=
  exists y, r = Ok y /\ union64 xs y /\ forall q d v, value64 y q d v -> P (ranks64 xs q d) v.
(** weights: finite numbers, at most 2^200 in absolute value *)
Definition weights64 (ws : list spec_float) (wr : list R) : Prop := Forall2 (fun s w => is64 s w /\ Rabs w <= 2 ^ 200) ws wr.
(** no run stores more than [n] results for one query *)
Definition lists_upto (n : Z) (xs : list (Run N64)) : Prop :=
  forall x q, In x xs -> (Z.of_nat (length (@of_query spec_float (r_map x) q)) <= n)%Z.

(** run [x] holds both or neither of [a] and [b], and scores [a] at least as high *)
Definition scores_both64 (x : Run N64) (q a b : string) : Prop :=
  (holds64 x q a <-> holds64 x q b) /\ forall ra rb, value64 x q a ra -> value64 x q b rb -> rb <= ra.
(** where run [x] ranks [b], it ranks [a] and no later *)
Definition ranks_more64 (x : Run N64) (q a b : string) : Prop :=
  forall rb, rank_in (dkeys (@of_query spec_float (r_map x) q)) b = Some rb ->
  exists ra, rank_in (dkeys (@of_query spec_float (r_map x) q)) a = Some ra /\ (ra <= rb)%nat.
Definition not_below64 (r : result (Run N64)) (q a b : string) : Prop :=
  exists y, r = Ok y /\ forall vb, value64 y q b vb -> exists va, value64 y q a va /\ vb <= va.
End S.
(** two calls return runs with the same scores *)
Definition same64 {l1 l2 pw} (r r' : result (Run (NumSF_with l1 l2 pw))) : Prop :=
  exists y y', r = Ok y /\ r' = Ok y' /\ forall q d v, value64 y q d v <-> value64 y' q d v.
