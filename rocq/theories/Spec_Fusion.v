(** Spec_Fusion.v: vocabulary for fusion, over the reals *)
From Coq Require Import Reals.
From Verif Require Import Base Dict Num Env M_Common M_Qrels M_Run Spec_Metrics Spec_Eval Spec_Norm.
Open Scope string_scope.
Open Scope list_scope.
Open Scope nat_scope.

(** what fusion is given: at least one run, all over the same query ids *)
Definition fusable (xs : list (Run NumR)) : Prop := xs <> [] /\ Forall a_run xs /\ same_query_sets xs.

(** the scores given to [d] by the runs that retrieved it, in the order of the runs *)
Definition scores_given (xs : list (Run NumR)) (q d : string) : list R :=
  concat (map (fun x => match score_of x q d with Some s => [s] | None => [] end) xs).
(** the same, each with the weight of its run: (weight, score) *)
Definition weighted_given (ws : list R) (xs : list (Run NumR)) (q d : string) : list (R * R) :=
  concat (map (fun wx => match score_of (snd wx) q d with Some s => [(fst wx, s)] | None => [] end)
              (combine ws xs)).

(** 1-based position of the first occurrence *)
Fixpoint rank_in (l : list string) (d : string) : option nat :=
  match l with
  | [] => None
  | e :: l' => if string_dec d e then Some 1 else match rank_in l' d with Some r => Some (S r) | None => None end
  end.
(** the rank of [d] among the results of [q], as stored *)
Definition rank_of (x : Run NumR) (q d : string) : option nat := rank_in (dkeys (results_of x q)) d.
(** the ranks given to [d] by the runs that retrieved it *)
Definition ranks_given (xs : list (Run NumR)) (q d : string) : list nat :=
  concat (map (fun x => match rank_of x q d with Some r => [r] | None => [] end) xs).
(** values computed from the rank, the run and a parameter of the run *)
Definition values_given {P} (ps : list P) (xs : list (Run NumR)) (v : P -> Run NumR -> nat -> R) (q d : string) : list R :=
  concat (map (fun px => match rank_of (snd px) q d with Some r => [v (fst px) (snd px) r] | None => [] end)
              (combine ps xs)).

(** [m] is the middle value of [l], or the mean of the two middle ones *)
Definition is_median (l : list R) (m : R) : Prop :=
  exists s, Permutation s l /\ StronglySorted Rle s /\
    ((exists h a, length l = 2 * h + 1 /\ nth_error s h = Some a /\ m = a) \/
     (exists h a b, length l = 2 * h + 2 /\ nth_error s h = Some a /\ nth_error s (h + 1) = Some b /\ m = ((a + b) / 2)%R)).

(** [y] is a fusion of [xs]: the same queries; per query exactly the documents retrieved by
    some run; scores as described by [P]; sorted by query id and by decreasing score *)
Definition fusion_of (xs : list (Run NumR)) (y : Run NumR) (P : string -> string -> R -> Prop) : Prop :=
  a_run y /\
  (forall x q, In x xs -> (has_query y q <-> has_query x q)) /\
  (forall q d, retrieves y q d <-> candidate xs q d) /\
  (forall q d s, score_of y q d = Some s -> P q d s) /\
  queries_sorted y /\ ranked y.

(** BordaFuse: the points run [x] gives to [d] when there are [n] candidates: n for the first
    result, n-1 for the second, ...; the points left are shared by the documents not retrieved *)
Definition borda_points (n : nat) (x : Run NumR) (q d : string) : R :=
  match rank_of x q d with
  | Some r => (INR n + 1 - INR r)%R
  | None => ((INR n - INR (length (results_of x q)) + 1) / 2)%R
  end.

(** run [x] ranks [a] before [b] for [q]: a retrieved document comes before a missing one *)
Definition prefers (x : Run NumR) (q a b : string) : bool :=
  match rank_of x q a, rank_of x q b with
  | Some r, Some r' => r <? r'
  | Some _, None => true
  | None, _ => false
  end.
(** number (total weight) of the runs ranking [a] before [b] *)
Definition votes (xs : list (Run NumR)) (q a b : string) : nat := count (fun x => prefers x q a b) xs.
Definition weighted_votes (ws : list R) (xs : list (Run NumR)) (q a b : string) : R :=
  Rsum (map (fun wx => if prefers (snd wx) q a b then fst wx else 0%R) (combine ws xs)).
(** more than half of the runs (of the weight) rank [a] before [b] *)
Definition majority (xs : list (Run NumR)) (q a b : string) : Prop := length xs < 2 * votes xs q a b.
Definition weighted_majority (ws : list R) (xs : list (Run NumR)) (q a b : string) : Prop :=
  (Rsum ws < 2 * weighted_votes ws xs q a b)%R.
(** a relation is transitive among the candidates of [q] *)
Definition transitive_among (xs : list (Run NumR)) (q : string) (T : string -> string -> Prop) : Prop :=
  forall a b c, candidate xs q a -> candidate xs q b -> candidate xs q c -> T a b -> T b c -> T a c.
(** result lists short enough for the code's "missing" index, 1_000_000 *)
Definition short_results (xs : list (Run NumR)) : Prop :=
  forall x q, In x xs -> (Z.of_nat (length (results_of x q)) <= 1000000)%Z.
(** the properties of a ranking by pairwise comparison; [beats q b a]: [b] must not directly
    follow [a] *)
Definition condorcet_like xs y (beats : string -> string -> string -> Prop) : Prop :=
  a_run y /\
  (forall x q, In x xs -> (has_query y q <-> has_query x q)) /\
  (forall q d, retrieves y q d <-> candidate xs q d) /\
  ranked y /\
  (forall q d i, at_position y q d i -> score_of y q d = Some (INR (length (results_of y q)) - INR i)%R) /\
  (forall q a b i, at_position y q a i -> at_position y q b (S i) -> ~ beats q b a) /\
  (forall q, transitive_among xs q (fun a b => ~ beats q b a) ->
     forall a b i j, at_position y q a i -> at_position y q b j -> i < j -> ~ beats q b a).

(** [y] holds the queries of the runs and, per query, exactly the documents retrieved by some run *)
Definition union_of (xs : list (Run NumR)) (y : Run NumR) : Prop :=
  a_run y /\
  (forall x q, In x xs -> (has_query y q <-> has_query x q)) /\
  (forall q d, retrieves y q d <-> candidate xs q d).

(** the method names of fuse *)
Definition fusion_methods : list string :=
  ["bayesfuse"; "bordafuse"; "anz"; "gmnz"; "max"; "med"; "min"; "mnz"; "sum"; "condorcet"; "isr"; "log_isr";
   "logn_isr"; "mapfuse"; "mixed"; "posfuse"; "probfuse"; "rbc"; "rrf"; "segfuse"; "slidefuse"; "w_bordafuse";
   "w_condorcet"; "wmnz"; "wsum"].

(** both calls return, and the fused runs give every document the same score *)
Definition same_scores (r r' : result (Run NumR)) : Prop :=
  exists y y', r = Ok y /\ r' = Ok y' /\ forall q d, score_of y q d = score_of y' q d.

(** [xs'] is [xs] with the scores of document [d0] for query [q0] raised in some runs *)
Definition raised (q0 d0 : string) (xs xs' : list (Run NumR)) : Prop :=
  Forall2 (fun x x' =>
    (forall q d, (q, d) <> (q0, d0) -> score_of x' q d = score_of x q d) /\
    match score_of x q0 d0, score_of x' q0 d0 with
    | Some s, Some s' => (s <= s')%R
    | None, None => True
    | _, _ => False
    end) xs xs'.
(** both calls return; the fused score of [d0] for [q0] is not lower in the second result and
    all other scores are the same *)
Definition fused_raised (q0 d0 : string) (r r' : result (Run NumR)) : Prop :=
  exists y y', r = Ok y /\ r' = Ok y' /\
    (forall q d, (q, d) <> (q0, d0) -> score_of y' q d = score_of y q d) /\
    match score_of y q0 d0, score_of y' q0 d0 with
    | Some s, Some s' => (s <= s')%R
    | None, None => True
    | _, _ => False
    end.
