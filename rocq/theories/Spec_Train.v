(** Spec_Train.v: what the trained fusion methods are supposed to learn and to compute, over the reals *)
From Coq Require Import Reals.
From Verif Require Import Base Dict Num Env M_Common M_Qrels M_Run Spec_Metrics Spec_Eval Spec_Norm Spec_Fusion.
Open Scope string_scope.
Open Scope list_scope.
Open Scope nat_scope.

(** training data: judgments, and runs over the same queries *)
Definition trainable (E : env NumR) (y : Qrels) (xs : list (Run NumR)) : Prop :=
  qrels_reachable E y /\ q_map y <> [] /\
  forall x, In x xs -> run_reachable E x /\ same_queries (q_map y) (r_map x) /\ docs_distinct E (q_map y) (r_map x).

(** [out] is the outcome of training: the judgments and the runs are at most reordered, and what was
    learned from each run satisfies [P rk p], where [rk q] ranks the results of query [q] by score *)
Definition trained {A} (y : Qrels) (xs : list (Run NumR)) (out : Qrels * list (Run NumR) * result (list A))
  (P : (string -> list string) -> A -> Prop) : Prop :=
  exists y' xs' ps, out = (y', xs', Ok ps) /\
    (forall q d, dget2 (q_map y') q d = dget2 (q_map y) q d) /\
    Forall2 (fun x x' => r_name x' = r_name x /\ forall q d, score_of x' q d = score_of x q d) xs xs' /\
    Forall2 (fun x p => exists rk, (forall q, has_query x q -> ranks (results_of x q) (rk q)) /\ P rk p) xs ps.

Section Learn.
Context (jm : dict (dict Z)) (rk : string -> list string).
Definition rel (q d : string) : bool := relevant (of_query jm q) 1 d.
(** the queries with a result at (0-based) position [i]; those whose result there is relevant *)
Definition with_result (i : nat) : nat := count (fun q => i <? length (rk q)) (dkeys jm).
Definition with_relevant (i : nat) : nat :=
  count (fun q => match nth_error (rk q) i with Some d => rel q d | None => false end) (dkeys jm).
(** PosFuse, SlideFuse: the relative frequency of relevant results at each position reached *)
Definition position_probs (p : list R) : Prop :=
  (forall i, i < length p <-> exists q, In q (dkeys jm) /\ i < length (rk q)) /\
  forall i v, nth_error p i = Some v -> v = (INR (with_relevant i) / INR (with_result i))%R /\ (0 <= v <= 1)%R.
(** relevant results of [q] at the positions from [a] to [b - 1]; number of results there *)
Definition rel_between (q : string) (a b : nat) : nat := count (rel q) (firstn (b - a) (skipn a (rk q))).
Definition n_between (q : string) (a b : nat) : nat := length (firstn (b - a) (skipn a (rk q))).
Definition mean_over (f : string -> R) : R := mean_of (map f (dkeys jm)).
(** ProbFuse with [m] segments: the results of each query are cut into segments of ceil(n / m) *)
Definition segment_size (n m : nat) : nat := (n + m - 1) / m.
Definition segment_probs (m : nat) (p : list R) : Prop :=
  length p = m /\ forall k v, nth_error p k = Some v ->
    v = mean_over (fun q => let s := segment_size (length (rk q)) m in
                            if n_between q (k * s) ((k + 1) * s) =? 0 then 0%R else
                            (INR (rel_between q (k * s) ((k + 1) * s)) / INR (n_between q (k * s) ((k + 1) * s)))%R) /\ (0 <= v <= 1)%R.
(** SegFuse: segment k (from 0) ends before position 10 * 2^k - 5: 5, 15, 35, ..., 5115 *)
Definition seg_end (k : nat) : nat := 10 * 2 ^ k - 5.
Definition seg_start (k : nat) : nat := match k with 0 => 0 | S k' => seg_end k' end.
Definition seg_probs (p : list R) : Prop :=
  length p = 10 /\ forall k v, nth_error p k = Some v ->
    v = mean_over (fun q => INR (rel_between q (seg_start k) (seg_end k)) / INR (seg_end k - seg_start k))%R /\ (0 <= v <= 1)%R.
(** BayesFuse: the log-odds of the mean precision of the interval, 0.001 instead of 0 *)
Definition interval_odds (a b : nat) : R :=
  let p := mean_over (fun q => INR (rel_between q a b) / INR (b - a))%R in
  let p := if Req_EM_T p 0 then (1 / 1000)%R else p in
  let n := if Req_EM_T (1 - p) 0 then (1 / 1000)%R else (1 - p)%R in
  ln (p / n).
Definition bayes_intervals : list (nat * nat) :=
  [(0, 5); (5, 10); (10, 15); (15, 20); (20, 30); (30, 100); (100, 200); (200, 500); (500, 1000)].
Definition bayes_odds (p : list R) : Prop :=
  Z.of_nat (length p) = 1000%Z /\
  forall a b i, In (a, b) bayes_intervals -> a <= i < b -> nth_error p i = Some (interval_odds a b).
End Learn.

(** values the runs that retrieved [d] give to it, from the run's parameter, the number of its
    results, the 1-based rank and the score of [d] *)
Definition values_at {P} (ps : list P) (xs : list (Run NumR)) (v : P -> nat -> nat -> R -> R) (q d : string) : list R :=
  concat (map (fun px => match rank_of (snd px) q d, score_of (snd px) q d with
                         | Some r, Some s => [v (fst px) (length (results_of (snd px) q)) r s]
                         | _, _ => []
                         end) (combine ps xs)).

(** probability learned for a (0-based) position; unseen positions count 0 *)
Definition prob_at (p : list R) (i : nat) : R := match nth_error p i with Some v => v | None => 0%R end.
(** SlideFuse: mean of the probabilities of the positions max(i-w,0) .. min(i+w,n-1) *)
Definition window_mean (p : list R) (w n i : nat) : R :=
  let a := i - w in let b := Nat.min (i + w) (n - 1) in mean_of (map (prob_at p) (seq a (b - a + 1))).
(** ProbFuse: position i of n results is in segment i / size, whose probability is divided by its number *)
Definition segment_value (p : list R) (n i : nat) : R :=
  let k := i / segment_size n (length p) in (prob_at p k / INR (k + 1))%R.
(** SegFuse: the probability of the first segment ending after position i; 0 beyond the last one *)
Definition seg_value (p : list R) (i : nat) : R :=
  match find (fun k => i <? seg_end k) (seq 0 10) with Some k => prob_at p k | None => 0%R end.
