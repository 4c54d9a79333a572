(** M_Compare.v: model of ranx/meta/compare.py, ranx/statistical_tests/*.py and
    ranx/data_structures/frozenset_dict.py *)
From Verif Require Import Base Dict Num Env M_Common M_Qrels M_Run M_Metrics M_Strings M_Text M_Evaluate.
Open Scope string_scope.
Open Scope list_scope.
Open Scope nat_scope.

(** ** dictionaries whose keys are tuples or frozensets of strings *)

(** A frozenset of strings, represented by its sorted elements. *)
Definition frozenset (l : list string) : list string := str_sort (nodup string_dec l).

Definition kdict (V : Type) := list (list string * V).
Definition key_eqb (a b : list string) : bool := if list_eq_dec string_dec a b then true else false.
Fixpoint kget {V} (d : kdict V) (k : list string) : option V :=
  match d with [] => None | (k', v) :: d' => if key_eqb k k' then Some v else kget d' k end.
Fixpoint kset {V} (d : kdict V) (k : list string) (v : V) : kdict V :=
  match d with
  | [] => [(k, v)]
  | (k', v') :: d' => if key_eqb k k' then (k', v) :: d' else (k', v') :: kset d' k v
  end.
Definition kget_r {V} (d : kdict V) (k : list string) : result V :=
  match kget d k with Some v => Ok v | None => Err KeyError end.

(** frozenset_dict.py 10-14: lookup and assignment convert the key to a frozenset *)
Definition fsd_get {V} (d : kdict V) (key : list string) : result V := kget_r d (frozenset key).
Definition fsd_set {V} (d : kdict V) (key : list string) (v : V) : kdict V := kset d (frozenset key) v.

Section Compare.
Context {N : Num} (E : env N).

(** What is not modelled of the statistical tests is a parameter:
    - [draws i j m]: the outcomes of np.random.permutation in the call of Fisher's test for
      control number [i], treatment number [j] and metric [m]: for permutation [p] and query [q],
      are the two scores swapped?  (The loop is parallel and numba's generators are per thread, so
      the seed does not determine them.)
    - [ttest]: the p-value of scipy's ttest_rel; [hsd]: the p-values of scipy's tukey_hsd, which
      refuses some inputs. *)
Record tests := Tests {
  draws : nat -> nat -> string -> nat -> nat -> bool;
  ttest : list (@F N) -> list (@F N) -> @F N;
  hsd : list (list (@F N)) -> result (nat -> nat -> @F N)
}.
Context (T : tests).

(** ** Fisher's randomization test *)

(** fisher_randomization_test.py 5-12: each row (a pair) is permuted *)
Definition permute (swap : nat -> bool) (x : list (F * F)) : list (F * F) :=
  map (fun iab => if swap (fst iab) then (snd (snd iab), fst (snd iab)) else snd iab) (enumerate x).
(** fisher_randomization_test.py 15-46.  Columns of different lengths cannot be stacked. *)
Definition fisher_randomization_test (rand : nat -> nat -> bool) (control treatment : list F) (n_permutations : nat) (max_p : F)
  : result (F * bool) :=
  if length control =? length treatment then
    let diff := fabs (fsub (fmean control) (fmean treatment)) in
    let stack := combine control treatment in
    let counter := prange (e_sched E "fisher" n_permutations) n_permutations fzero
      (fun i => let permuted := permute (rand i) stack in
                let permuted_diff := fabs (fsub (fmean (map fst permuted)) (fmean (map snd permuted))) in
                if fleb diff permuted_diff then fone else fzero) in
    let p := fmean counter in
    Ok (p, fleb p max_p)
  else Err ValueError.
(** paired_student_t_test.py 4-15 *)
Definition paired_student_t_test (control treatment : list F) (max_p : F) : result (F * bool) :=
  if length control =? length treatment then let p := ttest T control treatment in Ok (p, fleb p max_p)
  else Err ValueError.

(** an entry of [comparisons]: p-value and significance, or None (tukey, before the test) *)
Definition stat := option (@F N * bool).
Definition model_scores := dict (dict (list (@F N))).

(** statistical_tests/__init__.py 17-53 *)
Definition compare_pair (i j : nat) (control treatment : dict (list F)) (stat_test : string) (n_permutations : nat) (max_p : F)
  : result (dict stat) :=
  foldr_m (fun acc m =>
             do c <- dget_r control m; do t <- dget_r treatment m;
             do ps <- (if String.eqb stat_test "fisher" then fisher_randomization_test (draws T i j m) c t n_permutations max_p
                       else if String.eqb stat_test "student" then paired_student_t_test c t max_p
                       else Err NotImplementedError);
             Ok (dset acc m (Some ps)))
          (dkeys control) [].

(** tukey_hsd_test.py 7-30 followed by statistical_tests/__init__.py 105-109 for one metric; the
    lookup happens for every pair, also of a model with itself *)
Definition tukey_metric (names : list string) (scores : model_scores) (max_p : F) (comparisons : kdict (dict stat)) (m : string)
  : result (kdict (dict stat)) :=
  do ss <- map_m (fun name => do d <- dget_r scores name; dget_r d m) names;
  do p <- hsd T ss;
  foldr_m (fun acc ic =>
    foldr_m (fun acc jt =>
      do e <- fsd_get acc [snd ic; snd jt];
      let v := p (fst ic) (fst jt) in
      Ok (fsd_set acc [snd ic; snd jt] (dset e m (Some (v, fleb v max_p)))))
      (enumerate names) acc)
    (enumerate names) comparisons.

(** [model_names[i:]] for i = 0, 1, ... : the pairs of statistical_tests/__init__.py 91-95 *)
Fixpoint tails {A} (l : list A) : list (A * list A) :=
  match l with [] => [] | a :: l' => (a, l) :: tails l' end.

(** statistical_tests/__init__.py 56-114 *)
Definition compute_statistical_significance (names : list string) (scores : model_scores) (stat_test : string)
  (n_permutations : nat) (max_p : F) : result (kdict (dict stat)) :=
  if existsb (String.eqb stat_test) ["fisher"; "student"] then
    foldr_m (fun acc ic =>
      do control <- dget_r scores (snd ic);
      foldr_m (fun acc jt =>
        if String.eqb (snd ic) (snd jt) then Ok acc
        else
          do treatment <- dget_r scores (snd jt);
          do e <- compare_pair (fst ic) (fst jt) control treatment stat_test n_permutations max_p;
          Ok (fsd_set acc [snd ic; snd jt] e))
        (enumerate names) acc)
      (enumerate names) []
  else if String.eqb stat_test "tukey" then
    do first <- nth_r names 0;
    do d0 <- dget_r scores first;
    let metrics := dkeys d0 in
    let init := fold_left (fun acc ct => fold_left (fun acc t => fsd_set acc [fst ct; t] (map (fun m => (m, None)) metrics)) (snd ct) acc) (tails names) [] in
    foldr_m (tukey_metric names scores max_p) metrics init
  else Err NotImplementedError.

(** ** compare *)

(** an entry of [win_tie_loss] *)
Record wtl := WTL { w_win : nat; w_tie : nat; w_loss : nat }.

(** report.py 70-90 *)
Record report := Report {
  rp_names : list string;
  rp_results : dict (dict (@F N));
  rp_comparisons : kdict (dict stat);
  rp_metrics : list string;
  rp_max_p : @F N;
  rp_wtl : kdict (dict wtl);
  rp_digits : Z;
  rp_percent : bool;
  rp_test : string
}.

(** [d[k1][k2] = v] on a defaultdict(dict) *)
Definition dset2 {V} (d : dict (dict V)) (k1 k2 : string) (v : V) : dict (dict V) :=
  dset d k1 (dset (match dget d k1 with Some r => r | None => [] end) k2 v).
Definition kset2 {V} (d : kdict (dict V)) (k1 : list string) (k2 : string) (v : V) : kdict (dict V) :=
  kset d k1 (dset (match kget d k1 with Some r => r | None => [] end) k2 v).

(** compare.py 80-90: the per-query arrays returned by evaluate, as a dict *)
Definition arrays_of (metrics : list string) (o : @outcome N) : result (dict (list F)) :=
  match o with
  | OutOne (OArr l) => match metrics with [m] => Ok [(m, l)] | _ => Err TypeError end
  | OutDict d => map_m (fun kv => match snd kv with OArr l => Ok (fst kv, l) | _ => Err TypeError end) d
  | _ => Err TypeError
  end.

(** compare.py 76-93: [i] is the number of runs already done.  Returned are the qrels and the runs
    afterwards (evaluate sorts them, makes the runs comparable if asked, and saves the scores in
    the runs) and the accumulated names, means and arrays.  Each run is a different object. *)
Definition run_name (i : nat) (x : Run N) : string :=
  match r_name x with Some s => s | None => "run_" ++ str_int (Z.of_nat i + 1) end.
Fixpoint score_runs (i : nat) (y : Qrels) (xs : list (Run N)) (metrics : list string) (make_comparable : bool)
  (names : list string) (results : dict (dict F)) (scores : model_scores)
  : Qrels * list (Run N) * result (list string * dict (dict F) * model_scores) :=
  match xs with
  | [] => (y, [], Ok (names, results, scores))
  | x :: xs' =>
      let name := run_name i x in
      let out := evaluate E (QObj y) (RObj x) metrics false false true make_comparable in
      let y1 := match ev_q out with QObj y1 => y1 | _ => y end in
      let x1 := match ev_r out with RObj x1 => x1 | _ => x end in
      match (do o <- ev_res out; do a <- arrays_of metrics o;
             do results <- foldr_m (fun r m => do l <- dget_r a m; Ok (dset2 r name m (fmean l))) metrics results;
             Ok (a, results)) with
      | Err e => (y1, x1 :: xs', Err e)
      | Ok (a, results) =>
          let '(y2, xs2, r) := score_runs (S i) y1 xs' metrics make_comparable (names ++ [name]) results (dset scores name a) in
          (y2, x1 :: xs2, r)
      end
  end.

(** compare.py 115-117: [sum(a > b)] etc. of numpy arrays *)
Definition count_pairs (f : F -> F -> bool) (a b : list F) : result nat :=
  if length a =? length b then Ok (count (fun xy => f (fst xy) (snd xy)) (combine a b)) else Err ValueError.
(** compare.py 106-118 *)
Definition win_tie_loss (names metrics : list string) (scores : model_scores) : result (kdict (dict wtl)) :=
  foldr_m (fun acc c =>
    foldr_m (fun acc t =>
      if String.eqb c t then Ok acc
      else foldr_m (fun acc m =>
             do cd <- dget_r scores c; do cs <- dget_r cd m; do td <- dget_r scores t; do ts <- dget_r td m;
             do w <- count_pairs (fun a b => fltb b a) cs ts; do e <- count_pairs feqb cs ts; do l <- count_pairs fltb cs ts;
             Ok (kset2 acc [c; t] m (WTL w e l)))
             metrics acc)
      names acc)
    names [].

(** compare.py 11-130 (a single metric string is a list of one, evaluate.py 13-16) *)
Definition compare (y : Qrels) (xs : list (Run N)) (metrics : list string) (stat_test : string) (n_permutations : nat)
  (max_p : F) (rounding_digits : Z) (show_percentages make_comparable : bool) : Qrels * list (Run N) * result report :=
  let '(y', xs', r) := score_runs 0 y xs metrics make_comparable [] [] [] in
  (y', xs',
   do nrs <- r;
   let '(names, results, scores) := nrs in
   do comparisons <- compute_statistical_significance names scores stat_test n_permutations max_p;
   do w <- win_tie_loss names metrics scores;
   Ok (Report names results comparisons metrics max_p w rounding_digits show_percentages stat_test)).

End Compare.
Arguments tests _ : clear implicits.
Arguments report _ : clear implicits.
Arguments stat _ : clear implicits.
Arguments model_scores _ : clear implicits.
