(** M_Fusion.v: model of ranx/fusion/*.py (scoring and combination) and ranx/meta/fuse.py *)
From Verif Require Import Base Dict Num Env M_Common M_Qrels M_Run M_Norm.
Open Scope string_scope.
Open Scope list_scope.
Open Scope nat_scope.

(** Python slices [l[a:b]] and [l[a:b] = v] of a sequence of length [n] *)
Definition slice_bound (n i : Z) : Z :=
  if (i <? 0)%Z then Z.max (i + n) 0 else Z.min i n.
Definition slice {A} (l : list A) (a b : Z) : list A :=
  let n := Z.of_nat (length l) in
  let a' := slice_bound n a in
  let b' := slice_bound n b in
  firstn (Z.to_nat (b' - a')) (skipn (Z.to_nat a') l).
(** assignment of one value to a slice with bounds >= 0 (the only use) *)
Definition fill {A} (l : list A) (a b : Z) (v : A) : list A :=
  map (fun ix => if (a <=? Z.of_nat (fst ix))%Z && (Z.of_nat (fst ix) <? b)%Z then v else snd ix)
      (enumerate l).
(** [ceil(a / b)] of two non-negative integers, b > 0 (probfuse.py 26, 65).  The code divides
    in binary64 first, which gives the same integer for lengths below 2^52. *)
Definition ceil_div (a b : Z) : Z := ((a + b - 1) / b)%Z.

Section Fusion.
Context {N : Num} (E : env N).
(** [sorted(l, key=cmp_to_key(c))]: [pysort lt l] with [lt x y] for c(x, y) < 0 *)
Context (pysort : (nat -> nat -> bool) -> list nat -> list nat).

(** ** combining the results of one query *)

(** The loop shared by the [_comb_*] functions (comb_sum.py 16-28, comb_max.py 16-28,
    comb_min.py 16-28, comb_med.py 17-28, comb_anz.py 17-28, comb_mnz.py 17-28, comb_gmnz.py
    17-28, log_isr.py 18-29, logn_isr.py 18-29, wsum.py 16-28, wmnz.py 17-38, mixed.py 17-35,
    bayesfuse.py 18-33).  [combined_results.get(doc_id, False) == False] also holds when the
    stored value is 0.0, so such values are computed again. *)
Definition comb_results (formula : list (dict F) -> string -> result F) (results : list (dict F))
  : result (dict F) :=
  foldr_m (fun combined res =>
    foldr_m (fun combined d =>
       if match dget combined d with Some v => feqb v fzero | None => true end
       then do v <- formula results d; Ok (dset combined d v)
       else Ok combined) (dkeys res) combined)
    results [].

(** [[res.get(d, default) for res in results]] *)
Definition get_all (default : F) (results : list (dict F)) (d : string) : list F :=
  map (fun res => match dget res d with Some v => v | None => default end) results.
(** [[res[d] for res in results if d in res]] *)
Definition present (results : list (dict F)) (d : string) : list F :=
  concat (map (fun res => match dget res d with Some v => [v] | None => [] end) results).

(** the literals -1e9 and 1e9 (comb_max.py 25, comb_min.py 25) *)
Definition sentinel : F := fofZ 1000000000.

(** comb_sum.py 24-26 *)
Definition sum_formula (results : list (dict F)) (d : string) : result F :=
  Ok (fsum (get_all fzero results d)).
(** comb_max.py 24-26: Python's [max] of a non-empty list *)
Definition max_formula (results : list (dict F)) (d : string) : result F :=
  match get_all (fopp sentinel) results d with [] => Err ValueError | x :: l => Ok (fmaxl x l) end.
(** comb_min.py 24-26 *)
Definition min_formula (results : list (dict F)) (d : string) : result F :=
  match get_all sentinel results d with [] => Err ValueError | x :: l => Ok (fminl x l) end.

(** [np.median]: the middle order statistic, or the mean of the two middle ones. *)
Fixpoint finsert (x : F) (l : list F) : list F :=
  match l with [] => [x] | y :: l' => if fleb x y then x :: l else y :: finsert x l' end.
Definition fsort (l : list F) : list F := fold_right finsert [] l.
Definition fmedian (l : list F) : F :=
  let s := fsort l in
  let n := length l in
  if Nat.even n
  then fdiv (fadd (nth (n / 2 - 1) s fzero) (nth (n / 2) s fzero)) (fofZ 2)
  else nth (n / 2) s fzero.
(** comb_med.py 25-26 *)
Definition med_formula (results : list (dict F)) (d : string) : result F :=
  Ok (fmedian (present results d)).
(** comb_anz.py 25-26 *)
Definition anz_formula (results : list (dict F)) (d : string) : result F :=
  let scores := present results d in Ok (fdiv (fsum scores) (fnat (length scores))).
(** comb_mnz.py 25-26 *)
Definition mnz_formula (results : list (dict F)) (d : string) : result F :=
  let scores := present results d in Ok (fmul (fsum scores) (fnat (length scores))).
(** comb_gmnz.py 25-26 *)
Definition gmnz_formula (gamma : F) (results : list (dict F)) (d : string) : result F :=
  let scores := present results d in Ok (fmul (fsum scores) (fpow (fnat (length scores)) gamma)).
(** log_isr.py 26-27 *)
Definition log_mnz_formula (results : list (dict F)) (d : string) : result F :=
  let scores := present results d in Ok (fmul (fsum scores) (fln (fnat (length scores)))).
(** logn_isr.py 26-27 *)
Definition logn_mnz_formula (sigma : F) (results : list (dict F)) (d : string) : result F :=
  let scores := present results d in
  Ok (fmul (fsum scores) (fln (fadd (fnat (length scores)) sigma))).
(** wsum.py 24-26 *)
Definition wsum_formula (weights : list F) (results : list (dict F)) (d : string) : result F :=
  do l <- map_m (fun ir => do w <- nth_r weights (fst ir);
                           Ok (fmul w match dget (snd ir) d with Some v => v | None => fzero end))
                (enumerate results);
  Ok (fsum l).
(** wmnz.py 25-36 and mixed.py 25-31: the (score, weight) pairs of the retrieving runs *)
Definition present_weighted (weights : list F) (results : list (dict F)) (d : string)
  : result (list (F * F)) :=
  do l <- map_m (fun ir => match dget (snd ir) d with
                           | Some v => do w <- nth_r weights (fst ir); Ok [(v, w)]
                           | None => Ok []
                           end) (enumerate results);
  Ok (concat l).
Definition wmnz_formula (weights : list F) (results : list (dict F)) (d : string) : result F :=
  do l <- present_weighted weights results d;
  Ok (fmul (fsum (map fst l)) (fsum (map snd l))).
(** mixed.py 25-33 *)
Definition mixed_formula (weights : list F) (results : list (dict F)) (d : string) : result F :=
  do l <- present_weighted weights results d;
  Ok (fmul (fsum (map (fun vw => fmul (fst vw) (snd vw)) l)) (fsqrt (fnat (length l)))).
(** bayesfuse.py 23-31 *)
Definition min_odd : F := fln (fdiv (fdec 1 3) (fdec 999 3)).
Definition odds_formula (results : list (dict F)) (d : string) : result F :=
  Ok (fsum (get_all min_odd results d)).

(** ** combining runs *)

(** The [_*_parallel] functions over several runs (e.g. comb_sum.py 31-40): one slot per query
    of the first run.  Without runs the code fails (numba cannot type an empty list). *)
Definition comb_parallel (tag : string) (formula : list (dict F) -> string -> result F)
  (ms : list (dict (dict F))) : result (dict (dict F)) :=
  match ms with
  | [] => Err IndexError
  | m0 :: _ =>
      let q_ids := dkeys m0 in
      let n := length q_ids in
      do out <- prange_r (e_sched E tag n) n []
                  (fun i => do q <- nth_r q_ids i;
                            do rs <- map_m (fun m => dget_r m q) ms;
                            comb_results formula rs);
      convert_results q_ids out
  end.

(** the functions of comb_*.py 69-73 (gmnz 67-71): a new Run, named, combined, sorted *)
Definition comb (tag : string) (formula : list (dict F) -> string -> result F)
  (name : string) (ms : list (dict (dict F))) : result (Run N) :=
  do m <- comb_parallel tag formula ms;
  Ok (Run_sort E (new_run (Some name) m)).

Definition maps (xs : list (Run N)) : list (dict (dict F)) := map (@r_map N) xs.

(** comb_sum.py 44-73, comb_max.py, comb_min.py, comb_med.py, comb_anz.py, comb_mnz.py 44-73,
    comb_gmnz.py 44-71 *)
Definition comb_sum (xs : list (Run N)) (name : string) := comb "_comb_sum" sum_formula name (maps xs).
Definition comb_max (xs : list (Run N)) (name : string) := comb "_comb_max" max_formula name (maps xs).
Definition comb_min (xs : list (Run N)) (name : string) := comb "_comb_min" min_formula name (maps xs).
Definition comb_med (xs : list (Run N)) (name : string) := comb "_comb_med" med_formula name (maps xs).
Definition comb_anz (xs : list (Run N)) (name : string) := comb "_comb_anz" anz_formula name (maps xs).
Definition comb_mnz (xs : list (Run N)) (name : string) := comb "_comb_mnz" mnz_formula name (maps xs).
Definition comb_gmnz (xs : list (Run N)) (gamma : F) (name : string) :=
  comb "_comb_gmnz" (gmnz_formula gamma) name (maps xs).
(** wsum.py 44-61, wmnz.py 54-88, mixed.py 51-85 *)
Definition wsum (xs : list (Run N)) (weights : list F) (name : string) :=
  comb "_weighted_sum" (wsum_formula weights) name (maps xs).
Definition wmnz (xs : list (Run N)) (weights : list F) (name : string) :=
  comb "_wmnz" (wmnz_formula weights) name (maps xs).
Definition mixed (xs : list (Run N)) (weights : list F) (name : string) :=
  comb "_mixed" (mixed_formula weights) name (maps xs).

(** ** rank based scores *)

(** [for i, doc_id in enumerate(results.keys()): combined[doc_id] = g(i)] *)
Definition pos_scores (g : nat -> result F) (r : dict F) : result (dict F) :=
  foldr_m (fun acc id => do v <- g (fst id); Ok (dset acc (snd id) v)) (enumerate (dkeys r)) [].

(** isr.py 17-24 *)
Definition _isr_score (r : dict F) : result (dict F) :=
  pos_scores (fun i => Ok (fdiv fone (fofZ ((Z.of_nat i + 1) ^ 2)))) r.
(** rrf.py 17-24: dividing by an integer 0 raises *)
Definition _rrf_score (k : Z) (r : dict F) : result (dict F) :=
  pos_scores (fun i => let den := (k + Z.of_nat i + 1)%Z in
                       if (den =? 0)%Z then Err ZeroDivisionError else Ok (fdiv fone (fofZ den))) r.
(** rbc.py 16-24 *)
Definition _rbc_score (phi : F) (r : dict F) : result (dict F) :=
  pos_scores (fun i => Ok (fmul (fsub fone phi) (fnpow phi i))) r.
(** mapfuse.py 18-25 *)
Definition _map_score (map_score : F) (r : dict F) : result (dict F) :=
  pos_scores (fun i => Ok (fdiv map_score (fnat (i + 1)))) r.
(** posfuse.py 18-26 *)
Definition _pos_score (probs : list F) (r : dict F) : result (dict F) :=
  pos_scores (fun i => Ok (match nth_error probs i with Some p => p | None => fzero end)) r.
(** slidefuse.py 18-29 *)
Definition _slide_score (probs : list F) (w : Z) (r : dict F) : result (dict F) :=
  let n := Z.of_nat (length r) in
  pos_scores (fun p => let a := Z.max (Z.of_nat p - w) 0 in
                       let b := Z.min (Z.of_nat p + w) (n - 1) in
                       Ok (fdiv (fsum (slice probs a (b + 1))) (fofZ (b - a + 1)))) r.
(** probfuse.py 60-75; no segments: division by zero *)
Definition _prob_score (segment_probs : list F) (r : dict F) : result (dict F) :=
  let n_segments := Z.of_nat (length segment_probs) in
  if (n_segments =? 0)%Z then Err ZeroDivisionError else
  let size := ceil_div (Z.of_nat (length r)) n_segments in
  let probs := fold_left (fun probs kp =>
                  let k := Z.of_nat (fst kp) in
                  fill probs (k * size) ((k + 1) * size) (fdiv (snd kp) (fofZ (k + 1))))
                (enumerate segment_probs) (repeat fzero (length r)) in
  pos_scores (fun i => nth_r probs i) r.
(** segfuse.py 20, 52: [0] + [(10 * 2 ** (k - 1)) - 5 for k in range(1, 11)] *)
Definition segment_sizes : list Z :=
  (0 :: map (fun k => 10 * 2 ^ (Z.of_nat k - 1) - 5) (seq 1 10))%Z.
(** segfuse.py 48-62 *)
Definition _seg_score (segment_probs : list F) (r : dict F) : result (dict F) :=
  do probs <- foldr_m (fun probs kp =>
                do s <- nth_r segment_sizes (fst kp); do e <- nth_r segment_sizes (fst kp + 1);
                Ok (fill probs s e (snd kp)))
              (enumerate segment_probs) (repeat fzero (length r));
  foldr_m (fun acc id => do p <- nth_r probs (fst id); do s <- dget_r r (snd id);
                         Ok (dset acc (snd id) (fmul p (fadd s fone))))
          (enumerate (dkeys r)) [].
(** bayesfuse.py 93-101.  [log_odds] is a numpy array read without bounds check: reading past
    its end is undefined; the model raises IndexError there. *)
Definition _bayes_score (log_odds : list F) (r : dict F) : result (dict F) :=
  pos_scores (fun i => nth_r log_odds i) r.
(** bordafuse.py 33-47 *)
Definition _borda_score (r : dict F) (candidates : list string) : result (dict F) :=
  let max_points := Z.of_nat (length candidates) in
  let others := filter (fun d => negb (dmem r d)) candidates in
  let unranked := fdiv (fofZ (max_points - Z.of_nat (length r) + 1)) (fofZ 2) in
  do acc <- pos_scores (fun i => Ok (fofZ (max_points - Z.of_nat i))) r;
  Ok (fold_left (fun acc d => dset acc d unranked) others acc).

(** the rank based runs [_runs]: unnamed Run objects of which only the results are used
    (e.g. rrf.py 65-69) *)
Definition rescore (tag : string) (f : dict F -> result (dict F)) (xs : list (Run N))
  : result (list (dict (dict F))) :=
  map_m (fun x => per_query E tag (fun _ => f) (r_map x)) xs.
(** the same with one parameter per run, [params[i]] (e.g. posfuse.py 79-83) *)
Definition rescore_with {P} (tag : string) (f : P -> dict F -> result (dict F)) (ps : list P)
  (xs : list (Run N)) : result (list (dict (dict F))) :=
  map_m (fun ix => do p <- nth_r ps (fst ix); per_query E tag (fun _ => f p) (r_map (snd ix)))
        (enumerate xs).

(** isr.py 39-77 *)
Definition isr (xs : list (Run N)) (name : string) : result (Run N) :=
  do ms <- rescore "_isr_score" _isr_score xs; comb "_comb_mnz" mnz_formula name ms.
(** log_isr.py 45-81 *)
Definition log_isr (xs : list (Run N)) (name : string) : result (Run N) :=
  do ms <- rescore "_isr_score" _isr_score xs; comb "_log_comb_mnz" log_mnz_formula name ms.
(** logn_isr.py 45-84 *)
Definition logn_isr (xs : list (Run N)) (sigma : F) (name : string) : result (Run N) :=
  do _ <- assertr (fleb fzero sigma && fleb sigma fone);
  do ms <- rescore "_isr_score" _isr_score xs; comb "_norm_log_comb_mnz" (logn_mnz_formula sigma) name ms.
(** rrf.py 39-71 *)
Definition rrf (xs : list (Run N)) (k : Z) (name : string) : result (Run N) :=
  do ms <- rescore "_rrf_score" (_rrf_score k) xs; comb "_comb_sum" sum_formula name ms.
(** rbc.py 38-83 *)
Definition rbc (xs : list (Run N)) (phi : F) (name : string) : result (Run N) :=
  do ms <- rescore "_rbc_score" (_rbc_score phi) xs; comb "_comb_sum" sum_formula name ms.
(** mapfuse.py 40-86 *)
Definition mapfuse (xs : list (Run N)) (map_scores : list F) (name : string) : result (Run N) :=
  do ms <- rescore_with "_map_score" _map_score map_scores xs; comb "_comb_sum" sum_formula name ms.
(** posfuse.py 40-85 *)
Definition posfuse (xs : list (Run N)) (probs : list (list F)) (name : string) : result (Run N) :=
  do ms <- rescore_with "_pos_score" _pos_score probs xs; comb "_comb_sum" sum_formula name ms.
(** slidefuse.py 43-95 *)
Definition slidefuse (xs : list (Run N)) (probs : list (list F)) (w : Z) (name : string) : result (Run N) :=
  do ms <- rescore_with "_slide_score" (fun p => _slide_score p w) probs xs; comb "_comb_sum" sum_formula name ms.
(** probfuse.py 89-132 *)
Definition probfuse (xs : list (Run N)) (probs : list (list F)) (name : string) : result (Run N) :=
  do ms <- rescore_with "_prob_score" _prob_score probs xs; comb "_comb_sum" sum_formula name ms.
(** segfuse.py 76-116 *)
Definition segfuse (xs : list (Run N)) (probs : list (list F)) (name : string) : result (Run N) :=
  do ms <- rescore_with "_seg_score" _seg_score probs xs; comb "_comb_sum" sum_formula name ms.
(** bayesfuse.py 48-52, 115-159 *)
Definition bayesfuse (xs : list (Run N)) (log_odds : list (list F)) (name : string) : result (Run N) :=
  do ms <- rescore_with "_bayes_score" _bayes_score log_odds xs; comb "_sum_odds" odds_formula name ms.

(** bordafuse.py 50-58, 95-101: [candidates[i]] belongs to query number [i] of the first run,
    [q_ids[i]] is query number [i] of each run. *)
Definition borda_scores (xs : list (Run N)) : result (list (dict (dict F))) :=
  do cands <- get_candidates E (maps xs);
  map_m (fun x => per_query E "_borda_score" (fun i r => do c <- nth_r cands i; _borda_score r c) (r_map x)) xs.
(** bordafuse.py 61-103 *)
Definition bordafuse (xs : list (Run N)) (name : string) : result (Run N) :=
  do ms <- borda_scores xs; comb "_comb_sum" sum_formula name ms.
(** weighted_bordafuse.py 8-56 *)
Definition weighted_bordafuse (xs : list (Run N)) (weights : list F) (name : string) : result (Run N) :=
  do ms <- borda_scores xs; comb "_weighted_sum" (wsum_formula weights) name ms.

(** ** condorcet *)

(** condorcet.py 46-61 [_get_run_indices] *)
Definition run_indices (results : list (list string)) (candidates : list string) : list (list Z) :=
  map (fun run => map (fun x => match index_of run x with Some i => Z.of_nat i | None => 1000000%Z end)
                      candidates) results.
(** condorcet.py 64-67 [_compare] < 0 *)
Definition condorcet_lt (idx : list (list Z)) (x y : nat) : bool :=
  let x_votes := count (fun run => (nth x run 0 <? nth y run 0)%Z) idx in
  (length idx - x_votes <=? x_votes).
(** weighted_condorcet.py 18-28 [_compare] < 0; [weights[i]] raises when weights are missing,
    which [_wcondorcet] checks beforehand (any comparison reads all weights). *)
Definition wcondorcet_lt (weights : list F) (idx : list (list Z)) (x y : nat) : bool :=
  let '(x_votes, y_votes) :=
    fold_left (fun v wr => if (nth x (snd wr) 0 <? nth y (snd wr) 0)%Z
                           then (fadd (fst v) (fst wr), snd v) else (fst v, fadd (snd v) (fst wr)))
              (combine weights idx) (fzero, fzero) in
  fleb y_votes x_votes.
(** condorcet.py 79-85 *)
Definition score_by_order (candidates : list string) (order : list nat) : result (dict F) :=
  do doc_ids <- map_m (fun i => nth_r candidates i) order;
  let max_score := Z.of_nat (length doc_ids) in
  foldr_m (fun acc id => Ok (dset acc (snd id) (fofZ (max_score - Z.of_nat (fst id))))) (enumerate doc_ids) [].
(** condorcet.py 70-85 [_condorcet] *)
Definition _condorcet (results : list (list string)) (candidates : list string) : result (dict F) :=
  let idx := run_indices results candidates in
  score_by_order candidates (pysort (condorcet_lt idx) (seq 0 (length candidates))).
(** weighted_condorcet.py 31-46 [_condorcet] *)
Definition _wcondorcet (weights : list F) (results : list (list string)) (candidates : list string)
  : result (dict F) :=
  let idx := run_indices results candidates in
  if (1 <? length candidates) && (length weights <? length results) then Err IndexError
  else score_by_order candidates (pysort (wcondorcet_lt weights idx) (seq 0 (length candidates))).
(** condorcet.py 34-43 [get_results] *)
Definition get_results (ms : list (dict (dict F))) : result (list (list (list string))) :=
  match ms with
  | [] => Err IndexError
  | m0 :: _ => map_m (fun q => map_m (fun m => do r <- dget_r m q; Ok (dkeys r)) ms) (dkeys m0)
  end.
(** condorcet.py 88-134 (this [prange] is a plain loop: the function is not compiled);
    the Run is returned as it is, not sorted *)
Definition condorcet_with (f : list (list string) -> list string -> result (dict F))
  (xs : list (Run N)) (name : string) : result (Run N) :=
  do results <- get_results (maps xs);
  do cands <- get_candidates E (maps xs);
  match xs with
  | [] => Err IndexError
  | x0 :: _ =>
      let q_ids := dkeys (r_map x0) in
      do out <- map_m (fun i => do r <- nth_r results i; do c <- nth_r cands i; f r c) (seq 0 (length q_ids));
      do m <- convert_results q_ids out;
      Ok (new_run (Some name) m)
  end.
Definition condorcet (xs : list (Run N)) (name : string) := condorcet_with _condorcet xs name.
(** weighted_condorcet.py 49-98 *)
Definition weighted_condorcet (xs : list (Run N)) (weights : list F) (name : string) :=
  condorcet_with (_wcondorcet weights) xs name.

(** ** fuse *)

(** keyword arguments of the fusion methods *)
Inductive pval := PF (x : F) | PZ (z : Z) | PL (l : list F) | PLL (l : list (list F)) | PS (s : string).
Definition params := dict pval.

(** [f(runs, **params)]: unexpected keywords raise TypeError, as do missing ones; a value of
    the wrong kind fails in numba (TypeError in the model). *)
Definition only (allowed : list string) (ps : params) : result unit :=
  if forallb (fun k => existsb (String.eqb k) allowed) (dkeys ps) then Ok tt else Err TypeError.
Definition as_F (v : pval) : result F :=
  match v with PF x => Ok x | PZ z => Ok (fofZ z) | _ => Err TypeError end.
Definition as_Z (v : pval) : result Z := match v with PZ z => Ok z | _ => Err TypeError end.
Definition as_L (v : pval) : result (list F) := match v with PL l => Ok l | _ => Err TypeError end.
Definition as_LL (v : pval) : result (list (list F)) := match v with PLL l => Ok l | _ => Err TypeError end.
Definition as_S (v : pval) : result string := match v with PS s => Ok s | _ => Err TypeError end.
Definition arg {A} (conv : pval -> result A) (ps : params) (k : string) (default : option A) : result A :=
  match dget ps k with
  | Some v => conv v
  | None => match default with Some a => Ok a | None => Err TypeError end
  end.

Definition simple (f : list (Run N) -> string -> result (Run N)) (dname : string)
  (xs : list (Run N)) (ps : params) : result (Run N) :=
  do _ <- only ["name"] ps; do nm <- arg as_S ps "name" (Some dname); f xs nm.
Definition with_arg {A} (f : list (Run N) -> A -> string -> result (Run N)) (k : string)
  (conv : pval -> result A) (default : option A) (dname : string)
  (xs : list (Run N)) (ps : params) : result (Run N) :=
  do _ <- only [k; "name"] ps; do a <- arg conv ps k default;
  do nm <- arg as_S ps "name" (Some dname); f xs a nm.
Definition slide_call (xs : list (Run N)) (ps : params) : result (Run N) :=
  do _ <- only ["probs"; "w"; "name"] ps; do p <- arg as_LL ps "probs" None; do w <- arg as_Z ps "w" None;
  do nm <- arg as_S ps "name" (Some "slidefuse"); slidefuse xs p w nm.

(** fusion/__init__.py 62-114 [fusion_switch], with the default parameters of each function *)
Definition fusion_switch (method : string) : result (list (Run N) -> params -> result (Run N)) :=
  if String.eqb method "bayesfuse" then Ok (with_arg bayesfuse "log_odds" as_LL None "bayesfuse")
  else if String.eqb method "bordafuse" then Ok (simple bordafuse "bordafuse")
  else if String.eqb method "anz" then Ok (simple comb_anz "comb_anz")
  else if String.eqb method "gmnz" then Ok (with_arg comb_gmnz "gamma" as_F None "comb_gmnz")
  else if String.eqb method "max" then Ok (simple comb_max "comb_max")
  else if String.eqb method "med" then Ok (simple comb_med "comb_med")
  else if String.eqb method "min" then Ok (simple comb_min "comb_min")
  else if String.eqb method "mnz" then Ok (simple comb_mnz "comb_mnz")
  else if String.eqb method "sum" then Ok (simple comb_sum "comb_sum")
  else if String.eqb method "condorcet" then Ok (simple condorcet "condorcet")
  else if String.eqb method "isr" then Ok (simple isr "isr")
  else if String.eqb method "log_isr" then Ok (simple log_isr "log_isr")
  else if String.eqb method "logn_isr" then Ok (with_arg logn_isr "sigma" as_F (Some (fdec 1 2)) "logn_isr")
  else if String.eqb method "mapfuse" then Ok (with_arg mapfuse "map_scores" as_L None "mapfuse")
  else if String.eqb method "mixed" then Ok (with_arg mixed "weights" as_L None "mixed")
  else if String.eqb method "posfuse" then Ok (with_arg posfuse "probs" as_LL None "posfuse")
  else if String.eqb method "probfuse" then Ok (with_arg probfuse "probs" as_LL None "probfuse")
  else if String.eqb method "rbc" then Ok (with_arg rbc "phi" as_F None "rbc")
  else if String.eqb method "rrf" then Ok (with_arg rrf "k" as_Z (Some 60%Z) "rrf")
  else if String.eqb method "segfuse" then Ok (with_arg segfuse "probs" as_LL None "segfuse")
  else if String.eqb method "slidefuse" then Ok slide_call
  else if String.eqb method "w_bordafuse" then Ok (with_arg weighted_bordafuse "weights" as_L None "weighted_bordafuse")
  else if String.eqb method "w_condorcet" then Ok (with_arg weighted_condorcet "weights" as_L None "weighted_condorcet")
  else if String.eqb method "wmnz" then Ok (with_arg wmnz "weights" as_L None "wmnz")
  else if String.eqb method "wsum" then Ok (with_arg wsum "weights" as_L None "weighted_sum")
  else Err ValueError.

(** fuse.py 18-23: at least two runs, pairwise equal query id sets *)
Fixpoint same_keys_check (xs : list (Run N)) : bool :=
  match xs with
  | [] => true
  | x :: xs' => forallb (fun y => keys_eqb (r_map x) (r_map y)) xs' && same_keys_check xs'
  end.
(** fuse.py 8-37 *)
Definition fuse (xs : list (Run N)) (norm : option string) (method : string) (ps : params) : result (Run N) :=
  do _ <- assertr (1 <? length xs);
  do _ <- assertr (same_keys_check xs);
  do ys <- normalize_runs E xs norm;
  do f <- fusion_switch method;
  f ys ps.

End Fusion.

(** What is assumed about [sorted]: the result is a permutation and no two adjacent elements
    of the result are in the wrong order for the comparison (each adjacent pair was compared,
    also when the comparison is not an order). *)
Inductive adjacent {A} : list A -> A -> A -> Prop :=
| adj_here a b l : adjacent (a :: b :: l) a b
| adj_next c l a b : adjacent l a b -> adjacent (c :: l) a b.
Definition sorter_ok (pysort : (nat -> nat -> bool) -> list nat -> list nat) : Prop :=
  forall lt l, Permutation (pysort lt l) l /\
    forall a b, adjacent (pysort lt l) a b -> lt a b = true \/ lt b a = false.
