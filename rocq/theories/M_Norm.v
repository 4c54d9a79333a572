(** M_Norm.v: model of ranx/normalization/*.py and ranx/meta/normalize.py *)
From Verif Require Import Base Dict Num Env M_Common M_Qrels M_Run.
Open Scope string_scope.
Open Scope list_scope.

Section Norm.
Context {N : Num} (E : env N).

(** normalization/common.py 26-33 and fusion/common.py 31-38
    [convert_results_dict_list_to_run] *)
Definition convert_results (q_ids : list string) (l : list (dict F)) : result (dict (dict F)) :=
  foldr_m (fun acc iq => do r <- nth_r l (fst iq); Ok (dset acc (snd iq) r))
          (enumerate q_ids) [].

(** The shape shared by all [_*_parallel] functions on one run (e.g. max_norm.py 33-42,
    rrf.py 27-35): results of query number [i] in slot [i], by a parallel loop. *)
Definition per_query (tag : string) (f : nat -> dict F -> result (dict F)) (m : dict (dict F))
  : result (dict (dict F)) :=
  let q_ids := dkeys m in
  let n := length q_ids in
  do out <- prange_r (e_sched E tag n) n []
              (fun i => do q <- nth_r q_ids i; do r <- dget_r m q; f i r);
  convert_results q_ids out.

(** normalization/common.py 36-42 [extract_scores] *)
Definition extract_scores (r : dict F) : list F := dvals r.

(** normalization/common.py 45-56 [safe_max], [safe_min] *)
Definition safe_max (l : list F) : F := match l with [] => fzero | x :: l' => fmaxl x l' end.
Definition safe_min (l : list F) : F := match l with [] => fzero | x :: l' => fminl x l' end.

(** the literal 1e-9 *)
Definition eps9 : F := fdec 1 9.

(** [for doc_id in results.keys(): normalized[doc_id] = g(results[doc_id])], the loop shared
    by the score based normalisations (e.g. max_norm.py 26-28) *)
Definition map_results (g : F -> F) (r : dict F) : result (dict F) :=
  foldr_m (fun acc d => do s <- dget_r r d; Ok (dset acc d (g s))) (dkeys r) [].

(** max_norm.py 16-30 [_max_norm] *)
Definition _max_norm (r : dict F) : result (dict F) :=
  let max_score := safe_max (extract_scores r) in
  let den := fmax2 max_score eps9 in
  map_results (fun s => fdiv s den) r.

(** min_max_norm.py 17-34 [_min_max_norm] *)
Definition _min_max_norm (invert : bool) (r : dict F) : result (dict F) :=
  let scores := extract_scores r in
  let min_score := safe_min scores in
  let max_score := safe_max scores in
  let den := fmax2 (fsub max_score min_score) eps9 in
  map_results (fun s => if invert then fdiv (fsub max_score s) den else fdiv (fsub s min_score) den) r.

(** sum_norm.py 16-30 [_sum_norm] *)
Definition _sum_norm (r : dict F) : result (dict F) :=
  let scores := extract_scores r in
  let min_score := safe_min scores in
  let sum_score := fsum scores in
  let den := fmax2 (fsub sum_score (fmul min_score (fnat (length r)))) eps9 in
  map_results (fun s => fdiv (fsub s min_score) den) r.

(** zmuv_norm.py 16-29 [_zmuv_norm].  On a query without results numba's np.mean/np.std of
    an empty array are evaluated but not used; the model returns the empty dictionary there
    and the theorems about zmuv assume that every query has results. *)
Definition _zmuv_norm (r : dict F) : result (dict F) :=
  let scores := extract_scores r in
  let den := fmax2 (fstd scores) eps9 in
  map_results (fun s => fdiv (fsub s (fmean scores)) den) r.

(** rank_norm.py 14-24 [_rank_norm] *)
Definition _rank_norm (r : dict F) : result (dict F) :=
  foldr_m (fun acc id => Ok (dset acc (snd id)
                               (fsub fone (fdiv (fnat (fst id)) (fnat (length r))))))
          (enumerate (dkeys r)) [].

(** [Run()] with the given name and results (e.g. max_norm.py 46-51); never sorted. *)
Definition new_run (name : option string) (m : dict (dict F)) : Run N :=
  mkRun m false name [] [] [].

(** the functions max_norm.py 46-51, min_max_norm.py 50-64, sum_norm.py 46-51, zmuv_norm.py
    45-50, rank_norm.py 40-45 *)
Definition max_norm (x : Run N) : result (Run N) :=
  do m <- per_query "_max_norm" (fun _ => _max_norm) (r_map x); Ok (new_run (r_name x) m).
Definition min_max_norm (invert : bool) (x : Run N) : result (Run N) :=
  do m <- per_query "_min_max_norm" (fun _ => _min_max_norm invert) (r_map x);
  let y := new_run (r_name x) m in
  Ok (if invert then Run_sort E y else y).
Definition sum_norm (x : Run N) : result (Run N) :=
  do m <- per_query "_sum_norm" (fun _ => _sum_norm) (r_map x); Ok (new_run (r_name x) m).
Definition zmuv_norm (x : Run N) : result (Run N) :=
  do m <- per_query "_zmuv_norm" (fun _ => _zmuv_norm) (r_map x); Ok (new_run (r_name x) m).
Definition rank_norm (x : Run N) : result (Run N) :=
  do m <- per_query "_rank_norm" (fun _ => _rank_norm) (r_map x); Ok (new_run (r_name x) m).

(** borda_norm.py 15-28, bordafuse.py 17-30, condorcet.py 18-31 [get_candidates]: the
    candidates of each query of the first run, in the iteration order of a set. *)
Definition get_candidates (ms : list (dict (dict F))) : result (list (list string)) :=
  match ms with
  | [] => Err IndexError
  | m0 :: _ =>
      map_m (fun q => do rs <- map_m (fun m => dget_r m q) ms;
                      Ok (e_setorder E (concat (map dkeys rs)))) (dkeys m0)
  end.

(** [l.index(x)] *)
Fixpoint index_of (l : list string) (x : string) : option nat :=
  match l with
  | [] => None
  | y :: l' => if String.eqb x y then Some 0 else option_map S (index_of l' x)
  end.

(** borda_norm.py 31-44 [_borda_norm] *)
Definition _borda_norm (r : dict F) (candidates : list string) : result (dict F) :=
  let doc_ids := dkeys r in
  let n_results := length r in
  let n_candidates := length candidates in
  foldr_m (fun acc d =>
     if dmem r d then
       match index_of doc_ids d with
       | Some i => Ok (dset acc d (fsub fone (fdiv (fnat i) (fnat n_candidates))))
       | None => Err ValueError
       end
     else Ok (dset acc d (fsub (fdec 5 1)
                (fdiv (fofZ (Z.of_nat n_results - 1)) (fofZ (2 * Z.of_nat n_candidates))))))
    candidates [].

(** borda_norm.py 47-70 [_borda_norm_parallel], [borda_norm]: [candidates[i]] belongs to
    query number [i] of the first run, [q_ids[i]] is query number [i] of this run. *)
Definition borda_norm (xs : list (Run N)) : result (list (Run N)) :=
  do cands <- get_candidates (map (@r_map N) xs);
  map_m (fun x => do m <- per_query "_borda_norm" (fun i r => do c <- nth_r cands i; _borda_norm r c) (r_map x);
                  Ok (new_run (r_name x) m)) xs.

(** normalization/__init__.py 18-34 [norm_switch], for the methods taking one run;
    [None] for "borda", which takes a list of runs. *)
Definition norm_switch (method : string) : result (option (Run N -> result (Run N))) :=
  if String.eqb method "borda" then Ok None
  else if String.eqb method "max" then Ok (Some max_norm)
  else if String.eqb method "min_max" || String.eqb method "min-max" then Ok (Some (min_max_norm false))
  else if String.eqb method "min_max_inverted" || String.eqb method "min-max-inverted" then Ok (Some (min_max_norm true))
  else if String.eqb method "rank" then Ok (Some rank_norm)
  else if String.eqb method "sum" then Ok (Some sum_norm)
  else if String.eqb method "zmuv" then Ok (Some zmuv_norm)
  else Err ValueError.

(** meta/normalize.py 5-6 [normalize(run, norm)].  With norm="borda" a single run is not a
    list of runs: [runs[0]] looks up the query id 0, which is not a string. *)
Definition normalize (x : Run N) (norm : string) : result (Run N) :=
  do f <- norm_switch norm;
  match f with Some f => f x | None => Err TypeError end.

(** meta/fuse.py 25-34: the normalisation step of fuse; [None] keeps the runs. *)
Definition normalize_runs (xs : list (Run N)) (norm : option string) : result (list (Run N)) :=
  match norm with
  | None => Ok xs
  | Some n =>
      if String.eqb n "borda" then borda_norm xs
      else map_m (fun x => normalize x n) xs
  end.

End Norm.
