(** M_Optimize.v: model of ranx/fusion_optimization/*.py, ranx/meta/optimize_fusion.py and
    ranx/data_structures/optimization_report.py *)
From Verif Require Import Base Dict Num Env M_Common M_Qrels M_Run M_Metrics M_Strings M_Text M_Evaluate M_Norm M_Fusion M_Train.
Open Scope string_scope.
Open Scope list_scope.
Open Scope nat_scope.

Section Optimize.
Context {N : Num} (E : env N) (pysort : (nat -> nat -> bool) -> list nat -> list nat) (sh : shower N).

(** ** grids *)

(** [math.ceil(x)] as numpy uses it for the length of an arange; [np.rint(x)] (ties to even).
    NaN and infinities, on which numpy raises, are not modelled. *)
Definition fceil (x : F) : Z := let t := ftrunc x in if fltb (fofZ t) x then (t + 1)%Z else t.
Definition frint (x : F) : F :=
  let t := ftrunc x in
  let r := fabs (fsub x (fofZ t)) in
  let up := if fltb x fzero then (t - 1)%Z else (t + 1)%Z in
  if fltb r (fdec 5 1) then fofZ t
  else if fltb (fdec 5 1) r then fofZ up
  else fofZ (if Z.even t then t else up).
(** [round(x, d)] of a numpy float64: scale, rint, scale back *)
Definition fround (x : F) (d : Z) : F :=
  if (0 <=? d)%Z then fdiv (frint (fmul x (fofZ (10 ^ d)))) (fofZ (10 ^ d))
  else fmul (frint (fdiv x (fofZ (10 ^ (- d))))) (fofZ (10 ^ (- d))).
(** [np.arange(start, stop, step)]: ceil((stop - start) / step) numbers; numpy stores [start],
    [start + step] and then [start + i * (second - first)]. *)
Definition arange (start stop step : F) : result (list F) :=
  if feqb step fzero then Err ZeroDivisionError
  else
    let second := fadd start step in
    Ok (map (fun i => match i with
                      | 0 => start
                      | 1 => second
                      | _ => fadd start (fmul (fnat i) (fsub second start))
                      end)
            (seq 0 (Z.to_nat (fceil (fdiv (fsub stop start) step))))).
(** [str(step)[::-1].find(".")]: an int has no point *)
Definition step_digits (step : pval) : Z :=
  match step with PF x => find_char "." (str_rev (s_float sh x)) 0 | _ => (-1)%Z end.
(** optimize_comb_gmnz.py 21-24, optimize_logn_isr.py 21-24, optimize_rbc.py 21-24; ints among the
    arguments are converted to float first, which changes no value *)
Definition float_grid (lo hi step : pval) : result (list F) :=
  do l <- as_F lo; do h <- as_F hi; do s <- as_F step;
  do a <- arange l (fadd h s) s;
  Ok (map (fun x => fround x (step_digits step)) a).
(** [list(range(a, b, s))] *)
Definition py_range (a b s : Z) : result (list Z) :=
  if (s =? 0)%Z then Err ValueError
  else
    let n := if (0 <? s)%Z then ((b - a + s - 1) / s)%Z else ((a - b - s - 1) / (- s))%Z in
    Ok (map (fun i => (a + Z.of_nat i * s)%Z) (seq 0 (Z.to_nat n))).

(** optimize_weights.py 11-13 *)
Definition get_possible_weights (step : pval) : result (list F) :=
  do s <- as_F step; do a <- arange fzero (fadd fone s) s;
  Ok (map (fun x => fround x (step_digits step)) a).
(** itertools.product of [n] copies of [weights] *)
Fixpoint product {A} (weights : list A) (n : nat) : list (list A) :=
  match n with
  | O => [[]]
  | S n' => flat_map (fun w => map (cons w) (product weights n')) weights
  end.
(** optimize_weights.py 16-17; [sum] adds from left to right starting with 0 *)
Definition get_trial_configs (weights : list F) (n_runs : nat) : list (list F) :=
  filter (fun seq => feqb (fsum seq) fone) (product weights n_runs).

(** ** grid search *)

(** [evaluate(qrels, fused_run, metric, save_results_in_run=False)]: sorts the qrels in place *)
Definition trial_eval (y : Qrels) (run : Run N) (metric : string) : Qrels * result F :=
  let out := evaluate E (QObj y) (RObj run) [metric] true false false false in
  (match ev_q out with QObj y' => y' | _ => y end,
   do o <- ev_res out; match o with OutOne (OMean v) => Ok v | _ => Err TypeError end).

(** The loop of the optimisers (e.g. optimize_comb_gmnz.py 26-39): the state [S] holds the
    objects that are modified in place; a trial yields a candidate [B] and its score.  [None] stands
    for the initial value ([] or None) of the best candidate.  The report is a dict. *)
Fixpoint search_loop {S T B} (f : S -> T -> S * result (B * F)) (show : T -> string) (s : S) (trials : list T)
  (best_score : F) (best : option B) (report : dict F) : S * result (option B * dict F) :=
  match trials with
  | [] => (s, Ok (best, report))
  | t :: trials' =>
      match f s t with
      | (s', Err e) => (s', Err e)
      | (s', Ok (b, score)) =>
          let report := dset report (show t) score in
          if fleb best_score score
          then search_loop f show s' trials' score (Some b) report
          else search_loop f show s' trials' best_score best report
      end
  end.
Definition grid_search {S T B} (f : S -> T -> S * result (B * F)) (show : T -> string) (s : S) (trials : list T) :=
  search_loop f show s trials (fofZ 0) None [].

(** one trial of an optimiser without training *)
Definition plain_trial {T} (fusion : list (Run N) -> T -> result (Run N)) (metric : string)
  (s : Qrels * list (Run N)) (t : T) : (Qrels * list (Run N)) * result (T * F) :=
  match fusion (snd s) t with
  | Err e => (s, Err e)
  | Ok z => let '(y', sc) := trial_eval (fst s) z metric in ((y', snd s), do v <- sc; Ok (t, v))
  end.

(** the objects afterwards, and the best parameters with the report *)
Definition opt_params := dict (option (@pval N)).
Definition opt_out : Type := Qrels * list (Run N) * result (opt_params * dict F).

Definition finish {B} (name : string) (inj : B -> @pval N) (r : (Qrels * list (Run N)) * result (option B * dict F)) : opt_out :=
  (fst r, do br <- snd r; Ok ([(name, option_map inj (fst br))], snd br)).
Definition failed (y : Qrels) (xs : list (Run N)) (e : exn) : opt_out := (y, xs, Err e).

Definition kwarg (kws : params) (k : string) (default : @pval N) : @pval N :=
  match dget kws k with Some v => v | None => default end.

(** optimize_comb_gmnz.py, optimize_logn_isr.py, optimize_rbc.py *)
Definition opt_float (fusion : list (Run N) -> F -> result (Run N)) (name lo hi : string)
  (y : Qrels) (xs : list (Run N)) (metric : string) (kws : params) : opt_out :=
  match (do _ <- only [lo; hi; "step"; "show_progress"] kws;
         float_grid (kwarg kws lo (PF (fdec 1 2))) (kwarg kws hi (PF (fofZ 1))) (kwarg kws "step" (PF (fdec 1 2)))) with
  | Err e => failed y xs e
  | Ok trials => finish name (@PF N) (grid_search (plain_trial fusion metric) (s_float sh) (y, xs) trials)
  end.
Definition optimize_comb_gmnz := opt_float (fun xs g => comb_gmnz E xs g "comb_gmnz") "gamma" "min_gamma" "max_gamma".
Definition optimize_logn_isr := opt_float (fun xs s => logn_isr E xs s "logn_isr") "sigma" "min_sigma" "max_sigma".
Definition optimize_rbc := opt_float (fun xs p => rbc E xs p "rbc") "phi" "min_phi" "max_phi".

(** optimize_rrf.py *)
Definition optimize_rrf (y : Qrels) (xs : list (Run N)) (metric : string) (kws : params) : opt_out :=
  match (do _ <- only ["min_k"; "max_k"; "step"; "show_progress"] kws;
         do a <- as_Z (kwarg kws "min_k" (PZ 10)); do b <- as_Z (kwarg kws "max_k" (PZ 100)); do s <- as_Z (kwarg kws "step" (PZ 10));
         py_range a (b + 1) s) with
  | Err e => failed y xs e
  | Ok trials => finish "k" (@PZ N) (grid_search (plain_trial (fun xs k => rrf E xs k "rrf") metric) str_int (y, xs) trials)
  end.

(** optimize_weights.py 20-49 and its callers: optimize_mixed.py, optimize_weighted_bordafuse.py,
    optimize_weighted_condorcet.py, optimize_wmnz.py, optimize_wsum.py *)
Definition optimize_weights (fusion : list (Run N) -> list F -> result (Run N))
  (y : Qrels) (xs : list (Run N)) (metric : string) (kws : params) : opt_out :=
  match (do _ <- only ["step"; "show_progress"] kws; get_possible_weights (kwarg kws "step" (PF (fdec 1 1)))) with
  | Err e => failed y xs e
  | Ok weights => finish "weights" (@PL N) (grid_search (plain_trial fusion metric) (s_tuple sh) (y, xs) (get_trial_configs weights (length xs)))
  end.
Definition optimize_mixed := optimize_weights (fun xs w => mixed E xs w "mixed").
Definition optimize_weighted_bordafuse := optimize_weights (fun xs w => weighted_bordafuse E xs w "weighted_bordafuse").
Definition optimize_weighted_condorcet := optimize_weights (fun xs w => weighted_condorcet E pysort xs w "weighted_condorcet").
Definition optimize_wmnz := optimize_weights (fun xs w => wmnz E xs w "wmnz").
Definition optimize_wsum := optimize_weights (fun xs w => wsum E xs w "weighted_sum").

(** optimize_probfuse.py: every trial trains, fuses the (now sorted) runs and evaluates *)
Definition prob_trial (metric : string) (s : Qrels * list (Run N)) (n : Z)
  : (Qrels * list (Run N)) * result (list (list F) * F) :=
  match probfuse_train E (fst s) (snd s) n with
  | (y1, xs1, Err e) => ((y1, xs1), Err e)
  | (y1, xs1, Ok probs) =>
      match probfuse E xs1 probs "probfuse" with
      | Err e => ((y1, xs1), Err e)
      | Ok z => let '(y2, sc) := trial_eval y1 z metric in ((y2, xs1), do v <- sc; Ok (probs, v))
      end
  end.
Definition optimize_probfuse (y : Qrels) (xs : list (Run N)) (metric : string) (kws : params) : opt_out :=
  match (do _ <- only ["min_n_segments"; "max_n_segments"; "show_progress"] kws;
         do a <- as_Z (kwarg kws "min_n_segments" (PZ 1)); do b <- as_Z (kwarg kws "max_n_segments" (PZ 100));
         py_range a (b + 1) 1) with
  | Err e => failed y xs e
  | Ok trials => finish "probs" (@PLL N) (grid_search (prob_trial metric) str_int (y, xs) trials)
  end.

(** optimize_slidefuse.py: trains once *)
Definition optimize_slidefuse (y : Qrels) (xs : list (Run N)) (metric : string) (kws : params) : opt_out :=
  match (do _ <- only ["min_w"; "max_w"; "show_progress"] kws;
         do a <- as_Z (kwarg kws "min_w" (PZ 1)); do b <- as_Z (kwarg kws "max_w" (PZ 100));
         py_range a (b + 1) 1) with
  | Err e => failed y xs e
  | Ok trials =>
      match slidefuse_train E y xs with
      | (y1, xs1, Err e) => failed y1 xs1 e
      | (y1, xs1, Ok probs) =>
          let '(y2, xs2, r) := finish "w" (@PZ N) (grid_search (plain_trial (fun xs w => slidefuse E xs probs w "slidefuse") metric) str_int (y1, xs1) trials) in
          (y2, xs2, do pr <- r; Ok (("probs", Some (PLL probs)) :: fst pr, snd pr))
      end
  end.

(** optimize_bayesfuse.py 7-8, optimize_mapfuse.py 7-8, optimize_posfuse.py 7-8, optimize_segfuse.py
    7-8: training only, no keyword arguments; an empty report in the model *)
Definition train_only {P} (train : Qrels -> list (Run N) -> Qrels * list (Run N) * result P) (name : string) (inj : P -> @pval N)
  (y : Qrels) (xs : list (Run N)) (kws : params) : opt_out :=
  match only [] kws with
  | Err e => failed y xs e
  | Ok _ => let '(y1, xs1, r) := train y xs in (y1, xs1, do p <- r; Ok ([(name, Some (inj p))], []))
  end.

(** optimize_fusion.py 22-34 and fusion_optimization/__init__.py 36-52 list the same methods *)
Definition hyper_methods : list string :=
  ["gmnz"; "logn_isr"; "mixed"; "probfuse"; "rbc"; "rrf"; "slidefuse"; "w_bordafuse"; "w_condorcet"; "wmnz"; "wsum"].
(** fusion_optimization/__init__.py 36-52 *)
Definition has_hyperparams (method : string) : result unit :=
  if existsb (String.eqb method) hyper_methods then Ok tt else Err ValueError.
(** fusion_optimization/__init__.py 55-88; the metric is passed to the methods with
    hyper-parameters only *)
Definition optimization_switch (method : string)
  : result (Qrels -> list (Run N) -> string -> params -> opt_out) :=
  if String.eqb method "logn_isr" then Ok optimize_logn_isr
  else if String.eqb method "gmnz" then Ok optimize_comb_gmnz
  else if String.eqb method "mixed" then Ok optimize_mixed
  else if String.eqb method "probfuse" then Ok optimize_probfuse
  else if String.eqb method "rbc" then Ok optimize_rbc
  else if String.eqb method "rrf" then Ok optimize_rrf
  else if String.eqb method "slidefuse" then Ok optimize_slidefuse
  else if String.eqb method "w_bordafuse" then Ok optimize_weighted_bordafuse
  else if String.eqb method "w_condorcet" then Ok optimize_weighted_condorcet
  else if String.eqb method "wmnz" then Ok optimize_wmnz
  else if String.eqb method "wsum" then Ok optimize_wsum
  else if String.eqb method "bayesfuse" then Ok (fun y xs _ => train_only (bayesfuse_train E) "log_odds" (@PLL N) y xs)
  else if String.eqb method "mapfuse" then Ok (fun y xs _ => train_only (mapfuse_train E) "map_scores" (@PL N) y xs)
  else if String.eqb method "posfuse" then Ok (fun y xs _ => train_only (posfuse_train E) "probs" (@PLL N) y xs)
  else if String.eqb method "segfuse" then Ok (fun y xs _ => train_only (segfuse_train E) "probs" (@PLL N) y xs)
  else Err ValueError.

(** optimization_report.py 50-65 *)
Record opt_report := OptReport { or_method : string; or_configs : list string; or_results : list (@F N); or_metric : string }.

(** optimize_fusion.py 8-77: the qrels and the caller's runs afterwards (the runs are only touched
    when [norm] is None, since otherwise the optimiser works on new ones), and the result.
    [kws] are the remaining keyword arguments. *)
Definition optimize_fusion (y : Qrels) (xs : list (Run N)) (norm : option string) (method metric : string)
  (return_report : bool) (kws : params) : Qrels * list (Run N) * result (opt_params * option opt_report) :=
  match (do _ <- assertr (1 <? length xs);
         do _ <- assertr (same_keys_check xs);
         do _ <- assertr (forallb (fun x => keys_eqb (r_map x) (q_map y)) xs);
         do zs <- normalize_runs E xs norm;
         do _ <- (if return_report then has_hyperparams method else Ok tt);
         do f <- optimization_switch method; Ok (zs, f)) with
  | Err e => (y, xs, Err e)
  | Ok (zs, f) =>
      let '(y', zs', r) := f y zs metric kws in
      (y', match norm with None => zs' | Some _ => xs end,
       do pr <- r;
       Ok (fst pr, if return_report then Some (OptReport method (dkeys (snd pr)) (dvals (snd pr)) metric) else None))
  end.

(** ** the report *)

(** [np.argmax(l)]: the first NaN if there is one, else the first maximum; no element: ValueError *)
Fixpoint argmax_go (best : F) (at_ i : nat) (l : list F) : nat :=
  match l with
  | [] => at_
  | v :: l' => if is_nan best then at_
               else if fleb v best then argmax_go best at_ (S i) l'
               else argmax_go v i (S i) l'
  end.
Definition argmax (l : list F) : result nat :=
  match l with [] => Err ValueError | v :: l' => Ok (argmax_go v 0 1 l') end.

(** optimization_report.py 8-47 *)
Definition or_method_labels : dict string :=
  [("logn_isr", "LogN_ISR"); ("gmnz", "GMNZ"); ("mixed", "Mixed"); ("probfuse", "ProbFuse"); ("rbc", "RBC"); ("rrf", "RRF");
   ("slidefuse", "SlideFuse"); ("w_bordafuse", "Weighted BordaFuse"); ("w_condorcet", "Weighted Condorcet"); ("wmnz", "WMNZ");
   ("wsum", "Weighted SUM")].
Definition or_hyperparams_labels : dict string :=
  [("logn_isr", "Sigma"); ("gmnz", "Gamma"); ("mixed", "Weights"); ("probfuse", "# Segments"); ("rbc", "phi"); ("rrf", "k");
   ("slidefuse", "w"); ("w_bordafuse", "Weights"); ("w_condorcet", "Weights"); ("wmnz", "Weights"); ("wsum", "Weights")].
Definition or_metric_labels : dict string :=
  [("hits", "Hits"); ("hit_rate", "Hit_Rate"); ("precision", "P"); ("recall", "Recall"); ("f1", "F1"); ("r-precision", "R-Prec");
   ("mrr", "MRR"); ("map", "MAP"); ("ndcg", "NDCG"); ("ndcg_burges", "NDCG_Burges")].
(** optimization_report.py 67-73 *)
Definition or_metric_label (m : string) : result string :=
  if substr_in "@" m then
    let parts := split_on "@" m in
    do a <- nth_r parts 0; do label <- dget_r or_metric_labels a; do cutoff <- nth_r parts 1;
    Ok (label ++ "@" ++ cutoff)%string
  else dget_r or_metric_labels m.
(** optimization_report.py 85-108: title, headers and rows (configuration, score, highlighted);
    the text of the scores (75-80) is not modelled *)
Definition to_table (r : opt_report) : result (string * string * string * list (string * F * bool)) :=
  do title <- dget_r or_method_labels (or_method r);
  do h1 <- dget_r or_hyperparams_labels (or_method r);
  do h2 <- or_metric_label (or_metric r);
  do m <- argmax (or_results r);
  Ok (title, h1, h2, map (fun ics => (fst (snd ics), snd (snd ics), fst ics =? m)) (enumerate (combine (or_configs r) (or_results r)))).

End Optimize.
