(** Spec_Eval.v: what evaluate is supposed to return, over the reals. *)
From Coq Require Import Reals.
From Verif Require Import Base Dict Num Env M_Common M_Qrels M_Run M_History M_Metrics M_Evaluate
  Spec_DS Spec_Hist Spec_Strings Spec_Metrics.
Open Scope string_scope.
Open Scope list_scope.
Open Scope nat_scope.

(** [metric_value name j lvl ds k v]: metric [name] with cut-off (or persistence) [k] at
    relevance level [lvl] gives [v] on a query with judgments [j] and ranking [ds]. *)
Inductive metric_value : string -> dict Z -> Z -> list string -> @karg NumR -> R -> Prop :=
| MV_hits j l ds k : metric_value "hits" j l ds (KInt k) (INR (S_hits j l ds (Z.to_nat k)))
| MV_hit_rate j l ds k : metric_value "hit_rate" j l ds (KInt k) (S_hit_rate j l ds (Z.to_nat k))
| MV_precision j l ds k : metric_value "precision" j l ds (KInt k) (S_precision j l ds (Z.to_nat k))
| MV_recall j l ds k : metric_value "recall" j l ds (KInt k) (S_recall j l ds (Z.to_nat k))
| MV_f1 j l ds k : metric_value "f1" j l ds (KInt k) (S_f1 j l ds (Z.to_nat k))
| MV_r_precision j l ds k : metric_value "r-precision" j l ds (KInt k) (S_r_precision j l ds)
| MV_mrr j l ds k : metric_value "mrr" j l ds (KInt k) (S_mrr j l ds (Z.to_nat k))
| MV_map j l ds k : metric_value "map" j l ds (KInt k) (S_map j l ds (Z.to_nat k))
| MV_dcg j l ds k : metric_value "dcg" j l ds (KInt k) (S_dcg j l ds (Z.to_nat k))
| MV_dcg_burges j l ds k : metric_value "dcg_burges" j l ds (KInt k) (S_dcg_burges j l ds (Z.to_nat k))
| MV_ndcg j l ds k v : is_ndcg (gain j l) ds (Z.to_nat k) v -> metric_value "ndcg" j l ds (KInt k) v
| MV_ndcg_burges j l ds k v : is_ndcg (burges_gain j l) ds (Z.to_nat k) v -> metric_value "ndcg_burges" j l ds (KInt k) v
| MV_bpref j l ds k : metric_value "bpref" j l ds (KInt k) (S_bpref j l ds)
| MV_rbp j l ds p : metric_value "rbp" j l ds (KFloat p) (S_rbp j l ds p).

(** The cut-off fits the metric: a non-negative integer, a float for rbp. *)
Definition k_fits (name : string) (k : @karg NumR) : Prop :=
  match k with KInt k => In name cutoff_metrics /\ (0 <= k)%Z | KFloat _ => name = "rbp" end.

(** The metric is defined on judgments [j] (only bpref needs something). *)
Definition metric_defined (name : string) (j : dict Z) (lvl : Z) : Prop :=
  name = "bpref" -> 0 < n_relevant j lvl /\ 0 < n_judged_nonrelevant j lvl.

(** [s] is a metric string for metric [name] with parameters [k], [lvl] *)
Definition denotes (s name : string) (k : @karg NumR) (lvl : Z) : Prop :=
  extract_metric_and_params s = Ok (name, k, lvl) /\ In name all_metrics /\ k_fits name k /\ (0 <= lvl)%Z.

(** Objects a program can have: built empty or from a dict, then edited by any sequence
    of calls that did not raise; a run may also carry any name and any saved scores. *)
Definition run_reachable (E : env NumR) (x : Run NumR) : Prop :=
  exists x0 os, (x0 = Run_empty \/ exists d name, dict2_ok d /\ Run_init E d name = Ok x0) /\
    Forall run_op_shape os /\ r_map x = r_map (run_hist E x0 os) /\ r_sorted x = r_sorted (run_hist E x0 os).
Definition qrels_reachable (E : env NumR) (y : Qrels) : Prop :=
  exists y0 os, (y0 = Qrels_empty \/ exists d name, dict2_ok d /\ @Qrels_init NumR E d name = Ok y0) /\
    Forall qrels_op_shape os /\ q_map y = q_map (@qrels_hist NumR E y0 os) /\
    q_sorted y = q_sorted (@qrels_hist NumR E y0 os).

(** A ranking of the results [r]: all of them, highest score first. *)
Definition ranks (r : dict R) (ds : list string) : Prop :=
  exists rk, Permutation r rk /\ StronglySorted (fun a b : string * R => (snd b <= snd a)%R) rk /\ ds = dkeys rk.

(** results / judgments of a query; a query that is not there has none *)
Definition of_query {V} (m : dict (dict V)) (q : string) : dict V :=
  match dget m q with Some r => r | None => [] end.

(** mean and population standard deviation *)
Definition mean_of (l : list R) : R := (Rsum l / INR (length l))%R.
Definition std_of (l : list R) : R :=
  sqrt (mean_of (map (fun x => (x - mean_of l) * (x - mean_of l))%R l)).

(** what evaluate reports for one metric *)
Definition reported (mean std : bool) (l : list R) : @outval NumR :=
  if mean then (if std then @OStats NumR (mean_of l) (std_of l) else @OMean NumR (mean_of l)) else @OArr NumR l.

(** qrels and run have the same query ids *)
Definition same_queries {V W} (m : dict (dict V)) (m' : dict (dict W)) : Prop :=
  forall q, In q (dkeys m) <-> In q (dkeys m').

(** Every string of [metrics] names a supported metric that is defined on all judgments of [m]. *)
Definition metrics_ok (metrics : list string) (m : dict (dict Z)) : Prop :=
  forall s, In s metrics -> exists name k lvl, denotes s name k lvl /\
    forall q, In q (dkeys m) -> metric_defined name (of_query m q) lvl.

(** In every query, different documents have different ids (see C17). *)
Definition docs_distinct (E : env NumR) (m : dict (dict Z)) (m' : dict (dict R)) : Prop :=
  forall q, In q (dkeys m) -> ids_distinct (doc_key E) (dkeys (of_query m q) ++ dkeys (of_query m' q)).

(** [scores] are the per-query scores: [scores s] lists, for the queries [qs] in this order,
    the value of metric [s] on the judgments in [m] and the rankings [ranking]. *)
Definition are_scores (metrics : list string) (m : dict (dict Z)) (qs : list string)
           (ranking : string -> list string) (scores : string -> list R) : Prop :=
  forall s name k lvl, In s metrics -> denotes s name k lvl ->
    Forall2 (fun q v => metric_value name (of_query m q) lvl (ranking q) k v) qs (scores s).

(** The value evaluate returns for these scores. *)
Definition returns (metrics : list string) (mean std : bool) (scores : string -> list R)
           (res : result (@outcome NumR)) : Prop :=
  match metrics with
  | [s] => res = Ok (@OutOne NumR (reported mean std (scores s)))
  | _ => exists d, res = Ok (@OutDict NumR d) /\
         forall s, (In s metrics -> dget d s = Some (reported mean std (scores s))) /\
                   (~ In s metrics -> dget d s = None)
  end.

(** The saved scores of run [x'], given those of [x]: new numbers for [metrics], everything
    else kept. *)
Definition saved (metrics : list string) (with_std : bool) (qs : list string)
           (scores : string -> list R) (x x' : Run NumR) : Prop :=
  forall s,
    (In s metrics ->
       dget (r_mean x') s = Some (mean_of (scores s)) /\
       dget (r_std x') s = (if with_std then Some (std_of (scores s)) else dget (r_std x) s) /\
       Forall2 (fun q v => dget2 (r_scores x') s q = Some v) qs (scores s) /\
       (forall q, ~ In q qs -> dget2 (r_scores x') s q = dget2 (r_scores x) s q)) /\
    (~ In s metrics ->
       dget (r_mean x') s = dget (r_mean x) s /\ dget (r_std x') s = dget (r_std x) s /\
       dget (r_scores x') s = dget (r_scores x) s).
Definition nothing_saved (x x' : Run NumR) : Prop :=
  r_mean x' = r_mean x /\ r_std x' = r_std x /\ r_scores x' = r_scores x.

(** ** The kinds of inputs of evaluate.
    [qrels_input E q m qs]: the argument [q] holds the judgments [m], and evaluate walks
    its queries in the order [qs].  A Qrels is walked in the order of the query ids, a
    dict in its own order. *)
Definition as_reals (m : dict (dict Z)) : dict (dict R) :=
  map (fun qj => (fst qj, map (fun kv => (fst kv, IZR (snd kv))) (snd qj))) m.
Definition no_empty_query {V} (m : dict (dict V)) : Prop :=
  m <> [] /\ forall q r, dget m q = Some r -> r <> [].
Inductive qrels_input (E : env NumR) : @qarg NumR -> dict (dict Z) -> list string -> Prop :=
| QI_obj y : qrels_reachable E y ->
    qrels_input E (@QObj NumR y) (q_map y) (str_sort (dkeys (q_map y)))
| QI_dict m : dict2_ok m -> no_empty_query m -> qrels_input E (@QDict NumR (as_reals m)) m (dkeys m)
| QI_subdict m : dict2_ok m -> no_empty_query m -> qrels_input E (@QSubDict NumR (as_reals m)) m (dkeys m).
Inductive run_input (E : env NumR) : @rarg NumR -> dict (dict R) -> list string -> Prop :=
| RI_obj x : run_reachable E x ->
    run_input E (@RObj NumR x) (r_map x) (str_sort (dkeys (r_map x)))
| RI_dict m : dict2_ok m -> no_empty_query m -> run_input E (@RDict NumR m) m (dkeys m)
| RI_subdict m : dict2_ok m -> no_empty_query m -> run_input E (@RSubDict NumR m) m (dkeys m).
Definition is_run_object (r : @rarg NumR) : bool := match r with RObj _ => true | _ => false end.

(** Two results of evaluate are the same (a dict: the same value under every key). *)
Definition same_result (a b : result (@outcome NumR)) : Prop :=
  match a, b with
  | Ok (OutOne v), Ok (OutOne w) => v = w
  | Ok (OutDict d), Ok (OutDict e) => forall s, dget d s = dget e s
  | Err x, Err y => x = y
  | _, _ => False
  end.

(** metrics for which only "relevant or not" matters *)
Definition binary_metrics : list string :=
  ["hits"; "hit_rate"; "precision"; "recall"; "f1"; "r-precision"; "mrr"; "map"; "bpref"].
