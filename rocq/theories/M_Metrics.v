(** M_Metrics.v: model of ranx/metrics/*.py (all fourteen metrics, hit / unjudged /
    non-relevant lists, interpolated precision).

    A query's judgments and ranking are the rows of its (n,2) float array
    ([M_Common.rows]): the id column is the rounded hash (an integer), the second
    column the score.  Loops over [range(k)] that read [run[i]] are maps over the
    first k rows.  k and lengths are natural numbers (k >= 0 is asserted by the
    callers that use it). *)
From Verif Require Import Base Dict Num Env M_Common.
Open Scope string_scope.
Open Scope list_scope.
Open Scope nat_scope.

Section Metrics.
Context {N : Num}.

(** common.py 5-7 [clean_qrels] *)
Definition clean_qrels (qrels : rows) (rel_lvl : Z) : rows :=
  filter (fun r => fleb (fofZ rel_lvl) (snd r)) qrels.

(** common.py 10-12 [fix_k] *)
Definition fix_k (k : nat) (run : rows) : nat :=
  if (k =? 0) || (length run <? k) then length run else k.

(** [np.max(qrels[:, 0])], [np.min(qrels[:, 0])] of a non-empty array *)
Definition max_id (qrels : rows) : Z :=
  match qrels with
  | [] => 0%Z
  | r :: l => fold_left (fun m x => if (m <? fst x)%Z then fst x else m) l (fst r)
  end.
Definition min_id (qrels : rows) : Z :=
  match qrels with
  | [] => 0%Z
  | r :: l => fold_left (fun m x => if (fst x <? m)%Z then fst x else m) l (fst r)
  end.

(** The inner loop shared by all metrics (e.g. hits.py 24-32): skip ids outside
    [min_true_id, max_true_id], otherwise the first row [j] with the same id. *)
Fixpoint first_match (id : Z) (qrels : rows) : option F :=
  match qrels with
  | [] => None
  | r :: l => if (id =? fst r)%Z then Some (snd r) else first_match id l
  end.
Definition scan (qrels : rows) (id : Z) : option F :=
  if (max_id qrels <? id)%Z then None
  else if (id <? min_id qrels)%Z then None
  else first_match id qrels.

(** hits.py 12-34 [_hits] *)
Definition _hits (qrels run : rows) (k : nat) (rel_lvl : Z) : F :=
  let qrels := clean_qrels qrels rel_lvl in
  if length qrels =? 0 then fzero
  else
    let k := fix_k k run in
    fold_left (fun h r => match scan qrels (fst r) with
                          | Some _ => fadd h fone | None => h end)
              (firstn k run) fzero.

(** hit_rate.py 12-31 [_hit_rate] *)
Definition _hit_rate (qrels run : rows) (k : nat) (rel_lvl : Z) : F :=
  let qrels := clean_qrels qrels rel_lvl in
  if length qrels =? 0 then fzero
  else
    let k := fix_k k run in
    if existsb (fun r => match scan qrels (fst r) with Some _ => true | None => false end)
               (firstn k run)
    then fone else fzero.

(** precision.py 12-17 [_precision] *)
Definition _precision (qrels run : rows) (k : nat) (rel_lvl : Z) : F :=
  let k := if k =? 0 then length run else k in
  if k =? 0 then fzero
  else fdiv (_hits qrels run k rel_lvl) (fnat k).

(** recall.py 13-22 [_recall] *)
Definition _recall (qrels run : rows) (k : nat) (rel_lvl : Z) : F :=
  let qrels := clean_qrels qrels rel_lvl in
  if length qrels =? 0 then fzero
  else
    let k := if k =? 0 then length run else k in
    if k =? 0 then fzero
    else fdiv (_hits qrels run k rel_lvl) (fnat (length qrels)).

(** f1.py 13-29 [_f1] *)
Definition _f1 (qrels run : rows) (k : nat) (rel_lvl : Z) : F :=
  let qrels := clean_qrels qrels rel_lvl in
  if length qrels =? 0 then fzero
  else
    let k := if k =? 0 then length run else k in
    if k =? 0 then fzero
    else
      let hits_score := _hits qrels run k rel_lvl in
      let precision_score := fdiv hits_score (fnat k) in
      let recall_score := fdiv hits_score (fnat (length qrels)) in
      if feqb (fadd precision_score recall_score) fzero then fzero
      else fmul (fofZ 2) (fdiv (fmul precision_score recall_score)
                               (fadd precision_score recall_score)).

(** r_precision.py 13-19 [_r_precision] *)
Definition _r_precision (qrels run : rows) (rel_lvl : Z) : F :=
  let qrels := clean_qrels qrels rel_lvl in
  if length qrels =? 0 then fzero
  else _precision qrels run (length qrels) rel_lvl.

(** reciprocal_rank.py 12-22 [_reciprocal_rank]; [x in qrels[:, 0]] is [existsb]. *)
Fixpoint rr_loop (i : nat) (qrels run : rows) : F :=
  match run with
  | [] => fzero
  | r :: run' => if existsb (fun q => (fst r =? fst q)%Z) qrels
                 then fdiv fone (fnat (i + 1))
                 else rr_loop (S i) qrels run'
  end.
Definition _reciprocal_rank (qrels run : rows) (k : nat) (rel_lvl : Z) : F :=
  let qrels := clean_qrels qrels rel_lvl in
  if length qrels =? 0 then fzero
  else let k := fix_k k run in rr_loop 0 qrels (firstn k run).

(** hit_list[i] (average_precision.py 24-32, get_hit_lists.py 25-33, ...) *)
Definition hit_list_of (qrels run : rows) (k : nat) : list F :=
  map (fun r => match scan qrels (fst r) with Some _ => fone | None => fzero end)
      (firstn k run).
(** weighted_hit_list[i] (ndcg.py 24-32, rank_biased_precision.py 22-30) *)
Definition weighted_hit_list_of (qrels run : rows) (k : nat) : list F :=
  map (fun r => match scan qrels (fst r) with Some s => s | None => fzero end)
      (firstn k run).

(** precision_scores (average_precision.py 34-40); [if hit_list[r]] is truthiness of a
    float: different from 0. *)
Definition precision_scores_of (hit_list : list F) : list F :=
  map (fun rh => if feqb (snd rh) fzero then fzero
                 else fdiv (fsum (firstn (fst rh + 1) hit_list)) (fnat (fst rh + 1)))
      (enumerate hit_list).

(** average_precision.py 12-42 [_average_precision] *)
Definition _average_precision (qrels run : rows) (k : nat) (rel_lvl : Z) : F :=
  let qrels := clean_qrels qrels rel_lvl in
  if length qrels =? 0 then fzero
  else
    let k := fix_k k run in
    let hit_list := hit_list_of qrels run k in
    fdiv (fsum (precision_scores_of hit_list)) (fnat (length qrels)).

(** ndcg.py 12-40 [_dcg]; [np.arange(1, k+1) + 1] at position i (0-based) is i + 2 *)
Definition _dcg (qrels run : rows) (k : nat) (rel_lvl : Z) (jarvelin : bool) : F :=
  let qrels := clean_qrels qrels rel_lvl in
  if length qrels =? 0 then fzero
  else
    let k := fix_k k run in
    let w := weighted_hit_list_of qrels run k in
    fsum (map (fun ig => fdiv (if jarvelin then snd ig
                               else fsub (fpow (fofZ 2) (snd ig)) fone)
                              (flog2 (fnat (fst ig + 1 + 1))))
              (enumerate w)).

(** ndcg.py 51-53 [_idcg] *)
Definition _idcg (qrels : rows) (k : nat) (rel_lvl : Z) (jarvelin : bool) : F :=
  _dcg qrels qrels k rel_lvl jarvelin.

(** ndcg.py 56-65 [_ndcg] *)
Definition _ndcg (qrels run : rows) (k : nat) (rel_lvl : Z) (jarvelin : bool) : F :=
  let dcg_score := _dcg qrels run k rel_lvl jarvelin in
  let idcg_score := _idcg qrels k rel_lvl jarvelin in
  let idcg_score := if feqb idcg_score fzero then fone else idcg_score in
  fdiv dcg_score idcg_score.

(** rank_biased_precision.py 12-35 [_rank_biased_precision] *)
Definition _rank_biased_precision (qrels run : rows) (p : F) (rel_lvl : Z) : F :=
  let qrels := clean_qrels qrels rel_lvl in
  if length qrels =? 0 then fzero
  else
    let w := weighted_hit_list_of qrels run (length run) in
    let p_values_sum := fsum (map (fun ig => fmul (snd ig) (fnpow p (fst ig))) (enumerate w)) in
    fmul (fsub fone p) p_values_sum.

(** get_hit_lists.py 13-35 [_get_hit_list] *)
Definition _get_hit_list (qrels run : rows) (k : nat) (rel_lvl : Z) : list F :=
  let qrels := clean_qrels qrels rel_lvl in
  let k := fix_k k run in
  if length qrels =? 0 then repeat fzero k
  else hit_list_of qrels run k.

(** get_unjudged_lists.py 12-33 [_get_unjudged_list] *)
Definition _get_unjudged_list (qrels run : rows) (k : nat) : list F :=
  let k := fix_k k run in
  if length qrels =? 0 then repeat fone k
  else map (fun r => match scan qrels (fst r) with Some _ => fzero | None => fone end)
           (firstn k run).

(** get_non_rel_lists.py 11-39 [_non_rel_qrels], [_get_non_rel_list] *)
Definition _non_rel_qrels (qrels : rows) : rows :=
  filter (fun r => feqb (snd r) fzero) qrels.
Definition _get_non_rel_list (qrels run : rows) (k : nat) : list F :=
  let qrels := _non_rel_qrels qrels in
  let k := fix_k k run in
  if length qrels =? 0 then repeat fzero k
  else hit_list_of qrels run k.

(** [np.cumsum(hit_list == 0)] *)
Fixpoint cumsum_from (acc : nat) (l : list bool) : list nat :=
  match l with
  | [] => []
  | b :: l' => let acc' := (if b then 1 else 0) + acc in acc' :: cumsum_from acc' l'
  end.
(** boolean mask indexing [a[mask]] *)
Fixpoint mask {A} (a : list A) (m : list bool) : list A :=
  match a, m with
  | x :: a', b :: m' => if b then x :: mask a' m' else mask a' m'
  | _, _ => []
  end.

(** bpref.py 13-30 [_bpref].  The array division by [min(n_rels, n_non_rels)] follows
    IEEE (0/0 = NaN); the final scalar division by the integer 0 raises
    ZeroDivisionError (numba's default error model). *)
Definition _bpref (qrels run : rows) (rel_lvl : Z) : result F :=
  let n_rels := count (fun r => fleb (fofZ rel_lvl) (snd r)) qrels in
  let n_non_rels := count (fun r => fltb (snd r) (fofZ rel_lvl)) qrels in
  let hit_list := _get_hit_list qrels run 0 rel_lvl in
  let unjudged_list := _get_unjudged_list qrels run 0 in
  let hit_list := mask hit_list (map (fun u => negb (feqb u fone)) unjudged_list) in
  let above := mask (cumsum_from 0 (map (fun h => feqb h fzero) hit_list))
                    (map (fun h => feqb h fone) hit_list) in
  let s := fsum (map (fun c => fsub fone (fdiv (fnat (Nat.min c n_rels))
                                               (fnat (Nat.min n_rels n_non_rels)))) above) in
  if n_rels =? 0 then Err ZeroDivisionError else Ok (fdiv s (fnat n_rels)).

(** interpolated_precision_at_recall.py 12-64 [_interpolated_precision].
    [max] of a float array keeps the first maximum. *)
Definition list_max (l : list F) : F :=
  match l with [] => fzero | x :: l' => fmaxl x l' end.
Definition ip_cutoff (i : nat) (n : nat) : nat :=
  Z.to_nat (ftrunc (fadd (fmul (fdec (Z.of_nat i) 1) (fnat n)) (fdec 9 1))).
Definition _interpolated_precision (qrels run : rows) (rel_lvl : Z) : list F :=
  let qrels := clean_qrels qrels rel_lvl in
  if length qrels =? 0 then repeat fzero 11
  else
    let cutoffs := map (fun i => ip_cutoff i (length qrels)) (seq 0 11) in
    let hit_list := hit_list_of qrels run (length run) in
    let precision_scores := fzero :: precision_scores_of hit_list in
    let precision_scores := list_max precision_scores :: tl precision_scores in
    let precision_scores := filter (fun x => negb (feqb x fzero)) precision_scores in
    map (fun cutoff => if cutoff <? length precision_scores
                       then list_max (skipn cutoff precision_scores)
                       else fzero) cutoffs.

(** ** Parallel drivers: [_X_parallel], e.g. hits.py 37-42.  [scores] is created by
    [np.zeros(len(qrels))]; [qrels[i]], [run[i]] index typed lists. *)
Definition parallel {A} (E : env N) (tag : string) (init : A) (qrels run : list rows)
           (f : rows -> rows -> result A) : result (list A) :=
  prange_r (e_sched E tag (length qrels)) (length qrels) init
    (fun i => do q <- nth_r qrels i; do r <- nth_r run i; f q r).

(** ** High level functions, e.g. hits.py 46-72.  k comes as an integer. *)
Definition with_k {A} (k : Z) (f : nat -> result A) : result A :=
  do _ <- assertr (0 <=? k)%Z; f (Z.to_nat k).

Context (E : env N).
Definition lift4 (f : rows -> rows -> nat -> Z -> F) (tag : string)
           (qrels run : list rows) (k rel_lvl : Z) : result (list F) :=
  with_k k (fun k => parallel E tag fzero qrels run (fun q r => Ok (f q r k rel_lvl))).

Definition hits := lift4 _hits "hits".                                   (* hits.py 46-72 *)
Definition hit_rate := lift4 _hit_rate "hit_rate".                       (* hit_rate.py 43-70 *)
Definition precision := lift4 _precision "precision".                    (* precision.py 29-76 *)
Definition recall := lift4 _recall "recall".                             (* recall.py 34-82 *)
Definition f1 := lift4 _f1 "f1".                                         (* f1.py 41-81 *)
Definition reciprocal_rank := lift4 _reciprocal_rank "mrr".              (* reciprocal_rank.py 34-69 *)
Definition average_precision := lift4 _average_precision "map".          (* average_precision.py 54-90 *)
Definition dcg := lift4 (fun q r k l => _dcg q r k l true) "dcg".        (* ndcg.py 77-123 *)
Definition dcg_burges := lift4 (fun q r k l => _dcg q r k l false) "dcg_burges". (* 189-241 *)
Definition ndcg := lift4 (fun q r k l => _ndcg q r k l true) "ndcg".     (* ndcg.py 126-186 *)
Definition ndcg_burges := lift4 (fun q r k l => _ndcg q r k l false) "ndcg_burges". (* 244-310 *)
(* r_precision.py 31-59: k ignored, no assertion *)
Definition r_precision (qrels run : list rows) (k rel_lvl : Z) : result (list F) :=
  parallel E "r-precision" fzero qrels run (fun q r => Ok (_r_precision q r rel_lvl)).
(* bpref.py 42-75: k ignored, no assertion *)
Definition bpref (qrels run : list rows) (k rel_lvl : Z) : result (list F) :=
  parallel E "bpref" fzero qrels run (fun q r => _bpref q r rel_lvl).
(* rank_biased_precision.py 47-79 *)
Definition rank_biased_precision (qrels run : list rows) (p : F) (rel_lvl : Z) : result (list F) :=
  parallel E "rbp" fzero qrels run (fun q r => Ok (_rank_biased_precision q r p rel_lvl)).
(* interpolated_precision_at_recall.py 76-95 *)
Definition interpolated_precision_at_recall (qrels run : list rows) (rel_lvl : Z)
  : result (list (list F)) :=
  parallel E "iprec" (repeat fzero 11) qrels run (fun q r => Ok (_interpolated_precision q r rel_lvl)).
(* get_hit_lists.py 47-73 *)
Definition get_hit_lists (qrels run : list rows) (k rel_lvl : Z) : result (list (list F)) :=
  with_k k (fun k => parallel E "hit_lists" [fone] qrels run (fun q r => Ok (_get_hit_list q r k rel_lvl))).
(* get_unjudged_lists.py 46-69 *)
Definition get_unjudged_lists (qrels run : list rows) (k : Z) : result (list (list F)) :=
  with_k k (fun k => parallel E "unjudged" [fone] qrels run (fun q r => Ok (_get_unjudged_list q r k))).
(* get_non_rel_lists.py 50-73 *)
Definition get_non_rel_lists (qrels run : list rows) (k : Z) : result (list (list F)) :=
  with_k k (fun k => parallel E "non_rel" [fone] qrels run (fun q r => Ok (_get_non_rel_list q r k))).

(** A metric's third argument: an int cut-off or the float persistence. *)
Inductive karg := KInt (k : Z) | KFloat (p : F).

(** metrics/__init__.py 35-67 [metric_switch], applied.  A float cut-off given to an
    integer-k metric (only reachable through a metric string such as "map.5.rbp")
    fails to compile in numba: TypeError. *)
Definition int_k (f : list rows -> list rows -> Z -> Z -> result (list F))
           (q r : list rows) (k : karg) (l : Z) : result (list F) :=
  match k with KInt k => f q r k l | KFloat _ => Err TypeError end.
Definition float_k (f : list rows -> list rows -> F -> Z -> result (list F))
           (q r : list rows) (k : karg) (l : Z) : result (list F) :=
  match k with KFloat p => f q r p l | KInt k => f q r (fofZ k) l end.
Definition metric_switch (metric : string)
  : result (list rows -> list rows -> karg -> Z -> result (list F)) :=
  if String.eqb metric "hits" then Ok (int_k hits)
  else if String.eqb metric "hit_rate" then Ok (int_k hit_rate)
  else if String.eqb metric "precision" then Ok (int_k precision)
  else if String.eqb metric "recall" then Ok (int_k recall)
  else if String.eqb metric "f1" then Ok (int_k f1)
  else if String.eqb metric "r-precision" then Ok (int_k r_precision)
  else if String.eqb metric "mrr" then Ok (int_k reciprocal_rank)
  else if String.eqb metric "map" then Ok (int_k average_precision)
  else if String.eqb metric "dcg" then Ok (int_k dcg)
  else if String.eqb metric "dcg_burges" then Ok (int_k dcg_burges)
  else if String.eqb metric "ndcg" then Ok (int_k ndcg)
  else if String.eqb metric "ndcg_burges" then Ok (int_k ndcg_burges)
  else if String.eqb metric "bpref" then Ok (int_k bpref)
  else if String.eqb metric "rbp" then Ok (float_k rank_biased_precision)
  else Err ValueError.
End Metrics.
