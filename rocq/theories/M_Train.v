(** M_Train.v: model of the training functions of ranx/fusion (common.py, posfuse.py, slidefuse.py,
    probfuse.py, segfuse.py, bayesfuse.py, mapfuse.py).  Training takes Qrels and Run objects and
    sorts them in place; the functions return the objects afterwards and the result. *)
From Verif Require Import Base Dict Num Env M_Common M_Qrels M_Run M_Metrics M_Strings M_Evaluate M_Norm M_Fusion.
Open Scope string_scope.
Open Scope list_scope.
Open Scope nat_scope.

Section Train.
Context {N : Num} (E : env N).

(** a loop over the runs; the qrels and the run are updated in place, an exception stops it *)
Fixpoint train_each {A} (f : Qrels -> Run N -> Qrels * Run N * result A) (y : Qrels) (xs : list (Run N))
  : Qrels * list (Run N) * result (list A) :=
  match xs with
  | [] => (y, [], Ok [])
  | x :: xs' =>
      match f y x with
      | (y1, x1, Err e) => (y1, x1 :: xs', Err e)
      | (y1, x1, Ok a) =>
          match train_each f y1 xs' with
          | (y2, xs2, Ok l) => (y2, x1 :: xs2, Ok (a :: l))
          | (y2, xs2, Err e) => (y2, x1 :: xs2, Err e)
          end
      end
  end.

(** [get_hit_lists(qrels.to_typed_list(), run.to_typed_list())] (common.py 57, bayesfuse.py 87) *)
Definition train_hits (y : Qrels) (x : Run N) : Qrels * Run N * result (list (list F)) :=
  let yq := Qrels_to_typed_list E y in
  let xr := Run_to_typed_list E x in
  (fst yq, fst xr, get_hit_lists E (snd yq) (snd xr) 0 1).

(** [a[i] += v] *)
Definition add_at (a : list F) (i : nat) (v : F) : list F := set_nth a i (fadd (nth i a fzero) v).

(** common.py 42-53 [_estimate_probs] (the [prange] of a function compiled without [parallel] is
    a plain loop); [max] of no lengths raises ValueError *)
Definition _estimate_probs (hit_lists : list (list F)) : result (list F) :=
  match map (@length F) hit_lists with
  | [] => Err ValueError
  | n :: ns =>
      let size := fold_left Nat.max ns n in
      let '(den, num) :=
        fold_left (fun dn hit_list =>
          fold_left (fun dn ih => (add_at (fst dn) (fst ih) fone, add_at (snd dn) (fst ih) (snd ih)))
                    (enumerate hit_list) dn)
          hit_lists (repeat fzero size, repeat fzero size) in
      Ok (map (fun nd => fdiv (fst nd) (snd nd)) (combine num den))
  end.
(** common.py 56-62; posfuse.py 88-89, slidefuse.py 98-99 *)
Definition estimate_probs (y : Qrels) (x : Run N) : Qrels * Run N * result (list F) :=
  let '(y', x', h) := train_hits y x in (y', x', do l <- h; _estimate_probs l).
Definition posfuse_train (y : Qrels) (xs : list (Run N)) := train_each estimate_probs y xs.
Definition slidefuse_train (y : Qrels) (xs : list (Run N)) := train_each estimate_probs y xs.

(** the hit lists of all runs, the qrels being listed once (probfuse.py 52-55, segfuse.py 40-43) *)
Definition all_hits (y : Qrels) (xs : list (Run N)) : Qrels * list (Run N) * result (list (list (list F))) :=
  let yq := Qrels_to_typed_list E y in
  train_each (fun y x => let xr := Run_to_typed_list E x in
                         (y, fst xr, get_hit_lists E (snd yq) (snd xr) 0 1)) (fst yq) xs.

(** probfuse.py 20-38: a negative number of segments fails in [np.zeros], no segments in the
    division.  [hit_list[start:end]] with 0 <= start. *)
Definition probfuse_segments (n_segments : Z) (hit_lists : list (list F)) : result (list F) :=
  if (n_segments <? 0)%Z then Err ValueError
  else if (n_segments =? 0)%Z && negb (length hit_lists =? 0) then Err ZeroDivisionError
  else
    let sums :=
      fold_left (fun sp hit_list =>
        let size := ceil_div (Z.of_nat (length hit_list)) n_segments in
        fold_left (fun sp k =>
          let segment := slice hit_list (Z.of_nat k * size) ((Z.of_nat k + 1) * size) in
          if length segment =? 0 then sp
          else add_at sp k (fdiv (fsum segment) (fnat (length segment))))
          (seq 0 (Z.to_nat n_segments)) sp)
        hit_lists (repeat fzero (Z.to_nat n_segments)) in
    Ok (map (fun p => fdiv p (fnat (length hit_lists))) sums).
(** probfuse.py 42-57, 135-136: one row per run, written in parallel *)
Definition probfuse_train (y : Qrels) (xs : list (Run N)) (n_segments : Z)
  : Qrels * list (Run N) * result (list (list F)) :=
  let '(y', xs', hs) := all_hits y xs in
  (y', xs', do l <- hs;
            if (n_segments <? 0)%Z then Err ValueError else
            prange_r (e_sched E "probfuse_train" (length l)) (length l) (repeat fzero (Z.to_nat n_segments))
              (fun i => do h <- nth_r l i; probfuse_segments n_segments h)).

(** segfuse.py 19-32 *)
Definition segfuse_segments (hit_lists : list (list F)) : result (list F) :=
  do sums <-
    foldr_m (fun sp hit_list =>
      foldr_m (fun sp k =>
        do s <- nth_r segment_sizes k; do e <- nth_r segment_sizes (k + 1);
        Ok (add_at sp k (fdiv (fsum (slice hit_list s e)) (fofZ (e - s)))))
        (seq 0 (length segment_sizes - 1)) sp)
      hit_lists (repeat fzero (length segment_sizes - 1));
  Ok (map (fun p => fdiv p (fnat (length hit_lists))) sums).
(** segfuse.py 35-45, 119-120 *)
Definition segfuse_train (y : Qrels) (xs : list (Run N)) : Qrels * list (Run N) * result (list (list F)) :=
  let '(y', xs', hs) := all_hits y xs in (y', xs', do l <- hs; map_m segfuse_segments l).

(** bayesfuse.py 83 *)
Definition bayes_cut_offs : list Z := [0; 5; 10; 15; 20; 30; 100; 200; 500; 1000]%Z.
(** bayesfuse.py 56-79: the literal 0.001 is [fdec 1 3] *)
Definition bayes_interval (hit_lists : list (list F)) (start end_ : Z) : F :=
  let avg := fold_left (fun avg hit_list =>
               fadd avg (fdiv (fdiv (fsum (slice hit_list start end_)) (fofZ (end_ - start))) (fnat (length hit_lists))))
             hit_lists fzero in
  let avg := if feqb avg fzero then fadd avg (fdec 1 3) else avg in
  let neg := fsub fone avg in
  let neg := if feqb neg fzero then fadd neg (fdec 1 3) else neg in
  fln (fdiv avg neg).
Definition _estimate_log_odds (cut_offs : list Z) (hit_lists : list (list F)) : result (list F) :=
  match cut_offs with
  | [] => Err ValueError
  | c :: cs =>
      let size := fold_left Z.max cs c in
      foldr_m (fun odds i =>
        do s <- nth_r cut_offs i; do e <- nth_r cut_offs (i + 1);
        Ok (fill odds s e (bayes_interval hit_lists s e)))
        (seq 0 (length cut_offs - 1)) (repeat fzero (Z.to_nat size))
  end.
(** bayesfuse.py 82-90, 162-163 *)
Definition bayesfuse_train (y : Qrels) (xs : list (Run N)) : Qrels * list (Run N) * result (list (list F)) :=
  train_each (fun y x => let '(y', x', h) := train_hits y x in
                         (y', x', do l <- h; _estimate_log_odds bayes_cut_offs l)) y xs.

(** mapfuse.py 89-90: [evaluate(qrels, run, "map")], which also saves the scores in the run *)
Definition mapfuse_train (y : Qrels) (xs : list (Run N)) : Qrels * list (Run N) * result (list F) :=
  train_each (fun y x =>
    let out := evaluate E (QObj y) (RObj x) ["map"] true false true false in
    (match ev_q out with QObj y' => y' | _ => y end, match ev_r out with RObj x' => x' | _ => x end,
     do o <- ev_res out; match o with OutOne (OMean v) => Ok v | _ => Err TypeError end)) y xs.

End Train.
