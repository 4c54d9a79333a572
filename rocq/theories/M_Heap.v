(** M_Heap.v: the same objects with their memory.  A Run or Qrels is an outer dictionary from query ids to
    *references* to inner dictionaries (numba typed dicts are reference types).  This file models which
    functions write into an inner dictionary in place, which allocate new ones and which hand out references,
    so that sharing between objects can be stated; the other model files work with values.

    Simplifications: the outer dictionary belongs to one object (no function stores it in another object; the
    attributes [run.run], [qrels.qrels] and the key views are not handed to the caller here).  Storage is never
    reused (garbage collection is not modelled). *)
From Verif Require Import Base Dict Num Env M_Common M_Qrels M_Run M_History M_Evaluate M_Norm M_Fusion.
Open Scope list_scope.

Section Heap.
Context {N : Num} (E : env N) {V : Type} (negf : V -> F).

(** all inner dictionaries created so far; a reference is a position *)
Definition heap := list (dict V).
Definition hmap := dict nat.
Definition hget (h : heap) (l : nat) : dict V := nth l h [].
(** an in-place update of an inner dictionary *)
Fixpoint hput (h : heap) (l : nat) (r : dict V) : heap :=
  match h, l with
  | [], _ => []
  | _ :: h', 0 => r :: h'
  | a :: h', S l' => a :: hput h' l' r
  end.
(** what an observer sees *)
Definition deref (h : heap) (m : hmap) : dict (dict V) := map (fun ql => (fst ql, hget h (snd ql))) m.

(** functions that build all inner dictionaries anew: [create_and_sort] (common.py 130-139, used by the
    constructors and from_dict), every normalisation (normalization, six files: [create_empty_results_dict] per query,
    convert_results_dict_list_to_run) and every fusion method (directory fusion, likewise) *)
Definition h_fresh (h : heap) (m : dict (dict V)) : heap * hmap :=
  (h ++ dvals m, combine (dkeys m) (seq (length h) (length m))).

(** qrels.py 101-106, run.py 89-94 [add_score]: [self.run[q_id][doc_id] = score] writes in place *)
Definition h_add_score (h : heap) (m : hmap) (q d : string) (s : V) : heap * hmap :=
  let '(h1, m1) := match dget m q with None => (h ++ [[]], dset m q (length h)) | Some _ => (h, m) end in
  match dget m1 q with
  | Some l => (hput h1 l (dset (hget h1 l) d s), m1)
  | None => (h1, m1)
  end.

(** qrels.py 152-156, run.py 136-140 [sort]: [sort_dict_by_key] (common.py 62-72) copies references,
    [sort_dict_of_dict_by_value] (88-96) replaces every inner dictionary by a new one *)
Definition h_sort (h : heap) (m : hmap) : heap * hmap :=
  let m1 := sort_dict_by_key m in
  let ls := seq (length h) (length (dvals m1)) in
  (h ++ map (fun l => sort_dict_by_value E negf (hget h l)) (dvals m1),
   fold_left (fun nd ik => match nth_error ls (fst ik) with Some l => dset nd (snd ik) l | None => nd end)
             (enumerate (dkeys m1)) []).

(** common.py 99-104 [add_bulk]: a new inner dictionary per query id *)
Fixpoint h_add_bulk_from (i : nat) (h : heap) (m : hmap) (q_ids : list string)
         (doc_ids : list (list string)) (scores : list (list V)) : heap * hmap * option exn :=
  match q_ids with
  | [] => (h, m, None)
  | q :: q_ids' =>
      match nth_error doc_ids i, nth_error scores i with
      | Some ds, Some ss =>
          match create_dict_from_lists ds ss with
          | Ok r => h_add_bulk_from (S i) (h ++ [r]) (dset m q (length h)) q_ids' doc_ids scores
          | Err e => (h, m, Some e)
          end
      | _, _ => (h, m, Some IndexError)
      end
  end.
(** common.py 107-116 [add_and_sort] *)
Definition h_add_and_sort (h : heap) (m : hmap) q_ids doc_ids scores : heap * hmap * option exn :=
  match h_add_bulk_from 0 h m q_ids doc_ids scores with
  | (h', m', Some e) => (h', m', Some e)
  | (h', m', None) => let '(h2, m2) := h_sort h' m' in (h2, m2, None)
  end.

(** run.py 142-154: the loops of [make_comparable] *)
Definition h_align (h : heap) (m : hmap) (qm : dict (dict Z)) : heap * hmap :=
  let '(h1, m1) := fold_left (fun (hm : heap * hmap) q => if dmem (snd hm) q then hm else (fst hm ++ [[]], dset (snd hm) q (length (fst hm))))
                             (dkeys qm) (h, m) in
  (h1, fold_left (fun acc q => if dmem qm q then acc else ddel acc q) (dkeys m1) m1).
End Heap.
Arguments heap : clear implicits.

Section HeapQrels.
Context {N : Num} (E : env N).
(** qrels.py 23-35 [_set_relevance_level]: writes in place *)
Definition h_set_level (h : heap Z) (m : hmap) (rel_lvl : Z) : heap Z :=
  let q_ids := dkeys m in
  fold_left
    (fun h i =>
       match nth_error q_ids i with
       | Some q =>
           match dget m q with
           | Some l => fold_left (fun h ds => hput h l (dset (hget h l) (fst ds) (snd ds - (rel_lvl - 1))%Z)) (hget h l) h
           | None => h
           end
       | None => h
       end)
    (e_sched E "_set_relevance_level" (length q_ids)) h.

Record hqrels := mkHQ { hq_map : hmap; hq_sorted : bool; hq_name : option string }.
Definition q_value (h : heap Z) (y : hqrels) : Qrels := mkQrels (deref h (hq_map y)) (hq_sorted y) (hq_name y).
Definition q_fresh (h : heap Z) (y : Qrels) : heap Z * hqrels :=
  let '(h', m) := h_fresh h (q_map y) in (h', mkHQ m (q_sorted y) (q_name y)).
(** the methods of Qrels (see M_History.qrels_step) *)
Definition hq_sort (h : heap Z) (y : hqrels) : heap Z * hqrels :=
  let '(h', m) := h_sort E q_negf h (hq_map y) in (h', mkHQ m true (hq_name y)).
Definition hq_add_multi (h : heap Z) (y : hqrels) qs dss sss : heap Z * hqrels :=
  match h_add_and_sort E q_negf h (hq_map y) qs dss sss with
  | (h', m, None) => (h', mkHQ m true (hq_name y))
  | (h', m, Some _) => (h', mkHQ m (hq_sorted y) (hq_name y))
  end.
Definition hq_step (h : heap Z) (y : hqrels) (o : qrels_op) : heap Z * hqrels :=
  match o with
  | QAddScore q d s => let '(h', m) := h_add_score h (hq_map y) q d s in (h', mkHQ m false (hq_name y))
  | QAdd q ds ss => hq_add_multi h y [q] [ds] [ss]
  | QAddMulti qs dss sss => hq_add_multi h y qs dss sss
  | QSort => hq_sort h y
  | QSetRelevanceLevel l => (h_set_level h (hq_map y) l, y)
  | QToTypedList => if hq_sorted y then (h, y) else hq_sort h y
  end.
End HeapQrels.

Section HeapRun.
Context {N : Num} (E : env N).
Record hrun := mkHR { hr_map : hmap; hr_sorted : bool; hr_name : option string; hr_scores : dict (dict F); hr_mean : dict F; hr_std : dict F }.
Definition r_value (h : heap F) (x : hrun) : Run N :=
  mkRun (deref h (hr_map x)) (hr_sorted x) (hr_name x) (hr_scores x) (hr_mean x) (hr_std x).
Definition r_fresh (h : heap F) (x : Run N) : heap F * hrun :=
  let '(h', m) := h_fresh h (r_map x) in (h', mkHR m (r_sorted x) (r_name x) (r_scores x) (r_mean x) (r_std x)).
Definition hr_with (x : hrun) (m : hmap) (s : bool) : hrun := mkHR m s (hr_name x) (hr_scores x) (hr_mean x) (hr_std x).
(** the methods of Run (see M_History.run_step) *)
Definition hr_sort (h : heap F) (x : hrun) : heap F * hrun :=
  let '(h', m) := h_sort E r_negf h (hr_map x) in (h', hr_with x m true).
Definition hr_add_multi (h : heap F) (x : hrun) qs dss sss : heap F * hrun :=
  match h_add_and_sort E r_negf h (hr_map x) qs dss sss with
  | (h', m, None) => (h', hr_with x m true)
  | (h', m, Some _) => (h', hr_with x m (hr_sorted x))
  end.
Definition hr_make_comparable (h : heap F) (x : hrun) (qm : dict (dict Z)) : heap F * hrun :=
  let '(h', m) := h_align h (hr_map x) qm in hr_sort h' (hr_with x m (hr_sorted x)).
Definition hr_step (h : heap F) (x : hrun) (o : run_op) : heap F * hrun :=
  match o with
  | RAddScore q d s => let '(h', m) := h_add_score h (hr_map x) q d s in (h', hr_with x m false)
  | RAdd q ds ss => hr_add_multi h x [q] [ds] [ss]
  | RAddMulti qs dss sss => hr_add_multi h x qs dss sss
  | RSort => hr_sort h x
  | RMakeComparable qr => hr_make_comparable h x (q_map qr)
  | RToTypedList => if hr_sorted x then (h, x) else hr_sort h x
  end.
End HeapRun.
Arguments hrun _ : clear implicits.

(** ** Programs with several objects *)
Section Machine.
Context {N : Num} (E : env N) (pysort : (nat -> nat -> bool) -> list nat -> list nat).

(** the memory, the objects and the references the program has obtained from [get_doc_ids_and_scores] *)
Record state := mkSt { rh : heap F; runs : list (hrun N); rviews : list nat;
                       qh : heap Z; qrelss : list hqrels; qviews : list nat }.
Definition start : state := mkSt [] [] [] [] [] [].
Inductive call :=
| NewRun (x : Run N)                     (* a constructor or reader returned a run with these contents *)
| NewQrels (y : Qrels)
| RunCall (i : nat) (o : run_op)          (* a method of run [i] *)
| QrelsCall (j : nat) (o : qrels_op)
| Align (i j : nat)                       (* runs[i].make_comparable(qrels[j]) *)
| Rename (i : nat) (name : option string)
| Normalize (i : nat) (norm : string)     (* appends the normalised run *)
| Fuse (is : list nat) (norm : option string) (method : string) (ps : params)
| Evaluate (j i : nat) (metrics : list string) (mean std save mk : bool)
| RunViews (i : nat)                      (* runs[i].get_doc_ids_and_scores(): run.py 131-133 *)
| QrelsViews (j : nat)                    (* qrels.py 147-149 *)
| RunWrite (v : nat) (d : string) (s : F) (* views[v][d] = s, by the program itself *)
| QrelsWrite (v : nat) (d : string) (s : Z).

Definition push_run (t : state) (x : Run N) : state :=
  let '(h, o) := r_fresh (rh t) x in mkSt h (runs t ++ [o]) (rviews t) (qh t) (qrelss t) (qviews t).
Definition set_run (t : state) (i : nat) (ho : heap F * hrun N) : state :=
  mkSt (fst ho) (set_nth (runs t) i (snd ho)) (rviews t) (qh t) (qrelss t) (qviews t).
Definition set_qrels (t : state) (j : nat) (ho : heap Z * hqrels) : state :=
  mkSt (rh t) (runs t) (rviews t) (fst ho) (set_nth (qrelss t) j (snd ho)) (qviews t).
Definition run_values (t : state) : list (Run N) := map (r_value (rh t)) (runs t).
Definition qrels_values (t : state) : list Qrels := map (q_value (qh t)) (qrelss t).

(** evaluate.py 134-169 on objects: make_comparable, then the check of the keys, then to_typed_list of both,
    then the scores are stored in attributes of the run *)
Definition h_evaluate (t : state) (j i : nat) (y : hqrels) (x : hrun N) metrics mean std save mk : state :=
  let out := evaluate E (QObj (q_value (qh t) y)) (RObj (r_value (rh t) x)) metrics mean std save mk in
  let '(h1, x1) := if mk then hr_make_comparable E (rh t) x (q_map (q_value (qh t) y)) else (rh t, x) in
  let t1 := set_run t i (h1, x1) in
  match check_keys (QObj (q_value (qh t) y)) (RObj (r_value h1 x1)) with
  | Err _ => t1
  | Ok _ =>
      let t2 := set_qrels t1 j (hq_step E (qh t) y QToTypedList) in
      let '(h2, x2) := hr_step E h1 x1 RToTypedList in
      match ev_r out with
      | RObj x' => set_run t2 i (h2, mkHR (hr_map x2) (hr_sorted x2) (r_name x') (r_scores x') (r_mean x') (r_std x'))
      | _ => t2
      end
  end.

Definition step (t : state) (c : call) : state :=
  match c with
  | NewRun x => push_run t x
  | NewQrels y => let '(h, o) := q_fresh (qh t) y in mkSt (rh t) (runs t) (rviews t) h (qrelss t ++ [o]) (qviews t)
  | RunCall i o => match nth_error (runs t) i with Some x => set_run t i (hr_step E (rh t) x o) | None => t end
  | QrelsCall j o => match nth_error (qrelss t) j with Some y => set_qrels t j (hq_step E (qh t) y o) | None => t end
  | Align i j => match nth_error (runs t) i, nth_error (qrelss t) j with
                 | Some x, Some y => set_run t i (hr_step E (rh t) x (RMakeComparable (q_value (qh t) y)))
                 | _, _ => t end
  | Rename i name => match nth_error (runs t) i with
                     | Some x => set_run t i (rh t, mkHR (hr_map x) (hr_sorted x) name (hr_scores x) (hr_mean x) (hr_std x))
                     | None => t end
  | Normalize i norm => match nth_error (runs t) i with
                        | Some x => match normalize E (r_value (rh t) x) norm with Ok y => push_run t y | Err _ => t end
                        | None => t end
  | Fuse is norm method ps =>
      match map_m (nth_r (run_values t)) is with
      | Ok xs => match fuse E pysort xs norm method ps with Ok y => push_run t y | Err _ => t end
      | Err _ => t
      end
  | Evaluate j i metrics mean std save mk =>
      match nth_error (qrelss t) j, nth_error (runs t) i with
      | Some y, Some x => h_evaluate t j i y x metrics mean std save mk
      | _, _ => t
      end
  | RunViews i => match nth_error (runs t) i with
                  | Some x => mkSt (rh t) (runs t) (rviews t ++ dvals (hr_map x)) (qh t) (qrelss t) (qviews t)
                  | None => t end
  | QrelsViews j => match nth_error (qrelss t) j with
                    | Some y => mkSt (rh t) (runs t) (rviews t) (qh t) (qrelss t) (qviews t ++ dvals (hq_map y))
                    | None => t end
  | RunWrite v d s => match nth_error (rviews t) v with
                      | Some l => mkSt (hput (rh t) l (dset (hget (rh t) l) d s)) (runs t) (rviews t) (qh t) (qrelss t) (qviews t)
                      | None => t end
  | QrelsWrite v d s => match nth_error (qviews t) v with
                        | Some l => mkSt (rh t) (runs t) (rviews t) (hput (qh t) l (dset (hget (qh t) l) d s)) (qrelss t) (qviews t)
                        | None => t end
  end.
Definition exec (p : list call) : state := fold_left step p start.
End Machine.
Arguments state _ : clear implicits.
Arguments call _ : clear implicits.
