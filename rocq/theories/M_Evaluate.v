(** M_Evaluate.v: model of ranx/meta/evaluate.py and of ranx/utils.py 11-42. *)
From Verif Require Import Base Dict Num Env M_Common M_Qrels M_Run M_Metrics M_Strings.
Open Scope string_scope.
Open Scope list_scope.
Open Scope nat_scope.

Section Evaluate.
Context {N : Num} (E : env N).

(** [float("0." + s)] (evaluate.py 34): a decimal fraction with optional exponent.
    [float("0.")] is 0.0.  The decimal m * 10^x is rounded once. *)
Definition dec_value (m : Z) (x : Z) : F :=
  fdec (m * 10 ^ Z.max 0 x)%Z (Z.to_nat (Z.max 0 (- x))).
Definition float_frac (s : string) : result F :=
  match rstrip s with
  | EmptyString => Ok (fdec 0 0)
  | s' =>
      let mant := match read_digits false 0 0 s' with
                  | Some r => Some r
                  | None => match s' with           (* "0.e5" has no fraction digits *)
                            | String c _ => if Ascii.eqb c "e" || Ascii.eqb c "E" then Some (0%Z, 0, s') else None
                            | _ => None
                            end
                  end in
      match mant with
      | Some (m, n, EmptyString) => Ok (dec_value m (- Z.of_nat n))
      | Some (m, n, String c ex) =>
          if Ascii.eqb c "e" || Ascii.eqb c "E" then
            match parse_signed ex with
            | Some x => Ok (dec_value m (x - Z.of_nat n))
            | None => Err ValueError
            end
          else Err ValueError
      | None => Err ValueError
      end
  end.

(** evaluate.py 19-40 [extract_metric_and_params].  Unpacking a split that does not have
    two parts raises ValueError. *)
Definition extract_metric_and_params (metric : string) : result (string * karg * Z) :=
  do ml <- (if substr_in "-l" metric then
              match split_on "-l" metric with
              | [m; l] => Ok (m, Some l)
              | _ => Err ValueError
              end
            else Ok (metric, None));
  let metric := fst ml in
  do mk <- (if substr_in "rbp" metric then
              do parts <- (if substr_in "." metric then Ok (split_on "." metric)
                           else if substr_in "@" metric then Ok (split_on "@" metric)
                           else Err ValueError);
              do m <- nth_r parts 0;
              do k <- nth_r parts 1;
              do p <- float_frac k;
              Ok (m, KFloat p)
            else
              let parts := split_on "@" metric in
              do m <- nth_r parts 0;
              do k <- match parts with
                      | _ :: k :: _ => py_int k
                      | _ => Ok 0%Z
                      end;
              Ok (m, KInt k));
  do l <- match snd ml with Some l => py_int l | None => Ok 1%Z end;
  Ok (fst mk, snd mk, l).

(** utils.py 11-13 [descending_sort]: [x[np.argsort(x[:, 1])[::-1]]] *)
Definition descending_sort (x : rows) : rows :=
  map (fun i => nth i x (0%Z, fzero)) (rev (e_argsort E (map snd x))).

(** utils.py 16-42 [python_dict_to_typed_list(x, sort=True)].  A query without documents
    gives a one-dimensional array, and an empty dict an untyped list: numba rejects both
    (TypingError, here TypeError).  Scores are converted to float64 by numpy. *)
Definition python_dict_to_typed_list (x : dict (dict F)) : result (list rows) :=
  if (length x =? 0) || existsb (fun r => length r =? 0) (dvals x) then Err TypeError
  else
    let out := map (to_rows E (fun v => v)) (dvals x) in
    Ok (fold_left (fun acc i => match nth_error acc i with
                                | Some r => set_nth acc i (descending_sort r)
                                | None => acc
                                end)
                  (e_sched E "descending_sort_parallel" (length out)) out).

(** The arguments [qrels] and [run] of evaluate (annotations, evaluate.py 66-77): an
    object, a plain dict, a subclass of dict (e.g. defaultdict), or a numba typed list.
    Judgments of a dict may be any number. *)
Inductive qarg :=
| QObj (q : Qrels) | QDict (d : dict (dict F)) | QSubDict (d : dict (dict F)) | QTyped (l : list rows).
Inductive rarg :=
| RObj (r : Run N) | RDict (d : dict (dict F)) | RSubDict (d : dict (dict F)) | RTyped (l : list rows).

(** evaluate.py 43-56 [convert_qrels], [convert_run]; objects are sorted in place. *)
Definition convert_qrels (q : qarg) : qarg * result (list rows) :=
  match q with
  | QObj x => let '(x', l) := Qrels_to_typed_list E x in (QObj x', Ok l)
  | QDict d => (q, python_dict_to_typed_list d)
  | QSubDict d => (q, python_dict_to_typed_list d)
  | QTyped l => (q, Ok l)
  end.
Definition convert_run (r : rarg) : rarg * result (list rows) :=
  match r with
  | RObj x => let '(x', l) := Run_to_typed_list E x in (RObj x', Ok l)
  | RDict d => (r, python_dict_to_typed_list d)
  | RSubDict d => (r, python_dict_to_typed_list d)
  | RTyped l => (r, Ok l)
  end.

(** evaluate.py 134-135 with [check_keys] (59-62); [type(x) in [..]] is exact *)
Definition check_keys (q : qarg) (r : rarg) : result unit :=
  match q, r with
  | QObj x, RObj y => assertr (keys_eqb (q_map x) (r_map y))
  | QObj x, RDict y => assertr (keys_eqb (q_map x) y)
  | QDict x, RObj y => assertr (keys_eqb x (r_map y))
  | QDict x, RDict y => assertr (keys_eqb x y)
  | _, _ => Ok tt
  end.

(** What is returned for one metric: the array, the mean, or mean and std. *)
Inductive outval := OArr (l : list F) | OMean (m : F) | OStats (mean std : F).
Inductive outcome := OutOne (v : outval) | OutDict (d : dict outval).

(** The caller's objects after the call, and the returned value or exception. *)
Record eval_out := EvalOut { ev_q : qarg; ev_r : rarg; ev_res : result outcome }.

(** evaluate.py 143-146: the scores per metric string; the first component is the value
    of the loop variable [m] after the loop. *)
Definition compute_scores (tq tr : list rows) (metrics : list string)
  : result (string * dict (list F)) :=
  foldr_m (fun st metric =>
             do mkl <- extract_metric_and_params metric;
             let '(m, k, lvl) := mkl in
             do f <- metric_switch E m;
             do s <- f tq tr k lvl;
             Ok (m, dset (snd st) metric s))
          metrics ("", []).

(** evaluate.py 150-155: one iteration of the saving loop.  [run.scores] is a
    defaultdict(dict).  When [scores[i]] is out of range the earlier stores remain. *)
Fixpoint save_queries (sm : dict F) (i : nat) (qs : list string) (scores : list F)
  : dict F * option exn :=
  match qs with
  | [] => (sm, None)
  | q :: qs' => match nth_error scores i with
                | Some s => save_queries (dset sm q s) (S i) qs' scores
                | None => (sm, Some IndexError)
                end
  end.
Definition save_metric (return_std : bool) (x : Run N) (m : string) (scores : list F)
  : Run N * option exn :=
  let old := match dget (r_scores x) m with Some s => s | None => [] end in
  let '(sm, e) := save_queries old 0 (dkeys (r_map x)) scores in
  (mkRun (r_map x) (r_sorted x) (r_name x)
         (match dkeys (r_map x), scores with
          | _ :: _, _ :: _ => dset (r_scores x) m sm
          | _, _ => r_scores x
          end)
         (dset (r_mean x) m (fmean scores))
         (if return_std then dset (r_std x) m (fstd scores) else r_std x), e).
Fixpoint save_results (return_std : bool) (x : Run N) (d : dict (list F)) : Run N * option exn :=
  match d with
  | [] => (x, None)
  | (m, scores) :: d' =>
      match save_metric return_std x m scores with
      | (x', None) => save_results return_std x' d'
      | (x', Some e) => (x', Some e)
      end
  end.

(** the loop variable [m] after [for m, scores in d.items()] *)
Definition last_key {V} (d : dict V) (m : string) : string :=
  fold_left (fun _ kv => fst kv) d m.

(** evaluate.py 158-167 *)
Definition summarise (return_mean return_std : bool) (scores : list F) : outval :=
  if return_mean then if return_std then OStats (fmean scores) (fstd scores) else OMean (fmean scores)
  else OArr scores.

(** evaluate.py 65-169 [evaluate] (a single metric string is a list of one, 13-16; the
    thread count only affects the schedule, which is a parameter of the environment). *)
Definition evaluate (q : qarg) (r : rarg) (metrics : list string)
           (return_mean return_std save_results_in_run make_comparable : bool) : eval_out :=
  let return_std := if return_mean then return_std else false in
  let r := if make_comparable then
             match q, r with QObj x, RObj y => RObj (Run_make_comparable E y x) | _, _ => r end
           else r in
  match check_keys q r with
  | Err e => EvalOut q r (Err e)
  | Ok _ =>
  match convert_qrels q with
  | (q, Err e) => EvalOut q r (Err e)
  | (q, Ok tq) =>
  match convert_run r with
  | (r, Err e) => EvalOut q r (Err e)
  | (r, Ok tr) =>
  match compute_scores tq tr metrics with
  | Err e => EvalOut q r (Err e)
  | Ok (m, d) =>
  let '(r, m, e) :=
     match r with
     | RObj x => if save_results_in_run
                 then let '(x', e) := save_results return_std x d in (RObj x', last_key d m, e)
                 else (r, m, None)
     | _ => (r, m, None)
     end in
  match e with
  | Some e => EvalOut q r (Err e)
  | None =>
  let m := if return_mean then last_key d m else m in
  let out := map (fun kv => (fst kv, summarise return_mean return_std (snd kv))) d in
  EvalOut q r (if length metrics =? 1 then do v <- dget_r out m; Ok (OutOne v) else Ok (OutDict out))
  end end end end end.

End Evaluate.
