(** M_Plot.v: model of ranx/meta/plot.py 12-54 [plot] with [return_graph=False] (the data drawn).

    Simplifications: the drawing itself (lines 56-70) is not modelled; the list of runs is a list of
    values (a run that occurs twice is sorted twice, which changes nothing); no judged query at all is
    not given a meaning (numpy warns and computes nan). *)
From Verif Require Import Base Dict Num Env M_Common M_Qrels M_Run M_Metrics M_Text M_Optimize.
Open Scope string_scope.
Open Scope list_scope.
Open Scope nat_scope.

Section Plot.
Context {N : Num} (E : env N).

(** plot.py 28-37: [runs] is a list of runs or one run *)
Inductive plot_runs := PlotMany (xs : list (Run N)) | PlotOne (x : Run N).
Definition plot_list (a : plot_runs) : list (Run N) := match a with PlotMany xs => xs | PlotOne x => [x] end.
Definition plot_names (a : plot_runs) : list string :=
  match a with
  | PlotMany xs => map (fun ix => match r_name (snd ix) with Some n => n | None => "run_" ++ str_int (Z.of_nat (fst ix + 1)) end)%string (enumerate xs)
  | PlotOne x => [match r_name x with Some n => n | None => "run" end]
  end.

(** [.mean(axis=0)] of an array with 11 columns (plot.py 40) *)
Definition column_means (scores : list (list F)) : list F :=
  map (fun j => fmean (map (fun row => nth j row fzero) scores)) (seq 0 11).

(** plot.py 24-54: the judgments and the runs afterwards (sorted in place), and the rows
    (Model, recall, precision) of the data frame or the exception.  [np.concatenate] of no arrays and
    columns of different lengths raise ValueError. *)
Definition plot (y : Qrels) (a : plot_runs) : Qrels * list (Run N) * result (list (string * F * F)) :=
  let yq := Qrels_to_typed_list E y in
  let xr := map (Run_to_typed_list E) (plot_list a) in
  (fst yq, map fst xr,
   do results <- map_m (fun r => do s <- interpolated_precision_at_recall E (snd yq) (snd r) 1; Ok (column_means s)) xr;
   do recall <- arange fzero (fdec 11 1) (fdec 1 1);
   let models := concat (map (fun n => repeat n 11) (plot_names a)) in
   match results with
   | [] => Err ValueError
   | _ :: _ =>
       let recalls := concat (repeat recall (length results)) in
       let precisions := concat results in
       if (length models =? length recalls) && (length recalls =? length precisions)
       then Ok (combine (combine models recalls) precisions)
       else Err ValueError
   end).
End Plot.
Arguments plot_runs _ : clear implicits.
