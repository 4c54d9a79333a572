(** M_Report.v: model of ranx/data_structures/report.py and of the labels of ranx/ranxhub.py *)
From Verif Require Import Base Dict Num Env M_Common M_Qrels M_Run M_Metrics M_Strings M_Text M_Evaluate M_Compare.
Open Scope string_scope.
Open Scope list_scope.
Open Scope nat_scope.

(** report.py 11-12: lists of one-character strings (UTF-8) *)
Definition chars : list string :=
  ["a"; "b"; "c"; "d"; "e"; "f"; "g"; "h"; "i"; "j"; "k"; "l"; "m"; "n"; "o"; "p"; "q"; "r"; "s"; "t"; "u"; "v"; "w"; "x"; "y"; "z"].
Definition super_chars : list string :=
  ["ᵃ"; "ᵇ"; "ᶜ"; "ᵈ"; "ᵉ"; "ᶠ"; "ᵍ"; "ʰ"; "ⁱ"; "ʲ"; "ᵏ"; "ˡ"; "ᵐ"; "ⁿ"; "ᵒ"; "ᵖ"; "۹"; "ʳ"; "ˢ"; "ᵗ"; "ᵘ"; "ᵛ"; "ʷ"; "ˣ"; "ʸ"; "ᶻ"].

(** report.py 14-31 *)
Definition metric_labels : dict string :=
  [("hits", "Hits"); ("hit_rate", "Hit Rate"); ("precision", "P"); ("recall", "Recall"); ("f1", "F1"); ("r-precision", "R-Prec");
   ("mrr", "MRR"); ("map", "MAP"); ("dcg", "DCG"); ("dcg_burges", "DCG Burges"); ("ndcg", "NDCG"); ("ndcg_burges", "NDCG Burges");
   ("bpref", "BPref")]
  ++ map (fun i => ("rbp." ++ str_int (Z.of_nat i), "RBP." ++ str_int (Z.of_nat i))%string) (seq 1 99).
(** report.py 33-37 *)
Definition stat_test_labels : dict string :=
  [("fisher", "Fisher's randomization test"); ("student", "paired Student's t-test"); ("tukey", "Tukey's HSD test")].
(** ranxhub.py 6-21 *)
Definition hub_metric_labels : dict string :=
  [("hits", "Hits"); ("hit_rate", "Hit Rate"); ("precision", "P"); ("recall", "Recall"); ("f1", "F1"); ("r-precision", "R-Prec");
   ("mrr", "MRR"); ("map", "MAP"); ("ndcg", "NDCG"); ("ndcg_burges", "NDCG Burges"); ("bpref", "BPref")]
  ++ map (fun i => ("rbp." ++ str_int (Z.of_nat i), "RBP." ++ str_int (Z.of_nat i))%string) (seq 1 99).

(** report.py 119-125 / 112-117 without the level *)
Definition label_cutoff (labels : dict string) (m : string) : result string :=
  if substr_in "@" m then
    let parts := split_on "@" m in
    do a <- nth_r parts 0; do label <- dget_r labels a; do cutoff <- nth_r parts 1;
    Ok (label ++ "@" ++ cutoff)%string
  else dget_r labels m.
(** report.py 109-125; unpacking a split that does not have two parts raises ValueError *)
Definition get_metric_label (m : string) : result string :=
  if substr_in "-l" m then
    match split_on "-l" m with
    | [m; rel_lvl] => do l <- label_cutoff metric_labels m; Ok (l ++ "-l" ++ rel_lvl)%string
    | _ => Err ValueError
    end
  else label_cutoff metric_labels m.
(** ranxhub.py 24-32 *)
Definition hub_get_metric_label (m : string) : result string :=
  if substr_in "-l" m then
    match split_on "-l" m with
    | [m; _] => label_cutoff hub_metric_labels m
    | _ => Err ValueError
    end
  else label_cutoff hub_metric_labels m.
(** report.py 127-128 *)
Definition get_stat_test_label (t : string) : result string := dget_r stat_test_labels t.

(** [s.replace(a, b)] for a non-empty [a]; [skip] as in split_go *)
Fixpoint replace_go (a b : string) (skip : nat) (s : string) : string :=
  match s with
  | EmptyString => EmptyString
  | String c s' =>
      match skip with
      | S k => replace_go a b k s'
      | O => if prefixb a s then (b ++ replace_go a b (String.length a - 1) s')%string else String c (replace_go a b 0 s')
      end
  end.
Definition str_replace (a b s : string) : string := replace_go a b 0 s.
(** [sep.join(l)] *)
Definition str_join (sep : string) (l : list string) : string := String.concat sep l.

Section Report.
Context {N : Num}.
(** Python's [round(x, digits)], ["%.nf" % x] and [str(x)] of floats are parameters *)
Record format := Format { f_round : @F N -> Z -> @F N; f_fixed : Z -> @F N -> string; f_str : @F N -> string }.
Context (fm : format) (rp : report N).

(** report.py 92-97; a negative precision is no valid format *)
Definition fixed (n : Z) (x : F) : result string := if (n <? 0)%Z then Err ValueError else Ok (f_fixed fm n x).
Definition format_score (score : F) : result string :=
  if rp_percent rp then fixed (rp_digits rp - 2) (f_round fm (fmul score (fofZ 100)) (Z.max 0 (rp_digits rp - 2)))
  else fixed (rp_digits rp) (f_round fm score (rp_digits rp)).

(** [self.results[model][metric]], [self.comparisons[model, _model][metric]["significant"]] *)
Definition result_of (model metric : string) : result F := do d <- dget_r (rp_results rp) model; dget_r d metric.
Definition comparison_of (m1 m2 metric : string) : result (F * bool) :=
  do d <- fsd_get (rp_comparisons rp) [m1; m2]; do s <- dget_r d metric;
  match s with Some ps => Ok ps | None => Err TypeError end.
(** report.py 104-105 and 157-158 ([and] stops at the first false operand) *)
Definition beats (model _model metric : string) : result bool :=
  do ps <- comparison_of model _model metric;
  if snd ps then do a <- result_of model metric; do b <- result_of _model metric; Ok (fltb b a) else Ok false.
(** report.py 99-107, 151-161, 163-179: letters of the other models selected by [keep] *)
Definition letters (alphabet : list string) (keep : bool -> bool) (model metric : string) : result string :=
  do ls <- map_m (fun jm => if String.eqb model (snd jm) then Ok ""
                            else do b <- beats model (snd jm) metric;
                                 if keep b then nth_r alphabet (fst jm) else Ok "")
                 (enumerate (rp_names rp));
  Ok (str_join "" ls).
Definition get_superscript_for_table := letters super_chars (fun b => b).
Definition get_superscript_for_latex := letters chars (fun b => b).
Definition get_phantoms_for_latex := letters chars negb.

(** report.py 130-149: headers and rows handed to [tabulate], whose layout is not modelled *)
Definition table_row (irv : nat * (string * dict F)) : result (list string) :=
  let '(i, (run, v)) := irv in
  do c <- nth_r chars i;
  do cells <- map_m (fun ms => do f <- format_score (snd ms); do s <- get_superscript_for_table run (fst ms); Ok (f ++ s)%string) v;
  Ok (c :: run :: cells).
Definition to_table : result (list string * list (list string)) :=
  do rows <- map_m table_row (enumerate (rp_results rp));
  do labels <- map_m get_metric_label (rp_metrics rp);
  Ok ("#" :: "Model" :: labels, rows).

(** report.py 187-196: the model in boldface *)
Definition best_model (m : string) : result (option string) :=
  do bs <- foldr_m (fun (st : option string * F) model =>
                      do s <- result_of model m;
                      let r := f_round fm s (rp_digits rp) in
                      if fltb (snd st) r then Ok (Some model, r) else Ok st)
                   (rp_names rp) (None, fzero);
  Ok (fst bs).
(** report.py 221-239: one cell and one row; [scores[-1]] raises IndexError without metrics *)
Definition latex_cell (best : option string) (model m : string) : result string :=
  do s <- result_of model m; do score <- format_score s;
  let score := if (match best with Some b => String.eqb b model | None => false end) then ("\textbf{" ++ score ++ "}")%string else score in
  do sup <- get_superscript_for_latex model m;
  do ph <- get_phantoms_for_latex model m;
  Ok (score ++ "$^{" ++ sup ++ "}$\hphantom{$^{" ++ ph ++ "}$} &")%string.
Definition drop_last_char (s : string) : string := String.substring 0 (String.length s - 1) s.
Definition nl : string := String (ascii_of_nat 10) EmptyString.
Definition latex_row (bests : dict (option string)) (im : nat * string) : result string :=
  do c <- nth_r chars (fst im);
  do cells <- map_m (fun m => do b <- dget_r bests m; latex_cell b (snd im) m) (rp_metrics rp);
  match rev cells with
  | [] => Err IndexError
  | lastc :: before =>
      Ok (c ++ " &" ++ nl ++ snd im ++ " &" ++ nl ++ str_join nl (rev before ++ [drop_last_char lastc]) ++ "\\")%string
  end.
(** report.py 181-251 *)
Definition latex_preamble : string :=
  "========================" ++ nl ++ "% Add in preamble" ++ nl ++ "\usepackage{graphicx}" ++ nl ++ "\usepackage{booktabs}" ++ nl
  ++ "========================" ++ nl ++ nl.
Definition latex_prefix (test : string) (max_p : string) (labels : list string) : string :=
  "% To change the table size, act on the resizebox argument `0.8`." ++ nl ++ "\begin{table*}[ht]" ++ nl ++ "\centering" ++ nl
  ++ "\caption{" ++ nl ++ "Overall effectiveness of the models." ++ nl ++ "The best results are highlighted in boldface." ++ nl
  ++ "Superscripts denote significant differences in " ++ test ++ " with $p \le " ++ max_p ++ "$." ++ nl ++ "}" ++ nl
  ++ "\resizebox{0.8\textwidth}{!}{" ++ nl ++ "\begin{tabular}{c|l" ++ String.concat "" (map (fun _ => "|c") labels) ++ "}" ++ nl
  ++ "\toprule" ++ nl ++ "\textbf{\#}" ++ nl ++ "& \textbf{Model}"
  ++ String.concat "" (map (fun l => (nl ++ "& \textbf{" ++ l ++ "}")%string) labels) ++ " \\ " ++ nl ++ "\midrule".
Definition latex_suffix : string :=
  "\bottomrule" ++ nl ++ "\end{tabular}" ++ nl ++ "}" ++ nl ++ "\label{tab:results}" ++ nl ++ "\end{table*}".
Definition to_latex : result string :=
  do bests <- foldr_m (fun d m => do b <- best_model m; Ok (dset d m b)) (rp_metrics rp) [];
  do test <- get_stat_test_label (rp_test rp);
  do labels <- map_m get_metric_label (rp_metrics rp);
  do rows <- map_m (latex_row bests) (enumerate (rp_names rp));
  Ok (latex_preamble ++ nl ++ latex_prefix test (f_str fm (rp_max_p rp)) labels ++ nl
      ++ str_replace "$^{}$" "" (str_replace "_" "\_" (str_join nl rows)) ++ nl ++ latex_suffix)%string.

(** report.py 253-321 *)
Record model_entry := Entry {
  en_scores : dict (@F N);
  en_comparisons : dict (dict (@F N));
  en_wtl : dict (dict wtl)
}.
Inductive rvalue := RString (s : string) | RList (l : list string) | RModel (e : model_entry).
Definition entry_of (m1 : string) : result model_entry :=
  do sc <- dget_r (rp_results rp) m1;
  do cw <- foldr_m (fun (cw : dict (dict F) * dict (dict wtl)) m2 =>
    if String.eqb m1 m2 then Ok cw
    else
      do cw' <- foldr_m (fun (cw' : dict F * dict wtl) metric =>
              do ps <- comparison_of m1 m2 metric;
              do d <- kget_r (rp_wtl rp) [m1; m2]; do w <- dget_r d metric;
              Ok (dset (fst cw') metric (fst ps), dset (snd cw') metric w))
              (rp_metrics rp) ([], []);
      Ok (dset (fst cw) m2 (fst cw'), dset (snd cw) m2 (snd cw')))
    (rp_names rp) ([], []);
  Ok (Entry sc (fst cw) (snd cw)).
Definition to_dict : result (dict rvalue) :=
  foldr_m (fun d m1 => do e <- entry_of m1; Ok (dset d m1 (RModel e)))
          (rp_names rp) [("stat_test", RString (rp_test rp)); ("metrics", RList (rp_metrics rp)); ("model_names", RList (rp_names rp))].
(** report.py 323-338: one row per model: its name and its scores.  [report_dict["model_names"]] is a
    dict of a model if a model has that name: iterating yields "scores", "comparisons",
    "win_tie_loss", and looking these up fails unless models have these names. *)
Definition to_dataframe : result (list (string * dict F)) :=
  do d <- to_dict;
  do v <- dget_r d "model_names";
  let names := match v with RList l => l | RString _ => [] | RModel _ => ["scores"; "comparisons"; "win_tie_loss"] end in
  do rows <- map_m (fun name => do v <- dget_r d name;
                                match v with RModel e => Ok (name, en_scores e) | _ => Err TypeError end) names;
  Ok (dict_of_list rows).
End Report.
Arguments format _ : clear implicits.
Arguments model_entry _ : clear implicits.
Arguments rvalue _ : clear implicits.
