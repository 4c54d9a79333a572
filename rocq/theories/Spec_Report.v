(** Spec_Report.v: what the tables of a report are supposed to show *)
From Coq Require Import Sorted.
From Verif Require Import Base Dict Num Env M_Common M_Qrels M_Run M_Metrics M_Strings M_Text M_Evaluate M_Compare M_Report.
Open Scope string_scope.
Open Scope list_scope.
Open Scope nat_scope.

(** [model] has a strictly higher mean than [other], and the difference is significant *)
Definition outperforms {N : Num} (rp : report N) (model other metric : string) : Prop :=
  exists e p a b, fsd_get (rp_comparisons rp) [model; other] = Ok e /\ dget e metric = Some (Some (p, true)) /\
    dget2 (rp_results rp) model metric = Some a /\ dget2 (rp_results rp) other metric = Some b /\ fltb b a = true.

(** [s] consists of the letters of the models at the positions [js], in ascending order *)
Definition letters_of (alphabet : list string) (js : list nat) (s : string) : Prop :=
  StronglySorted lt js /\ Forall (fun j => j < length alphabet) js /\ s = String.concat "" (map (fun j => nth j alphabet "") js).

(** [s] marks exactly the other models satisfying [P], by the letters of their positions *)
Definition marks {N : Num} (rp : report N) (alphabet : list string) (model : string) (P : string -> Prop) (s : string) : Prop :=
  exists js, letters_of alphabet js s /\
    forall j, In j js <-> exists other, nth_error (rp_names rp) j = Some other /\ other <> model /\ P other.

(** the text of a mean: rounded to and printed with [digits] decimals, or as a percentage, multiplied by
    100, with two decimals less *)
Definition shown_score {N : Num} (fm : format N) (rp : report N) (v : F) (s : string) : Prop :=
  if rp_percent rp
  then (2 <= rp_digits rp)%Z /\ s = f_fixed fm (rp_digits rp - 2) (f_round fm (fmul v (fofZ 100)) (rp_digits rp - 2))
  else (0 <= rp_digits rp)%Z /\ s = f_fixed fm (rp_digits rp) (f_round fm v (rp_digits rp)).

(** [r] is the rounded mean of a model *)
Definition rounded_mean {N : Num} (fm : format N) (rp : report N) (m model : string) (r : F) : Prop :=
  exists s, dget2 (rp_results rp) model m = Some s /\ r = f_round fm s (rp_digits rp).
(** [a] has the highest rounded mean, which is positive, and is the first model that has it *)
Definition is_best {N : Num} (fm : format N) (rp : report N) (m a : string) : Prop :=
  exists i r, nth_error (rp_names rp) i = Some a /\ rounded_mean fm rp m a r /\ fltb fzero r = true /\
    (forall b t, In b (rp_names rp) -> rounded_mean fm rp m b t -> fltb r t = false) /\
    (forall j b t, j < i -> nth_error (rp_names rp) j = Some b -> rounded_mean fm rp m b t -> is_nan t = false -> fltb t r = true).

(** a cell of the text table *)
Definition table_cell {N : Num} (fm : format N) (rp : report N) (model m cell : string) : Prop :=
  exists v f sup, dget2 (rp_results rp) model m = Some v /\ shown_score fm rp v f /\
    marks rp super_chars model (fun other => outperforms rp model other m) sup /\ cell = (f ++ sup)%string.
(** a cell and a row of the LaTeX table *)
Definition cell_shows {N : Num} (fm : format N) (rp : report N) (model m cell : string) : Prop :=
  exists v f sup ph, dget2 (rp_results rp) model m = Some v /\ shown_score fm rp v f /\
    marks rp chars model (fun other => outperforms rp model other m) sup /\
    marks rp chars model (fun other => ~ outperforms rp model other m) ph /\
    (is_best fm rp m model /\ cell = ("\textbf{" ++ f ++ "}$^{" ++ sup ++ "}$\hphantom{$^{" ++ ph ++ "}$} ")%string \/
     ~ is_best fm rp m model /\ cell = (f ++ "$^{" ++ sup ++ "}$\hphantom{$^{" ++ ph ++ "}$} ")%string).
Definition row_shows {N : Num} (fm : format N) (rp : report N) (i : nat) (model row : string) : Prop :=
  exists c cells, nth_error chars i = Some c /\ Forall2 (cell_shows fm rp model) (rp_metrics rp) cells /\
    row = (c ++ " &" ++ nl ++ model ++ " &" ++ nl ++ String.concat ("&" ++ nl) cells ++ "\\")%string.

(** ** The LaTeX document *)
(** [t] is [s] with every occurrence of [a] (read from the left, without overlaps) replaced by [b] *)
Inductive replaced (a b : string) : string -> string -> Prop :=
| replaced_end : replaced a b "" ""
| replaced_here s t : replaced a b s t -> replaced a b (a ++ s) (b ++ t)
| replaced_skip c s t : (forall u, String c s <> (a ++ u)%string) -> replaced a b s t -> replaced a b (String c s) (String c t).
(** how the tests are called in the caption *)
Definition test_names : list (string * string) :=
  [("fisher", "Fisher's randomization test"); ("student", "paired Student's t-test"); ("tukey", "Tukey's HSD test")].
(** the lines around the rows; [body] are the rows *)
Definition latex_document (test max_p : string) (labels : list string) (body : string) : string :=
  String.concat nl
    ["========================"; "% Add in preamble"; "\usepackage{graphicx}"; "\usepackage{booktabs}"; "========================"; ""; "";
     "% To change the table size, act on the resizebox argument `0.8`.";
     "\begin{table*}[ht]"; "\centering"; "\caption{"; "Overall effectiveness of the models."; "The best results are highlighted in boldface.";
     ("Superscripts denote significant differences in " ++ test ++ " with $p \le " ++ max_p ++ "$.")%string; "}";
     "\resizebox{0.8\textwidth}{!}{"; ("\begin{tabular}{c|l" ++ String.concat "" (map (fun _ => "|c") labels) ++ "}")%string; "\toprule"; "\textbf{\#}";
     (String.concat nl ("& \textbf{Model}" :: map (fun l => ("& \textbf{" ++ l ++ "}")%string) labels) ++ " \\ ")%string; "\midrule";
     body;
     "\bottomrule"; "\end{tabular}"; "}"; "\label{tab:results}"; "\end{table*}"].
