(** Spec_Trec.v: lines, fields and integers of a text, as Python documents them *)
From Verif Require Import Base Dict Num M_Strings Spec_DS Spec_Strings Spec_IO.
Open Scope string_scope.
Open Scope list_scope.
Open Scope nat_scope.

(** white space only *)
Fixpoint blank (s : string) : Prop :=
  match s with EmptyString => True | String c s' => is_space c = true /\ blank s' end.
Definition starts_with_space (s : string) : Prop := exists c t, s = String c t /\ is_space c = true.

(** a decimal integer: digits with single underscores between them *)
Definition is_digit (c : ascii) (d : Z) : Prop := (48 <= nat_of_ascii c <= 57)%nat /\ d = (Z.of_nat (nat_of_ascii c) - 48)%Z.
Inductive digit_groups : string -> Z -> Prop :=
| one_digit c d : is_digit c d -> digit_groups (String c "") d
| next_digit s v c d : digit_groups s v -> is_digit c d -> digit_groups (s ++ String c "") (10 * v + d)
| next_group s v c d : digit_groups s v -> is_digit c d -> digit_groups (s ++ "_" ++ String c "") (10 * v + d).
(** what int() accepts: an optional sign, white space around it *)
Definition int_text (s : string) (v : Z) : Prop :=
  exists before sign body after n, s = (before ++ sign ++ body ++ after)%string /\ blank before /\ blank after /\ digit_groups body n /\
    ((sign = "" \/ sign = "+") /\ v = n \/ sign = "-" /\ v = (- n)%Z).

(** the fields of a line: maximal pieces without white space *)
Inductive fields : string -> list string -> Prop :=
| no_fields w : blank w -> fields w []
| next_field w f rest fs : blank w -> word f -> rest = "" \/ starts_with_space rest -> fields rest fs -> fields (w ++ f ++ rest) (f :: fs).

(** the lines of a text: LF, CR LF and CR end a line, the last one may go without *)
Definition LF : string := String (ascii_of_nat 10) "".
Definition CR : string := String (ascii_of_nat 13) "".
Definition no_break (s : string) : Prop := ~ char_in (ascii_of_nat 10) s /\ ~ char_in (ascii_of_nat 13) s.
Inductive lines_of : string -> list string -> Prop :=
| no_lines : lines_of "" []
| last_line l : l <> "" -> no_break l -> lines_of l [l]
| line_lf l t ls : no_break l -> lines_of t ls -> lines_of (l ++ LF ++ t) (l :: ls)
| line_crlf l t ls : no_break l -> lines_of t ls -> lines_of (l ++ CR ++ LF ++ t) (l :: ls)
| line_cr l t ls : no_break l -> (forall t', t <> (LF ++ t')%string) -> lines_of t ls -> lines_of (l ++ CR ++ t) (l :: ls).

(** a line of a qrels file: query, ignored, document, judgment *)
Definition judgment_line (line : string) (row : string * string * Z) : Prop :=
  let '(q, d, v) := row in exists it rel, fields line [q; it; d; rel] /\ int_text rel v.
(** a line of a run file: query, ignored, document, ignored, score, name; [read] is Python's float() *)
Definition score_line {F} (read : string -> result F) (line : string) (row : string * string * F) : Prop :=
  let '(q, d, v) := row in exists it rank s name, fields line [q; it; d; rank; s; name] /\ read s = Ok v.
Definition names_run (line name : string) : Prop := exists q it d rank s, fields line [q; it; d; rank; s; name].
