(** M_Strings.v: the Python string functions used by ranx.  Strings are byte strings
    (UTF-8); white space and digits are the ASCII ones (Python also accepts other
    Unicode white space and digits; simplification). *)
From Verif Require Import Base.
Open Scope string_scope.
Open Scope list_scope.
Open Scope nat_scope.

(** [s.startswith(p)] *)
Fixpoint prefixb (p s : string) : bool :=
  match p, s with
  | EmptyString, _ => true
  | String a p', String b s' => Ascii.eqb a b && prefixb p' s'
  | _, _ => false
  end.

(** [p in s] *)
Fixpoint substr_in (p s : string) : bool :=
  prefixb p s || match s with String _ s' => substr_in p s' | EmptyString => false end.

(** [s.split(sep)] for a non-empty separator: leftmost non-overlapping matches.
    [skip] counts the characters of the current match still to be dropped. *)
Fixpoint split_go (sep : string) (skip : nat) (acc s : string) : list string :=
  match s with
  | EmptyString => [acc]
  | String c s' =>
      match skip with
      | S k => split_go sep k acc s'
      | O => if prefixb sep s then acc :: split_go sep (String.length sep - 1) EmptyString s'
             else split_go sep 0 (acc ++ String c EmptyString)%string s'
      end
  end.
Definition split_on (sep s : string) : list string := split_go sep 0 EmptyString s.

(** ASCII white space in the sense of [str.isspace] *)
Definition is_space (c : ascii) : bool :=
  let n := nat_of_ascii c in ((9 <=? n) && (n <=? 13)) || ((28 <=? n) && (n <=? 32)).

(** [s.split()]: maximal runs of non-space characters *)
Fixpoint words_go (acc s : string) : list string :=
  match s with
  | EmptyString => match acc with EmptyString => [] | _ => [acc] end
  | String c s' =>
      if is_space c then match acc with EmptyString => words_go EmptyString s'
                                   | _ => acc :: words_go EmptyString s' end
      else words_go (acc ++ String c EmptyString)%string s'
  end.
Definition words (s : string) : list string := words_go EmptyString s.

(** [s.lstrip()], [s.rstrip()], [s.strip()] *)
Fixpoint lstrip (s : string) : string :=
  match s with
  | String c s' => if is_space c then lstrip s' else s
  | EmptyString => EmptyString
  end.
Fixpoint rstrip (s : string) : string :=
  match s with
  | EmptyString => EmptyString
  | String c s' => match rstrip s' with
                   | EmptyString => if is_space c then EmptyString else String c EmptyString
                   | t => String c t
                   end
  end.
Definition strip (s : string) : string := lstrip (rstrip s).

Definition digit_of (c : ascii) : option Z :=
  let n := nat_of_ascii c in
  if (48 <=? n) && (n <=? 57) then Some (Z.of_nat (n - 48)) else None.

(** Digits with single underscores between them, read from the left: returns the value,
    the number of digits and the unread rest.  [prev] tells whether a digit precedes. *)
Fixpoint read_digits (prev : bool) (acc : Z) (n : nat) (s : string) : option (Z * nat * string) :=
  match s with
  | EmptyString => if prev then Some (acc, n, EmptyString) else None
  | String c s' =>
      match digit_of c with
      | Some d => read_digits true (10 * acc + d) (S n) s'
      | None => if Ascii.eqb c "_" && prev then read_digits false acc n s'
                else if prev then Some (acc, n, s) else None
      end
  end.

(** [int(s)] on a str (base 10): optional sign, digits; anything else is a ValueError.
    (CPython's 4300 digit limit is not modelled.) *)
Definition parse_nat (s : string) : option Z :=
  match read_digits false 0 0 s with
  | Some (v, _, EmptyString) => Some v
  | _ => None
  end.
Definition parse_signed (s : string) : option Z :=
  match s with
  | String c s' => if Ascii.eqb c "-" then option_map Z.opp (parse_nat s')
                   else if Ascii.eqb c "+" then parse_nat s'
                   else parse_nat s
  | EmptyString => None
  end.
Definition py_int (s : string) : result Z :=
  match parse_signed (strip s) with
  | Some z => Ok z
  | None => Err ValueError
  end.
