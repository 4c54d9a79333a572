(** M_Text.v: Python's text of numbers, as far as the modelled code uses it *)
From Coq Require Import DecimalString.
From Verif Require Import Base Num.
Open Scope string_scope.

(** [str(n)] / [f"{n}"] of an int *)
Definition str_int (z : Z) : string := NilZero.string_of_int (Z.to_int z).

(** [s.find(c)] for one character: index of the first occurrence, or -1 *)
Fixpoint find_char (c : ascii) (s : string) (i : Z) : Z :=
  match s with
  | EmptyString => (-1)%Z
  | String a s' => if Ascii.eqb a c then i else find_char c s' (i + 1)
  end.
(** [s[::-1]] *)
Fixpoint str_rev_go (acc s : string) : string :=
  match s with EmptyString => acc | String a s' => str_rev_go (String a acc) s' end.
Definition str_rev (s : string) : string := str_rev_go EmptyString s.

(** [str(x)] of a float (or numpy float64) and of a tuple of them: the shortest decimal text
    that reads back as the same number is not computed by the model, it is a parameter. *)
Record shower (N : Num) := Shower { s_float : F -> string; s_tuple : list F -> string }.
Arguments s_float {N}. Arguments s_tuple {N}.
