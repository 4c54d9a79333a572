(** Dict.v: insertion-ordered dictionaries with string keys.
    Models both Python's [dict] and numba's [typed.Dict] (both keep insertion
    order; assignment to an existing key keeps its position; deletion removes
    the entry).  A well-formed dictionary has distinct keys ([dict_ok]). *)
From Verif Require Import Base.
Open Scope string_scope.
Open Scope list_scope.

Definition dict (V : Type) := list (string * V).

(** [d.get(k)] / [d[k]] *)
Fixpoint dget {V} (d : dict V) (k : string) : option V :=
  match d with
  | [] => None
  | (k', v) :: d' => if String.eqb k k' then Some v else dget d' k
  end.

(** [k in d] *)
Definition dmem {V} (d : dict V) (k : string) : bool :=
  match dget d k with Some _ => true | None => false end.

(** [d[k] = v] *)
Fixpoint dset {V} (d : dict V) (k : string) (v : V) : dict V :=
  match d with
  | [] => [(k, v)]
  | (k', v') :: d' => if String.eqb k k' then (k', v) :: d' else (k', v') :: dset d' k v
  end.

(** [del d[k]] *)
Fixpoint ddel {V} (d : dict V) (k : string) : dict V :=
  match d with
  | [] => []
  | (k', v') :: d' => if String.eqb k k' then d' else (k', v') :: ddel d' k
  end.

(** [d.keys()], [d.values()] in insertion order *)
Definition dkeys {V} (d : dict V) : list string := map fst d.
Definition dvals {V} (d : dict V) : list V := map snd d.

(** [d[k]] raising KeyError *)
Definition dget_r {V} (d : dict V) (k : string) : result V :=
  match dget d k with Some v => Ok v | None => Err KeyError end.

(** A dictionary value: keys are distinct. *)
Definition dict_ok {V} (d : dict V) : Prop := NoDup (dkeys d).
Definition dict2_ok {V} (d : dict (dict V)) : Prop :=
  dict_ok d /\ forall q r, dget d q = Some r -> dict_ok r.

(** Build by successive assignments: [{k: v for k, v in l}]. *)
Definition dict_of_list {V} (l : list (string * V)) : dict V :=
  fold_left (fun d kv => dset d (fst kv) (snd kv)) l [].

(** Set equality of key views: [d1.keys() == d2.keys()]. *)
Definition keys_subset {V W} (d1 : dict V) (d2 : dict W) : bool :=
  forallb (fun k => dmem d2 k) (dkeys d1).
Definition keys_eqb {V W} (d1 : dict V) (d2 : dict W) : bool :=
  keys_subset d1 d2 && keys_subset d2 d1.

(** Lookup in a nested dictionary, used by specifications. *)
Definition dget2 {V} (d : dict (dict V)) (q k : string) : option V :=
  match dget d q with Some r => dget r k | None => None end.

(** String order used by [list.sort()] on str: lexicographic on code points.  Our
    strings are UTF-8 byte sequences, whose byte order is the code point order. *)
Fixpoint str_leb (a b : string) : bool :=
  match a, b with
  | EmptyString, _ => true
  | String _ _, EmptyString => false
  | String x a', String y b' =>
      let nx := N_of_ascii x in let ny := N_of_ascii y in
      if N.ltb nx ny then true else if N.ltb ny nx then false else str_leb a' b'
  end.
Definition str_ltb (a b : string) : bool := str_leb a b && negb (String.eqb a b).

(** [keys.sort()] on distinct strings: any correct sorting algorithm returns the
    same list; insertion sort is used. *)
Fixpoint str_insert (x : string) (l : list string) : list string :=
  match l with
  | [] => [x]
  | y :: l' => if str_leb x y then x :: l else y :: str_insert x l'
  end.
Definition str_sort (l : list string) : list string := fold_right str_insert [] l.
