(** Base.v: exceptions as values, generic list helpers, parallel loops.
    Nothing here is specific to ranx except [prange], the reading of numba's
    parallel loop. *)
From Coq Require Export String Ascii.
From Coq Require Export List Arith ZArith Bool Lia.
From Coq Require Export Permutation Sorted.
Export ListNotations.
Open Scope list_scope.

(** Python exceptions that the modelled code can raise. *)
Inductive exn :=
| ValueError | KeyError | IndexError | AssertionError
| ZeroDivisionError | TypeError | NotImplementedError | OSError.

(** Result of a Python call: a value or a raised exception. *)
Inductive result (A : Type) :=
| Ok (a : A)
| Err (e : exn).
Arguments Ok {A} a.
Arguments Err {A} e.

Definition bindr {A B} (r : result A) (f : A -> result B) : result B :=
  match r with Ok a => f a | Err e => Err e end.

Notation "'do' x <- r ; k" := (bindr r (fun x => k))
  (at level 200, x name, r at level 100, k at level 200, right associativity).
Notation "'do' ' p <- r ; k" := (bindr r (fun x => match x with p => k end))
  (at level 200, p pattern, r at level 100, k at level 200, right associativity).

(** [assert c] raises AssertionError when [c] is false. *)
Definition assertr (c : bool) : result unit :=
  if c then Ok tt else Err AssertionError.

(** A Python [for] loop that may raise: left fold in the exception monad. *)
Fixpoint foldr_m {A S} (f : S -> A -> result S) (l : list A) (s : S) : result S :=
  match l with
  | [] => Ok s
  | a :: l' => do s' <- f s a; foldr_m f l' s'
  end.

(** A list comprehension whose body may raise. *)
Fixpoint map_m {A B} (f : A -> result B) (l : list A) : result (list B) :=
  match l with
  | [] => Ok []
  | a :: l' => do b <- f a; do bs <- map_m f l'; Ok (b :: bs)
  end.

(** Indexing that raises IndexError (TypedList and Python list). *)
Definition nth_r {A} (l : list A) (i : nat) : result A :=
  match nth_error l i with Some a => Ok a | None => Err IndexError end.

(** [enumerate(l)]. *)
Fixpoint enum_from {A} (i : nat) (l : list A) : list (nat * A) :=
  match l with [] => [] | a :: l' => (i, a) :: enum_from (S i) l' end.
Definition enumerate {A} (l : list A) : list (nat * A) := enum_from 0 l.

(** [l[i] = v] on an existing position. *)
Fixpoint set_nth {A} (l : list A) (i : nat) (v : A) : list A :=
  match l, i with
  | [], _ => []
  | _ :: l', 0 => v :: l'
  | a :: l', S i' => a :: set_nth l' i' v
  end.

(** numba's [for i in prange(n): out[i] = f(i)].  The iterations run on several
    threads; each writes only its own slot [i] and reads only the (immutable)
    inputs, so a run is determined by the order in which the writes happen.
    [order] is that order: the theorems quantify over all permutations of
    [0..n-1].  [init] is the content of the pre-allocated output array. *)
Definition prange {A} (order : list nat) (n : nat) (init : A) (f : nat -> A) : list A :=
  fold_left (fun acc i => set_nth acc i (f i)) order (repeat init n).

(** Same loop when the body may raise (e.g. TypedList index out of range). *)
Definition prange_r {A} (order : list nat) (n : nat) (init : A)
           (f : nat -> result A) : result (list A) :=
  foldr_m (fun acc i => do v <- f i; Ok (set_nth acc i v)) order (repeat init n).

Definition is_Ok {A} (r : result A) : bool := match r with Ok _ => true | _ => false end.

(** Number of elements satisfying a boolean predicate. *)
Fixpoint count {A} (p : A -> bool) (l : list A) : nat :=
  match l with
  | [] => 0
  | a :: l' => (if p a then 1 else 0) + count p l'
  end.

(** [min]/[max] of a list by a boolean "less than" (Python's built-in keeps the
    first extremal element). *)
Definition fold_best {A} (better : A -> A -> bool) (l : list A) (d : A) : A :=
  fold_left (fun m x => if better x m then x else m) l d.
