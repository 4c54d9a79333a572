(** Spec_IO.v: what the files of Qrels and Run are supposed to hold *)
From Verif Require Import Base Dict Num M_Strings Spec_DS.
Open Scope string_scope.
Open Scope list_scope.
Open Scope nat_scope.

(** a non-empty string without white space *)
Fixpoint no_space (s : string) : Prop :=
  match s with EmptyString => True | String c s' => is_space c = false /\ no_space s' end.
Definition word (s : string) : Prop := s <> "" /\ no_space s.

(** the ids of a container *)
Definition ids_are_words {V} (m : dict (dict V)) : Prop :=
  forall q d v, dget2 m q d = Some v -> word q /\ word d.
(** [b] holds exactly the judged or retrieved documents of [a], and no other query *)
Definition same_without_empty {V} (a b : dict (dict V)) : Prop :=
  (forall q d, dget2 b q d = dget2 a q d) /\ (forall q, dmem b q = true <-> exists d v, dget2 a q d = Some v).
(** every query has a document *)
Definition no_empty_query {V} (m : dict (dict V)) : Prop := forall q, dmem m q = true -> exists d v, dget2 m q d = Some v.
(** some query has a document *)
Definition some_doc {V} (m : dict (dict V)) : Prop := exists q d v, dget2 m q d = Some v.

(** ** File names *)
Fixpoint char_in (c : ascii) (s : string) : Prop :=
  match s with EmptyString => False | String c' s' => c = c' \/ char_in c s' end.
(** [path] is "dir/stem.ext" or "stem.ext": the extension holds no dot, and the stem is not made of dots only *)
Definition has_extension (path ext : string) : Prop :=
  exists dir stem, path = (dir ++ stem ++ "." ++ ext)%string /\
    (dir = "" \/ exists d, dir = (d ++ "/")%string) /\
    ~ char_in "/" stem /\ ~ char_in "/" ext /\ ~ char_in "." ext /\
    (exists c, char_in c stem /\ c <> "."%char).
(** the documented extensions *)
Definition extensions : list (string * string) :=
  [("json", "json"); ("trec", "trec"); ("txt", "trec"); ("gz", "gz"); ("lz4", "lz4"); ("parquet", "parquet"); ("parq", "parquet")].
(** the kind a call is about: the one given, or else the one of the extension *)
Definition asks_for (path : string) (kind : option string) (k : string) : Prop :=
  match kind with Some k' => k' = k | None => exists e, In (e, k) extensions /\ has_extension path e end.
Definition is_qrels_kind (k : string) : Prop := In k ["json"; "trec"; "gz"; "parquet"].
Definition is_run_kind (k : string) : Prop := In k ["json"; "trec"; "gz"; "lz4"; "parquet"].

(** ** Rows of a data frame: (query, document, value) *)
(** the value of the last row for a query and a document *)
Fixpoint last_row {V} (rows : list (string * string * V)) (q d : string) : option V :=
  match rows with
  | [] => None
  | (q', d', v) :: rows' => match last_row rows' q d with Some w => Some w | None => if String.eqb q q' && String.eqb d d' then Some v else None end
  end.
(** [m] holds what the rows say: the last one counts *)
Definition holds_rows {V} (m : dict (dict V)) (rows : list (string * string * V)) : Prop :=
  (forall q d, dget2 m q d = last_row rows q d) /\ (forall q, dmem m q = true <-> exists d v, In (q, d, v) rows).
