(** M_Paths.v: where a run of ranxhub is cached and where it comes from: ranx/io.py 10-42 [home_path],
    [tmp_path], [get_path], [get_tmp_path], [get_url].

    Simplifications: POSIX paths; strings are byte strings (an id is its UTF-8 encoding); the file system has
    no symbolic links, so [..] leads to the parent directory; creating the directories (lines 15-16, 22-23,
    29, 36) is left out. *)
From Verif Require Import Base Dict.
Open Scope string_scope.
Open Scope list_scope.
Open Scope nat_scope.

(** the components of a path: [s] cut at every "/" *)
Fixpoint cut_go (acc s : string) : list string :=
  match s with
  | EmptyString => [acc]
  | String c s' => if Ascii.eqb c "/" then acc :: cut_go EmptyString s' else cut_go (acc ++ String c EmptyString)%string s'
  end.
Definition cut (s : string) : list string := cut_go EmptyString s.
(** pathlib drops empty components and "." *)
Definition parts (s : string) : list string := filter (fun c => negb (String.eqb c "" || String.eqb c ".")) (cut s).
(** [base / s]: an absolute path replaces the base *)
Definition is_absolute (s : string) : bool := match s with String c _ => Ascii.eqb c "/" | EmptyString => false end.
Definition join_path (base : list string) (s : string) : list string :=
  if is_absolute s then parts s else base ++ parts s.
(** io.py 13-38, for the home directory with components [home] *)
Definition home_path (home : list string) : list string := home ++ [".ranx"].
Definition tmp_path (home : list string) : list string := home ++ [".ranx_tmp"].
Definition get_path (home : list string) (id : string) : list string := join_path (home_path home) (id ++ ".rh").
Definition get_tmp_path (home : list string) (id : string) : list string := join_path (tmp_path home) (id ++ ".rh").

(** the place a path leads to, from the root directory *)
Definition location (p : list string) : list string :=
  fold_left (fun at_ c => if String.eqb c ".." then removelast at_ else at_ ++ [c]) p [].

(** io.py 41-42: [urllib.parse.quote(id)] (CPython 3: letters, digits and "_.-~" are kept, "/" is safe) *)
Definition between (a b : nat) (n : nat) : bool := (a <=? n) && (n <=? b).
Definition url_keeps (c : ascii) : bool :=
  let n := nat_of_ascii c in
  between 48 57 n || between 65 90 n || between 97 122 n || existsb (Ascii.eqb c) ["_"; "."; "-"; "~"; "/"]%char.
Definition hex (n : nat) : ascii := ascii_of_nat (if n <? 10 then 48 + n else 55 + n).
Fixpoint quote (s : string) : string :=
  match s with
  | EmptyString => ""
  | String c s' => if url_keeps c then String c (quote s')
                   else String "%" (String (hex (nat_of_ascii c / 16)) (String (hex (nat_of_ascii c mod 16)) (quote s')))
  end.
Definition base_url : string := "https://ranxhub.s3.eu-central-1.amazonaws.com".
Definition get_url (id : string) : string := (base_url ++ "/" ++ quote id ++ ".rh")%string.
