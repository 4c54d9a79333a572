(** M_Utils.v: model of ranx/utils.py 45-63 [qrels_file_to_dict], [run_file_to_dict]: TREC files as plain
    dictionaries.  Unlike [from_file] they use [str.splitlines], which also ends a line at the ASCII control
    characters VT, FF, FS, GS and RS.  Simplification: as in M_IO (the other Unicode line ends are left out). *)
From Verif Require Import Base Dict Num Env M_Common M_Strings M_Text M_Compare M_IO.
Open Scope string_scope.
Open Scope list_scope.
Open Scope nat_scope.

(** line ends other than those that [open] translates *)
Definition is_odd_break (c : ascii) : bool := existsb (Nat.eqb (nat_of_ascii c)) [11; 12; 28; 29; 30].
(** [open(path, "r").read().splitlines()]; [cr]: the last character was "\r" *)
Fixpoint splitlines_go (acc : string) (cr : bool) (s : string) : list string :=
  match s with
  | EmptyString => match acc with EmptyString => [] | _ => [acc] end
  | String c s' =>
      if is_nl c then (if cr then splitlines_go EmptyString false s' else acc :: splitlines_go EmptyString false s')
      else if is_cr c then acc :: splitlines_go EmptyString true s'
      else if is_odd_break c then acc :: splitlines_go EmptyString false s'
      else splitlines_go (acc ++ String c EmptyString)%string false s'
  end.
Definition splitlines (s : string) : list string := splitlines_go EmptyString false s.

(** utils.py 45-52 *)
Definition qrels_file_to_dict {N : Num} {V} (fs : dict (file N V)) (path : string) : result (dict (dict Z)) :=
  do text <- read_text fs path false;
  foldr_m (fun acc line => match words line with
                           | [q; _; d; rel] => do v <- py_int rel; Ok (dset2 acc q d v)
                           | _ => Err ValueError
                           end) (splitlines text) [].
(** utils.py 55-63 *)
Definition run_file_to_dict {N : Num} {V} (fl : floats N) (fs : dict (file N V)) (path : string) : result (dict (dict F)) :=
  do text <- read_text fs path false;
  foldr_m (fun acc line => match words line with
                           | [q; _; d; _; rel; _] => do v <- fl_read fl rel; Ok (dset2 acc q d v)
                           | _ => Err ValueError
                           end) (splitlines text) [].
