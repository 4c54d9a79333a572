(** M_IO.v: model of the files and data frames of ranx/data_structures/{qrels,run}.py and of
    ranx/io.py 57-77, ranx/utils.py 45-71.

    Simplifications.  A file system maps paths to files; opening a file for writing always
    succeeds.  The formats of orjson, lz4/cbor2, gzip and parquet are not modelled: a file written by
    one of them is an abstract value that the same library reads back, and that is no valid file for
    another one.  TREC text is modelled character by character (ASCII white space, see M_Strings;
    [open] translates "\r\n" and "\r" when reading).  Qrels files are not read as runs or vice versa. *)
From Verif Require Import Base Dict Num Env M_Common M_Qrels M_Run M_Strings M_Text M_Compare.
Open Scope string_scope.
Open Scope list_scope.
Open Scope nat_scope.

Definition newline : string := String (ascii_of_nat 10) EmptyString.
Definition is_nl (c : ascii) : bool := Nat.eqb (nat_of_ascii c) 10.
Definition is_cr (c : ascii) : bool := Nat.eqb (nat_of_ascii c) 13.

(** [for line in f] of a text file; lines keep their line end.  [cr]: the last character was "\r". *)
Fixpoint lines_go (acc : string) (cr : bool) (s : string) : list string :=
  match s with
  | EmptyString => match acc with EmptyString => [] | _ => [acc] end
  | String c s' =>
      if is_nl c then (if cr then lines_go EmptyString false s' else (acc ++ newline)%string :: lines_go EmptyString false s')
      else if is_cr c then (acc ++ newline)%string :: lines_go EmptyString true s'
      else lines_go (acc ++ String c EmptyString)%string false s'
  end.
Definition py_lines (s : string) : list string := lines_go EmptyString false s.

(** os.path.splitext (CPython genericpath._splitext, "/" as separator): the part after the last dot of
    the last component, with the dot, unless only dots precede it.  [start] is the last component read
    so far (reversed scan is avoided: the component restarts at every "/"). *)
Fixpoint basename_go (acc s : string) : string :=
  match s with
  | EmptyString => acc
  | String c s' => if Ascii.eqb c "/" then basename_go EmptyString s' else basename_go (acc ++ String c EmptyString)%string s'
  end.
Definition basename (path : string) : string := basename_go EmptyString path.
(** [last_dot s] = the text before the last dot and the text after it *)
Fixpoint last_dot (s : string) : option (string * string) :=
  match s with
  | EmptyString => None
  | String c s' =>
      match last_dot s' with
      | Some (a, b) => Some (String c a, b)
      | None => if Ascii.eqb c "." then Some (EmptyString, s') else None
      end
  end.
Fixpoint only_dots (s : string) : bool :=
  match s with EmptyString => true | String c s' => Ascii.eqb c "." && only_dots s' end.
(** [os.path.splitext(path)[1][1:]] *)
Definition extension (path : string) : string :=
  match last_dot (basename path) with
  | Some (stem, ext) => if only_dots stem then EmptyString else ext
  | None => EmptyString
  end.
(** qrels.py 370-385 / run.py 395-411 [get_file_kind] *)
Definition get_file_kind (kinds : list string) (path : string) (kind : option string) : result string :=
  let kind := match kind with
              | Some k => k
              | None => let k := extension path in
                        let k := if String.eqb k "txt" then "trec" else k in
                        if String.eqb k "parq" then "parquet" else k
              end in
  if existsb (String.eqb kind) kinds then Ok kind else Err AssertionError.
Definition qrels_kinds := ["json"; "trec"; "gz"; "parquet"].
Definition run_kinds := ["json"; "trec"; "lz4"; "gz"; "parquet"].

(** ** Data frames: named columns of equal length *)
Inductive column {N : Num} :=
| CStr (l : list string)   (* dtype object, also pandas' choice for an empty list *)
| CInt (l : list Z)        (* int64 *)
| CFloat (l : list (@F N)) (* float64 *)
| COther (n : nat).        (* any other dtype *)
Definition frame {N : Num} := dict (@column N).

(** ** Files *)
Inductive file {N : Num} {V : Type} :=
| FText (s : string)                      (* plain text *)
| FGzip (s : string)                      (* gzip of a text *)
| FJson (d : dict (dict (option V)))      (* None = null *)
| FLz4 (d : dict (dict V))                (* lz4 + cbor2 *)
| FParquet (t : @frame N).
Arguments file N V : clear implicits.

Section Text.
(** the triples (query, document, value) in iteration order *)
Definition triples {V} (m : dict (dict V)) : list (string * string * V) :=
  flat_map (fun qr => map (fun dv => (fst qr, fst dv, snd dv)) (snd qr)) m.
(** the loops of qrels.py 207-217 and run.py 211-221: [line q j d v] is what is written for the [j]-th
    document, followed by a newline unless it is the last document of the last query *)
Definition trec_text {V} (line : string -> nat -> string -> V -> string) (m : dict (dict V)) : string :=
  String.concat "" (flat_map (fun iqr =>
    map (fun jdv => (line (fst (snd iqr)) (fst jdv) (fst (snd jdv)) (snd (snd jdv)) ++
                     (if negb (Nat.eqb (fst iqr) (length m - 1)) || negb (Nat.eqb (fst jdv) (length (snd (snd iqr)) - 1)) then newline else ""))%string)
        (enumerate (snd (snd iqr)))) (enumerate m)).
End Text.

(** reading a text file in mode "rt", plainly or through gzip; other contents are binary or no TREC text *)
Definition read_text {N : Num} {V} (fs : dict (file N V)) (path : string) (gz : bool) : result string :=
  match dget fs path with
  | None => Err OSError
  | Some (FText s) => if gz then Err OSError else Ok s
  | Some (FGzip s) => if gz then Ok s else Err ValueError
  | Some _ => if gz then Err OSError else Err ValueError
  end.

Section Qrels.
Context {N : Num} (E : env N).
(** qrels.py 211 *)
Definition qrels_line (q : string) (j : nat) (d : string) (v : Z) : string := (q ++ " 0 " ++ d ++ " " ++ str_int v)%string.
(** qrels.py 268-271: unpacking anything but four fields raises ValueError *)
Definition qrels_parse_line (acc : dict (dict Z)) (line : string) : result (dict (dict Z)) :=
  match words line with
  | [q; _; d; rel] => do v <- py_int rel; Ok (dset2 acc q d v)
  | _ => Err ValueError
  end.
Definition qrels_parse (text : string) : result (dict (dict Z)) := foldr_m qrels_parse_line (py_lines text) [].
(** qrels.py 175-189 *)
Definition Qrels_to_dataframe (x : Qrels) : frame :=
  let t := triples (q_map x) in
  [("q_id", CStr (map (fun r => fst (fst r)) t)); ("doc_id", CStr (map (fun r => snd (fst r)) t));
   ("score", match t with [] => CStr [] | _ => CInt (map snd t) end)].
(** qrels.py 191-218: the new file system (nothing is written before the kind is checked) *)
Definition Qrels_save (fs : dict (file N Z)) (x : Qrels) (path : string) (kind : option string) : result (dict (file N Z)) :=
  do kind <- get_file_kind qrels_kinds path kind;
  Ok (dset fs path
    (if String.eqb kind "json" then FJson (map (fun qr => (fst qr, map (fun dv => (fst dv, Some (snd dv))) (snd qr))) (Qrels_to_dict x))
     else if String.eqb kind "parquet" then FParquet (Qrels_to_dataframe x)
     else FText (trec_text qrels_line (q_map x)))).
(** [np.array([None], dtype=int)] raises TypeError *)
Definition json_values {V} (null : result V) (d : dict (dict (option V))) : result (dict (dict V)) :=
  map_m (fun qr => do r <- map_m (fun dv => do v <- match snd dv with Some v => Ok v | None => null end; Ok (fst dv, v)) (snd qr); Ok (fst qr, r)) d.
(** qrels.py 250-274 *)
Definition Qrels_from_file (fs : dict (file N Z)) (path : string) (kind : option string) : result Qrels :=
  do kind <- get_file_kind qrels_kinds path kind;
  do d <- (if String.eqb kind "json" then
             match dget fs path with
             | None => Err OSError
             | Some (FJson d) => json_values (Err TypeError) d
             | Some _ => Err ValueError
             end
           else do text <- read_text fs path (String.eqb kind "gz"); qrels_parse text);
  Qrels_from_dict E d.
(** qrels.py 300-310: groupby sorts the query ids; of equal documents the last row wins *)
Definition group {V} (rows : list (string * string * V)) : dict (dict V) :=
  map (fun q => (q, dict_of_list (map (fun r => (snd (fst r), snd r)) (filter (fun r => String.eqb (fst (fst r)) q) rows))))
      (str_sort (nodup string_dec (map (fun r => fst (fst r)) rows))).
Definition zip3 {V} (qs ds : list string) (vs : list V) : list (string * string * V) :=
  combine (combine qs ds) vs.
(** qrels.py 276-310 *)
Definition Qrels_from_df (df : frame) (q_col d_col s_col : string) : result Qrels :=
  do q <- dget_r df q_col; do qs <- match q with CStr l => Ok l | _ => Err AssertionError end;
  do d <- dget_r df d_col; do ds <- match d with CStr l => Ok l | _ => Err AssertionError end;
  do s <- dget_r df s_col; do ss <- match s with CInt l => Ok l | _ => Err AssertionError end;
  Qrels_from_dict E (group (zip3 qs ds ss)).
(** [pd.read_parquet(path, ⋆pd_kwargs)] (qrels.py 334, run.py 350): the keys of the dictionary become
    positional arguments, the first of which is the engine.  (What a second key does after an engine
    name - it becomes [columns] - is not modelled: no theorem speaks about it.) *)
Definition read_parquet {V} (fs : dict (file N V)) (path : string) (pd_kwargs : list string) : result frame :=
  match pd_kwargs with
  | [] => match dget fs path with None => Err OSError | Some (FParquet t) => Ok t | Some _ => Err ValueError end
  | engine :: _ => if existsb (String.eqb engine) ["auto"; "pyarrow"; "fastparquet"] then
                     match dget fs path with None => Err OSError | Some (FParquet t) => Ok t | Some _ => Err ValueError end
                   else Err ValueError
  end.
(** qrels.py 312-339; [pd_kwargs] is given by its keys *)
Definition Qrels_from_parquet (fs : dict (file N Z)) path q_col d_col s_col pd_kwargs : result Qrels :=
  do df <- read_parquet fs path pd_kwargs; Qrels_from_df df q_col d_col s_col.
End Qrels.

Section Run.
Context {N : Num} (E : env N).
(** [str(x)] and [float(s)] of floats, whether orjson writes [x] as a number (not for NaN and
    infinities, which become null), and NaN ([np.array([None], dtype=float)]) are parameters *)
Record floats := Floats { fl_show : @F N -> string; fl_read : string -> result (@F N); fl_json : @F N -> bool; fl_nan : @F N }.
Context (fl : floats).
(** run.py 213 *)
Definition py_name (name : option string) : string := match name with Some s => s | None => "None" end.
Definition run_line (name : option string) (q : string) (rank : nat) (d : string) (v : F) : string :=
  (q ++ " Q0 " ++ d ++ " " ++ str_int (Z.of_nat rank + 1) ++ " " ++ fl_show fl v ++ " " ++ py_name name)%string.
(** run.py 280-285: the state is the dictionary and the name *)
Definition run_parse_line (st : dict (dict F) * option string) (line : string) : result (dict (dict F) * option string) :=
  match words line with
  | [q; _; d; _; rel; run_name] =>
      do v <- fl_read fl rel;
      Ok (dset2 (fst st) q d v, match snd st with None => Some run_name | n => n end)
  | _ => Err ValueError
  end.
Definition run_parse (text : string) (name : option string) : result (dict (dict F) * option string) :=
  foldr_m run_parse_line (py_lines text) ([], name).
(** run.py 175-189 *)
Definition Run_to_dataframe (x : Run N) : frame :=
  let t := triples (r_map x) in
  [("q_id", CStr (map (fun r => fst (fst r)) t)); ("doc_id", CStr (map (fun r => snd (fst r)) t));
   ("score", match t with [] => CStr [] | _ => CFloat (map snd t) end)].
(** run.py 191-222: the object (sorted once the kind is checked) and the new file system *)
Definition Run_save (fs : dict (file N F)) (x : Run N) (path : string) (kind : option string) : Run N * result (dict (file N F)) :=
  match get_file_kind run_kinds path kind with
  | Err e => (x, Err e)
  | Ok kind =>
      let x := if r_sorted x then x else Run_sort E x in
      (x, Ok (dset fs path
        (if String.eqb kind "json" then
           FJson (map (fun qr => (fst qr, map (fun dv => (fst dv, if fl_json fl (snd dv) then Some (snd dv) else None)) (snd qr))) (Run_to_dict x))
         else if String.eqb kind "lz4" then FLz4 (Run_to_dict x)
         else if String.eqb kind "parquet" then FParquet (Run_to_dataframe x)
         else FText (trec_text (run_line (r_name x)) (r_map x)))))
  end.
(** run.py 257-288 *)
Definition Run_from_file (fs : dict (file N F)) (path : string) (kind : option string) (name : option string) : result (Run N) :=
  do kind <- get_file_kind run_kinds path kind;
  do dn <- (if String.eqb kind "json" then
             match dget fs path with
             | None => Err OSError
             | Some (FJson d) => do d <- json_values (Ok (fl_nan fl)) d; Ok (d, name)
             | Some _ => Err ValueError
             end
           else if String.eqb kind "lz4" then
             match dget fs path with
             | None => Err OSError
             | Some (FLz4 d) => Ok (d, name)
             | Some _ => Err ValueError
             end
           else do text <- read_text fs path (String.eqb kind "gz"); run_parse text name);
  Run_from_dict E (fst dn) (snd dn).
(** run.py 290-326 *)
Definition Run_from_df (df : frame) (q_col d_col s_col : string) (name : option string) : result (Run N) :=
  do q <- dget_r df q_col; do qs <- match q with CStr l => Ok l | _ => Err AssertionError end;
  do d <- dget_r df d_col; do ds <- match d with CStr l => Ok l | _ => Err AssertionError end;
  do s <- dget_r df s_col; do ss <- match s with CFloat l => Ok l | _ => Err AssertionError end;
  Run_from_dict E (group (zip3 qs ds ss)) name.
(** run.py 328-358 *)
Definition Run_from_parquet (fs : dict (file N F)) path q_col d_col s_col pd_kwargs name : result (Run N) :=
  do df <- read_parquet fs path pd_kwargs; Run_from_df df q_col d_col s_col name.
End Run.
Arguments floats _ : clear implicits.
