(** M_Download.v: model of ranx/downloader.py and of [download] (ranx/io.py 45-54) for one run id,
    as a transition system: processes that work on the cache file ~/.ranx/<id>.rh and on the
    temporary file ~/.ranx_tmp/<id>.rh, and that may be killed between any two steps.

    Simplifications: files of different ids are disjoint; [f.write] puts the bytes of a chunk on the
    disk in any number of pieces (a kill may therefore fall inside a chunk), in order; the disk
    itself does not fail; both directories are on one file system, where [rename] is atomic; the
    progress bar is left out; decoding the file (load_lz4) is in M_Hub. *)
From Verif Require Import Base Dict.
Open Scope string_scope.
Open Scope list_scope.
Open Scope nat_scope.

(** inodes hold the contents; the two paths point to an inode *)
Record disk := Disk { inodes : list string; cache : option nat; tmp : option nat }.
Definition content (d : disk) (i : nat) : string := nth i (inodes d) "".
Definition empty_disk : disk := Disk [] None None.
Definition put_content (d : disk) (i : nat) (s : string) : disk := Disk (set_nth (inodes d) i s) (cache d) (tmp d).

(** an open file: its inode, and its position unless it was opened for appending *)
Record handle := Handle { h_inode : nat; h_pos : option nat }.
Fixpoint str_take (n : nat) (s : string) : string :=
  match n, s with S n', String c s' => String c (str_take n' s') | _, _ => "" end.
Fixpoint str_drop (n : nat) (s : string) : string :=
  match n, s with S n', String c s' => str_drop n' s' | _, _ => s end.
Fixpoint zeros (n : nat) : string := match n with 0 => "" | S n' => String zero (zeros n') end.
(** write(2) at a position; a gap is filled with zeros *)
Definition write_at (s : string) (pos : nat) (c : string) : string :=
  (str_take pos s ++ zeros (pos - String.length s) ++ c ++ str_drop (pos + String.length c) s)%string.
Definition write (d : disk) (h : handle) (c : string) : disk * handle :=
  match h_pos h with
  | None => (put_content d (h_inode h) (content d (h_inode h) ++ c), h)
  | Some p => (put_content d (h_inode h) (write_at (content d (h_inode h)) p c), Handle (h_inode h) (Some (p + String.length c)))
  end.
(** [open(tmp, "wb")] and [open(tmp, "ab")] *)
Definition open_tmp (d : disk) (append : bool) : disk * handle :=
  match tmp d with
  | Some i => if append then (d, Handle i None) else (put_content d i "", Handle i (Some 0))
  | None => let i := length (inodes d) in
            (Disk (inodes d ++ [""]) (cache d) (Some i), Handle i (if append then None else Some 0))
  end.

(** where a process is *)
Inductive proc :=
| PStart                                              (* io.py 50 *)
| PHead                                               (* downloader.py 54 *)
| PStat (size : nat)                                  (* downloader.py 59-60 *)
| PGet (resume : option nat)                          (* downloader.py 30; [resume_byte_pos] *)
| POpen (append : bool) (chunks : list string) (eof : bool)   (* downloader.py 43 *)
| PStream (h : handle) (chunks : list string) (eof : bool)    (* downloader.py 44-46 *)
| PRename                                             (* io.py 52 *)
| PLoad                                               (* io.py 54 *)
| PDone (r : result string)                           (* the bytes of the cache file, or an exception *)
| PKilled.
Definition finished (p : proc) : Prop := match p with PDone _ | PKilled => True | _ => False end.

(** the answers the network may give: to HEAD, the content-length header if there is one; to GET from
    a byte position, the chunks that arrive and whether the stream then ends ([true]) or raises *)
Record network := Network { n_head : result (option nat) -> Prop; n_get : option nat -> result (list string * bool) -> Prop }.
(** [resume_byte_pos] is used only if it is neither None nor 0 (downloader.py 25-35) *)
Definition truthy (resume : option nat) : option nat := match resume with Some 0 => None | r => r end.
Definition is_some {A} (o : option A) : bool := match o with Some _ => true | None => false end.

Inductive step (net : network) : disk * proc -> disk * proc -> Prop :=
(* io.py 50: [if not path.exists()] *)
| s_cached d i : cache d = Some i -> step net (d, PStart) (d, PLoad)
| s_missing d : cache d = None -> step net (d, PStart) (d, PHead)
(* downloader.py 54-57 *)
| s_head d n : n_head net (Ok n) -> step net (d, PHead) (d, PStat (match n with Some n => n | None => 0 end))
| s_head_fails d e : n_head net (Err e) -> step net (d, PHead) (d, PDone (Err e))
(* downloader.py 59-67 *)
| s_new d size : tmp d = None -> step net (d, PStat size) (d, PGet None)
| s_complete d size i : tmp d = Some i -> size = String.length (content d i) -> step net (d, PStat size) (d, PRename)
| s_resume d size i : tmp d = Some i -> size <> String.length (content d i) -> step net (d, PStat size) (d, PGet (Some (String.length (content d i))))
(* downloader.py 25-35 *)
| s_get d r cs eof : n_get net (truthy r) (Ok (cs, eof)) -> step net (d, PGet r) (d, POpen (is_some (truthy r)) cs eof)
| s_get_fails d r e : n_get net (truthy r) (Err e) -> step net (d, PGet r) (d, PDone (Err e))
(* downloader.py 43-46 *)
| s_open d a cs eof : step net (d, POpen a cs eof) (fst (open_tmp d a), PStream (snd (open_tmp d a)) cs eof)
| s_write d h c1 c2 cs eof : c1 <> "" -> step net (d, PStream h ((c1 ++ c2)%string :: cs) eof) (fst (write d h c1), PStream (snd (write d h c1)) (c2 :: cs) eof)
| s_chunk d h cs eof : step net (d, PStream h ("" :: cs) eof) (d, PStream h cs eof)
| s_eof d h : step net (d, PStream h [] true) (d, PRename)
| s_drop d h : step net (d, PStream h [] false) (d, PDone (Err OSError))
(* io.py 52-54 *)
| s_rename d i : tmp d = Some i -> step net (d, PRename) (Disk (inodes d) (Some i) None, PLoad)
| s_rename_fails d : tmp d = None -> step net (d, PRename) (d, PDone (Err OSError))
| s_load d i : cache d = Some i -> step net (d, PLoad) (d, PDone (Ok (content d i)))
| s_load_fails d : cache d = None -> step net (d, PLoad) (d, PDone (Err OSError)).

(** histories: processes start, make steps and are killed; [overlap] = a process may start while
    another one is at work *)
Inductive history (net : network) (overlap : bool) : disk * list proc -> Prop :=
| h_init : history net overlap (empty_disk, [])
| h_start d ps : history net overlap (d, ps) -> overlap = true \/ Forall finished ps -> history net overlap (d, ps ++ [PStart])
| h_step d ps1 p ps2 d' p' : history net overlap (d, ps1 ++ p :: ps2) -> step net (d, p) (d', p') -> history net overlap (d', ps1 ++ p' :: ps2)
| h_kill d ps1 p ps2 : history net overlap (d, ps1 ++ p :: ps2) -> history net overlap (d, ps1 ++ PKilled :: ps2).
