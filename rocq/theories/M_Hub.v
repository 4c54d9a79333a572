(** M_Hub.v: model of ranx/ranxhub.py 35-49 [save] and of [Run.from_ranxhub] (run.py 360-376) after the
    download of the file (M_Download.v).

    Simplifications: YAML documents are trees whose mappings have string keys; dumping and loading a
    document gives the same document; lz4 and cbor2 are an abstract encoding; a run card whose run name
    is not a string is rejected (the code stores any value); opening a file for writing succeeds. *)
From Verif Require Import Base Dict Num Env M_Common M_Qrels M_Run M_Report.
Open Scope string_scope.
Open Scope list_scope.
Open Scope nat_scope.

Inductive yaml {N : Num} := YMap (d : list (string * yaml)) | YNum (x : @F N) | YStr (s : string) | YNull | YOther (n : nat).
Arguments yaml _ : clear implicits.

Section Hub.
Context {N : Num} (E : env N).

(** [x[..]] and [x[..] = ..] of something that is not a mapping raise TypeError *)
Definition as_map (y : yaml N) : result (dict (yaml N)) := match y with YMap d => Ok d | _ => Err TypeError end.

(** ranxhub.py 39-42: one metric.  [runcard["run"].get] of something that is not a mapping raises
    AttributeError (TypeError in the model). *)
Definition put_result (card : yaml N) (ms : string * F) : result (yaml N) :=
  do label <- hub_get_metric_label (fst ms);
  do top <- as_map card;
  do run <- dget_r top "run";
  do rd <- match run with YMap d => Ok d | _ => Err TypeError end;
  do results <- as_map (match dget rd "results" with Some v => v | None => YMap [] end);
  Ok (YMap (dset top "run" (YMap (dset rd "results" (YMap (dset results label (YNum (snd ms)))))))).

(** ranxhub.py 44: the content of the file *)
Definition hub_content : Type := yaml N * dict (dict F).
(** io.py 57-68 *)
Record codec := Codec { encode : hub_content -> string; decode : string -> result hub_content }.
Context (cd : codec).
Inductive hub_file := HCard (y : yaml N) | HBytes (s : string).

(** ranxhub.py 35-49: the files afterwards and the exception, if any; both files are written only after
    the run card has been completed *)
Definition hub_save (fs : dict hub_file) (x : Run N) (card_path path : string) : dict hub_file * option exn :=
  match dget fs card_path with
  | None => (fs, Some OSError)
  | Some (HBytes _) => (fs, Some ValueError)
  | Some (HCard card) =>
      match foldr_m put_result (r_mean x) card with
      | Err e => (fs, Some e)
      | Ok card => (dset (dset fs card_path (HCard card)) path (HBytes (encode cd (card, Run_to_dict x))), None)
      end
  end.

(** io.py 54 and run.py 370-376: the run and its metadata *)
Definition hub_load (bytes : string) : result (Run N * yaml N) :=
  do c <- decode cd bytes;
  do z <- Run_from_dict E (snd c) None;
  do top <- as_map (fst c); do run <- dget_r top "run"; do rd <- as_map run; do n <- dget_r rd "name";
  match n with
  | YStr s => Ok (mkRun (r_map z) (r_sorted z) (Some s) (r_scores z) (r_mean z) (r_std z), fst c)
  | _ => Err TypeError
  end.
End Hub.
Arguments codec _ : clear implicits.
Arguments hub_file _ : clear implicits.
