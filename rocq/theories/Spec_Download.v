(** Spec_Download.v: what a well-behaved server for the bytes [C] may answer *)
From Verif Require Import Base M_Download.
Open Scope string_scope.
Open Scope list_scope.
Open Scope nat_scope.

Definition begins (s C : string) : Prop := exists t, C = (s ++ t)%string.
(** the stream that starts at byte [k]: the bytes from there, all of them if it ends normally; an interrupted
    stream raises, after any part of the bytes *)
Definition body_from (C : string) (k : nat) (cs : list string) (eof : bool) : Prop :=
  exists before after, C = (before ++ String.concat "" cs ++ after)%string /\ String.length before = k /\ (eof = true -> after = "").
(** HEAD tells the size; GET without position sends everything, and GET from a position strictly inside sends
    the rest; any call may fail.  Nothing is required for positions outside. *)
Definition honest (net : network) (C : string) : Prop :=
  (forall r, n_head net r -> (exists e, r = Err e) \/ r = Ok (Some (String.length C))) /\
  (forall r, n_get net None r -> (exists e, r = Err e) \/ exists cs eof, r = Ok (cs, eof) /\ body_from C 0 cs eof) /\
  (forall k r, 0 < k < String.length C -> n_get net (Some k) r -> (exists e, r = Err e) \/ exists cs eof, r = Ok (cs, eof) /\ body_from C k cs eof).
(** ... and such calls do not fail now, and streams are not interrupted *)
Definition reliable (net : network) (C : string) : Prop :=
  (exists r, n_head net r) /\ (forall r, n_head net r -> exists n, r = Ok n) /\
  (exists r, n_get net None r) /\ (forall r, n_get net None r -> exists cs, r = Ok (cs, true)) /\
  (forall k, 0 < k < String.length C -> (exists r, n_get net (Some k) r) /\ (forall r, n_get net (Some k) r -> exists cs, r = Ok (cs, true))).
