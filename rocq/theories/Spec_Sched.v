(** Spec_Sched.v: the same machine under another interleaving of its parallel loops *)
From Verif Require Import Base Dict Num Env M_Heap.
Open Scope list_scope.

(** A schedule names, for every parallel loop and every number of iterations, the order in which the
    iterations take effect; it is possible if every iteration takes effect exactly once. *)
Definition schedule := string -> nat -> list nat.
Definition possible (s : schedule) : Prop := forall loop n, Permutation (s loop n) (seq 0 n).
(** the same process (hash values, sorting routine, set order), whose threads run in this order *)
Definition threads_run {N : Num} (E : env N) (s : schedule) : env N :=
  Env _ (e_hash E) (e_argsort E) s (e_setorder E).
(** both return the same value, or both raise *)
Definition same_outcome {A} (r1 r2 : result A) : Prop :=
  match r1, r2 with Ok a, Ok b => a = b | Err _, Err _ => True | _, _ => False end.

(** a program whose calls are executed one after the other, each under its own interleaving of threads *)
Definition exec_threads {N : Num} (E : env N) pysort (p : list (schedule * call N)) : state N :=
  fold_left (fun t sc => step (threads_run E (fst sc)) pysort t (snd sc)) p (@start N).
