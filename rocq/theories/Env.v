(** Env.v: what the modelled code takes from its runtime.  Theorems quantify over
    every environment satisfying [env_ok]. *)
From Verif Require Import Base Dict Num.
Open Scope list_scope.

Record env {N : Num} := Env {
  (** [hash(str)] of CPython / numba: a 64-bit integer chosen per process. *)
  e_hash : string -> Z;
  (** [np.argsort(array)]: default (unstable) sort, ties in any order. *)
  e_argsort : list F -> list nat;
  (** order in which the iterations of a [prange] loop of length n take effect,
      per loop (named by a tag). *)
  e_sched : string -> nat -> list nat;
  (** iteration order of the Python set built from these elements. *)
  e_setorder : list string -> list string
}.
Arguments env _ : clear implicits.

Definition is_nanb {N : Num} (x : F) : bool := is_nan x.

Record env_ok {N : Num} (E : env N) : Prop := {
  argsort_perm : forall l, Permutation (e_argsort E l) (seq 0 (length l));
  argsort_sorted : forall l, Forall (fun x => is_nan x = false) l ->
      StronglySorted (fun a b => fleb a b = true)
        (map (fun i => nth i l fzero) (e_argsort E l));
  sched_perm : forall tag n, Permutation (e_sched E tag n) (seq 0 n);
  setorder_nodup : forall l, NoDup (e_setorder E l);
  setorder_in : forall l x, In x (e_setorder E l) <-> In x l
}.

(** Conversion of an integer to float64 and back, on integers: round to nearest,
    ties to even, 53 significant bits.  Models
    [np.asarray(doc_ids, dtype=np.float64)] on the integer hashes
    (data_structures/common.py 18-26) and [np.array([[hash(..), ..]], float64)]
    (utils.py 29-37). *)
Definition round53 (z : Z) : Z :=
  let a := Z.abs z in
  if (a <? 2 ^ 53)%Z then z
  else
    let e := (Z.log2 a - 52)%Z in
    let m := (a / 2 ^ e)%Z in
    let r := (a mod 2 ^ e)%Z in
    let h := (2 ^ (e - 1))%Z in
    let m' := if (r <? h)%Z then m
              else if (h <? r)%Z then (m + 1)%Z
              else if Z.even m then m else (m + 1)%Z in
    (Z.sgn z * (m' * 2 ^ e))%Z.

(** The float id under which a document is known to the metrics. *)
Definition doc_key {N : Num} (E : env N) (d : string) : Z := round53 (e_hash E d).
