(** M_Judgments.v: judgments given as floats.  Every way into a Qrels converts them with
    [int(...)] / [np.array(..., dtype=int)], i.e. truncates toward zero; a plain dict
    handed to evaluate keeps them (M_Evaluate.v).  qrels.py 62-87, 93-107, 119-137, 220-248. *)
From Verif Require Import Base Dict Num Env M_Common M_Qrels.
Open Scope list_scope.

Section J.
Context {N : Num} (E : env N).

(** [int(v)] of a float: an error for NaN and infinities (Python raises ValueError or
    OverflowError; one exception stands for both).  An infinity is the only other value
    with v - v different from 0.  Values beyond int64 are not modelled. *)
Definition int_of_float (v : F) : result Z :=
  if is_nan v || negb (feqb (fsub v v) fzero) then Err ValueError else Ok (ftrunc v).

Fixpoint mapr {A B} (f : A -> result B) (l : list A) : result (list B) :=
  match l with
  | [] => Ok []
  | a :: l' => do b <- f a; do bs <- mapr f l'; Ok (b :: bs)
  end.
Definition map_values {A B} (f : A -> result B) (d : dict A) : result (dict B) :=
  mapr (fun kv => do v <- f (snd kv); Ok (fst kv, v)) d.

(** qrels.py 62-87 [Qrels(d, name)]: ids are collected first (ValueError without any
    document), then [np.array(x, dtype=int)] converts the scores, then the object is built. *)
Definition Qrels_init_float (d : dict (dict F)) (name : option string) : result Qrels :=
  do _ <- match concat (map dkeys (dvals d)) with [] => Err ValueError | _ => Ok tt end;
  do d' <- map_values (map_values int_of_float) d;
  Qrels_init E d' name.

(** qrels.py 93-107 [add_score]: the empty dictionary of a new query is stored before
    [int(score)] is computed. *)
Definition Qrels_add_score_float (x : Qrels) (q d : string) (v : F) : Qrels * option exn :=
  match int_of_float v with
  | Ok s => (Qrels_add_score x q d s, None)
  | Err e => (mkQrels (match dget (q_map x) q with Some _ => q_map x | None => dset (q_map x) q [] end)
                      (q_sorted x) (q_name x), Some e)
  end.

(** qrels.py 119-137 [add_multi]: all scores are converted before anything is stored. *)
Definition Qrels_add_multi_float (x : Qrels) q_ids doc_ids (scores : list (list F))
  : Qrels * option exn :=
  match mapr (mapr int_of_float) scores with
  | Ok ss => Qrels_add_multi E x q_ids doc_ids ss
  | Err e => (x, Some e)
  end.
End J.
