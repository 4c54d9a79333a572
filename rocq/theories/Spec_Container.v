(** Spec_Container.v: what the reading methods of one object must tell about the nested
    map the object stands for, without looking at how it is stored. *)
From Verif Require Import Base Dict Spec_DS.
Open Scope list_scope.

(** The results of all reading methods of one object. *)
Record reads (V : Type) := Reads {
  rd_ids : list string;                    (* get_query_ids() and keys() *)
  rd_dicts : list (dict V);                (* get_doc_ids_and_scores() *)
  rd_size : nat;                           (* .size *)
  rd_len : nat;                            (* len(x) *)
  rd_item : string -> result (dict V);     (* x[q] *)
  rd_dict : dict (dict V)                  (* x.to_dict() *)
}.
Arguments Reads {V}. Arguments rd_ids {V}. Arguments rd_dicts {V}. Arguments rd_size {V}.
Arguments rd_len {V}. Arguments rd_item {V}. Arguments rd_dict {V}.

Record reads_tell {V} (x : reads V) (s : smap V) : Prop := {
  (* every query once, and no other *)
  rt_nodup : NoDup (rd_ids x);
  rt_ids : forall q, In q (rd_ids x) <-> s_has s q = true;
  (* the two counts *)
  rt_size : rd_size x = length (rd_ids x);
  rt_len : rd_len x = length (rd_ids x);
  (* the k-th dictionary belongs to the k-th id *)
  rt_zip : Forall2 (fun q d => rd_item x q = Ok d) (rd_ids x) (rd_dicts x);
  (* x[q] holds exactly the scores of q, every document once *)
  rt_item : forall q, s_has s q = true -> exists d, rd_item x q = Ok d /\
              NoDup (dkeys d) /\ forall doc, dget d doc = s_get s q doc;
  rt_missing : forall q, s_has s q = false -> rd_item x q = Err KeyError;
  (* to_dict() lists the same pairs in the same order *)
  rt_dict : rd_dict x = combine (rd_ids x) (rd_dicts x)
}.
