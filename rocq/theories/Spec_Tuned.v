(** Spec_Tuned.v: using what optimize_fusion returned (C100) *)
From Verif Require Import Base Dict Num Env M_Common M_Qrels M_Run M_Text M_Evaluate M_Norm M_Fusion M_Optimize.
Open Scope string_scope.
Open Scope list_scope.
Open Scope nat_scope.

Section S.
Context {N : Num}.
(** the best parameters, all of them found, as keyword arguments of fuse *)
Definition given (ps : @opt_params N) (args : @params N) : Prop := ps = map (fun kv => (fst kv, Some (snd kv))) args.
(** [s] is a largest score; NaN is not compared *)
Definition top_score (scores : list (@F N)) (s : F) : Prop :=
  In s scores /\ forall v, In v scores -> is_nan v = false -> fleb v s = true.
(** calling sort() would not change what the run stores *)
Definition stored_sorted (E : env N) (x : Run N) : Prop := r_sorted x = true \/ r_map (Run_sort E x) = r_map x.
End S.
