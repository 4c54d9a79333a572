(** T_Local.v: normalising and fusing use only the query's own results (C88) *)
From Verif Require Import Base Dict Num NumLaws Env EnvEx M_Common M_Qrels M_Run M_History M_Norm M_Fusion Spec_Local
  P_Base P_Dict P_Common P_Norm P_Fusion P_Fusion3 T_Fusion4 P_Local P_Local2 Ex_Metrics T_Fusion6 T_MetaEx.
Open Scope string_scope.
Open Scope list_scope.
Open Scope nat_scope.

(** any of the norms taking one run: the results of a query after normalisation are
    determined by its results before, whatever else the run contains and whatever the hashes
    and the schedule of the parallel loop *)
Theorem C88_normalize_own_results : forall (N : Num) (E E' : env N), env_ok E -> env_ok E' -> same_orders E E' ->
  forall (x x' y y' : Run N) norm q, well_formed x -> well_formed x' -> stored x q = stored x' q ->
  normalize E x norm = Ok y -> normalize E' x' norm = Ok y' -> stored y q = stored y' q.
Proof.
  intros N E E' HE HE' HO x x' y y' norm q Hx Hx' Hq H H'.
  exact (norm_same E E' HE HE' HO x x' norm y y' q Hx Hx' Hq H H').
Qed.

(** every method, every norm *)
Theorem C88_fuse_own_results : forall (N : Num) (E E' : env N) pysort, env_ok E -> env_ok E' -> same_orders E E' -> sorter_ok pysort ->
  forall (xs xs' : list (Run N)) norm method ps y y' q,
  Forall well_formed xs -> Forall well_formed xs' -> agree_on q xs xs' ->
  (borda_call norm method -> same_order xs /\ same_order xs') ->
  fuse E pysort xs norm method ps = Ok y -> fuse E' pysort xs' norm method ps = Ok y' -> stored y q = stored y' q.
Proof.
  intros N E E' pysort HE HE' HO Hs xs xs' norm method ps y y' q Hw Hw' HA Hb H H'.
  exact (fuse_same E E' HE HE' HO pysort Hs xs xs' norm method ps y y' q Hw Hw' HA Hb H H').
Qed.
Print Assumptions C88_normalize_own_results.
Print Assumptions C88_fuse_own_results.

(** ** a concrete case, in binary64 *)
Definition l_a := sf_run [@RAddScore NumSF "q1" "a" (sf_of_Z 3); @RAddScore NumSF "q1" "b" (sf_of_Z 1); @RAddScore NumSF "q2" "a" (sf_of_Z 5)].
Definition l_b := sf_run [@RAddScore NumSF "q1" "c" (sf_of_Z 2); @RAddScore NumSF "q1" "a" (sf_of_Z 1); @RAddScore NumSF "q2" "c" (sf_of_Z 7)].
Definition l_a' := sf_run [@RAddScore NumSF "q1" "a" (sf_of_Z 3); @RAddScore NumSF "q1" "b" (sf_of_Z 1); @RAddScore NumSF "q3" "z" (sf_of_Z 8)].
Definition l_b' := sf_run [@RAddScore NumSF "q1" "c" (sf_of_Z 2); @RAddScore NumSF "q1" "a" (sf_of_Z 1); @RAddScore NumSF "q3" "z" (sf_of_Z 4); @RAddScore NumSF "q3" "y" (sf_of_Z 6)].
Definition returns {A} (r : result A) : bool := match r with Ok _ => true | Err _ => false end.
Ltac wf := split; [repeat constructor; cbn; intuition discriminate|];
  intros q r; cbn; repeat (destruct (String.eqb q _); [intros Hr; injection Hr as <-; repeat constructor; cbn; intuition discriminate|]); discriminate.
Lemma l_ok : Forall well_formed [l_a; l_b; l_a'; l_b'].
Proof. do 4 (constructor; [wf|]). constructor. Qed.
Example ex_C88 : agree_on "q1" [l_a; l_b] [l_a'; l_b'] /\ same_order [l_a; l_b] /\ same_order [l_a'; l_b'] /\ stored l_a "q2" <> stored l_a' "q2" /\
  returns (fuse env_ex ins_sort [l_a; l_b] (Some "min-max") "sum" []) = true /\ returns (fuse env_ex ins_sort [l_a'; l_b'] (Some "min-max") "sum" []) = true /\
  returns (fuse env_ex ins_sort [l_a; l_b] (Some "borda") "condorcet" []) = true /\ returns (fuse env_ex ins_sort [l_a'; l_b'] (Some "borda") "condorcet" []) = true.
Proof.
  split; [repeat constructor|]. split; [intros x x' [<-|[<-|[]]] [<-|[<-|[]]]; reflexivity|]. split; [intros x x' [<-|[<-|[]]] [<-|[<-|[]]]; reflexivity|].
  split; [discriminate|]. split; [vmr|]. split; [vmr|]. split; vmr.
Qed.

(** for the borda calls the runs must store their queries in the same order: the same two
    runs, with the queries of one of them stored the other way round, are fused differently *)
Definition o_a := sf_run [@RAddScore NumSF "q1" "a" (sf_of_Z 3); @RAddScore NumSF "q1" "b" (sf_of_Z 1); @RAddScore NumSF "q2" "a" (sf_of_Z 5)].
Definition o_b := sf_run [@RAddScore NumSF "q1" "c" (sf_of_Z 2); @RAddScore NumSF "q2" "c" (sf_of_Z 7)].
Definition o_b' := sf_run [@RAddScore NumSF "q2" "c" (sf_of_Z 7); @RAddScore NumSF "q1" "c" (sf_of_Z 2)].
Definition docs_for (r : result (Run NumSF)) (q : string) : list string := match r with Ok y => dkeys (stored y q) | Err _ => [] end.
Theorem C88_query_order_refuted : exists x y y' : Run NumSF, well_formed x /\ well_formed y /\ well_formed y' /\
  (forall q, agree_on q [x; y] [x; y']) /\
  docs_for (fuse env_ex ins_sort [x; y] None "bordafuse" []) "q2" = ["a"; "c"] /\
  docs_for (fuse env_ex ins_sort [x; y'] None "bordafuse" []) "q2" = ["c"; "a"; "b"].
Proof.
  exists o_a, o_b, o_b'. split; [wf|]. split; [wf|]. split; [wf|]. split; [|split; vmr].
  intros q. constructor; [reflexivity|]. constructor; [|constructor]. unfold stored. cbn.
  destruct (String.eqb_spec q "q1") as [->|]; [reflexivity|]. destruct (String.eqb q "q2"); reflexivity.
Qed.
Print Assumptions C88_query_order_refuted.
