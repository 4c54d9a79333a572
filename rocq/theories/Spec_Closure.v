(** Spec_Closure.v: the Run and Qrels objects a program can hold, whatever public functions it has
    called on them and whether these calls succeeded or raised. *)
From Coq Require Import Reals.
From Verif Require Import Base Dict Num Env M_Common M_Qrels M_Run M_History M_Metrics M_Strings M_Evaluate M_Norm M_Fusion
  M_Text M_Train M_Optimize M_Compare M_IO M_Report M_Hub Spec_DS Spec_Hist.
Open Scope string_scope.
Open Scope list_scope.
Open Scope nat_scope.

(** The keys of an object in a JSON or CBOR file are read into a Python dict, which has no key twice. *)
Definition file_ok {N V} (f : file N V) : Prop :=
  match f with FJson d => dict2_ok d | FLz4 d => dict2_ok d | _ => True end.
Definition files_ok {N V} (fs : dict (file N V)) : Prop := forall path f, dget fs path = Some f -> file_ok f.
Definition codec_ok {N : Num} (cd : codec N) : Prop := forall s c, decode cd s = Ok c -> dict2_ok (snd c).

Inductive obtained_qrels (E : env NumR) : Qrels -> Prop :=
| OQ_new : obtained_qrels E Qrels_empty
| OQ_dict d name y : dict2_ok d -> @Qrels_init NumR E d name = Ok y -> obtained_qrels E y
| OQ_file fs path kind y : files_ok fs -> @Qrels_from_file NumR E fs path kind = Ok y -> obtained_qrels E y
| OQ_df df a b c y : @Qrels_from_df NumR E df a b c = Ok y -> obtained_qrels E y
| OQ_parquet fs path a b c kw y : @Qrels_from_parquet NumR E fs path a b c kw = Ok y -> obtained_qrels E y
| OQ_name y name : obtained_qrels E y -> obtained_qrels E (mkQrels (q_map y) (q_sorted y) name)
| OQ_call y o : obtained_qrels E y -> qrels_op_shape o -> obtained_qrels E (fst (@qrels_step NumR E y o))
| OQ_evaluate y y' r metrics mean std save mk : obtained_qrels E y ->
    ev_q (@evaluate NumR E (QObj y) r metrics mean std save mk) = QObj y' -> obtained_qrels E y'
| OQ_compare T y xs metrics test n max_p digits percent mk : obtained_qrels E y ->
    obtained_qrels E (fst (fst (compare E T y xs metrics test n max_p digits percent mk)))
| OQ_optimize sh pysort y xs norm method metric rep kws : obtained_qrels E y ->
    obtained_qrels E (fst (fst (optimize_fusion E pysort sh y xs norm method metric rep kws))).

Inductive obtained (E : env NumR) : Run NumR -> Prop :=
| OR_new : obtained E Run_empty
| OR_dict d name x : dict2_ok d -> Run_init E d name = Ok x -> obtained E x
| OR_file fl fs path kind name x : files_ok fs -> Run_from_file E fl fs path kind name = Ok x -> obtained E x
| OR_df df a b c name x : Run_from_df E df a b c name = Ok x -> obtained E x
| OR_parquet fs path a b c kw name x : Run_from_parquet E fs path a b c kw name = Ok x -> obtained E x
| OR_hub cd bytes x card : codec_ok cd -> hub_load E cd bytes = Ok (x, card) -> obtained E x
| OR_attributes x name scores mean std : obtained E x -> obtained E (mkRun (r_map x) (r_sorted x) name scores mean std)
| OR_call x o : obtained E x -> run_op_shape o -> obtained E (fst (run_step E x o))
| OR_save fl fs x path kind : obtained E x -> obtained E (fst (Run_save E fl fs x path kind))
| OR_normalize x norm y : obtained E x -> normalize E x norm = Ok y -> obtained E y
| OR_fuse pysort xs norm method ps y : Forall (obtained E) xs -> fuse E pysort xs norm method ps = Ok y -> obtained E y
| OR_evaluate q x x' metrics mean std save mk : obtained E x ->
    ev_r (evaluate E q (RObj x) metrics mean std save mk) = RObj x' -> obtained E x'
| OR_compare T y xs metrics test n max_p digits percent mk x' : Forall (obtained E) xs ->
    In x' (snd (fst (compare E T y xs metrics test n max_p digits percent mk))) -> obtained E x'
| OR_optimize sh pysort y xs norm method metric rep kws x' : Forall (obtained E) xs ->
    In x' (snd (fst (optimize_fusion E pysort sh y xs norm method metric rep kws))) -> obtained E x'.
