(** T_Closure.v: theorems about every object a program can hold (C79), and about the sorted flag of
    normalised and fused runs (C37, C50). *)
From Coq Require Import Reals.
From Verif Require Import Base Dict Num NumLaws Env EnvEx M_Common M_Qrels M_Run M_History M_Metrics M_Strings M_Evaluate M_Norm M_Fusion
  M_Text M_Train M_Optimize M_Compare M_IO M_Report M_Hub Spec_DS Spec_Hist Spec_Eval Spec_Norm Spec_Fusion Spec_Closure
  P_Base P_Dict P_Common P_History P_DS P_Eval P_Eval3 P_Eval5 P_Fusion3 P_Closure T_DS T_Evaluate T_Evaluate3 T_Norm T_Norm3 T_Fusion.
Open Scope string_scope.
Open Scope list_scope.
Open Scope nat_scope.

Lemma obtained_qrels_inv E : env_ok E -> forall y, obtained_qrels E y -> qrels_inv y.
Proof.
  intros HE y H. induction H as [|d name y Hd H|fs path kind y Hfs H|df a b c y H|fs path a b c kw y H|y name H IH|y o H IH Ho
    |y y' r metrics mean std save mk H IH He|T y xs metrics test n max_p digits percent mk H IH|sh pysort y xs norm method metric rep kws H IH].
  - split; [apply dict2_ok_nil|discriminate].
  - apply (qrels_reachable_inv E HE). exists y, []. split; [right; eauto|split; [constructor|auto]].
  - eapply q_file_inv; eauto.
  - eapply q_df_inv; eauto.
  - unfold Qrels_from_parquet in H. apply bindr_ok in H as (df & _ & H). eapply q_df_inv; eauto.
  - exact IH.
  - now apply (qrels_step_inv E HE).
  - eapply evaluate_qrels; eauto.
  - now apply (compare_keeps E HE T y xs metrics test n max_p digits percent mk).
  - now apply (optimize_keeps E HE pysort sh y xs norm method metric rep kws).
Qed.
Lemma obtained_inv E : env_ok E -> forall x, obtained E x -> @run_inv NumR x.
Proof.
  intros HE. fix IH 2. intros x H.
  assert (HF : forall xs, Forall (obtained E) xs -> Forall (@run_inv NumR) xs).
  { fix IHF 2. intros xs HF. destruct HF as [|a l H1 H2]; constructor; [exact (IH a H1)|exact (IHF l H2)]. }
  destruct H as [|d name x Hd H|fl fs path kind name x Hfs H|df a b c name x H|fs path a b c kw name x H|cd bytes x card Hc H|x name scores mean std H
    |x o H Ho|fl fs x path kind H|x norm y H Hy|pysort xs norm method ps y H Hy|q x x' metrics mean std save mk H He
    |T y xs metrics test n max_p digits percent mk x' H Hin|sh pysort y xs norm method metric rep kws x' H Hin].
  - apply run_inv_empty.
  - exact (init_inv E HE d name x Hd H).
  - exact (run_file_inv E HE fl fs path kind name x Hfs H).
  - exact (run_df_inv E HE df a b c name x H).
  - unfold Run_from_parquet in H. apply bindr_ok in H as (df & _ & H). exact (run_df_inv E HE df a b c name x H).
  - exact (hub_inv E HE cd bytes x card Hc H).
  - exact (IH x H).
  - apply (run_step_inv E HE NumR_laws); [exact (IH x H)|exact Ho|].
    destruct o; cbn; auto using is_nan_R.
    + apply Forall_forall. intros; apply is_nan_R.
    + apply Forall_forall. intros; apply Forall_forall; intros; apply is_nan_R.
  - pose proof (IH x H) as Hx. unfold Run_save. destruct (get_file_kind run_kinds path kind); [|exact Hx]. cbn [fst].
    destruct (r_sorted x); [exact Hx|]. apply sort_inv; [exact HE|]. apply Hx.
  - apply (normed_inv E HE). eapply normalize_normed. exact Hy.
  - apply (fused_inv E HE). eapply fuse_fused. exact Hy.
  - exact (evaluate_run E HE q x metrics mean std save mk x' (IH x H) He).
  - pose proof (compare_keeps E HE T y xs metrics test n max_p digits percent mk) as [_ Hk]. specialize (Hk (HF xs H)).
    rewrite Forall_forall in Hk. exact (Hk x' Hin).
  - pose proof (optimize_keeps E HE pysort sh y xs norm method metric rep kws) as [_ Hk]. specialize (Hk (HF xs H)).
    rewrite Forall_forall in Hk. exact (Hk x' Hin).
Qed.

(** ** C79: whatever a program has done, its Run and Qrels objects have every query once and every
    document once per query, and an object whose flag says "sorted" is sorted. *)
Theorem C79_runs : forall (E : env NumR), env_ok E -> forall x, obtained E x ->
  dict2_ok (r_map x) /\ (r_sorted x = true -> @run_in_order NumR (r_map x)).
Proof.
  intros E HE x H. apply (obtained_inv E HE) in H as (H1 & _ & H2). split; [exact H1|]. intros Hs. apply (is_sorted_in_order NumR_laws). auto.
Qed.
Theorem C79_qrels : forall (E : env NumR), env_ok E -> forall y, obtained_qrels E y ->
  dict2_ok (q_map y) /\ (q_sorted y = true -> qrels_in_order (q_map y)).
Proof. intros E HE y H. exact (obtained_qrels_inv E HE y H). Qed.

(** evaluate computes the right scores for any two such objects, e.g. for a run that was loaded,
    normalised, fused, edited and evaluated before. *)
Theorem C79_evaluate : forall (E : env NumR), env_ok E ->
  forall y x metrics mean std save mk,
  obtained_qrels E y -> obtained E x ->
  (mk = false -> same_queries (q_map y) (r_map x)) ->
  docs_distinct E (q_map y) (r_map x) -> metrics_ok metrics (q_map y) ->
  (length metrics = 1 -> mean = false -> save = true) ->
  let out := @evaluate NumR E (QObj y) (RObj x) metrics mean std save mk in
  exists qs ranking scores y' x',
    (* the queries of the qrels, sorted; each with a ranking of its results *)
    Permutation qs (dkeys (q_map y)) /\ StronglySorted (fun a b => str_ltb a b = true) qs /\
    (forall q, In q qs -> ranks (of_query (r_map x) q) (ranking q)) /\
    (* the per-query scores, what is returned, and what is saved *)
    are_scores metrics (q_map y) qs ranking scores /\
    returns metrics mean std scores (ev_res out) /\
    (if save then saved metrics (mean && std) qs scores x x' else nothing_saved x x') /\
    (* the objects afterwards: the same judgments, and the results of the queries of the qrels *)
    ev_q out = QObj y' /\ ev_r out = RObj x' /\ q_name y' = q_name y /\ r_name x' = r_name x /\
    smap_eq (smap_of (q_map y')) (smap_of (q_map y)) /\
    smap_eq (smap_of (r_map x')) (s_restrict (smap_of (r_map x)) (fun q => dmem (q_map y) q)) /\
    obtained_qrels E y' /\ obtained E x'.
Proof.
  intros E HE y x metrics mean std save mk Hy Hx Hsame Hids Hmet Hms out.
  assert (Hy' := obtained_qrels_inv E HE y Hy). assert (Hx' := obtained_inv E HE x Hx).
  destruct (evaluate_objects E HE y x metrics mean std save mk Hy' Hx' Hsame Hids Hmet)
    as (ranking & scores & y' & x' & H1 & H2 & H3 & H4 & (H5 & H6 & H7) & H8 & H9 & H10 & H11 & H12 & H13).
  fold out in H1, H2, H12.
  exists (str_sort (dkeys (q_map y))), ranking, scores, y', x'.
  split; [apply Permutation_sym, str_sort_perm|]. split; [apply str_sort_strict; apply Hy'|].
  split; [exact H10|]. split; [exact H11|]. split.
  { unfold eval_result, returns in *. destruct metrics as [|s [|s2 ms]]; auto.
    destruct H12 as (name & k & lvl & _ & Hr). rewrite Hr. destruct mean; [reflexivity|].
    rewrite (Hms eq_refl eq_refl). reflexivity. }
  split; [exact H13|]. split; [exact H1|]. split; [exact H2|].
  split; [subst y'; unfold Qrels_to_typed_list; cbn [fst]; now destruct (q_sorted y)|].
  split; [exact H7|]. split; [exact H8|]. split; [exact H9|].
  split; [eapply OQ_evaluate; [exact Hy|exact H1]|eapply OR_evaluate; [exact Hx|exact H2]].
Qed.

(** ** the sorted flag of normalised and fused runs; the inputs may be any Run objects *)
Lemma inv_flag (x : Run NumR) : @run_inv NumR x -> a_run x /\ (r_sorted x = true -> ranked x /\ queries_sorted x).
Proof.
  intros (H1 & _ & H2). split; [exact H1|]. intros Hs. destruct (is_sorted_in_order NumR_laws _ (H2 Hs)) as [H3 H4]. split; [|exact H3].
  assert (Hg : forall o : option (dict R), (forall r, o = Some r -> StronglySorted (fun a b : string * R => (snd b <= snd a)%R) r) ->
    StronglySorted (fun a b : string * R => (snd b <= snd a)%R) (match o with Some r => r | None => [] end)).
  { intros [r|] H; [now apply H|constructor]. }
  intros q. apply Hg. intros r Hr. specialize (H4 q r Hr).
  eapply StronglySorted_impl; [|exact H4]. intros a b Hab. numR. now apply Rleb_true.
Qed.
Theorem C37_sorted_flag : forall (E : env NumR), env_ok E -> forall x norm y, normalize E x norm = Ok y ->
  a_run y /\ (r_sorted y = true -> ranked y /\ queries_sorted y).
Proof. intros E HE x norm y H. apply inv_flag. apply (normed_inv E HE). eapply normalize_normed. exact H. Qed.
Theorem C50_sorted_flag : forall (E : env NumR) pysort, env_ok E -> forall xs norm method ps y, fuse E pysort xs norm method ps = Ok y ->
  a_run y /\ (r_sorted y = true -> ranked y /\ queries_sorted y).
Proof. intros E pysort HE xs norm method ps y H. apply inv_flag. apply (fused_inv E HE). eapply fuse_fused. exact H. Qed.

(** a run that was edited, normalised, fused with itself and edited again *)
Example ex_C79 : exists y z, normalize env_ex n_x "min_max" = Ok y /\ fuse env_ex (fun _ l => l) [y; n_x] None "sum" [] = Ok z /\
  obtained env_ex (Run_add_score z "q1" "new" 1%R).
Proof.
  assert (HE : env_ok (@env_ex NumR)) by apply env_ex_ok, NumR_laws.
  assert (Hx : obtained env_ex n_x).
  { unfold n_x, run_hist. cbn [fold_left]. repeat (apply OR_call; [|exact I]). apply OR_new. }
  destruct (C37_norm_keeps env_ex HE n_x "min_max" n_x_run) as (y & Hy & Ha & Hn & Hq & Hd); [cbn; tauto|discriminate|].
  assert (Hoy : obtained env_ex y) by exact (OR_normalize _ _ _ _ Hx Hy).
  assert (Hf : fusable [y; n_x]).
  { split; [discriminate|]. split; [repeat (constructor; [first [exact Ha|exact n_x_run]|]); constructor|].
    intros a b q [<-|[<-|[]]] [<-|[<-|[]]]; first [tauto|apply Hq]. }
  destruct (C43_comb_sum env_ex HE [y; n_x] "comb_sum" Hf) as (z & Hz & _).
  assert (Hfz : fuse env_ex (fun _ l => l) [y; n_x] None "sum" [] = Ok z).
  { unfold fuse. assert (Hk : keys_eqb (r_map y) (r_map n_x) = true) by (apply keys_eqb_spec; exact Hq).
    assert (Hsk : same_keys_check [y; n_x] = true) by (cbn [same_keys_check forallb]; now rewrite Hk).
    rewrite Hsk. exact Hz. }
  exists y, z. split; [exact Hy|]. split; [exact Hfz|]. apply (OR_call _ z (@RAddScore NumR "q1" "new" 1%R)); [|exact I].
  eapply OR_fuse; [|exact Hfz]. repeat (constructor; [assumption|]). constructor.
Qed.

Print Assumptions C79_runs.
Print Assumptions C79_qrels.
Print Assumptions C79_evaluate.
Print Assumptions C37_sorted_flag.
Print Assumptions C50_sorted_flag.
