(** T_Evaluate.v: theorems about ranx.evaluate (C07, C15, C16, C18, C19, C20). *)
From Coq Require Import Reals Lra.
From Verif Require Import Base Dict Num NumLaws Env EnvEx M_Common M_Qrels M_Run M_History M_Metrics M_Evaluate
  Spec_DS Spec_Hist Spec_Strings Spec_Metrics Spec_MetricsAPI Spec_Eval
  P_Base P_Dict P_Common P_History P_DS P_Metrics P_Metrics4 P_Metrics6 P_Metrics7 P_Strings T_DS T_Metrics T_Parse
  P_Eval P_Eval2 P_Eval3 P_Eval4 P_Eval5.
Open Scope string_scope.
Open Scope list_scope.
Open Scope nat_scope.

(** ** C18: what evaluate returns and saves, for a Qrels and a Run with any edit history.
    After the call the objects hold the same judgments and results (the run restricted to
    the queries of the qrels), and can be used again. *)
Lemma run_reachable_typed E x : run_reachable E x -> run_reachable E (fst (Run_to_typed_list E x)).
Proof.
  intros (x0 & os & H0 & Hs & Hm & Hso). exists x0, (os ++ [RToTypedList]). split; [exact H0|]. split.
  - apply Forall_app. split; [exact Hs|]. constructor; [exact I|constructor].
  - unfold run_hist. rewrite fold_left_app. fold (run_hist E x0 os). cbn [fold_left run_step fst].
    unfold Run_to_typed_list. cbn [fst]. rewrite Hso. destruct (r_sorted (run_hist E x0 os)) eqn:Hb; [split; congruence|].
    split; [|reflexivity]. unfold Run_sort. cbn [r_map]. now rewrite Hm.
Qed.
Lemma run_reachable_comparable E x y : run_reachable E x -> run_reachable E (Run_make_comparable E x y).
Proof.
  intros (x0 & os & H0 & Hs & Hm & Hso). exists x0, (os ++ [RMakeComparable y]). split; [exact H0|]. split.
  - apply Forall_app. split; [exact Hs|]. constructor; [exact I|constructor].
  - unfold run_hist. rewrite fold_left_app. fold (run_hist E x0 os). cbn [fold_left run_step fst].
    split; [|reflexivity]. unfold Run_make_comparable, Run_with_map, Run_sort. cbn [r_map]. now rewrite Hm.
Qed.
Lemma qrels_reachable_typed E y : qrels_reachable E y -> qrels_reachable E (fst (@Qrels_to_typed_list NumR E y)).
Proof.
  intros (x0 & os & H0 & Hs & Hm & Hso). exists x0, (os ++ [QToTypedList]). split; [exact H0|]. split.
  - apply Forall_app. split; [exact Hs|]. constructor; [exact I|constructor].
  - unfold qrels_hist. rewrite fold_left_app. fold (@qrels_hist NumR E x0 os). cbn [fold_left qrels_step fst].
    unfold Qrels_to_typed_list. cbn [fst]. rewrite Hso. destruct (q_sorted (@qrels_hist NumR E x0 os)) eqn:Hb; [split; congruence|].
    split; [|reflexivity]. unfold Qrels_sort. cbn [q_map]. now rewrite Hm.
Qed.
Lemma run_reachable_fields E x x' : r_map x' = r_map x -> r_sorted x' = r_sorted x -> run_reachable E x -> run_reachable E x'.
Proof. intros Hm Hs (x0 & os & H0 & H1 & H2 & H3). exists x0, os. repeat split; auto; congruence. Qed.

Lemma str_sort_strict l : NoDup l -> StronglySorted (fun a b => str_ltb a b = true) (str_sort l).
Proof.
  intros Hn. assert (H1 := str_sort_sorted l). apply str_sort_nodup in Hn. revert Hn.
  induction H1 as [|a l' H IH Ha]; intros Hn; constructor.
  - apply IH. now inversion Hn.
  - inversion Hn as [|? ? Hin Hn']; subst. rewrite Forall_forall in *. intros b Hb. unfold str_ltb.
    apply andb_true_iff. split; [exact (Ha b Hb)|]. apply negb_true_iff. apply String.eqb_neq. intros ->. contradiction.
Qed.

Theorem C18_evaluate : forall (E : env NumR), env_ok E ->
  forall y x metrics mean std save mk,
  qrels_reachable E y -> run_reachable E x -> q_map y <> [] ->
  (mk = false -> same_queries (q_map y) (r_map x)) ->
  docs_distinct E (q_map y) (r_map x) -> metrics_ok metrics (q_map y) ->
  (length metrics = 1 -> mean = false -> save = true) ->
  let out := @evaluate NumR E (QObj y) (RObj x) metrics mean std save mk in
  exists qs ranking scores y' x',
    (* the queries of the qrels, sorted; each with a ranking of its results *)
    Permutation qs (dkeys (q_map y)) /\ StronglySorted (fun a b => str_ltb a b = true) qs /\
    (forall q, In q qs -> ranks (of_query (r_map x) q) (ranking q)) /\
    (* the per-query scores, what is returned, and what is saved *)
    are_scores metrics (q_map y) qs ranking scores /\
    returns metrics mean std scores (ev_res out) /\
    (if save then saved metrics (mean && std) qs scores x x' else nothing_saved x x') /\
    (* the objects afterwards *)
    ev_q out = QObj y' /\ ev_r out = RObj x' /\ q_name y' = q_name y /\ r_name x' = r_name x /\
    smap_eq (smap_of (q_map y')) (smap_of (q_map y)) /\
    smap_eq (smap_of (r_map x')) (s_restrict (smap_of (r_map x)) (fun q => dmem (q_map y) q)) /\
    qrels_reachable E y' /\ run_reachable E x'.
Proof.
  intros E HE y x metrics mean std save mk Hy Hx _ Hsame Hids Hmet Hms out.
  assert (Hy' := qrels_reachable_inv E HE y Hy). assert (Hx' := run_reachable_inv E HE x Hx).
  destruct (evaluate_objects E HE y x metrics mean std save mk Hy' Hx' Hsame Hids Hmet)
    as (ranking & scores & y' & x' & H1 & H2 & H3 & H4 & (H5 & H6 & H7) & H8 & H9 & H10 & H11 & H12 & H13).
  fold out in H1, H2, H12.
  exists (str_sort (dkeys (q_map y))), ranking, scores, y', x'.
  split; [apply Permutation_sym, str_sort_perm|]. split; [apply str_sort_strict; apply Hy'|].
  split; [exact H10|]. split; [exact H11|]. split.
  { unfold eval_result, returns in *. destruct metrics as [|s [|s2 ms]]; auto.
    destruct H12 as (name & k & lvl & _ & Hr). rewrite Hr. destruct mean; [reflexivity|].
    rewrite (Hms eq_refl eq_refl). reflexivity. }
  split; [exact H13|]. split; [exact H1|]. split; [exact H2|].
  split; [subst y'; unfold Qrels_to_typed_list; cbn [fst]; now destruct (q_sorted y)|].
  split; [exact H7|]. split; [exact H8|]. split; [exact H9|].
  split; [subst y'; now apply qrels_reachable_typed|].
  eapply run_reachable_fields; [exact H5|exact H6|]. apply run_reachable_typed. destruct mk; [now apply run_reachable_comparable|exact Hx].
Qed.
Print Assumptions C18_evaluate.

(** ** C15: which judgments meet which ranking, for every combination of objects and dicts.
    The queries of the two arguments are paired by position. *)
Theorem C15_paired_by_position : forall (E : env NumR), env_ok E ->
  forall q jm qs r rm rs metrics mean std save,
  qrels_input E q jm qs -> run_input E r rm rs -> same_queries jm rm ->
  (forall a b, In (a, b) (combine qs rs) ->
     ids_distinct (doc_key E) (dkeys (of_query jm a) ++ dkeys (of_query rm b))) ->
  metrics_ok metrics jm -> (length metrics = 1 -> mean = false -> save = true /\ is_run_object r = true) ->
  exists ranking scores,
    (forall b, In b rs -> ranks (of_query rm b) (ranking b)) /\
    (forall s name k lvl, In s metrics -> denotes s name k lvl ->
       Forall2 (fun ab v => metric_value name (of_query jm (fst ab)) lvl (ranking (snd ab)) k v)
               (combine qs rs) (scores s)) /\
    returns metrics mean std scores (ev_res (@evaluate NumR E q r metrics mean std save false)).
Proof.
  intros E HE q jm qs r rm rs metrics mean std save Hq Hr Hs Hids Hmet Hms.
  destruct (evaluate_pairs E HE q jm qs r rm rs metrics mean std save false Hq Hr Hs Hids Hmet (or_introl eq_refl))
    as (ranking & scores & H1 & H2 & H3).
  exists ranking, scores. split; [exact H1|]. split; [exact H2|].
  unfold eval_result, returns in *. destruct metrics as [|s [|s2 ms]]; auto.
  destruct H3 as (name & k & lvl & _ & ->). destruct mean; [reflexivity|].
  destruct (Hms eq_refl eq_refl) as [-> ->]. reflexivity.
Qed.
Print Assumptions C15_paired_by_position.

Lemma combine_self {A} (l : list A) : combine l l = map (fun a => (a, a)) l.
Proof. induction l; cbn; congruence. Qed.
Lemma Forall2_map_l {A B C} (f : A -> B) (P : B -> C -> Prop) l1 l2 : Forall2 P (map f l1) l2 <-> Forall2 (fun a c => P (f a) c) l1 l2.
Proof.
  revert l2. induction l1 as [|a l1 IH]; intros l2; cbn.
  - split; intros H; inversion H; constructor.
  - split; intros H; inversion H; subst; constructor; auto; now apply IH.
Qed.

(** Objects are always paired correctly; so are dicts that list their queries in the same
    order, and an object with a dict listing its queries in sorted order. *)
Theorem C15_own_judgments : forall (E : env NumR), env_ok E ->
  forall q jm qs r rm rs metrics mean std save,
  qrels_input E q jm qs -> run_input E r rm rs -> same_queries jm rm ->
  match q, r with QObj _, RObj _ => True | _, _ => qs = rs end ->
  docs_distinct E jm rm -> metrics_ok metrics jm ->
  (length metrics = 1 -> mean = false -> save = true /\ is_run_object r = true) ->
  exists ranking scores,
    (forall b, In b rs -> ranks (of_query rm b) (ranking b)) /\
    are_scores metrics jm qs ranking scores /\
    returns metrics mean std scores (ev_res (@evaluate NumR E q r metrics mean std save false)).
Proof.
  intros E HE q jm qs r rm rs metrics mean std save Hq Hr Hs Ho Hids Hmet Hms.
  assert (Heq : qs = rs).
  { destruct Hq as [y Hy| |]; destruct Hr as [x Hx| |]; auto.
    apply str_sort_set_eq; [apply (qrels_reachable_inv E HE y Hy)|apply (run_reachable_inv E HE x Hx)|exact Hs]. }
  subst rs.
  assert (Hin : forall a, In a qs -> In a (dkeys jm)).
  { intros a. destruct (convert_qrels_spec E HE q jm qs Hq) as (_ & _ & _ & _ & _ & Hp). now apply Permutation_in. }
  destruct (C15_paired_by_position E HE q jm qs r rm qs metrics mean std save Hq Hr Hs) as (ranking & scores & H1 & H2 & H3); auto.
  - intros a b Hab. rewrite combine_self in Hab. apply in_map_iff in Hab as (c & Hc & Hcin). inversion Hc; subst. apply Hids. auto.
  - exists ranking, scores. split; [exact H1|]. split; [|exact H3].
    intros s name k lvl Hs1 Hs2. specialize (H2 s name k lvl Hs1 Hs2). rewrite combine_self in H2.
    now apply Forall2_map_l in H2.
Qed.
Print Assumptions C15_own_judgments.

(** ** C16 *)
Lemma keys_diff {V W} (d1 : dict V) (d2 : dict W) : ~ (forall q, In q (dkeys d1) <-> In q (dkeys d2)) -> keys_eqb d1 d2 = false.
Proof. intros H. apply Bool.not_true_iff_false. intros Hk. apply H. now apply keys_eqb_spec. Qed.

(** the query ids of an argument whose ids are checked *)
Definition checked_qrels {N : Num} (q : qarg) : option (list string) :=
  match q with QObj y => Some (dkeys (q_map y)) | QDict d => Some (dkeys d) | _ => None end.
Definition checked_run {N : Num} (r : rarg) : option (list string) :=
  match r with RObj x => Some (dkeys (r_map x)) | RDict d => Some (dkeys d) | _ => None end.

Theorem C16_mismatch_refused : forall (N : Num) (E : env N) q r qs rs metrics mean std save mk,
  checked_qrels q = Some qs -> checked_run r = Some rs -> ~ (forall a, In a qs <-> In a rs) ->
  (mk = true -> match q, r with QObj _, RObj _ => False | _, _ => True end) ->
  evaluate E q r metrics mean std save mk = EvalOut q r (Err AssertionError).
Proof.
  intros N E q r qs rs metrics mean std save mk Hq Hr Hne Hmk. unfold evaluate.
  match goal with |- context[match check_keys q ?t with _ => _ end] => replace t with r end.
  2:{ destruct mk; [|reflexivity]. specialize (Hmk eq_refl). destruct q; auto. destruct r; auto. contradiction. }
  assert (Hc : check_keys q r = Err AssertionError).
  { destruct q; try discriminate; destruct r; try discriminate; cbn in *; inversion Hq; inversion Hr; subst;
      rewrite keys_diff by assumption; reflexivity. }
  now rewrite Hc.
Qed.
Print Assumptions C16_mismatch_refused.

(** Same ids, supported metrics: a result, not an exception. *)
Theorem C16_match_accepted : forall (E : env NumR), env_ok E ->
  forall q jm qs r rm rs metrics mean std save,
  qrels_input E q jm qs -> run_input E r rm rs -> same_queries jm rm ->
  (forall a b, In (a, b) (combine qs rs) ->
     ids_distinct (doc_key E) (dkeys (of_query jm a) ++ dkeys (of_query rm b))) ->
  metrics_ok metrics jm -> (mean = true \/ length metrics <> 1) ->
  exists o, ev_res (@evaluate NumR E q r metrics mean std save false) = Ok o.
Proof.
  intros E HE q jm qs r rm rs metrics mean std save Hq Hr Hs Hids Hmet Hmean.
  destruct (C15_paired_by_position E HE q jm qs r rm rs metrics mean std save Hq Hr Hs Hids Hmet) as (ranking & scores & _ & _ & H).
  - intros H1 H2. destruct Hmean as [->|Hm]; [discriminate|contradiction].
  - unfold returns in H. destruct metrics as [|s [|s2 ms]].
    + destruct H as (d & -> & _). eauto.
    + eauto.
    + destruct H as (d & -> & _). eauto.
Qed.
Print Assumptions C16_match_accepted.

(** With make_comparable, any two objects are accepted. *)
Theorem C16_make_comparable_accepted : forall (E : env NumR), env_ok E ->
  forall y x metrics mean std save,
  qrels_reachable E y -> run_reachable E x -> q_map y <> [] ->
  docs_distinct E (q_map y) (r_map x) -> metrics_ok metrics (q_map y) ->
  (mean = true \/ length metrics <> 1 \/ save = true) ->
  exists o, ev_res (@evaluate NumR E (QObj y) (RObj x) metrics mean std save true) = Ok o.
Proof.
  intros E HE y x metrics mean std save Hy Hx Hne Hids Hmet Hm.
  destruct (C18_evaluate E HE y x metrics mean std save true Hy Hx Hne) as (qs & ranking & scores & y' & x' & _ & _ & _ & _ & H & _); auto; try discriminate.
  - intros H1 H2. destruct Hm as [->|[Hm|Hm]]; [discriminate|contradiction|exact Hm].
  - unfold returns in H. destruct metrics as [|s [|s2 ms]].
    + destruct H as (d & -> & _). eauto.
    + eauto.
    + destruct H as (d & -> & _). eauto.
Qed.
Print Assumptions C16_make_comparable_accepted.

Lemma evaluate_steps E q r s save q' r' tq tr m vs : check_keys q r = Ok tt ->
  @convert_qrels NumR E q = (q', Ok tq) -> @convert_run NumR E r = (r', Ok tr) -> is_run_object r' = false ->
  @compute_scores NumR E tq tr [s] = Ok (m, [(s, vs)]) ->
  ev_res (@evaluate NumR E q r [s] true false save false) = Ok (@OutOne NumR (@OMean NumR (mean_of vs))).
Proof.
  intros H1 H2 H3 H4 H5. unfold evaluate. rewrite H1, H2, H3, H5. rewrite <- fmean_R.
  assert (Hd : forall v : @outval NumR, dget_r [(s, v)] s = Ok v) by (intros v; unfold dget_r; cbn; now rewrite String.eqb_refl).
  destruct r'; try discriminate; cbn [map fst snd length Nat.eqb last_key fold_left summarise ev_res]; unfold last_key; cbn [fold_left fst]; now rewrite Hd.
Qed.
Lemma hits_scores E js rs : env_ok E -> aligned E js rs ->
  @compute_scores NumR E (qrels_arg E js) (run_arg E rs) ["hits"] =
  Ok ("hits", [("hits", per_query (fun j ds => INR (S_hits j 1 ds 0)) js rs)]).
Proof.
  intros HE Hal. assert (Hh := C21_hits E HE js rs 0%Z 1%Z Hal). cbn [Z.ltb Z.compare] in Hh.
  unfold compute_scores. cbn [foldr_m].
  assert (He : @extract_metric_and_params NumR "hits" = Ok ("hits", KInt 0, 1%Z)) by reflexivity.
  rewrite He. cbn [bindr]. assert (Hsw : metric_switch E "hits" = Ok (int_k (@hits NumR E))) by reflexivity.
  rewrite Hsw. cbn [bindr int_k]. rewrite Hh. reflexivity.
Qed.

(** Other mappings (here: what to_dict() returns) are not checked: the run may have other
    queries. *)
Theorem C16_unchecked_refuted : exists (E : env NumR) (jm : dict (dict Z)) (rm : dict (dict R)),
  env_ok E /\ (forall q, In q (dkeys jm) -> ~ In q (dkeys rm)) /\ jm <> [] /\
  ev_res (@evaluate NumR E (QSubDict (as_reals jm)) (RDict rm) ["hits"] true false true false)
  = Ok (@OutOne NumR (@OMean NumR 1%R)).
Proof.
  exists env_ex, [("q1", [("d", 1%Z)])], [("q9", [("d", 1%R)])].
  split; [apply env_ex_ok, NumR_laws|]. split; [intros q [<-|[]] [H|[]]; discriminate|]. split; [discriminate|].
  set (E := env_ex). assert (HE : env_ok E) by apply env_ex_ok, NumR_laws.
  destruct (convert_qrels_spec E HE (@QSubDict NumR (as_reals [("q1", [("d", 1%Z)])])) [("q1", [("d", 1%Z)])] ["q1"]) as (q' & jf & Q1 & Q2 & _).
  { apply QI_subdict; [apply dict2_ok_dec; cbn; [nodup|]; repeat (constructor; [cbn; nodup|]); constructor|].
    split; [discriminate|]. intros q r. cbn. destruct (String.eqb q "q1"); [|discriminate]. intros H. inversion H. discriminate. }
  destruct (convert_run_spec E HE (@RDict NumR [("q9", [("d", 1%R)])]) [("q9", [("d", 1%R)])] ["q9"]) as (r' & rf & R1 & R2 & _).
  { apply RI_dict; [apply dict2_ok_dec; cbn; [nodup|]; repeat (constructor; [cbn; nodup|]); constructor|].
    split; [discriminate|]. intros q r. cbn. destruct (String.eqb q "q9"); [|discriminate]. intros H. inversion H. discriminate. }
  assert (Hj : jf "q1" = [("d", 1%Z)]).
  { destruct (Q2 "q1") as [H _]. cbn in H. now apply Permutation_length_1_inv in H. }
  assert (Hr : rf "q9" = [("d", 1%R)]).
  { destruct (R2 "q9") as [H _]. cbn in H. now apply Permutation_length_1_inv in H. }
  assert (Hal : aligned E [[("d", 1%Z)]] [[("d", 1%R)]]).
  { constructor; [|constructor]. apply query_ok_ex; vmr. }
  cbn [map] in Q1, R1. rewrite Hj in Q1. rewrite Hr in R1.
  assert (Hgo : is_run_object r' = false) by (cbn [convert_run] in R1; now inversion R1).
  eapply eq_trans; [eapply evaluate_steps; [|exact Q1|exact R1|exact Hgo|exact (hits_scores E _ _ HE Hal)]; reflexivity|].
  do 3 f_equal. unfold mean_of. cbn. lra.
Qed.
Print Assumptions C16_unchecked_refuted.

(** ** C15, continued: dicts in different orders are misaligned. *)
Definition mis_j : dict (dict Z) := [("q1", [("a", 1%Z)]); ("q2", [("b", 1%Z)])].
Definition mis_r : dict (dict R) := [("q2", [("b", 1%R)]); ("q1", [("a", 1%R)])].
Definition mis_run : Run NumR := @run_hist NumR env_ex Run_empty [@RAddScore NumR "q2" "b" 1%R; @RAddScore NumR "q1" "a" 1%R].
Lemma mis_j_ok : dict2_ok mis_j.
Proof. apply dict2_ok_dec; cbn; [nodup|]; repeat (constructor; [cbn; nodup|]); constructor. Qed.
Lemma mis_r_ok : dict2_ok mis_r.
Proof. apply dict2_ok_dec; cbn; [nodup|]; repeat (constructor; [cbn; nodup|]); constructor. Qed.
Lemma mis_j_ne : no_empty_query mis_j.
Proof.
  split; [discriminate|]. intros q r. cbn. destruct (String.eqb q "q1"); [intros H; inversion H; discriminate|].
  destruct (String.eqb q "q2"); [intros H; inversion H; discriminate|discriminate].
Qed.
Lemma mis_r_ne : no_empty_query mis_r.
Proof.
  split; [discriminate|]. intros q r. cbn. destruct (String.eqb q "q2"); [intros H; inversion H; discriminate|].
  destruct (String.eqb q "q1"); [intros H; inversion H; discriminate|discriminate].
Qed.
Lemma denotes_hits : denotes "hits" "hits" (KInt 0) 1.
Proof. split; [reflexivity|]. split; [cbn; tauto|]. split; [cbn; split; [tauto|lia]|lia]. Qed.
Lemma hits_ok m : metrics_ok ["hits"] m.
Proof. intros s [<-|[]]. exists "hits", (KInt 0), 1%Z. split; [apply denotes_hits|]. intros q _ H. discriminate. Qed.
Lemma ranks_single k v ds : ranks [(k, v)] ds -> ds = [k].
Proof. intros (rk & Hp & _ & ->). apply Permutation_length_1_inv in Hp. now subst. Qed.

Lemma mis_run_reachable : run_reachable env_ex mis_run.
Proof.
  exists Run_empty, [@RAddScore NumR "q2" "b" 1%R; @RAddScore NumR "q1" "a" 1%R].
  split; [now left|]. split; [repeat constructor|]. split; reflexivity.
Qed.
Lemma mis_same : same_queries mis_j mis_r.
Proof. intros q. cbn. tauto. Qed.
Lemma mis_ids a b : In (a, b) (combine ["q1"; "q2"] ["q2"; "q1"]) \/ In (a, b) (combine ["q2"; "q1"] ["q1"; "q2"]) ->
  ids_distinct (doc_key (@env_ex NumR)) (dkeys (of_query mis_j a) ++ dkeys (of_query mis_r b)).
Proof.
  cbn. intros H. apply ids_distinctb_ok.
  destruct H as [[H|[H|[]]]|[H|[H|[]]]]; inversion H; subst; vmr.
Qed.

Lemma Forall2_two {A B} (P : A -> B -> Prop) a b l : Forall2 P [a; b] l -> exists v w, l = [v; w] /\ P a v /\ P b w.
Proof.
  intros H. destruct l as [|v [|w [|u l]]]; inversion H as [|? ? ? ? H1 H2]; subst; inversion H2 as [|? ? ? ? H3 H4]; subst; [|inversion H4].
  eauto.
Qed.
(** Each query retrieves exactly its one relevant document, so "hits" is 1 for both
    queries.  With plain dicts listing the queries in different orders, and with a qrels
    dict whose queries are not sorted together with a Run, evaluate returns 0. *)
Theorem C15_dict_order_refuted : exists (E : env NumR) (jm jm' : dict (dict Z)) (rm : dict (dict R)) (x : Run NumR),
  env_ok E /\ dict2_ok jm /\ dict2_ok rm /\ Permutation jm jm' /\ run_reachable E x /\ r_map x = rm /\
  same_queries jm rm /\
  (forall q, In q (dkeys jm) -> S_hits (of_query jm q) 1 (dkeys (of_query rm q)) 0 = 1) /\
  ev_res (@evaluate NumR E (QDict (as_reals jm)) (RDict rm) ["hits"] true false true false)
  = Ok (@OutOne NumR (@OMean NumR 0%R)) /\
  ev_res (@evaluate NumR E (QDict (as_reals jm')) (RObj x) ["hits"] true false true false)
  = Ok (@OutOne NumR (@OMean NumR 0%R)).
Proof.
  set (E := @env_ex NumR). assert (HE : env_ok E) by apply env_ex_ok, NumR_laws.
  exists E, mis_j, (rev mis_j), mis_r, mis_run.
  split; [exact HE|]. split; [apply mis_j_ok|]. split; [apply mis_r_ok|]. split; [apply Permutation_rev|].
  split; [apply mis_run_reachable|]. split; [reflexivity|]. split; [apply mis_same|].
  split; [intros q [<-|[<-|[]]]; reflexivity|].
  assert (Hv : forall jm a b ds v, of_query mis_j a = of_query jm a -> In (a, b) [("q1", "q2"); ("q2", "q1")] -> ranks (of_query mis_r b) ds ->
     metric_value "hits" (of_query jm a) 1 ds (KInt 0) v -> v = 0%R).
  { intros jm a b ds v <- Hab Hr Hv. inversion Hv; subst. destruct Hab as [H|[H|[]]]; inversion H; subst;
      apply ranks_single in Hr; subst; cbn; reflexivity. }
  split.
  - destruct (C15_paired_by_position E HE (@QDict NumR (as_reals mis_j)) mis_j ["q1"; "q2"] (@RDict NumR mis_r) mis_r ["q2"; "q1"] ["hits"] true false true)
      as (ranking & scores & H1 & H2 & H3); auto using mis_same, hits_ok; try discriminate.
    + apply (QI_dict E mis_j mis_j_ok mis_j_ne).
    + apply (RI_dict E mis_r mis_r_ok mis_r_ne).
    + intros a b H. apply mis_ids. now left.
    + specialize (H2 "hits" "hits" (KInt 0) 1%Z (or_introl eq_refl) denotes_hits).
      cbn [combine] in H2. apply Forall2_two in H2 as (v1 & v2 & Hs & V1 & V2).
      cbn [fst snd] in V1, V2.
      assert (Ev1 : v1 = 0%R) by exact (Hv mis_j "q1" "q2" (ranking "q2") v1 eq_refl ltac:(cbn; auto) (H1 "q2" ltac:(cbn; auto)) V1).
      assert (Ev2 : v2 = 0%R) by exact (Hv mis_j "q2" "q1" (ranking "q1") v2 eq_refl ltac:(cbn; auto) (H1 "q1" ltac:(cbn; auto)) V2).
      cbn [returns] in H3. rewrite H3. rewrite Hs. unfold reported. do 3 f_equal. subst v1 v2. unfold mean_of. cbn. lra.
  - destruct (C15_paired_by_position E HE (@QDict NumR (as_reals (rev mis_j))) (rev mis_j) ["q2"; "q1"] (@RObj NumR mis_run) mis_r ["q1"; "q2"] ["hits"] true false true)
      as (ranking & scores & H1 & H2 & H3); auto using hits_ok; try discriminate.
    + apply (QI_dict E (rev mis_j)).
      * apply dict2_ok_dec; cbn; [nodup|]; repeat (constructor; [cbn; nodup|]); constructor.
      * split; [discriminate|]. intros q r. cbn. destruct (String.eqb q "q2"); [intros H; inversion H; discriminate|].
        destruct (String.eqb q "q1"); [intros H; inversion H; discriminate|discriminate].
    + apply (RI_obj E mis_run mis_run_reachable).
    + intros q. cbn. tauto.
    + intros a b [H|[H|[]]]; inversion H; subst; apply ids_distinctb_ok; vmr.
    + specialize (H2 "hits" "hits" (KInt 0) 1%Z (or_introl eq_refl) denotes_hits).
      cbn [combine] in H2. apply Forall2_two in H2 as (v1 & v2 & Hs & V1 & V2).
      cbn [fst snd] in V1, V2.
      assert (Ev1 : v1 = 0%R) by exact (Hv (rev mis_j) "q2" "q1" (ranking "q1") v1 eq_refl ltac:(cbn; auto) (H1 "q1" ltac:(cbn; auto)) V1).
      assert (Ev2 : v2 = 0%R) by exact (Hv (rev mis_j) "q1" "q2" (ranking "q2") v2 eq_refl ltac:(cbn; auto) (H1 "q2" ltac:(cbn; auto)) V2).
      cbn [returns] in H3. rewrite H3. rewrite Hs. unfold reported. do 3 f_equal. subst v1 v2. unfold mean_of. cbn. lra.
Qed.
Print Assumptions C15_dict_order_refuted.
