(** T_Evaluate3.v: relevance levels (C07), and concrete cases for the theorems about evaluate. *)
From Coq Require Import Reals Lra.
From Verif Require Import Base Dict Num NumLaws Env EnvEx M_Common M_Qrels M_Run M_History M_Metrics M_Evaluate
  Spec_DS Spec_Hist Spec_Strings Spec_Metrics Spec_MetricsAPI Spec_Eval
  P_Base P_Dict P_Common P_History P_DS P_Metrics P_Metrics4 P_Metrics6 P_Metrics7 P_Strings T_DS T_Metrics T_Parse
  P_Eval P_Eval2 P_Eval3 P_Eval4 P_Eval5 T_Evaluate T_Evaluate2.
Open Scope string_scope.
Open Scope list_scope.
Open Scope nat_scope.

(** ** C07 *)
Definition shift (L : Z) (j : dict Z) : dict Z := map (fun kv => (fst kv, (snd kv - (L - 1))%Z)) j.
Lemma shift_get L j d : dget (shift L j) d = option_map (fun v => (v - (L - 1))%Z) (dget j d).
Proof. induction j as [|[k v] j IH]; cbn; auto. destruct (String.eqb d k); auto. Qed.
Lemma shift_relevant L j d : relevant (shift L j) 1 d = relevant j L d.
Proof.
  unfold relevant. rewrite shift_get. destruct (dget j d); cbn; auto.
  destruct (Z.leb_spec 1 (z - (L - 1))), (Z.leb_spec L z); auto; lia.
Qed.
Lemma shift_judged L j d : judged (shift L j) d = judged j d.
Proof. unfold judged. rewrite shift_get. now destruct (dget j d). Qed.
Lemma shift_n_relevant L j : n_relevant (shift L j) 1 = n_relevant j L.
Proof.
  unfold n_relevant. induction j as [|[k v] j IH]; auto. cbn [shift map count fst snd] in *.
  replace (1 <=? v - (L - 1))%Z with (L <=? v)%Z; [|destruct (Z.leb_spec 1 (v - (L - 1))), (Z.leb_spec L v); auto; lia].
  destruct (L <=? v)%Z; auto.
Qed.
Lemma shift_n_nonrel L j : n_judged_nonrelevant (shift L j) 1 = n_judged_nonrelevant j L.
Proof.
  unfold n_judged_nonrelevant. induction j as [|[k v] j IH]; auto. cbn [shift map count fst snd] in *.
  replace (v - (L - 1) <? 1)%Z with (v <? L)%Z; [|destruct (Z.ltb_spec (v - (L - 1)) 1), (Z.ltb_spec v L); auto; lia].
  destruct (v <? L)%Z; auto.
Qed.
Lemma count_ext {A} (f g : A -> bool) l : (forall a, f a = g a) -> count f l = count g l.
Proof. intros H. induction l as [|a l IH]; cbn; auto. now rewrite H, IH. Qed.
Lemma first_pos_ext (f g : string -> bool) l : (forall a, f a = g a) -> first_pos f l = first_pos g l.
Proof. intros H. induction l as [|a l IH]; cbn; auto. now rewrite H, IH. Qed.
Lemma existsb_ext {A} (f g : A -> bool) l : (forall a, f a = g a) -> existsb f l = existsb g l.
Proof. intros H. induction l as [|a l IH]; cbn; auto. now rewrite H, IH. Qed.
Lemma Rsum_n_ext n f g : (forall i, f i = g i) -> Rsum_n n f = Rsum_n n g.
Proof. intros H. unfold Rsum_n. now rewrite (map_ext f g H). Qed.
Lemma binary_value name j L ds k v : In name binary_metrics ->
  metric_value name j L ds k v -> metric_value name (shift L j) 1 ds k v.
Proof.
  intros Hb Hv.
  assert (Hr := shift_relevant L j).
  assert (Hhits : forall n, S_hits (shift L j) 1 ds n = S_hits j L ds n) by (intros n; apply count_ext, Hr).
  assert (Hprec : forall n, S_precision (shift L j) 1 ds n = S_precision j L ds n) by (intros n; unfold S_precision; now rewrite Hhits).
  assert (Hrec : forall n, S_recall (shift L j) 1 ds n = S_recall j L ds n) by (intros n; unfold S_recall; now rewrite Hhits, shift_n_relevant).
  destruct Hv; try (cbn in Hb; now repeat destruct Hb as [Hb|Hb]; try discriminate).
  - rewrite <- Hhits. constructor.
  - replace (S_hit_rate j l ds (Z.to_nat k)) with (S_hit_rate (shift l j) 1 ds (Z.to_nat k)); [constructor|].
    unfold S_hit_rate. now rewrite (existsb_ext _ _ _ Hr).
  - rewrite <- Hprec. constructor.
  - rewrite <- Hrec. constructor.
  - replace (S_f1 j l ds (Z.to_nat k)) with (S_f1 (shift l j) 1 ds (Z.to_nat k)); [constructor|].
    unfold S_f1. now rewrite Hprec, Hrec.
  - replace (S_r_precision j l ds) with (S_r_precision (shift l j) 1 ds); [constructor|].
    unfold S_r_precision. rewrite shift_n_relevant. destruct (n_relevant j l); auto.
  - replace (S_mrr j l ds (Z.to_nat k)) with (S_mrr (shift l j) 1 ds (Z.to_nat k)); [constructor|].
    unfold S_mrr. now rewrite (first_pos_ext _ _ _ Hr).
  - replace (S_map j l ds (Z.to_nat k)) with (S_map (shift l j) 1 ds (Z.to_nat k)); [constructor|].
    unfold S_map. rewrite shift_n_relevant. destruct (n_relevant j l); auto. f_equal. apply Rsum_n_ext. intros i. rewrite Hr.
    destruct (relevant j l (nth i ds "")); auto. unfold precision_at. now rewrite (count_ext _ _ _ Hr).
  - replace (S_bpref j l ds) with (S_bpref (shift l j) 1 ds); [constructor|].
    unfold S_bpref. rewrite shift_n_relevant, shift_n_nonrel. f_equal. apply Rsum_n_ext. intros i. rewrite Hr.
    destruct (relevant j l (nth i ds "")); auto. do 3 f_equal. f_equal. apply count_ext. intros d. now rewrite Hr, shift_judged.
Qed.
Lemma set_level_query E y L q : env_ok E -> dict2_ok (q_map y) ->
  of_query (q_map (@Qrels_set_relevance_level NumR E y L)) q = shift L (of_query (q_map y) q).
Proof.
  intros HE Hok. destruct (set_relevance_level_get E HE (q_map y) L Hok) as [_ Hg]. unfold of_query.
  cbn [Qrels_set_relevance_level q_map]. rewrite Hg. now destruct (dget (q_map y) q).
Qed.
Lemma qrels_reachable_level E y L : qrels_reachable E y -> qrels_reachable E (@Qrels_set_relevance_level NumR E y L).
Proof.
  intros (x0 & os & H0 & Hs & Hm & Hso). exists x0, (os ++ [QSetRelevanceLevel L]). split; [exact H0|]. split.
  - apply Forall_app. split; [exact Hs|]. constructor; [exact I|constructor].
  - unfold qrels_hist. rewrite fold_left_app. fold (@qrels_hist NumR E x0 os). cbn [fold_left qrels_step fst].
    unfold Qrels_set_relevance_level. cbn [q_map q_sorted]. now rewrite Hm, Hso.
Qed.

(** [s] and [sl] are strings for the same metric and cut-off, [sl] with relevance level
    [L] and [s] with the default level (C13 gives such pairs: "map@10" and "map@10-l2"). *)
Theorem C07_relevance_level : forall (E : env NumR), env_ok E ->
  forall y x s sl name k L mean std save,
  qrels_reachable E y -> run_reachable E x -> q_map y <> [] -> same_queries (q_map y) (r_map x) ->
  docs_distinct E (q_map y) (r_map x) ->
  denotes s name k 1 -> denotes sl name k L -> In name binary_metrics ->
  (forall q, In q (dkeys (q_map y)) -> metric_defined name (of_query (q_map y) q) L) ->
  mean || save = true ->
  ev_res (@evaluate NumR E (QObj y) (RObj x) [sl] mean std save false) =
  ev_res (@evaluate NumR E (QObj (@Qrels_set_relevance_level NumR E y L)) (RObj x) [s] mean std save false).
Proof.
  intros E HE y x s sl name k L mean std save Hy Hx _ Hsq Hids Hs Hsl Hb Hdef Hms.
  set (y' := @Qrels_set_relevance_level NumR E y L).
  assert (Hy' := qrels_reachable_inv E HE y Hy). assert (Hx' := run_reachable_inv E HE x Hx).
  assert (Hyl := qrels_reachable_inv E HE y' (qrels_reachable_level E y L Hy)).
  assert (Hk : dkeys (q_map y') = dkeys (q_map y)).
  { destruct (C06_set_relevance_level NumR E HE y L (proj1 Hy')) as [Hk _]. exact Hk. }
  assert (Hq : forall q, of_query (q_map y') q = shift L (of_query (q_map y) q)) by (intros q; apply set_level_query; [exact HE|apply Hy']).
  assert (Hm1 : metrics_ok [sl] (q_map y)) by (intros a [<-|[]]; exists name, k, L; auto).
  assert (Hm2 : metrics_ok [s] (q_map y')).
  { intros a [<-|[]]. exists name, k, 1%Z. split; [exact Hs|]. intros q Hin Hn. rewrite Hk in Hin. specialize (Hdef q Hin Hn).
    rewrite Hq, shift_n_relevant, shift_n_nonrel. exact Hdef. }
  assert (Hsq2 : same_queries (q_map y') (r_map x)) by (intros q; rewrite Hk; apply Hsq).
  assert (Hids2 : docs_distinct E (q_map y') (r_map x)).
  { intros q Hin. rewrite Hk in Hin. rewrite Hq.
    assert (Hkk : dkeys (shift L (of_query (q_map y) q)) = dkeys (of_query (q_map y) q)) by (unfold shift, dkeys; now rewrite map_map).
    rewrite Hkk. now apply Hids. }
  destruct (evaluate_objects E HE y x [sl] mean std save false Hy' Hx' (fun _ => Hsq) Hids Hm1)
    as (rk1 & sc1 & y1 & x1 & _ & _ & _ & A4 & A5 & _ & _ & A10 & A11 & A12 & _).
  destruct (evaluate_objects E HE y' x [s] mean std save false Hyl Hx' (fun _ => Hsq2) Hids2 Hm2)
    as (rk2 & sc2 & y2 & x2 & _ & _ & _ & B4 & B5 & _ & _ & B10 & B11 & B12 & _).
  assert (Hrk : rk1 = rk2).
  { rewrite A4, B4. destruct A5 as [A5 _], B5 as [B5 _]. cbv zeta in A5, B5. rewrite A5, B5. reflexivity. }
  rewrite Hk, <- Hrk in B11.
  assert (F1 := A11 sl name k L (or_introl eq_refl) Hsl). assert (F2 := B11 s name k 1%Z (or_introl eq_refl) Hs).
  assert (Hsc : sc1 sl = sc2 s).
  { clear - F1 F2 Hq Hb. revert F1 F2. generalize (sc1 sl) as l1, (sc2 s) as l2. induction (str_sort (dkeys (q_map y))) as [|q l IH]; intros l1 l2 F1 F2.
    - inversion F1; inversion F2; congruence.
    - inversion F1 as [|? v1 ? t1 V1 T1]; inversion F2 as [|? v2 ? t2 V2 T2]; subst. f_equal; [|now apply IH].
      rewrite Hq in V2. eapply metric_value_unique; [|exact V2]. apply binary_value; [exact Hb|exact V1]. }
  cbn [eval_result] in A12, B12. destruct A12 as (n1 & k1 & l1 & _ & ->), B12 as (n2 & k2 & l2 & _ & ->).
  rewrite Hms, Hsc. reflexivity.
Qed.
Print Assumptions C07_relevance_level.

(** ** a concrete case *)
Definition ex_y : Qrels := @qrels_hist NumR env_ex Qrels_empty
  [QAddScore "q2" "d1" 1; QAddScore "q1" "d2" 2; QAddScore "q2" "d3" 3; QAddScore "q1" "d1" 0].
Definition ex_x : Run NumR := @run_hist NumR env_ex Run_empty
  [@RAddScore NumR "q2" "d3" 0.5%R; @RAddScore NumR "q1" "d2" 0.9%R; @RAddScore NumR "q1" "d4" 0.3%R; @RAddScore NumR "q2" "d1" 0.7%R].
(** the same with doubled scores, built in another order *)
Definition ex_x2 : Run NumR := @run_hist NumR env_ex Run_empty
  [@RAddScore NumR "q1" "d4" 0.6%R; @RAddScore NumR "q1" "d2" 1.8%R; @RAddScore NumR "q2" "d3" 1%R; @RAddScore NumR "q2" "d1" 1.4%R].
Lemma ex_y_reachable : qrels_reachable env_ex ex_y.
Proof.
  eexists Qrels_empty, [QAddScore "q2" "d1" 1; QAddScore "q1" "d2" 2; QAddScore "q2" "d3" 3; QAddScore "q1" "d1" 0]%Z.
  split; [now left|]. split; [repeat constructor|]. split; reflexivity.
Qed.
Lemma ex_x_reachable : run_reachable env_ex ex_x.
Proof. eexists Run_empty, _. split; [now left|]. split; [|split; reflexivity]. repeat constructor. Qed.
Lemma ex_x2_reachable : run_reachable env_ex ex_x2.
Proof. eexists Run_empty, _. split; [now left|]. split; [|split; reflexivity]. repeat constructor. Qed.
Lemma ex_same : same_queries (q_map ex_y) (r_map ex_x).
Proof. intros q. cbn. tauto. Qed.
Lemma ex_docs : docs_distinct env_ex (q_map ex_y) (r_map ex_x).
Proof. intros q [<-|[<-|[]]]; apply ids_distinctb_ok; vmr. Qed.
Lemma denotes_cut N0 name ks k : In name cutoff_metrics -> numeral ks k -> (0 <= k)%Z -> N0 = NumR ->
  denotes (name ++ "@" ++ ks)%string name (KInt k) 1.
Proof.
  intros Hn Hk Hk0 _. destruct (C13_metric_strings NumR name ks k ks k Hn Hk Hk) as (_ & He & _).
  split; [exact He|]. split; [unfold all_metrics; apply in_or_app; now left|]. split; [cbn; auto|lia].
Qed.
Lemma ex_metrics : metrics_ok ["ndcg@5"; "map"; "rbp.95"; "precision@1-l2"] (q_map ex_y).
Proof.
  intros s Hs. cbn in Hs. destruct Hs as [<-|[<-|[<-|[<-|[]]]]].
  - exists "ndcg", (KInt 5), 1%Z. split; [|intros q _ H; discriminate].
    split; [reflexivity|]. split; [cbn; tauto|]. split; [cbn; split; [tauto|lia]|lia].
  - exists "map", (KInt 0), 1%Z. split; [|intros q _ H; discriminate].
    split; [reflexivity|]. split; [cbn; tauto|]. split; [cbn; split; [tauto|lia]|lia].
  - exists "rbp", (KFloat (@fdec NumR 95 2)), 1%Z. split; [|intros q _ H; discriminate].
    split; [reflexivity|]. split; [cbn; tauto|]. split; [reflexivity|lia].
  - exists "precision", (KInt 1), 2%Z. split; [|intros q _ H; discriminate].
    split; [reflexivity|]. split; [cbn; tauto|]. split; [cbn; split; [tauto|lia]|lia].
Qed.
Example ex_C18 : exists qs ranking scores y' x',
  let out := @evaluate NumR env_ex (QObj ex_y) (RObj ex_x) ["ndcg@5"; "map"; "rbp.95"; "precision@1-l2"] true true true false in
  Permutation qs (dkeys (q_map ex_y)) /\ length qs = 2 /\
  are_scores ["ndcg@5"; "map"; "rbp.95"; "precision@1-l2"] (q_map ex_y) qs ranking scores /\
  returns ["ndcg@5"; "map"; "rbp.95"; "precision@1-l2"] true true scores (ev_res out) /\
  ev_q out = QObj y' /\ ev_r out = RObj x'.
Proof.
  destruct (C18_evaluate env_ex (env_ex_ok NumR_laws) ex_y ex_x ["ndcg@5"; "map"; "rbp.95"; "precision@1-l2"] true true true false
    ex_y_reachable ex_x_reachable ltac:(discriminate) (fun _ => ex_same) ex_docs ex_metrics ltac:(discriminate))
    as (qs & ranking & scores & y' & x' & H1 & _ & _ & H2 & H3 & _ & H4 & H5 & _).
  exists qs, ranking, scores, y', x'. split; [exact H1|]. split; [now rewrite (Permutation_length H1)|]. auto.
Qed.
Example ex_C20 : run_reachable env_ex ex_x2 /\ rescored (fun s => (2 * s)%R) (r_map ex_x) (r_map ex_x2) /\ no_ties (r_map ex_x).
Proof.
  split; [apply ex_x2_reachable|]. split; [split|].
  - intros q. cbn. tauto.
  - intros q. cbn [r_map ex_x ex_x2]. unfold of_query. cbn. destruct (String.eqb q "q2") eqn:H2.
    + apply String.eqb_eq in H2. subst. cbn. replace (2 * 0.5)%R with 1%R by lra. replace (2 * 0.7)%R with 1.4%R by lra. reflexivity.
    + destruct (String.eqb q "q1"); cbn; [|constructor].
      replace (2 * 0.9)%R with 1.8%R by lra. replace (2 * 0.3)%R with 0.6%R by lra. apply perm_swap.
  - intros q. unfold of_query. cbn. destruct (String.eqb q "q2"); [|destruct (String.eqb q "q1")]; cbn; repeat constructor; cbn; intuition lra.
Qed.
Example ex_C07 : denotes "map@10" "map" (KInt 10) 1 /\ denotes "map@10-l2" "map" (KInt 10) 2 /\ In "map" binary_metrics.
Proof.
  split; [|split; [|cbn; tauto]].
  - split; [reflexivity|]. split; [cbn; tauto|]. split; [cbn; split; [tauto|lia]|lia].
  - split; [reflexivity|]. split; [cbn; tauto|]. split; [cbn; split; [tauto|lia]|lia].
Qed.

(** The graded metrics differ: dcg with level 2 keeps the judgment 3 as gain,
    set_relevance_level(2) turns it into 2. *)
Definition g_y : Qrels := @qrels_hist NumR env_ex Qrels_empty [QAddScore "q" "d" 3].
Definition g_x : Run NumR := @run_hist NumR env_ex Run_empty [@RAddScore NumR "q" "d" 1%R].
Theorem C07_graded_refuted : exists (E : env NumR) y x L, env_ok E /\ qrels_reachable E y /\ run_reachable E x /\
  same_queries (q_map y) (r_map x) /\ docs_distinct E (q_map y) (r_map x) /\
  denotes "dcg" "dcg" (KInt 0) 1 /\ denotes "dcg-l2" "dcg" (KInt 0) L /\
  ev_res (@evaluate NumR E (QObj y) (RObj x) ["dcg-l2"] true false true false) = Ok (@OutOne NumR (@OMean NumR 3%R)) /\
  ev_res (@evaluate NumR E (QObj (@Qrels_set_relevance_level NumR E y L)) (RObj x) ["dcg"] true false true false) = Ok (@OutOne NumR (@OMean NumR 2%R)).
Proof.
  assert (HE : env_ok (@env_ex NumR)) by apply env_ex_ok, NumR_laws.
  assert (Hy : qrels_reachable env_ex g_y).
  { eexists Qrels_empty, [QAddScore "q" "d" 3]%Z. split; [now left|]. split; [repeat constructor|]. split; reflexivity. }
  assert (Hx : run_reachable env_ex g_x).
  { eexists Run_empty, _. split; [now left|]. split; [|split; reflexivity]. repeat constructor. }
  assert (Hs : same_queries (q_map g_y) (r_map g_x)) by (intros q; cbn; tauto).
  assert (Hi : docs_distinct env_ex (q_map g_y) (r_map g_x)) by (intros q [<-|[]]; apply ids_distinctb_ok; vmr).
  assert (D1 : denotes "dcg" "dcg" (KInt 0) 1) by (split; [reflexivity|split; [cbn; tauto|split; [cbn; split; [tauto|lia]|lia]]]).
  assert (D2 : denotes "dcg-l2" "dcg" (KInt 0) 2) by (split; [reflexivity|split; [cbn; tauto|split; [cbn; split; [tauto|lia]|lia]]]).
  exists env_ex, g_y, g_x, 2%Z. do 7 (split; [assumption|]).
  set (y2 := @Qrels_set_relevance_level NumR env_ex g_y 2).
  assert (Hy2 : qrels_reachable env_ex y2) by now apply qrels_reachable_level.
  assert (Hm2 : q_map y2 = [("q", [("d", 2%Z)])]) by reflexivity.
  assert (Hgo : forall y s L w, qrels_reachable env_ex y -> dkeys (q_map y) = ["q"] -> dkeys (of_query (q_map y) "q") = ["d"] ->
     denotes s "dcg" (KInt 0) L -> gain (of_query (q_map y) "q") L "d" = w ->
     ev_res (@evaluate NumR env_ex (QObj y) (RObj g_x) [s] true false true false) = Ok (@OutOne NumR (@OMean NumR w))).
  { intros y s L w Hyr Hk Hd Hden Hg.
    destruct (C18_evaluate env_ex HE y g_x [s] true false true false Hyr Hx) as (qs & ranking & scores & y' & x' & P & _ & Hr & Hsc & Hret & _).
    - intros He. rewrite He in Hk. discriminate.
    - intros _ q. rewrite Hk. cbn. tauto.
    - intros q Hq. rewrite Hk in Hq. destruct Hq as [<-|[]]. rewrite Hd. apply ids_distinctb_ok. vmr.
    - intros s' [<-|[]]. exists "dcg", (KInt 0), L. split; [exact Hden|]. intros q _ H. discriminate.
    - discriminate.
    - rewrite Hk in P. apply Permutation_sym, Permutation_length_1_inv in P. subst qs.
      assert (Hrk : ranking "q" = ["d"]) by (eapply ranks_single; exact (Hr "q" (or_introl eq_refl))).
      assert (F1 := Hsc s "dcg" (KInt 0) L (or_introl eq_refl) Hden).
      inversion F1 as [|? v1 ? t1 V1 T1 H3 H4]. inversion T1 as [H5 H6|]. subst t1.
      cbn [returns] in Hret. rewrite Hret. rewrite <- H4. unfold reported. do 3 f_equal.
      rewrite Hrk in V1. inversion V1; subst. unfold mean_of, S_dcg, S_dcg_with, Rsum_n, log2. cbn [top Z.to_nat length map seq Rsum nth].
      cbn [Nat.add INR]. change (INR 2) with (1 + 1)%R. replace (1 + 1)%R with 2%R by lra.
      assert (ln 2 <> 0)%R by (assert (H := ln_lt_2); lra). field. exact H. }
  split.
  - apply (Hgo g_y "dcg-l2" 2%Z 3%R); auto.
  - apply (Hgo y2 "dcg" 1%Z 2%R); auto.
Qed.
Print Assumptions C07_graded_refuted.
