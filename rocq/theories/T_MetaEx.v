(** T_MetaEx.v: concrete cases for C85-C87, and what does not hold. *)
From Coq Require Import Reals Lra.
From Verif Require Import Base Dict Num NumLaws Env EnvEx M_Common M_Qrels M_Run M_History M_Metrics M_Evaluate
  Spec_DS Spec_Hist Spec_Strings Spec_Metrics Spec_MetricsAPI Spec_Eval Spec_Closure Spec_Meta
  P_Base P_Dict P_Common P_History P_DS P_Metrics P_Metrics4 P_Metrics6 P_Metrics7 P_Strings T_DS T_Metrics T_Parse
  P_Eval P_Eval2 P_Eval3 P_Eval4 P_Eval5 T_Evaluate T_Evaluate2 T_Evaluate3 T_Closure T_Meta T_Meta2.
Open Scope string_scope.
Open Scope list_scope.
Open Scope nat_scope.

Definition swap (a b d : string) : string := if String.eqb d a then b else if String.eqb d b then a else d.
Lemma renaming_swap a b : renaming (swap a b).
Proof.
  exists (swap a b). assert (H : forall d, swap a b (swap a b d) = d); [|auto].
  intros d. unfold swap. destruct (String.eqb_spec d a) as [->|H1].
  - destruct (String.eqb_spec b a) as [->|]; auto. now rewrite String.eqb_refl.
  - destruct (String.eqb_spec d b) as [->|H2].
    + now rewrite String.eqb_refl.
    + destruct (String.eqb_spec d a), (String.eqb_spec d b); congruence.
Qed.
Lemma increasing_double : increasing (fun s => (2 * s)%R).
Proof. intros a b H. lra. Qed.

Definition ex_ms : list string := ["ndcg@5"; "map"; "rbp.95"; "precision@1-l2"].
Lemma ms_ok m : metrics_ok ex_ms m.
Proof.
  intros s Hs. cbn in Hs. destruct Hs as [<-|[<-|[<-|[<-|[]]]]].
  - exists "ndcg", (KInt 5), 1%Z. split; [|intros q _ H; discriminate].
    split; [reflexivity|]. split; [cbn; tauto|]. split; [cbn; split; [tauto|lia]|lia].
  - exists "map", (KInt 0), 1%Z. split; [|intros q _ H; discriminate].
    split; [reflexivity|]. split; [cbn; tauto|]. split; [cbn; split; [tauto|lia]|lia].
  - exists "rbp", (KFloat (@fdec NumR 95 2)), 1%Z. split; [|intros q _ H; discriminate].
    split; [reflexivity|]. split; [cbn; tauto|]. split; [reflexivity|lia].
  - exists "precision", (KInt 1), 2%Z. split; [|intros q _ H; discriminate].
    split; [reflexivity|]. split; [cbn; tauto|]. split; [cbn; split; [tauto|lia]|lia].
Qed.
Lemma q_reach os : Forall qrels_op_shape os -> qrels_reachable env_ex (@qrels_hist NumR env_ex Qrels_empty os).
Proof. intros H. exists Qrels_empty, os. split; [now left|]. split; [exact H|]. split; reflexivity. Qed.
Lemma r_reach os : Forall run_op_shape os -> run_reachable env_ex (@run_hist NumR env_ex Run_empty os).
Proof. intros H. exists Run_empty, os. split; [now left|]. split; [exact H|]. split; reflexivity. Qed.
Lemma q_obt os : Forall qrels_op_shape os -> obtained_qrels env_ex (@qrels_hist NumR env_ex Qrels_empty os).
Proof.
  intros H. unfold qrels_hist. assert (H0 : obtained_qrels env_ex Qrels_empty) by constructor. revert H0. generalize Qrels_empty.
  induction H as [|o os Ho H IH]; intros y Hy; cbn [fold_left]; [exact Hy|]. apply IH. now apply OQ_call.
Qed.
Lemma r_obt os : Forall run_op_shape os -> obtained env_ex (@run_hist NumR env_ex Run_empty os).
Proof.
  intros H. unfold run_hist. assert (H0 : obtained env_ex (@Run_empty NumR)) by constructor. revert H0. generalize (@Run_empty NumR).
  induction H as [|o os Ho H IH]; intros x Hx; cbn [fold_left]; [exact Hx|]. apply IH. now apply OR_call.
Qed.
Lemma ex_y_obt : obtained_qrels env_ex ex_y.
Proof. apply q_obt. repeat constructor. Qed.
Lemma ex_x_obt : obtained env_ex ex_x.
Proof. apply r_obt. repeat constructor. Qed.

(** the example of T_Evaluate3 under other ids: q1 is called q7, d1 is called d8; scores are doubled *)
Definition ex_y' : Qrels := @qrels_hist NumR env_ex Qrels_empty
  [QAddScore "q7" "d8" 0; QAddScore "q2" "d3" 3; QAddScore "q2" "d8" 1; QAddScore "q7" "d2" 2].
Definition ex_x' : Run NumR := @run_hist NumR env_ex Run_empty
  [@RAddScore NumR "q7" "d4" 0.6%R; @RAddScore NumR "q7" "d2" 1.8%R; @RAddScore NumR "q2" "d3" 1%R; @RAddScore NumR "q2" "d8" 1.4%R].
Lemma ex_ev : evaluable env_ex ex_y ex_x ex_ms.
Proof.
  split; [exact ex_y_obt|]. split; [exact ex_x_obt|]. split; [discriminate|]. split; [exact ex_same|].
  split; [exact ex_docs|]. apply ms_ok.
Qed.
Lemma ex_ev' : evaluable env_ex ex_y' ex_x' ex_ms.
Proof.
  split; [apply q_obt; repeat constructor|]. split; [apply r_obt; repeat constructor|]. split; [discriminate|].
  split; [intros q; cbn; tauto|]. split; [intros q [<-|[<-|[]]]; apply ids_distinctb_ok; vmr|]. apply ms_ok.
Qed.
Example ex_C85_renamed :
  evaluation_renamed (swap "q1" "q7") (fun _ => swap "d1" "d8") (fun _ s => (2 * s)%R) ex_y ex_x ex_y' ex_x'.
Proof.
  split; [apply renaming_swap|]. split; [intros; apply renaming_swap|]. split; [intros; apply increasing_double|].
  split; [cbn; apply perm_swap|]. intros q [<-|[<-|[]]].
  - split; [unfold judgments_renamed, of_query; cbn; apply perm_swap|]. split.
    + unfold results_renamed, of_query. cbn. replace (2 * 0.5)%R with 1%R by lra. replace (2 * 0.7)%R with 1.4%R by lra. reflexivity.
    + unfold tie_free, of_query. cbn. repeat constructor; cbn; intuition lra.
  - split; [unfold judgments_renamed, of_query; cbn; apply perm_swap|]. split.
    + unfold results_renamed, of_query. cbn. replace (2 * 0.9)%R with 1.8%R by lra. replace (2 * 0.3)%R with 0.6%R by lra. apply perm_swap.
    + unfold tie_free, of_query. cbn. repeat constructor; cbn; intuition lra.
Qed.
Example ex_C85 : same_result (ev_res (@evaluate NumR env_ex (QObj ex_y) (RObj ex_x) ex_ms true true true false))
                             (ev_res (@evaluate NumR env_ex (QObj ex_y') (RObj ex_x') ex_ms true true false true)).
Proof.
  exact (C85_ids_carry_no_meaning env_ex env_ex (env_ex_ok NumR_laws) (env_ex_ok NumR_laws) _ _ _ _ _ _ _ _ _ _ _ _ _ ex_ev ex_ev' ex_C85_renamed).
Qed.
(** one part per query *)
Definition ex_y1 : Qrels := @qrels_hist NumR env_ex Qrels_empty [QAddScore "q2" "d3" 3; QAddScore "q2" "d1" 1].
Definition ex_x1 : Run NumR := @run_hist NumR env_ex Run_empty [@RAddScore NumR "q2" "d1" 0.7%R; @RAddScore NumR "q2" "d3" 0.5%R].
Definition ex_y2 : Qrels := @qrels_hist NumR env_ex Qrels_empty [QAddScore "q1" "d1" 0; QAddScore "q1" "d2" 2].
Definition ex_xq1 : Run NumR := @run_hist NumR env_ex Run_empty [@RAddScore NumR "q1" "d4" 0.3%R; @RAddScore NumR "q1" "d2" 0.9%R].
Example ex_C85_parts : evaluable env_ex ex_y1 ex_x1 ex_ms /\ evaluable env_ex ex_y2 ex_xq1 ex_ms /\
  Permutation (dkeys (q_map ex_y)) (dkeys (q_map ex_y1) ++ dkeys (q_map ex_y2)) /\
  part_of ex_y ex_x ex_y1 ex_x1 /\ part_of ex_y ex_x ex_y2 ex_xq1.
Proof.
  split; [|split; [|split; [|split]]].
  - split; [apply q_obt; repeat constructor|]. split; [apply r_obt; repeat constructor|]. split; [discriminate|].
    split; [intros q; cbn; tauto|]. split; [intros q [<-|[]]; apply ids_distinctb_ok; vmr|]. apply ms_ok.
  - split; [apply q_obt; repeat constructor|]. split; [apply r_obt; repeat constructor|]. split; [discriminate|].
    split; [intros q; cbn; tauto|]. split; [intros q [<-|[]]; apply ids_distinctb_ok; vmr|]. apply ms_ok.
  - reflexivity.
  - intros q [<-|[]]. split; [cbn; apply perm_swap|]. split; [cbn; apply perm_swap|]. unfold tie_free, of_query. cbn. repeat constructor; cbn; intuition lra.
  - intros q [<-|[]]. split; [cbn; apply perm_swap|]. split; [cbn; apply perm_swap|]. unfold tie_free, of_query. cbn. repeat constructor; cbn; intuition lra.
Qed.

(** ** C86 *)
(** without the judgment 0 of q1/d1, with a judgment 0 for d9 in q2 *)
Definition ex_y3 : Qrels := @qrels_hist NumR env_ex Qrels_empty
  [QAddScore "q2" "d9" 0; QAddScore "q2" "d1" 1; QAddScore "q1" "d2" 2; QAddScore "q2" "d3" 3].
Lemma ex_ev3 : evaluable env_ex ex_y3 ex_x ex_ms.
Proof.
  split; [apply q_obt; repeat constructor|]. split; [exact ex_x_obt|]. split; [discriminate|].
  split; [intros q; cbn; tauto|]. split; [intros q [<-|[<-|[]]]; apply ids_distinctb_ok; vmr|]. apply ms_ok.
Qed.
Lemma same_relevant_ex l q : (1 <= l)%Z -> In q (dkeys (q_map ex_y)) -> same_relevant l (of_query (q_map ex_y) q) (of_query (q_map ex_y3) q).
Proof.
  intros Hl [<-|[<-|[]]] d v Hv; unfold of_query; cbn.
  - destruct (String.eqb_spec d "d9") as [->|]; cbn; [split; [discriminate|intros H; injection H as <-; lia]|tauto].
  - destruct (String.eqb_spec d "d2") as [->|]; [tauto|]. destruct (String.eqb d "d1"); [split; [intros H; injection H as <-; lia|discriminate]|tauto].
Qed.
Example ex_C86 : same_result (ev_res (@evaluate NumR env_ex (QObj ex_y) (RObj ex_x) ex_ms false false true false))
                             (ev_res (@evaluate NumR env_ex (QObj ex_y3) (RObj ex_x) ex_ms false false true false)).
Proof.
  apply C86_nonrelevant_judgments; [apply env_ex_ok, NumR_laws|exact ex_ev|exact ex_ev3|].
  intros s name k l Hs (Hd & Hall & _ & Hl).
  assert (H : name <> "bpref" /\ (1 <= l)%Z).
  { cbn in Hs. destruct Hs as [<-|[<-|[<-|[<-|[]]]]]; injection Hd as <- <- <-; split; try discriminate; lia. }
  destruct H as [H1 H2]. split; [exact H1|]. intros q Hq. now apply same_relevant_ex.
Qed.
(** bpref: the run without the unjudged documents d3 and d9 *)
Definition ex_yb : Qrels := @qrels_hist NumR env_ex Qrels_empty [QAddScore "q" "d1" 1; QAddScore "q" "d2" 0].
Definition ex_xb : Run NumR := @run_hist NumR env_ex Run_empty
  [@RAddScore NumR "q" "d3" 4%R; @RAddScore NumR "q" "d2" 3%R; @RAddScore NumR "q" "d9" 2%R; @RAddScore NumR "q" "d1" 1%R].
Definition ex_xb' : Run NumR := @run_hist NumR env_ex Run_empty [@RAddScore NumR "q" "d1" 1%R; @RAddScore NumR "q" "d2" 3%R].
Lemma bpref_ok : metrics_ok ["bpref"] (q_map ex_yb).
Proof.
  intros s [<-|[]]. exists "bpref", (KInt 0), 1%Z. split.
  - split; [reflexivity|]. split; [cbn; tauto|]. split; [cbn; split; [tauto|lia]|lia].
  - intros q [<-|[]] _. cbn. lia.
Qed.
Example ex_C86_bpref : same_result (ev_res (@evaluate NumR env_ex (QObj ex_yb) (RObj ex_xb) ["bpref"] true false true false))
                                   (ev_res (@evaluate NumR env_ex (QObj ex_yb) (RObj ex_xb') ["bpref"] true false true false)).
Proof.
  apply C86_bpref_ignores_unjudged; [apply env_ex_ok, NumR_laws| | | |].
  - split; [apply q_obt; repeat constructor|]. split; [apply r_obt; repeat constructor|]. split; [discriminate|].
    split; [intros q; cbn; tauto|]. split; [intros q [<-|[]]; apply ids_distinctb_ok; vmr|]. apply bpref_ok.
  - split; [apply q_obt; repeat constructor|]. split; [apply r_obt; repeat constructor|]. split; [discriminate|].
    split; [intros q; cbn; tauto|]. split; [intros q [<-|[]]; apply ids_distinctb_ok; vmr|]. apply bpref_ok.
  - intros s name k l [<-|[]] (Hd & _). now injection Hd as <- <- <-.
  - intros q [<-|[]]. split; [unfold tie_free, of_query; cbn; repeat constructor; cbn; intuition lra|].
    unfold only_judged, of_query. cbn. apply perm_swap.
Qed.

(** ** C87: the best result of every query *)
Definition ex_xt : Run NumR := @run_hist NumR env_ex Run_empty [@RAddScore NumR "q1" "d2" 0.9%R; @RAddScore NumR "q2" "d1" 0.7%R].
Example ex_C87 : same_result (ev_res (@evaluate NumR env_ex (QObj ex_y) (RObj ex_x) ["ndcg@1"; "precision@1-l2"] true true true false))
                             (ev_res (@evaluate NumR env_ex (QObj ex_y) (RObj ex_xt) ["ndcg@1"; "precision@1-l2"] true true true false)).
Proof.
  assert (Hm : metrics_ok ["ndcg@1"; "precision@1-l2"] (q_map ex_y)).
  { intros s [<-|[<-|[]]].
    - exists "ndcg", (KInt 1), 1%Z. split; [|intros q _ H; discriminate].
      split; [reflexivity|]. split; [cbn; tauto|]. split; [cbn; split; [tauto|lia]|lia].
    - exists "precision", (KInt 1), 2%Z. split; [|intros q _ H; discriminate].
      split; [reflexivity|]. split; [cbn; tauto|]. split; [cbn; split; [tauto|lia]|lia]. }
  apply (C87_best_results_suffice env_ex (env_ex_ok NumR_laws) ex_y ex_x ex_xt ["ndcg@1"; "precision@1-l2"] true true true 1).
  - split; [exact ex_y_obt|]. split; [exact ex_x_obt|]. split; [discriminate|]. split; [exact ex_same|].
    split; [exact ex_docs|exact Hm].
  - split; [exact ex_y_obt|]. split; [apply r_obt; repeat constructor|]. split; [discriminate|]. split; [intros q; cbn; tauto|].
    split; [intros q [<-|[<-|[]]]; apply ids_distinctb_ok; vmr|exact Hm].
  - intros s name k l [<-|[<-|[]]] (Hd & _); injection Hd as <- <- <-; (split; [cbn; tauto|]); eexists; (split; [reflexivity|lia]).
  - intros q [<-|[<-|[]]].
    + split; [unfold tie_free, of_query; cbn; repeat constructor; cbn; intuition lra|].
      exists [("d1", 0.7%R); ("d3", 0.5%R)]. unfold of_query. cbn. split; [apply perm_swap|]. split; [|reflexivity].
      repeat constructor; cbn; lra.
    + split; [unfold tie_free, of_query; cbn; repeat constructor; cbn; intuition lra|].
      exists [("d2", 0.9%R); ("d4", 0.3%R)]. unfold of_query. cbn. split; [reflexivity|]. split; [|reflexivity].
      repeat constructor; cbn; lra.
Qed.

(** ** what does not hold (in binary64, as the code computes) *)
Definition one_score (res : result (@outcome NumSF)) (v : sf) : Prop := res = Ok (@OutOne NumSF (@OMean NumSF v)).
Definition score_of (y : Qrels) (x : Run NumSF) (s : string) : result (@outcome NumSF) :=
  ev_res (@evaluate NumSF env_ex (QObj y) (RObj x) [s] true false true false).
Definition half : sf := @fdiv NumSF (sf_of_Z 1) (sf_of_Z 2).
Definition sf_qrels (os : list qrels_op) : Qrels := @qrels_hist NumSF env_ex Qrels_empty os.
Definition sf_run (os : list (@run_op NumSF)) : Run NumSF := @run_hist NumSF env_ex Run_empty os.

(** The condition "no ties" of C85 is needed: with equal scores, the order in which the results were added decides. *)
Definition ty := sf_qrels [QAddScore "q" "a" 1].
Definition tx := sf_run [@RAddScore NumSF "q" "a" (sf_of_Z 1); @RAddScore NumSF "q" "b" (sf_of_Z 1)].
Definition tx' := sf_run [@RAddScore NumSF "q" "b" (sf_of_Z 1); @RAddScore NumSF "q" "a" (sf_of_Z 1)].
Theorem C85_ties_refuted : exists (y : Qrels) (x x' : Run NumSF),
  y = sf_qrels [QAddScore "q" "a" 1] /\
  x = sf_run [@RAddScore NumSF "q" "a" (sf_of_Z 1); @RAddScore NumSF "q" "b" (sf_of_Z 1)] /\
  x' = sf_run [@RAddScore NumSF "q" "b" (sf_of_Z 1); @RAddScore NumSF "q" "a" (sf_of_Z 1)] /\
  one_score (score_of y x "mrr") (sf_of_Z 1) /\ one_score (score_of y x' "mrr") half.
Proof. exists ty, tx, tx'. split; [reflexivity|]. split; [reflexivity|]. split; [reflexivity|]. split; (unfold one_score; vmr). Qed.
Print Assumptions C85_ties_refuted.

(** bpref does depend on judgments below the level: judging one more retrieved document as non-relevant lowers it. *)
Definition by1 := sf_qrels [QAddScore "q" "a" 1; QAddScore "q" "b" 1; QAddScore "q" "n" 0].
Definition by2 := sf_qrels [QAddScore "q" "a" 1; QAddScore "q" "b" 1; QAddScore "q" "n" 0; QAddScore "q" "u" 0].
Definition bx := sf_run [@RAddScore NumSF "q" "u" (sf_of_Z 3); @RAddScore NumSF "q" "a" (sf_of_Z 2); @RAddScore NumSF "q" "b" (sf_of_Z 1)].
Theorem C86_bpref_refuted : exists (y y' : Qrels) (x : Run NumSF),
  y = sf_qrels [QAddScore "q" "a" 1; QAddScore "q" "b" 1; QAddScore "q" "n" 0] /\
  y' = sf_qrels [QAddScore "q" "a" 1; QAddScore "q" "b" 1; QAddScore "q" "n" 0; QAddScore "q" "u" 0] /\
  (forall q, same_relevant 1 (of_query (q_map y) q) (of_query (q_map y') q)) /\
  one_score (score_of y x "bpref") (sf_of_Z 1) /\ one_score (score_of y' x "bpref") half.
Proof.
  exists by1, by2, bx. split; [reflexivity|]. split; [reflexivity|]. split; [|split; (unfold one_score; vmr)].
  intros q d v Hv. unfold of_query. cbn. destruct (String.eqb q "q"); [|cbn; tauto]. cbn.
  destruct (String.eqb d "a"); [tauto|]. destruct (String.eqb d "b"); [tauto|]. destruct (String.eqb d "n"); [tauto|].
  destruct (String.eqb d "u"); [|tauto]. split; [discriminate|]. intros H. injection H as <-. lia.
Qed.
Print Assumptions C86_bpref_refuted.

(** The cut-off of r-precision@k and bpref@k is accepted but has no effect: results below rank k count. *)
Definition cy := sf_qrels [QAddScore "q" "a" 1; QAddScore "q" "b" 1; QAddScore "q" "n" 0].
Definition cx := sf_run [@RAddScore NumSF "q" "a" (sf_of_Z 3); @RAddScore NumSF "q" "b" (sf_of_Z 2)].
Definition cx' := sf_run [@RAddScore NumSF "q" "a" (sf_of_Z 3)].
Theorem C87_cutoff_ignored_refuted : exists (y : Qrels) (x x' : Run NumSF),
  x = sf_run [@RAddScore NumSF "q" "a" (sf_of_Z 3); @RAddScore NumSF "q" "b" (sf_of_Z 2)] /\
  x' = sf_run [@RAddScore NumSF "q" "a" (sf_of_Z 3)] /\
  one_score (score_of y x "r-precision@1") (sf_of_Z 1) /\ one_score (score_of y x' "r-precision@1") half /\
  one_score (score_of y x "bpref@1") (sf_of_Z 1) /\ one_score (score_of y x' "bpref@1") half.
Proof. exists cy, cx, cx'. split; [reflexivity|]. split; [reflexivity|]. split; [(unfold one_score; vmr)|]. split; [(unfold one_score; vmr)|]. split; (unfold one_score; vmr). Qed.
Print Assumptions C87_cutoff_ignored_refuted.
