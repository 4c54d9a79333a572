(** T_Perfect.v: a score is 1 exactly for perfect rankings, and 0 exactly if nothing relevant is found (C82).
    The scores are those of the metric functions of the package on one query, over the real numbers. *)
From Coq Require Import Reals Lra Psatz.
From Verif Require Import Base Dict Num NumLaws Env M_Common M_Qrels M_Run M_Metrics Spec_Metrics
  Spec_MetricsAPI Spec_Perfect P_Base P_Dict P_Common P_Metrics P_Metrics2 P_Metrics3 P_Metrics4 P_Metrics5
  P_Metrics6 P_Metrics7 EnvEx T_Metrics T_Metrics2 P_Perfect P_Perfect2 Ex_Metrics.
Open Scope string_scope.
Open Scope list_scope.
Open Scope nat_scope.

Lemma ok_one (x y : R) : Ok [x] = Ok [y] <-> x = y.
Proof. split; [intros H; now injection H|now intros ->]. Qed.

(** ** C82: score 1 *)
Theorem C82_perfect : forall E, env_ok E -> forall j r lvl k, query_ok E j r -> (0 <= k)%Z ->
  let ds := dkeys r in let c := Z.to_nat k in let R := n_relevant j lvl in
  (on_query E (hit_rate E) j r k lvl = Ok [1%R] <-> finds_one j lvl ds c) /\
  (on_query E (precision E) j r k lvl = Ok [1%R] <-> 0 < depth ds c /\ starts_with j lvl ds (depth ds c)) /\
  (on_query E (recall E) j r k lvl = Ok [1%R] <-> 0 < R /\ finds_all j lvl ds c) /\
  (on_query E (f1 E) j r k lvl = Ok [1%R] <->
     (0 < depth ds c /\ starts_with j lvl ds (depth ds c)) /\ 0 < R /\ finds_all j lvl ds c) /\
  (on_query E (r_precision E) j r k lvl = Ok [1%R] <-> 0 < R /\ starts_with j lvl ds R) /\
  (on_query E (reciprocal_rank E) j r k lvl = Ok [1%R] <-> exists d, hd_error ds = Some d /\ relevant j lvl d = true) /\
  (on_query E (average_precision E) j r k lvl = Ok [1%R] <-> 0 < R /\ (c = 0 \/ R <= c) /\ starts_with j lvl ds R) /\
  ((1 <= lvl)%Z -> judgments_desc j ->
     (on_query E (ndcg E) j r k lvl = Ok [1%R] <-> 0 < R /\ best_first j lvl ds c) /\
     (on_query E (ndcg_burges E) j r k lvl = Ok [1%R] <-> 0 < R /\ best_first j lvl ds c)).
Proof.
  intros E HE j r lvl k Hq Hk ds c R.
  assert (Hj : dict_ok j) by apply Hq. assert (Hn : NoDup ds) by apply Hq.
  assert (Hone : forall m s, In (m, s) (table E) -> on_query E m j r k lvl = Ok [s j lvl ds c]).
  { intros m s Hin. apply computes_one; auto using table_ok. }
  split; [rewrite (Hone _ S_hit_rate) by (cbn; tauto); rewrite ok_one; apply hit_rate_one|].
  split; [rewrite (Hone _ S_precision) by (cbn; tauto); rewrite ok_one; apply precision_one|].
  split; [rewrite (Hone _ S_recall) by (cbn; tauto); rewrite ok_one; now apply recall_one|].
  split.
  { rewrite (Hone _ S_f1) by (cbn; tauto). rewrite ok_one, f1_one by assumption. rewrite precision_one, recall_one by assumption. reflexivity. }
  split; [rewrite r_precision_one by assumption; rewrite ok_one; apply r_precision_one_iff|].
  split; [rewrite (Hone _ S_mrr) by (cbn; tauto); rewrite ok_one; apply mrr_one|].
  split; [rewrite (Hone _ S_map) by (cbn; tauto); rewrite ok_one; now apply map_one|].
  intros Hl Hd. destruct (ndcg_one j lvl Hj ds c Hl Hd Hn) as [H1 H2]. split.
  - rewrite (Hone _ (fun j l => S_ndcg_with (S_dcg j l) j)) by (cbn; tauto). rewrite ok_one. exact H1.
  - rewrite (Hone _ (fun j l => S_ndcg_with (S_dcg_burges j l) j)) by (cbn; tauto). rewrite ok_one. exact H2.
Qed.
Print Assumptions C82_perfect.

(** ** C82: score 0 *)
Theorem C82_zero : forall E, env_ok E -> forall j r lvl k, query_ok E j r -> (0 <= k)%Z -> forall m,
  In m [@hits NumR E; hit_rate E; precision E; recall E; f1 E; reciprocal_rank E; average_precision E] \/
  (1 <= lvl)%Z /\ In m [@dcg NumR E; dcg_burges E; ndcg E; ndcg_burges E] ->
  (on_query E m j r k lvl = Ok [0%R] <-> ~ finds_one j lvl (dkeys r) (Z.to_nat k)) /\
  (exists x, on_query E m j r k lvl = Ok [x] /\ (finds_one j lvl (dkeys r) (Z.to_nat k) -> 0 < x)%R).
Proof.
  intros E HE j r lvl k Hq Hk m Hm. set (ds := dkeys r). set (c := Z.to_nat k).
  assert (Hj : dict_ok j) by apply Hq.
  assert (Hdec : finds_one j lvl ds c \/ ~ finds_one j lvl ds c).
  { unfold finds_one. destruct (existsb (relevant j lvl) (top ds c)) eqn:He.
    - apply existsb_exists in He. now left.
    - right. intros H. apply existsb_exists in H. congruence. }
  assert (Hall : In m [@hits NumR E; hit_rate E; precision E; recall E; f1 E; reciprocal_rank E; average_precision E; dcg E; dcg_burges E; ndcg E; ndcg_burges E]).
  { destruct Hm as [Hm|[_ Hm]]; cbn [In] in Hm |- *; tauto. }
  assert (Hzero : ~ finds_one j lvl ds c -> on_query E m j r k lvl = Ok [0%R]).
  { intros Hno. apply C31_no_relevant_is_zero; auto. intros d Hd. destruct (relevant j lvl d) eqn:He; [|reflexivity].
    exfalso. apply Hno. exists d. auto. }
  enough (Hpos : exists x, on_query E m j r k lvl = Ok [x] /\ (finds_one j lvl ds c -> 0 < x)%R).
  { split; [|exact Hpos]. split; [|exact Hzero]. intros H Hf. destruct Hpos as (x & Hx & Hp). rewrite Hx in H. apply ok_one in H. specialize (Hp Hf). lra. }
  assert (Hone : forall m s, In (m, s) (table E) -> (finds_one j lvl ds c -> (0 < s j lvl ds c)%R) ->
    exists x, on_query E m j r k lvl = Ok [x] /\ (finds_one j lvl ds c -> 0 < x)%R).
  { intros m0 s Hin Hp. exists (s j lvl ds c). split; [|exact Hp]. apply computes_one; auto using table_ok. }
  assert (H0 : forall f, (forall d, (0 <= f d)%R) -> forall l, (0 <= S_dcg_with l f c)%R).
  { intros f Hf l. rewrite dcg_wdot. apply wdot_nonneg; [intros; apply Rlt_le, dw_pos|].
    intros x Hx. apply in_map_iff in Hx as (d & <- & _). apply Hf. }
  cbn [In] in Hm. destruct Hm as [[<-|[<-|[<-|[<-|[<-|[<-|[<-|[]]]]]]]]|[Hl [<-|[<-|[<-|[<-|[]]]]]]].
  - apply (Hone _ (fun j l ds k => INR (S_hits j l ds k))); [cbn; tauto|]. intros Hf. apply lt_0_INR. now apply one_hits.
  - apply (Hone _ S_hit_rate); [cbn; tauto|]. intros Hf. apply hit_rate_one in Hf. rewrite Hf. lra.
  - apply (Hone _ S_precision); [cbn; tauto|]. apply one_precision.
  - apply (Hone _ S_recall); [cbn; tauto|]. now apply one_recall.
  - apply (Hone _ S_f1); [cbn; tauto|]. now apply one_f1.
  - apply (Hone _ S_mrr); [cbn; tauto|]. apply one_mrr.
  - apply (Hone _ S_map); [cbn; tauto|]. now apply one_map.
  - apply (Hone _ S_dcg); [cbn; tauto|]. intros Hf. now apply one_dcg.
  - apply (Hone _ S_dcg_burges); [cbn; tauto|]. intros Hf. now apply one_dcg_burges.
  - apply (Hone _ (fun j l => S_ndcg_with (S_dcg j l) j)); [cbn; tauto|]. intros Hf. apply one_ndcg_with; [|now apply one_dcg].
    apply H0. intros; apply gain_nonneg; lia.
  - apply (Hone _ (fun j l => S_ndcg_with (S_dcg_burges j l) j)); [cbn; tauto|]. intros Hf. apply one_ndcg_with; [|now apply one_dcg_burges].
    apply H0. intros; apply (bgain_nonneg j lvl); lia.
Qed.
Print Assumptions C82_zero.

(** the hypotheses are met by the ideal ranking of Ex_Metrics, and the conclusions say something: it has score 1 *)
Example C82_ex : query_ok env_ex j1 r1_ideal /\ judgments_desc j1 /\ 0 < n_relevant j1 1 /\
  starts_with j1 1 (dkeys r1_ideal) (n_relevant j1 1) /\ on_query env_ex (ndcg env_ex) j1 r1_ideal 2 1 = Ok [1%R] /\ best_first j1 1 (dkeys r1_ideal) 2.
Proof.
  destruct ex_C31 as (Hq & Hi & Hr). pose proof ex_desc as Hd. inversion Hd as [|? ? Hd1 _]; subst.
  split; [exact Hq|]. split; [exact Hd1|]. split; [exact Hr|].
  split.
  { destruct (C31_ideal_is_one env_ex env_ok_ex j1 r1_ideal 1 Hq ltac:(lia) Hr Hi) as (_ & H & _).
    pose proof (C82_perfect env_ex env_ok_ex j1 r1_ideal 1 0 Hq ltac:(lia)) as (_ & _ & _ & _ & H5 & _). apply H5. apply H. }
  destruct (C31_ideal_is_one env_ex env_ok_ex j1 r1_ideal 1 Hq ltac:(lia) Hr Hi) as (_ & _ & _ & H).
  destruct (H 2%Z ltac:(lia) Hd1) as [H2 _]. split; [exact H2|].
  pose proof (C82_perfect env_ex env_ok_ex j1 r1_ideal 1 2 Hq ltac:(lia)) as (_ & _ & _ & _ & _ & _ & _ & H8).
  destruct (H8 ltac:(lia) Hd1) as [[H9 _] _]. now apply H9.
Qed.
