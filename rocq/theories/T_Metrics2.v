(** T_Metrics2.v: theorems C30-C36: consequences of the metric definitions. *)
From Coq Require Import Reals Lra Psatz SpecFloat.
From Verif Require Import Base Dict Num NumLaws Env M_Common M_Qrels M_Run M_Metrics Spec_Metrics
  Spec_MetricsAPI P_Base P_Dict P_Common P_Metrics P_Metrics2 P_Metrics3 P_Metrics4 P_Metrics5
  P_Metrics6 P_Metrics7 EnvEx T_Metrics.
Open Scope string_scope.
Open Scope list_scope.
Open Scope nat_scope.

(** the score list of one metric on one query *)
Definition on_query (E : env NumR) (m : list (@rows NumR) -> list (@rows NumR) -> Z -> Z -> result (list R))
           (j : dict Z) (r : dict R) (k lvl : Z) : result (list R) :=
  m (qrels_arg E [j]) (run_arg E [r]) k lvl.

Lemma computes_one E m s j r k lvl : computes E m s -> query_ok E j r -> (0 <= k)%Z ->
  on_query E m j r k lvl = Ok [s j lvl (dkeys r) (Z.to_nat k)].
Proof.
  intros Hc Hq Hk. unfold on_query. rewrite Hc by (constructor; [exact Hq|constructor]).
  destruct (Z.ltb_spec k 0); [lia|reflexivity].
Qed.
Lemma r_precision_one E j r k lvl : env_ok E -> query_ok E j r ->
  on_query E (@r_precision NumR E) j r k lvl = Ok [S_r_precision j lvl (dkeys r)].
Proof.
  intros HE Hq. unfold on_query. rewrite C23_r_precision; [reflexivity|exact HE|].
  constructor; [exact Hq|constructor].
Qed.

(** ** C30 bounds *)
Lemma per_query_Forall (P : R -> Prop) s js rs E : aligned E js rs ->
  (forall j r, In j js -> query_ok E j r -> P (s j (dkeys r))) -> Forall P (per_query s js rs).
Proof.
  intros Ha H. unfold per_query. induction Ha as [|j r js rs Hjr Ha IH]; cbn [combine map]; constructor.
  - cbn. apply H; [now left|exact Hjr].
  - apply IH. intros j' r' Hj'. apply H. now right.
Qed.

Definition in_01 (x : R) : Prop := (0 <= x <= 1)%R.

Theorem C30_bounded : forall E, env_ok E -> forall js rs k lvl, aligned E js rs -> (0 <= k)%Z ->
  (0 <= lvl)%Z -> Forall judgments_desc js ->
  forall m, In m [@hit_rate NumR E; precision E; recall E; f1 E; r_precision E; reciprocal_rank E;
                  average_precision E; ndcg E; ndcg_burges E] ->
  exists xs, m (qrels_arg E js) (run_arg E rs) k lvl = Ok xs /\ length xs = length js /\ Forall in_01 xs.
Proof.
  intros E HE js rs k lvl Ha Hk Hl Hs m Hm.
  assert (Hlen : forall s, length (per_query (A:=R) s js rs) = length js).
  { intros s. unfold per_query. rewrite map_length, combine_length. clear - Ha. induction Ha; cbn; lia. }
  assert (Hgo : forall m s, In (m, s) (table E) ->
     (forall j r, In j js -> query_ok E j r -> in_01 (s j lvl (dkeys r) (Z.to_nat k))) ->
     exists xs, m (qrels_arg E js) (run_arg E rs) k lvl = Ok xs /\ length xs = length js /\ Forall in_01 xs).
  { intros m0 s Hin H. rewrite (table_ok E m0 s HE Hin js rs k lvl Ha).
    destruct (Z.ltb_spec k 0); [lia|]. eexists. split; [reflexivity|]. split; [apply Hlen|].
    apply (per_query_Forall in_01 _ js rs E Ha H). }
  rewrite Forall_forall in Hs.
  cbn [In] in Hm.
  destruct Hm as [<-|[<-|[<-|[<-|[<-|[<-|[<-|[<-|[<-|[]]]]]]]]]].
  - apply (Hgo _ S_hit_rate); [cbn; tauto|]. intros. apply hit_rate_01.
  - apply (Hgo _ S_precision); [cbn; tauto|]. intros. apply precision_01.
  - apply (Hgo _ S_recall); [cbn; tauto|]. intros j r _ (H1 & H2 & _). now apply recall_01.
  - apply (Hgo _ S_f1); [cbn; tauto|]. intros j r _ (H1 & H2 & _). now apply f1_01.
  - rewrite (C23_r_precision E HE js rs k lvl Ha). eexists. split; [reflexivity|]. split; [apply Hlen|].
    apply (per_query_Forall in_01 _ js rs E Ha). intros. apply r_precision_01.
  - apply (Hgo _ S_mrr); [cbn; tauto|]. intros. apply mrr_01.
  - apply (Hgo _ S_map); [cbn; tauto|]. intros j r _ (H1 & H2 & _). now apply map_01.
  - apply (Hgo _ (fun j l => S_ndcg_with (S_dcg j l) j)); [cbn; tauto|].
    intros j r Hj (H1 & H2 & _). apply (ndcg_with_01 j (gain j lvl)); auto.
    + intros; now apply gain_nonneg.
    + apply dcg_ideal; auto.
  - apply (Hgo _ (fun j l => S_ndcg_with (S_dcg_burges j l) j)); [cbn; tauto|].
    intros j r Hj (H1 & H2 & _). apply (ndcg_with_01 j (burges_gain j lvl)); auto.
    + intros; now apply (bgain_nonneg j lvl).
    + apply (dcg_burges_ideal j lvl); auto.
Qed.
Print Assumptions C30_bounded.

Theorem C30_bpref_bounded : forall E, env_ok E -> forall js rs k lvl, aligned E js rs ->
  Forall (fun j => 0 < n_relevant j lvl /\ 0 < n_judged_nonrelevant j lvl) js ->
  exists xs, @bpref NumR E (qrels_arg E js) (run_arg E rs) k lvl = Ok xs /\ Forall in_01 xs.
Proof.
  intros E HE js rs k lvl Ha Hp. rewrite (C27_bpref E HE js rs k lvl Ha Hp). eexists. split; [reflexivity|].
  apply (per_query_Forall in_01 _ js rs E Ha). intros j r _ (H1 & H2 & _). now apply bpref_01.
Qed.
Theorem C30_rbp_bounded : forall E, env_ok E -> forall js rs p lvl, aligned E js rs ->
  (0 <= p <= 1)%R -> (0 <= lvl)%Z -> Forall (fun j => forall d v, dget j d = Some v -> (v <= 1)%Z) js ->
  exists xs, @rank_biased_precision NumR E (qrels_arg E js) (run_arg E rs) p lvl = Ok xs /\ Forall in_01 xs.
Proof.
  intros E HE js rs p lvl Ha Hp Hl Hv. rewrite (C28_rbp E HE js rs p lvl Ha). eexists. split; [reflexivity|].
  rewrite Forall_forall in Hv.
  apply (per_query_Forall in_01 _ js rs E Ha). intros j r Hj (H1 & H2 & _). apply rbp_01; auto. now apply Hv.
Qed.
(** the mean of values in [0,1] *)
Theorem C30_mean_bounded : forall xs : list R, xs <> [] -> Forall in_01 xs -> in_01 (@fmean NumR xs).
Proof.
  intros xs Hne H. unfold fmean. rewrite fsum_R, fnat_INR. numR. apply div_nat_01.
  clear Hne. induction H as [|x xs Hx H IH]; [cbn; lra|]. cbn [Rsum length]. rewrite S_INR. unfold in_01 in *. lra.
Qed.
Print Assumptions C30_bpref_bounded.
Print Assumptions C30_rbp_bounded.
Print Assumptions C30_mean_bounded.

(** ** C31 ideal rankings *)
(** [ds] lists every relevant document, best judgment first, before anything else. *)
Definition ideal_ranking (j : dict Z) (lvl : Z) (ds : list string) : Prop :=
  exists rels rest, ds = rels ++ rest /\
    (forall d, In d rels <-> relevant j lvl d = true) /\
    StronglySorted (fun a b => (gain j lvl b <= gain j lvl a)%R) rels.

Theorem C31_ideal_is_one : forall E, env_ok E -> forall j r lvl, query_ok E j r -> (1 <= lvl)%Z ->
  0 < n_relevant j lvl -> ideal_ranking j lvl (dkeys r) ->
  (forall k, k = 0%Z \/ (Z.of_nat (n_relevant j lvl) <= k)%Z ->
     on_query E (@recall NumR E) j r k lvl = Ok [1%R] /\
     on_query E (@average_precision NumR E) j r k lvl = Ok [1%R]) /\
  (forall k, on_query E (@r_precision NumR E) j r k lvl = Ok [1%R]) /\
  (forall k, (0 <= k)%Z -> on_query E (@reciprocal_rank NumR E) j r k lvl = Ok [1%R]) /\
  (forall k, (0 <= k)%Z -> judgments_desc j ->
     on_query E (@ndcg NumR E) j r k lvl = Ok [1%R] /\
     on_query E (@ndcg_burges NumR E) j r k lvl = Ok [1%R]).
Proof.
  intros E HE j r lvl Hq Hl Hp (rels & rest & Hds & Hrel & Hsort).
  assert (Hj : dict_ok j) by apply Hq. assert (Hr : NoDup (dkeys r)) by apply Hq.
  assert (Hnd : NoDup rels). { rewrite Hds in Hr. clear - Hr. induction rels; cbn in *; constructor; inversion Hr; subst; auto. rewrite in_app_iff in *; tauto. }
  assert (Hperm : Permutation rels (filter (relevant j lvl) (dkeys j))).
  { apply NoDup_Permutation; [exact Hnd|apply NoDup_filter, Hj|]. intros d. rewrite Hrel, filter_In. split; [|tauto].
    intros H. split; [|exact H]. eapply rel_judged; eauto. }
  assert (Hrest : forall d, In d rest -> relevant j lvl d = false).
  { intros d Hd. destruct (relevant j lvl d) eqn:He; [|reflexivity]. apply Hrel in He. exfalso.
    rewrite Hds in Hr. clear - Hr Hd He. induction rels as [|x l IH]; [easy|]. cbn in Hr. inversion Hr; subst.
    destruct He as [->|He]; [|auto]. apply H1. apply in_or_app. now right. }
  assert (Hone : forall m s k, In (m, s) (table E) -> (0 <= k)%Z ->
      s j lvl (rels ++ rest) (Z.to_nat k) = 1%R -> on_query E m j r k lvl = Ok [1%R]).
  { intros m s k Hin Hk Hs. rewrite (computes_one E m s j r k lvl); auto using table_ok. now rewrite Hds, Hs. }
  split; [|split; [|split]].
  - intros k Hk. split.
    + apply (Hone _ S_recall); [cbn; tauto|lia|]. apply ideal_recall; auto. lia.
    + apply (Hone _ S_map); [cbn; tauto|lia|]. apply ideal_map; auto. lia.
  - intros k. rewrite r_precision_one by assumption. rewrite Hds, (ideal_r_precision j lvl Hj rels rest); auto.
  - intros k Hk. apply (Hone _ S_mrr); [cbn; tauto|lia|]. apply ideal_mrr; auto.
  - intros k Hk Hdesc. split.
    + apply (Hone _ (fun j l => S_ndcg_with (S_dcg j l) j)); [cbn; tauto|lia|]. unfold S_ndcg_with.
      rewrite (is_ideal_unique (gain j lvl) (Z.to_nat k) (S_dcg j lvl (dkeys j) (Z.to_nat k))
                 (S_dcg j lvl (rels ++ rest) (Z.to_nat k))).
      * pose proof (ideal_dcg_pos j lvl Hj rels rest Hperm Hrest Hp Hl (Z.to_nat k)).
        destruct Req_EM_T; [lra|]. apply Rinv_r. lra.
      * apply dcg_ideal; auto. lia.
      * apply ideal_dcg; auto.
    + apply (Hone _ (fun j l => S_ndcg_with (S_dcg_burges j l) j)); [cbn; tauto|lia|]. unfold S_ndcg_with.
      rewrite (is_ideal_unique (burges_gain j lvl) (Z.to_nat k) (S_dcg_burges j lvl (dkeys j) (Z.to_nat k))
                 (S_dcg_burges j lvl (rels ++ rest) (Z.to_nat k))).
      * pose proof (ideal_dcg_burges_pos j lvl Hj rels rest Hperm Hrest Hp Hl (Z.to_nat k)).
        destruct Req_EM_T; [lra|]. apply Rinv_r. lra.
      * apply (dcg_burges_ideal j lvl); auto. lia.
      * apply ideal_dcg_burges; auto.
Qed.
Print Assumptions C31_ideal_is_one.

Theorem C31_no_relevant_is_zero : forall E, env_ok E -> forall j r k lvl, query_ok E j r -> (0 <= k)%Z ->
  (forall d, In d (top (dkeys r) (Z.to_nat k)) -> relevant j lvl d = false) ->
  forall m, In m [@hits NumR E; hit_rate E; precision E; recall E; f1 E; reciprocal_rank E;
                  average_precision E; dcg E; dcg_burges E; ndcg E; ndcg_burges E] ->
  on_query E m j r k lvl = Ok [0%R].
Proof.
  intros E HE j r k lvl Hq Hk Hno m Hm.
  assert (Hone : forall m s, In (m, s) (table E) -> s j lvl (dkeys r) (Z.to_nat k) = 0%R ->
     on_query E m j r k lvl = Ok [0%R]).
  { intros m0 s Hin Hs. rewrite (computes_one E m0 s j r k lvl); auto using table_ok. now rewrite Hs. }
  cbn [In] in Hm. destruct Hm as [<-|[<-|[<-|[<-|[<-|[<-|[<-|[<-|[<-|[<-|[<-|[]]]]]]]]]]]].
  - apply (Hone _ (fun j l ds k => INR (S_hits j l ds k))); [cbn; tauto|]. now rewrite norel_hits.
  - apply (Hone _ S_hit_rate); [cbn; tauto|]. now apply norel_hit_rate.
  - apply (Hone _ S_precision); [cbn; tauto|]. now apply norel_precision.
  - apply (Hone _ S_recall); [cbn; tauto|]. now apply norel_recall.
  - apply (Hone _ S_f1); [cbn; tauto|]. now apply norel_f1.
  - apply (Hone _ S_mrr); [cbn; tauto|]. now apply norel_mrr.
  - apply (Hone _ S_map); [cbn; tauto|]. now apply norel_map.
  - apply (Hone _ S_dcg); [cbn; tauto|]. now apply norel_dcg.
  - apply (Hone _ S_dcg_burges); [cbn; tauto|]. now apply norel_dcg_burges.
  - apply (Hone _ (fun j l => S_ndcg_with (S_dcg j l) j)); [cbn; tauto|]. unfold S_ndcg_with.
    rewrite norel_dcg by exact Hno. unfold Rdiv. lra.
  - apply (Hone _ (fun j l => S_ndcg_with (S_dcg_burges j l) j)); [cbn; tauto|]. unfold S_ndcg_with.
    rewrite norel_dcg_burges by exact Hno. unfold Rdiv. lra.
Qed.
Print Assumptions C31_no_relevant_is_zero.

(** ** C32 cut-offs *)
Theorem C32_only_top_matters : forall E, env_ok E -> forall j r r' k lvl, query_ok E j r -> query_ok E j r' ->
  (0 < k)%Z -> firstn (Z.to_nat k) (dkeys r) = firstn (Z.to_nat k) (dkeys r') ->
  forall m, In m [@hits NumR E; hit_rate E; precision E; recall E; f1 E; reciprocal_rank E;
                  average_precision E; dcg E; dcg_burges E; ndcg E; ndcg_burges E] ->
  on_query E m j r k lvl = on_query E m j r' k lvl.
Proof.
  intros E HE j r r' k lvl Hq Hq' Hk Hf m Hm.
  assert (Hone : forall m s, In (m, s) (table E) -> s j lvl (dkeys r) (Z.to_nat k) = s j lvl (dkeys r') (Z.to_nat k) ->
     on_query E m j r k lvl = on_query E m j r' k lvl).
  { intros m0 s Hin Hs. rewrite !(computes_one E m0 s); auto using table_ok; try lia. now rewrite Hs. }
  destruct (Z.to_nat k) as [|n] eqn:Hn; [lia|].
  assert (Ht : top (dkeys r) (S n) = top (dkeys r') (S n)) by exact Hf.
  assert (H1 : S_hits j lvl (dkeys r) (S n) = S_hits j lvl (dkeys r') (S n)) by (unfold S_hits; now rewrite Ht).
  assert (H2 : S_precision j lvl (dkeys r) (S n) = S_precision j lvl (dkeys r') (S n)) by (unfold S_precision; now rewrite H1).
  assert (H3 : S_recall j lvl (dkeys r) (S n) = S_recall j lvl (dkeys r') (S n)) by (unfold S_recall; now rewrite H1).
  assert (H4 : forall f, S_dcg_with (dkeys r) f (S n) = S_dcg_with (dkeys r') f (S n)) by (intros; rewrite !dcg_wdot; now rewrite Ht).
  cbn [In] in Hm. destruct Hm as [<-|[<-|[<-|[<-|[<-|[<-|[<-|[<-|[<-|[<-|[<-|[]]]]]]]]]]]].
  - apply (Hone _ (fun j l ds k => INR (S_hits j l ds k))); [cbn; tauto|]. now rewrite H1.
  - apply (Hone _ S_hit_rate); [cbn; tauto|]. unfold S_hit_rate. now rewrite Ht.
  - apply (Hone _ S_precision); [cbn; tauto|]. exact H2.
  - apply (Hone _ S_recall); [cbn; tauto|]. exact H3.
  - apply (Hone _ S_f1); [cbn; tauto|]. unfold S_f1. now rewrite H2, H3.
  - apply (Hone _ S_mrr); [cbn; tauto|]. unfold S_mrr. now rewrite Ht.
  - apply (Hone _ S_map); [cbn; tauto|]. rewrite !S_map_ap. now rewrite Ht.
  - apply (Hone _ S_dcg); [cbn; tauto|]. apply H4.
  - apply (Hone _ S_dcg_burges); [cbn; tauto|]. apply H4.
  - apply (Hone _ (fun j l => S_ndcg_with (S_dcg j l) j)); [cbn; tauto|]. unfold S_ndcg_with, S_dcg. now rewrite H4.
  - apply (Hone _ (fun j l => S_ndcg_with (S_dcg_burges j l) j)); [cbn; tauto|]. unfold S_ndcg_with, S_dcg_burges. now rewrite H4.
Qed.
Print Assumptions C32_only_top_matters.

Theorem C32_monotone_in_k : forall E, env_ok E -> forall j r k k' lvl, query_ok E j r -> (0 <= lvl)%Z ->
  (0 < k <= k')%Z \/ ((0 <= k)%Z /\ k' = 0%Z) ->
  forall m, In m [@hits NumR E; hit_rate E; recall E; reciprocal_rank E; average_precision E; dcg E; dcg_burges E] ->
  exists x y, on_query E m j r k lvl = Ok [x] /\ on_query E m j r k' lvl = Ok [y] /\ (x <= y)%R.
Proof.
  intros E HE j r k k' lvl Hq Hl Hk m Hm.
  assert (Hone : forall m s, In (m, s) (table E) ->
     (s j lvl (dkeys r) (Z.to_nat k) <= s j lvl (dkeys r) (Z.to_nat k'))%R ->
     exists x y, on_query E m j r k lvl = Ok [x] /\ on_query E m j r k' lvl = Ok [y] /\ (x <= y)%R).
  { intros m0 s Hin Hs. rewrite !(computes_one E m0 s); auto using table_ok; try lia. eauto. }
  assert (Hc : cut_le (Z.to_nat k) (Z.to_nat k')) by (unfold cut_le; lia).
  cbn [In] in Hm. destruct Hm as [<-|[<-|[<-|[<-|[<-|[<-|[<-|[]]]]]]]].
  - apply (Hone _ (fun j l ds k => INR (S_hits j l ds k))); [cbn; tauto|]. now apply le_INR, hits_mono.
  - apply (Hone _ S_hit_rate); [cbn; tauto|]. now apply hit_rate_mono.
  - apply (Hone _ S_recall); [cbn; tauto|]. now apply recall_mono.
  - apply (Hone _ S_mrr); [cbn; tauto|]. now apply mrr_mono.
  - apply (Hone _ S_map); [cbn; tauto|]. now apply map_mono.
  - apply (Hone _ S_dcg); [cbn; tauto|]. apply dcg_with_mono; auto. intros; now apply gain_nonneg.
  - apply (Hone _ S_dcg_burges); [cbn; tauto|]. apply dcg_with_mono; auto. intros; now apply (bgain_nonneg j lvl).
Qed.
Print Assumptions C32_monotone_in_k.

Theorem C32_zero_is_full_length : forall E, env_ok E -> forall j r lvl, query_ok E j r ->
  forall m, In m [@hits NumR E; hit_rate E; precision E; recall E; f1 E; reciprocal_rank E;
                  average_precision E; dcg E; dcg_burges E] ->
  on_query E m j r 0 lvl = on_query E m j r (Z.of_nat (length r)) lvl.
Proof.
  intros E HE j r lvl Hq m Hm.
  assert (Hone : forall m s, In (m, s) (table E) -> s j lvl (dkeys r) 0 = s j lvl (dkeys r) (length (dkeys r)) ->
     on_query E m j r 0 lvl = on_query E m j r (Z.of_nat (length r)) lvl).
  { intros m0 s Hin Hs. rewrite !(computes_one E m0 s); auto using table_ok; try lia.
    change (Z.to_nat 0) with 0. replace (length r) with (length (dkeys r)) by (unfold dkeys; now rewrite map_length).
    rewrite Nat2Z.id. now rewrite Hs. }
  set (ds := dkeys r).
  pose proof (top_length ds) as Ht.
  assert (H1 : S_hits j lvl ds 0 = S_hits j lvl ds (length ds)) by (unfold S_hits; now rewrite Ht).
  assert (H0 : depth ds 0 = depth ds (length ds)) by (unfold depth; now destruct ds).
  assert (H2 : S_precision j lvl ds 0 = S_precision j lvl ds (length ds)) by (unfold S_precision; now rewrite <- H1, H0).
  assert (H3 : S_recall j lvl ds 0 = S_recall j lvl ds (length ds)) by (unfold S_recall; now rewrite H1).
  assert (H4 : forall f, S_dcg_with ds f 0 = S_dcg_with ds f (length ds)) by (intros; rewrite !dcg_wdot; now rewrite Ht).
  cbn [In] in Hm. destruct Hm as [<-|[<-|[<-|[<-|[<-|[<-|[<-|[<-|[<-|[]]]]]]]]]]; fold ds in Hone.
  - apply (Hone _ (fun j l ds k => INR (S_hits j l ds k))); [cbn; tauto|]. now rewrite H1.
  - apply (Hone _ S_hit_rate); [cbn; tauto|]. unfold S_hit_rate. now rewrite Ht.
  - apply (Hone _ S_precision); [cbn; tauto|]. exact H2.
  - apply (Hone _ S_recall); [cbn; tauto|]. exact H3.
  - apply (Hone _ S_f1); [cbn; tauto|]. unfold S_f1. now rewrite H2, H3.
  - apply (Hone _ S_mrr); [cbn; tauto|]. unfold S_mrr. now rewrite Ht.
  - apply (Hone _ S_map); [cbn; tauto|]. rewrite !S_map_ap. now rewrite Ht.
  - apply (Hone _ S_dcg); [cbn; tauto|]. apply H4.
  - apply (Hone _ S_dcg_burges); [cbn; tauto|]. apply H4.
Qed.
Print Assumptions C32_zero_is_full_length.

(** ** C33 adjacent swaps *)
(** [r'] ranks the documents like [r] except that two neighbours [a], [b] are exchanged,
    [b] (now first) having at least the gain of [a]. *)
Definition better_swap (j : dict Z) (lvl : Z) (ds ds' : list string) : Prop :=
  exists u a b v, ds = u ++ a :: b :: v /\ ds' = u ++ b :: a :: v /\ (gain j lvl a <= gain j lvl b)%R.

Theorem C33_swap_up : forall E, env_ok E -> forall j r r' k lvl, query_ok E j r -> query_ok E j r' ->
  (0 <= k)%Z -> (1 <= lvl)%Z -> judgments_desc j -> better_swap j lvl (dkeys r) (dkeys r') ->
  (forall m, In m [@hits NumR E; hit_rate E; precision E; recall E; f1 E; r_precision E; reciprocal_rank E;
                  average_precision E; dcg E; dcg_burges E; ndcg E; ndcg_burges E] ->
   exists x y, on_query E m j r k lvl = Ok [x] /\ on_query E m j r' k lvl = Ok [y] /\ (x <= y)%R) /\
  (forall p, (0 <= p <= 1)%R -> exists x y,
     @rank_biased_precision NumR E (qrels_arg E [j]) (run_arg E [r]) p lvl = Ok [x] /\
     @rank_biased_precision NumR E (qrels_arg E [j]) (run_arg E [r']) p lvl = Ok [y] /\ (x <= y)%R).
Proof.
  intros E HE j r r' k lvl Hq Hq' Hk Hl Hdesc (u & a & b & v & Hr & Hr' & Hg).
  assert (Hrel : relevant j lvl a = true -> relevant j lvl b = true).
  { intros H. destruct (relevant j lvl b) eqn:Hb; [reflexivity|].
    exfalso. unfold relevant in H, Hb. unfold gain in Hg. destruct (dget j a) as [va|]; [|discriminate]. rewrite H in Hg.
    apply Z.leb_le in H. assert (1 <= IZR va)%R by (apply (IZR_le 1); lia).
    destruct (dget j b) as [vb|]; [rewrite Hb in Hg|]; lra. }
  assert (Hone : forall m s, In (m, s) (table E) ->
     (s j lvl (u ++ a :: b :: v) (Z.to_nat k) <= s j lvl (u ++ b :: a :: v) (Z.to_nat k))%R ->
     exists x y, on_query E m j r k lvl = Ok [x] /\ on_query E m j r' k lvl = Ok [y] /\ (x <= y)%R).
  { intros m0 s Hin Hs. rewrite !(computes_one E m0 s); auto using table_ok. rewrite Hr, Hr'. eauto. }
  assert (Hnd : forall f, is_ideal f (Z.to_nat k) (S_dcg_with (dkeys j) f (Z.to_nat k)) ->
     (S_dcg_with (u ++ a :: b :: v) f (Z.to_nat k) <= S_dcg_with (u ++ b :: a :: v) f (Z.to_nat k))%R ->
     (S_ndcg_with (fun ds k => S_dcg_with ds f k) j (u ++ a :: b :: v) (Z.to_nat k) <=
      S_ndcg_with (fun ds k => S_dcg_with ds f k) j (u ++ b :: a :: v) (Z.to_nat k))%R).
  { intros f Hi H. unfold S_ndcg_with. pose proof (is_ideal_nonneg f _ _ Hi). apply Rmult_le_compat_r; [|exact H].
    destruct Req_EM_T; [lra|]. apply Rlt_le, Rinv_0_lt_compat. lra. }
  assert (Hj : dict_ok j) by apply Hq.
  split.
  - intros m Hm. cbn [In] in Hm. destruct Hm as [<-|[<-|[<-|[<-|[<-|[<-|[<-|[<-|[<-|[<-|[<-|[<-|[]]]]]]]]]]]]].
    + apply (Hone _ (fun j l ds k => INR (S_hits j l ds k))); [cbn; tauto|]. now apply le_INR, hits_swap.
    + apply (Hone _ S_hit_rate); [cbn; tauto|]. now apply hit_rate_swap.
    + apply (Hone _ S_precision); [cbn; tauto|]. now apply precision_swap.
    + apply (Hone _ S_recall); [cbn; tauto|]. now apply recall_swap.
    + apply (Hone _ S_f1); [cbn; tauto|]. now apply f1_swap.
    + rewrite !r_precision_one by assumption. rewrite Hr, Hr'. do 2 eexists. split; [reflexivity|]. split; [reflexivity|].
      now apply r_precision_swap.
    + apply (Hone _ S_mrr); [cbn; tauto|]. now apply mrr_swap.
    + apply (Hone _ S_map); [cbn; tauto|]. now apply map_swap.
    + apply (Hone _ S_dcg); [cbn; tauto|]. now apply dcg_swap.
    + apply (Hone _ S_dcg_burges); [cbn; tauto|]. now apply dcg_burges_swap.
    + apply (Hone _ (fun j l => S_ndcg_with (S_dcg j l) j)); [cbn; tauto|]. apply (Hnd (gain j lvl)).
      * apply dcg_ideal; auto. lia.
      * now apply dcg_swap.
    + apply (Hone _ (fun j l => S_ndcg_with (S_dcg_burges j l) j)); [cbn; tauto|]. apply (Hnd (burges_gain j lvl)).
      * apply (dcg_burges_ideal j lvl); auto. lia.
      * now apply dcg_burges_swap.
  - intros p Hp. rewrite !C28_rbp; auto; try (constructor; [assumption|constructor]).
    unfold per_query. cbn [combine map fst snd]. rewrite Hr, Hr'. do 2 eexists. split; [reflexivity|]. split; [reflexivity|].
    now apply rbp_swap.
Qed.
Print Assumptions C33_swap_up.

(** ** C34 appending non-relevant documents *)
Theorem C34_append_nonrelevant : forall E, env_ok E -> forall j r r' t k lvl, query_ok E j r -> query_ok E j r' ->
  dkeys r' = dkeys r ++ t -> (forall d, In d t -> relevant j lvl d = false) -> (0 <= k)%Z ->
  (forall m, In m [@hits NumR E; hit_rate E; recall E; r_precision E; reciprocal_rank E;
                  average_precision E; dcg E; dcg_burges E; ndcg E; ndcg_burges E; bpref E] ->
   on_query E m j r' k lvl = on_query E m j r k lvl) /\
  ((0 < k)%Z -> on_query E (@precision NumR E) j r' k lvl = on_query E (@precision NumR E) j r k lvl /\
                on_query E (@f1 NumR E) j r' k lvl = on_query E (@f1 NumR E) j r k lvl) /\
  (forall p, @rank_biased_precision NumR E (qrels_arg E [j]) (run_arg E [r']) p lvl =
             @rank_biased_precision NumR E (qrels_arg E [j]) (run_arg E [r]) p lvl).
Proof.
  intros E HE j r r' t k lvl Hq Hq' Hr' Ht Hk.
  assert (Hone : forall m s, In (m, s) (table E) ->
     s j lvl (dkeys r ++ t) (Z.to_nat k) = s j lvl (dkeys r) (Z.to_nat k) ->
     on_query E m j r' k lvl = on_query E m j r k lvl).
  { intros m0 s Hin Hs. rewrite !(computes_one E m0 s); auto using table_ok. now rewrite Hr', Hs. }
  split; [|split].
  - intros m Hm. cbn [In] in Hm. destruct Hm as [<-|[<-|[<-|[<-|[<-|[<-|[<-|[<-|[<-|[<-|[<-|[]]]]]]]]]]]].
    + apply (Hone _ (fun j l ds k => INR (S_hits j l ds k))); [cbn; tauto|]. now rewrite hits_tail.
    + apply (Hone _ S_hit_rate); [cbn; tauto|]. now apply hit_rate_tail.
    + apply (Hone _ S_recall); [cbn; tauto|]. now apply recall_tail.
    + rewrite !r_precision_one by assumption. now rewrite Hr', r_precision_tail.
    + apply (Hone _ S_mrr); [cbn; tauto|]. now apply mrr_tail.
    + apply (Hone _ S_map); [cbn; tauto|]. now apply map_tail.
    + apply (Hone _ S_dcg); [cbn; tauto|]. now apply dcg_tail.
    + apply (Hone _ S_dcg_burges); [cbn; tauto|]. now apply dcg_burges_tail.
    + apply (Hone _ (fun j l => S_ndcg_with (S_dcg j l) j)); [cbn; tauto|]. unfold S_ndcg_with. now rewrite dcg_tail.
    + apply (Hone _ (fun j l => S_ndcg_with (S_dcg_burges j l) j)); [cbn; tauto|]. unfold S_ndcg_with. now rewrite dcg_burges_tail.
    + unfold on_query. destruct (Nat.eq_dec (n_relevant j lvl) 0) as [Hz|Hz].
      * rewrite !C27_bpref_no_relevant; auto; constructor; auto.
      * assert (Hb : forall r0, query_ok E j r0 -> bpref E (qrels_arg E [j]) (run_arg E [r0]) k lvl = Ok [S_bpref j lvl (dkeys r0)]).
        { intros r0 Hq0. unfold bpref.
          rewrite (parallel_per_query E HE "bpref" _ _ (fun j ds => S_bpref j lvl ds) (fun j _ => 0 < n_relevant j lvl)); [reflexivity| | |].
          - intros j0 r1 (H1 & _ & H2) H3. rewrite (bpref_spec E j0 lvl r1 H1 H2).
            destruct (Nat.eqb_spec (n_relevant j0 lvl) 0); [lia|reflexivity].
          - constructor; [exact Hq0|constructor].
          - constructor; [lia|constructor]. }
        rewrite !Hb by assumption. now rewrite Hr', bpref_tail.
  - intros Hk0. split.
    + apply (Hone _ S_precision); [cbn; tauto|]. apply precision_tail; auto. lia.
    + apply (Hone _ S_f1); [cbn; tauto|]. apply f1_tail; auto. lia.
  - intros p. rewrite !C28_rbp; auto; try (constructor; [assumption|constructor]).
    unfold per_query. cbn [combine map fst snd]. now rewrite Hr', rbp_tail.
Qed.
Print Assumptions C34_append_nonrelevant.

(** ** C35 documents are told apart only by their rounded hash *)
(** Hashes of 64 bits that are more than 1024 apart are never confused ... *)
Theorem C35_far_hashes : forall (N : Num) (E : env N) d d',
  (Z.abs (e_hash E d) < 2 ^ 63)%Z -> (Z.abs (e_hash E d') < 2 ^ 63)%Z ->
  (1024 < Z.abs (e_hash E d - e_hash E d'))%Z -> doc_key E d <> doc_key E d'.
Proof. intros N E d d'. apply round53_far. Qed.
(** ... small ones never ... *)
Theorem C35_small_hashes : forall (N : Num) (E : env N) d d',
  (Z.abs (e_hash E d) < 2 ^ 53)%Z -> (Z.abs (e_hash E d') < 2 ^ 53)%Z ->
  doc_key E d = doc_key E d' -> e_hash E d = e_hash E d'.
Proof.
  intros N E d d' H1 H2. unfold doc_key, round53.
  rewrite (proj2 (Z.ltb_lt _ _) H1), (proj2 (Z.ltb_lt _ _) H2). auto.
Qed.
(** ... but documents with equal rounded hashes are taken for each other: [d'] was never
    judged, yet retrieving it counts as a hit. *)
Theorem C35_collision : forall (N : Num) (E : env N), env_ok E -> forall d d' v lvl s,
  doc_key E d = doc_key E d' -> fleb (fofZ lvl : F) (fofZ v) = true ->
  hits E [to_rows E q_tof [(d, v)]] [to_rows E r_tof [(d', s)]] 0 lvl = Ok [fadd fzero fone].
Proof.
  intros N E HE d d' v lvl s Hk Hv. unfold hits, lift4, with_k, assertr. cbn [Z.leb bindr Z.compare Z.to_nat].
  rewrite (parallel_map E "hits" fzero _ _ _ (fun _ _ => fadd fzero fone) HE); [reflexivity|].
  constructor; [|constructor]. f_equal. unfold _hits, clean_qrels, to_rows. cbn [map filter fst snd].
  assert (Hv' : fleb (fofZ lvl : F) (q_tof v) = true) by exact Hv. rewrite !Hv'. cbn [length Nat.eqb fix_k orb firstn fold_left fst snd].
  unfold scan. cbn [max_id min_id fold_left fst snd first_match]. rewrite Hk, Z.ltb_irrefl, Z.eqb_refl. reflexivity.
Qed.
(** distinct 64-bit hashes do collide *)
Theorem C35_hash_injective_refuted : exists h h' : Z,
  (0 <= h < 2 ^ 63)%Z /\ (0 <= h' < 2 ^ 63)%Z /\ h <> h' /\ round53 h = round53 h'.
Proof. exists (2 ^ 62)%Z, (2 ^ 62 + 1)%Z. split; [lia|]. split; [lia|]. split; [lia|]. reflexivity. Qed.
Print Assumptions C35_far_hashes.
Print Assumptions C35_small_hashes.
Print Assumptions C35_collision.
Print Assumptions C35_hash_injective_refuted.

(** ** C36 hit, unjudged and non-relevant lists *)
Definition indicator (p : string -> bool) (ds : list string) : list R :=
  map (fun d => if p d then 1%R else 0%R) ds.
Theorem C36_lists : forall E, env_ok E -> forall js rs k lvl, aligned E js rs -> (0 <= k)%Z ->
  @get_hit_lists NumR E (qrels_arg E js) (run_arg E rs) k lvl
    = Ok (per_query (fun j ds => indicator (fun d => match dget j d with Some v => (lvl <=? v)%Z | None => false end)
                                           (top ds (Z.to_nat k))) js rs) /\
  @get_unjudged_lists NumR E (qrels_arg E js) (run_arg E rs) k
    = Ok (per_query (fun j ds => indicator (fun d => match dget j d with Some _ => false | None => true end)
                                           (top ds (Z.to_nat k))) js rs) /\
  @get_non_rel_lists NumR E (qrels_arg E js) (run_arg E rs) k
    = Ok (per_query (fun j ds => indicator (fun d => match dget j d with Some v => (v =? 0)%Z | None => false end)
                                           (top ds (Z.to_nat k))) js rs).
Proof.
  intros E HE js rs k lvl Ha Hk. unfold get_hit_lists, get_unjudged_lists, get_non_rel_lists, with_k, assertr.
  destruct (Z.leb_spec 0 k); [|lia]. cbn [bindr].
  split; [|split].
  - refine (parallel_per_query E HE "hit_lists" _ _ (fun j ds => indicator _ (top ds (Z.to_nat k))) (fun _ _ => True) js rs _ Ha (Forall2_True _ _ _ Ha)).
    intros j r (H1 & _ & H2) _. f_equal. etransitivity; [apply (get_hit_list_spec E j lvl r H1 H2)|].
    unfold indicator. reflexivity.
  - refine (parallel_per_query E HE "unjudged" _ _ (fun j ds => indicator _ (top ds (Z.to_nat k))) (fun _ _ => True) js rs _ Ha (Forall2_True _ _ _ Ha)).
    intros j r (H1 & _ & H2) _. f_equal. etransitivity; [apply (get_unjudged_list_spec E j r H2)|].
    unfold indicator. apply map_ext. intros d. unfold judged. now destruct (dget j d).
  - refine (parallel_per_query E HE "non_rel" _ _ (fun j ds => indicator _ (top ds (Z.to_nat k))) (fun _ _ => True) js rs _ Ha (Forall2_True _ _ _ Ha)).
    intros j r (H1 & _ & H2) _. f_equal. etransitivity; [apply (get_non_rel_list_spec E j r H1 H2)|].
    unfold indicator. apply map_ext. intros d. now destruct (dget j d).
Qed.
Print Assumptions C36_lists.
(** with level 1 and no negative judgment, every position is in exactly one list *)
Theorem C36_partition : forall E, env_ok E -> forall j r k, query_ok E j r -> (0 <= k)%Z ->
  (forall d v, dget j d = Some v -> (0 <= v)%Z) ->
  exists h un no, @get_hit_lists NumR E (qrels_arg E [j]) (run_arg E [r]) k 1 = Ok [h] /\
    @get_unjudged_lists NumR E (qrels_arg E [j]) (run_arg E [r]) k = Ok [un] /\
    @get_non_rel_lists NumR E (qrels_arg E [j]) (run_arg E [r]) k = Ok [no] /\
    length h = length (top (dkeys r) (Z.to_nat k)) /\ length un = length h /\ length no = length h /\
    forall i, i < length h -> (nth i h 0 + nth i un 0 + nth i no 0 = 1)%R /\
       (nth i h 0 = 1 \/ nth i un 0 = 1 \/ nth i no 0 = 1)%R.
Proof.
  intros E HE j r k Hq Hk Hv.
  destruct (C36_lists E HE [j] [r] k 1 ltac:(constructor; [exact Hq|constructor]) Hk) as (H1 & H2 & H3).
  rewrite H1, H2, H3. unfold per_query. cbn [combine map fst snd]. do 3 eexists.
  split; [reflexivity|]. split; [reflexivity|]. split; [reflexivity|].
  unfold indicator. rewrite !map_length. split; [reflexivity|]. split; [reflexivity|]. split; [reflexivity|].
  intros i Hi.
  assert (Hn : forall p, nth i (map (fun d => if p d : bool then 1%R else 0%R) (top (dkeys r) (Z.to_nat k))) 0%R
      = if p (nth i (top (dkeys r) (Z.to_nat k)) EmptyString) then 1%R else 0%R).
  { intros p. rewrite (nth_indep _ 0%R (if p EmptyString then 1%R else 0%R)) by now rewrite map_length.
    apply (map_nth (fun d => if p d then 1%R else 0%R)). }
  rewrite !Hn. destruct (dget j (nth i (top (dkeys r) (Z.to_nat k)) EmptyString)) as [v|] eqn:Hd.
  - apply Hv in Hd. destruct (Z.leb_spec 1 v), (Z.eqb_spec v 0); try lia; split; try lra; tauto.
  - split; [lra|tauto].
Qed.
Print Assumptions C36_partition.
