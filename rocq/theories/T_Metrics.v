(** T_Metrics.v: theorems C17 and C21-C36 about the metric functions. *)
From Coq Require Import Reals Lra Psatz SpecFloat.
From Verif Require Import Base Dict Num NumLaws Env M_Common M_Qrels M_Run M_Metrics Spec_Metrics
  Spec_MetricsAPI P_Base P_Dict P_Common P_Metrics P_Metrics2 P_Metrics3 P_Metrics4 P_Metrics5
  P_Metrics6 P_Metrics7 EnvEx.
Open Scope string_scope.
Open Scope list_scope.
Open Scope nat_scope.

Ltac by_table E HE := apply (table_ok E _ _ HE); cbn; tauto.

(** ** C21 hits, hit_rate, precision, recall *)
Theorem C21_hits : forall E, env_ok E -> computes E (@hits NumR E) (fun j l ds k => INR (S_hits j l ds k)).
Proof. intros E HE. by_table E HE. Qed.
Theorem C21_hit_rate : forall E, env_ok E -> computes E (@hit_rate NumR E) S_hit_rate.
Proof. intros E HE. by_table E HE. Qed.
Theorem C21_precision : forall E, env_ok E -> computes E (@precision NumR E) S_precision.
Proof. intros E HE. by_table E HE. Qed.
Theorem C21_recall : forall E, env_ok E -> computes E (@recall NumR E) S_recall.
Proof. intros E HE. by_table E HE. Qed.
Print Assumptions C21_hits.
Print Assumptions C21_hit_rate.
Print Assumptions C21_precision.
Print Assumptions C21_recall.

(** ** C22 f1 *)
Theorem C22_f1 : forall E, env_ok E -> computes E (@f1 NumR E) S_f1.
Proof. intros E HE. by_table E HE. Qed.
Print Assumptions C22_f1.

(** ** C23 r-precision *)
Theorem C23_r_precision : forall E, env_ok E -> forall js rs k lvl, aligned E js rs ->
  @r_precision NumR E (qrels_arg E js) (run_arg E rs) k lvl
  = Ok (per_query (fun j ds => S_r_precision j lvl ds) js rs).
Proof.
  intros E HE js rs k lvl Ha. unfold r_precision.
  apply (parallel_per_query E HE _ _ _ (fun j ds => S_r_precision j lvl ds) (fun _ _ => True)).
  - intros j r (H1 & _ & H2) _. f_equal. apply (r_precision_spec E j lvl r H1 H2).
  - exact Ha.
  - eapply Forall2_True, Ha.
Qed.
(** on one query, it is recall at cut-off R (the number of relevant documents) *)
Theorem C23_r_precision_is_recall : forall E, env_ok E -> forall j r k lvl, query_ok E j r ->
  @r_precision NumR E (qrels_arg E [j]) (run_arg E [r]) k lvl
  = @recall NumR E (qrels_arg E [j]) (run_arg E [r]) (Z.of_nat (n_relevant j lvl)) lvl.
Proof.
  intros E HE j r k lvl Hq.
  assert (Ha : aligned E [j] [r]) by (repeat constructor; apply Hq).
  rewrite (C23_r_precision E HE _ _ k lvl Ha), (C21_recall E HE _ _ _ lvl Ha).
  destruct (Z.ltb_spec (Z.of_nat (n_relevant j lvl)) 0); [lia|]. rewrite Nat2Z.id. unfold per_query. cbn [combine map fst snd].
  do 2 f_equal. unfold S_r_precision, S_recall, S_precision.
  destruct (n_relevant j lvl) as [|n]; reflexivity.
Qed.
Print Assumptions C23_r_precision.
Print Assumptions C23_r_precision_is_recall.

(** ** C24 mrr, C25 map *)
Theorem C24_mrr : forall E, env_ok E -> computes E (@reciprocal_rank NumR E) S_mrr.
Proof. intros E HE. by_table E HE. Qed.
Theorem C25_map : forall E, env_ok E -> computes E (@average_precision NumR E) S_map.
Proof. intros E HE. by_table E HE. Qed.
Print Assumptions C24_mrr.
Print Assumptions C25_map.

(** ** C26 dcg and ndcg *)
Theorem C26_dcg : forall E, env_ok E -> computes E (@dcg NumR E) S_dcg.
Proof. intros E HE. by_table E HE. Qed.
Theorem C26_dcg_burges : forall E, env_ok E -> computes E (@dcg_burges NumR E) S_dcg_burges.
Proof. intros E HE. by_table E HE. Qed.
Print Assumptions C26_dcg.
Print Assumptions C26_dcg_burges.


Lemma ndcg_is_ndcg j g ds k : dict_ok j -> NoDup ds -> (forall d, (0 <= g d)%R) ->
  is_ideal g k (S_dcg_with (dkeys j) g k) ->
  is_ndcg g ds k (S_ndcg_with (fun ds k => S_dcg_with ds g k) j ds k).
Proof.
  intros Hj Hn Hg Hi. exists (S_dcg_with (dkeys j) g k). split; [exact Hi|]. unfold S_ndcg_with.
  destruct (Req_EM_T (S_dcg_with (dkeys j) g k) 0) as [Hz|Hz]; [|reflexivity].
  pose proof (proj2 Hi ds Hn). 
  assert (0 <= S_dcg_with ds g k)%R; [|lra].
  rewrite dcg_wdot. apply wdot_nonneg; [intros; apply Rlt_le, dw_pos|].
  intros x Hx. apply in_map_iff in Hx as (d & <- & _). apply Hg.
Qed.

Lemma Forall2_per_query {A} (P : dict Z -> dict R -> A -> Prop) s js rs E :
  aligned E js rs -> (forall j r, In j js -> query_ok E j r -> P j r (s j (dkeys r))) ->
  Forall2 (fun jr x => P (fst jr) (snd jr) x) (combine js rs) (per_query s js rs).
Proof.
  intros Ha H. unfold per_query. induction Ha as [|j r js rs Hjr Ha IH]; cbn [combine map]; constructor.
  - cbn. apply H; [now left|exact Hjr].
  - apply IH. intros j' r' Hj'. apply H. now right.
Qed.

Theorem C26_ndcg : forall E, env_ok E -> forall js rs k lvl, aligned E js rs ->
  (0 <= k)%Z -> (0 <= lvl)%Z -> Forall judgments_desc js ->
  exists xs, @ndcg NumR E (qrels_arg E js) (run_arg E rs) k lvl = Ok xs /\
    Forall2 (fun jr x => is_ndcg (gain (fst jr) lvl) (dkeys (snd jr)) (Z.to_nat k) x) (combine js rs) xs.
Proof.
  intros E HE js rs k lvl Ha Hk Hl Hs.
  assert (Hc : computes E (@ndcg NumR E) (fun j l => S_ndcg_with (S_dcg j l) j)) by (by_table E HE).
  rewrite (Hc js rs k lvl Ha). destruct (Z.ltb_spec k 0); [lia|]. eexists. split; [reflexivity|].
  apply (Forall2_per_query (fun j r x => is_ndcg (gain j lvl) (dkeys r) (Z.to_nat k) x) _ js rs E Ha).
  intros j r Hj (H1 & H2 & H3). rewrite Forall_forall in Hs.
  apply ndcg_is_ndcg; auto.
  - intros; now apply gain_nonneg.
  - apply dcg_ideal; auto.
Qed.
Theorem C26_ndcg_burges : forall E, env_ok E -> forall js rs k lvl, aligned E js rs ->
  (0 <= k)%Z -> (0 <= lvl)%Z -> Forall judgments_desc js ->
  exists xs, @ndcg_burges NumR E (qrels_arg E js) (run_arg E rs) k lvl = Ok xs /\
    Forall2 (fun jr x => is_ndcg (burges_gain (fst jr) lvl) (dkeys (snd jr)) (Z.to_nat k) x) (combine js rs) xs.
Proof.
  intros E HE js rs k lvl Ha Hk Hl Hs.
  assert (Hc : computes E (@ndcg_burges NumR E) (fun j l => S_ndcg_with (S_dcg_burges j l) j)) by (by_table E HE).
  rewrite (Hc js rs k lvl Ha). destruct (Z.ltb_spec k 0); [lia|]. eexists. split; [reflexivity|].
  apply (Forall2_per_query (fun j r x => is_ndcg (burges_gain j lvl) (dkeys r) (Z.to_nat k) x) _ js rs E Ha).
  intros j r Hj (H1 & H2 & H3). rewrite Forall_forall in Hs.
  apply ndcg_is_ndcg; auto.
  - intros; now apply (bgain_nonneg j lvl).
  - apply (dcg_burges_ideal j lvl); auto.
Qed.
Print Assumptions C26_ndcg.
Print Assumptions C26_ndcg_burges.

(** ** C27 bpref *)
Theorem C27_bpref : forall E, env_ok E -> forall js rs k lvl, aligned E js rs ->
  Forall (fun j => 0 < n_relevant j lvl /\ 0 < n_judged_nonrelevant j lvl) js ->
  @bpref NumR E (qrels_arg E js) (run_arg E rs) k lvl
  = Ok (per_query (fun j ds => S_bpref j lvl ds) js rs).
Proof.
  intros E HE js rs k lvl Ha Hp. unfold bpref.
  apply (parallel_per_query E HE _ _ _ (fun j ds => S_bpref j lvl ds)
           (fun j _ => 0 < n_relevant j lvl)).
  - intros j r (H1 & _ & H2) H3. rewrite (bpref_spec E j lvl r H1 H2).
    destruct (Nat.eqb_spec (n_relevant j lvl) 0); [lia|reflexivity].
  - exact Ha.
  - induction Ha as [|j r js rs Hjr Ha IH]; constructor; inversion Hp; subst; [tauto|auto].
Qed.
Theorem C27_bpref_no_relevant : forall E, env_ok E -> forall js rs k lvl, aligned E js rs ->
  Exists (fun j => n_relevant j lvl = 0) js ->
  @bpref NumR E (qrels_arg E js) (run_arg E rs) k lvl = Err ZeroDivisionError.
Proof.
  intros E HE js rs k lvl Ha Hp. unfold bpref, qrels_arg, run_arg. apply parallel_err; auto.
  - rewrite !map_length. clear - Ha. induction Ha; cbn; congruence.
  - intros q r Hin. clear Hp. induction Ha as [|j r' js rs (H1 & _ & H2) Ha IH]; cbn [map combine] in Hin; [easy|].
    destruct Hin as [Hin|Hin]; [|auto]. inversion Hin; subst.
    rewrite (bpref_spec E j lvl r' H1 H2). destruct (n_relevant j lvl =? 0); eauto.
  - induction Ha as [|j r' js rs (H1 & _ & H2) Ha IH]; inversion Hp as [? ? Hz|? ? Hz]; subst; cbn [map combine].
    + exists (qrows E j), (rrows E r'). split; [now left|]. rewrite (bpref_spec E j lvl r' H1 H2).
      now rewrite (proj2 (Nat.eqb_eq _ _) Hz).
    + destruct (IH Hz) as (q & r & Hin & He). exists q, r. split; [now right|exact He].
Qed.
Print Assumptions C27_bpref.
Print Assumptions C27_bpref_no_relevant.
(** binary64: one relevant document, judged and retrieved, no judged non-relevant one: NaN *)
Theorem C27_bpref_defined_refuted :
  exists j r, @bpref NumSF env_ex [@to_rows NumSF env_ex Z q_tof j] [@to_rows NumSF env_ex _ r_tof r] 0 1
              = Ok [S754_nan] /\ n_relevant j 1 = 1 /\ n_judged_nonrelevant j 1 = 0.
Proof.
  exists [("d1", 1%Z)], [("d1", sf_of_Z 3)]. split; [vmr|]. split; reflexivity.
Qed.
Print Assumptions C27_bpref_defined_refuted.

(** ** C28 rbp *)
Theorem C28_rbp : forall E, env_ok E -> forall js rs p lvl, aligned E js rs ->
  @rank_biased_precision NumR E (qrels_arg E js) (run_arg E rs) p lvl
  = Ok (per_query (fun j ds => S_rbp j lvl ds p) js rs).
Proof.
  intros E HE js rs p lvl Ha. unfold rank_biased_precision.
  apply (parallel_per_query E HE _ _ _ (fun j ds => S_rbp j lvl ds p) (fun _ _ => True)).
  - intros j r (H1 & _ & H2) _. f_equal. apply (rbp_spec E j lvl r H1 H2).
  - exact Ha.
  - eapply Forall2_True, Ha.
Qed.
(** the documented (binary) definition, when judgments are at most 1 ... *)
Theorem C28_rbp_binary : forall E, env_ok E -> forall js rs p lvl, aligned E js rs -> (1 <= lvl)%Z ->
  Forall (fun j => forall d v, dget j d = Some v -> (v <= 1)%Z) js ->
  @rank_biased_precision NumR E (qrels_arg E js) (run_arg E rs) p lvl
  = Ok (per_query (fun j ds => S_rbp_binary j lvl ds p) js rs).
Proof.
  intros E HE js rs p lvl Ha Hl Hv. rewrite C28_rbp by assumption. f_equal. unfold per_query.
  apply map_ext_in. intros [j r] Hin. apply in_combine_l in Hin. rewrite Forall_forall in Hv.
  apply rbp_is_binary; auto. now apply Hv.
Qed.
(** ... and at least that otherwise *)
Theorem C28_rbp_at_least_binary : forall E, env_ok E -> forall js rs p lvl xs, aligned E js rs -> (1 <= lvl)%Z ->
  (0 <= p <= 1)%R ->
  @rank_biased_precision NumR E (qrels_arg E js) (run_arg E rs) p lvl = Ok xs ->
  Forall2 Rle (per_query (fun j ds => S_rbp_binary j lvl ds p) js rs) xs.
Proof.
  intros E HE js rs p lvl xs Ha Hl Hp H. rewrite C28_rbp in H by assumption. inversion H; subst.
  unfold per_query. induction (combine js rs) as [|[j r] l IH]; constructor; [|exact IH].
  now apply rbp_ge_binary.
Qed.
(** graded judgments: it is not the documented value and can exceed 1 *)
Theorem C28_rbp_graded_refuted : exists (E : env NumR) (j : dict Z) (r : dict R) (p x : R), env_ok E /\ query_ok E j r /\ (0 <= p <= 1)%R /\ 
  @rank_biased_precision NumR E (qrels_arg E [j]) (run_arg E [r]) p 1 = Ok [x] /\ 
  (S_rbp_binary j 1 (dkeys r) p < 1 < x)%R.
Proof.
  exists env_ex, [("d1", 3%Z)], [("d1", 1%R)], (1/2)%R, (S_rbp [("d1", 3%Z)] 1 ["d1"] (1/2)).
  assert (HE : env_ok (@env_ex NumR)) by apply env_ex_ok, NumR_laws.
  assert (Hq : query_ok env_ex [("d1", 3%Z)] [("d1", 1%R)]).
  { apply query_ok_ex; vmr. }
  split; [exact HE|]. split; [exact Hq|]. split; [lra|]. split.
  - rewrite C28_rbp; [reflexivity|exact HE|constructor; [exact Hq|constructor]].
  - unfold S_rbp, S_rbp_binary, Rsum_n, gain, relevant. cbn. lra.
Qed.
Print Assumptions C28_rbp.
Print Assumptions C28_rbp_binary.
Print Assumptions C28_rbp_at_least_binary.
Print Assumptions C28_rbp_graded_refuted.

(** ** C29 interpolated precision at recall *)
Theorem C29_interpolated : forall E, env_ok E -> forall js rs lvl, aligned E js rs ->
  @interpolated_precision_at_recall NumR E (qrels_arg E js) (run_arg E rs) lvl
  = Ok (per_query (fun j ds =>
          if n_relevant j lvl =? 0 then repeat 0%R 11
          else map (fun i => S_interpolated j lvl ds ((i * n_relevant j lvl + 9) / 10)) (seq 0 11)) js rs).
Proof.
  intros E HE js rs lvl Ha. unfold interpolated_precision_at_recall.
  apply (parallel_per_query E HE _ _ _ (fun j ds => if n_relevant j lvl =? 0 then repeat 0%R 11
          else map (fun i => S_interpolated j lvl ds ((i * n_relevant j lvl + 9) / 10)) (seq 0 11)) (fun _ _ => True)).
  - intros j r (H1 & _ & H2) _. f_equal. apply (interpolated_spec E j lvl r H1 H2).
  - exact Ha.
  - eapply Forall2_True, Ha.
Qed.
(** the cut-off is the smallest number of relevant documents giving recall i/10 *)
Theorem C29_cutoff : forall i n c, (i * n + 9) / 10 <= c <-> i * n <= 10 * c.
Proof.
  intros i n c. split; intros H.
  - pose proof (Nat.div_mod (i * n + 9) 10 ltac:(lia)). pose proof (Nat.mod_upper_bound (i * n + 9) 10 ltac:(lia)). lia.
  - pose proof (Nat.div_mod (i * n + 9) 10 ltac:(lia)). pose proof (Nat.mod_upper_bound (i * n + 9) 10 ltac:(lia)). lia.
Qed.
Theorem C29_monotone_bounded : forall E, env_ok E -> forall js rs lvl xss, aligned E js rs ->
  @interpolated_precision_at_recall NumR E (qrels_arg E js) (run_arg E rs) lvl = Ok xss ->
  Forall (fun xs => length xs = 11 /\ Forall (fun x => 0 <= x <= 1)%R xs /\
                    StronglySorted (fun a b => b <= a)%R xs) xss.
Proof.
  intros E HE js rs lvl xss Ha H. rewrite (C29_interpolated E HE js rs lvl Ha) in H.
  inversion H; subst. unfold per_query. apply Forall_map, Forall_forall. intros [j r] _. cbn [fst snd].
  destruct (n_relevant j lvl =? 0).
  - split; [reflexivity|]. split; cbn [repeat]; repeat (constructor; try lra).
  - set (f := fun i => S_interpolated j lvl (dkeys r) ((i * n_relevant j lvl + 9) / 10)).
    assert (H1 : Forall (fun x => 0 <= x <= 1)%R (map f (seq 0 11))).
    { apply Forall_forall. intros x Hx. apply in_map_iff in Hx as (i & <- & _). apply interpolated_01. }
    assert (Hs : forall n i, StronglySorted (fun a b => (b <= a)%R) (map f (seq i n))).
    { induction n as [|n IH]; intros i; cbn; constructor; [apply IH|].
      apply Forall_forall. intros x Hx. apply in_map_iff in Hx as (i' & <- & Hi').
      apply in_seq in Hi'. apply interpolated_mono. apply Nat.div_le_mono; [lia|]. nia. }
    split; [reflexivity|]. split; [exact H1|exact (Hs 11 0)].
Qed.
Print Assumptions C29_interpolated.
Print Assumptions C29_cutoff.
Print Assumptions C29_monotone_bounded.
(** binary64: at recall level 0.7 with 3 relevant documents the code uses 2 instead of 3 *)
Theorem C29_float_cutoff_refuted : exists i n, i <= 10 /\ @ip_cutoff NumSF i n <> (i * n + 9) / 10.
Proof. exists 7, 3. split; [lia|]. intros H. assert (Hc : @ip_cutoff NumSF 7 3 = 2) by vmr. rewrite Hc in H. discriminate. Qed.
Print Assumptions C29_float_cutoff_refuted.

(** ** C17 Scores do not depend on the thread schedule *)
Theorem C17_schedule_independent : forall (N : Num) (E E' : env N), env_ok E -> env_ok E' ->
  forall name m m' (qs rs : list rows) k lvl, length qs = length rs ->
  metric_switch E name = Ok m -> metric_switch E' name = Ok m' ->
  m qs rs k lvl = m' qs rs k lvl.
Proof.
  intros N E E' HE HE' name m m' qs rs k lvl Hlen.
  assert (Hp : forall A tag (init : A) f e, (forall q r, (exists a, f q r = Ok a) \/ f q r = Err e) ->
      parallel E tag init qs rs f = parallel E' tag init qs rs f).
  { intros A tag init f e Hf.
    assert (Hdec : Forall2 (fun q r => exists a, f q r = Ok a) qs rs \/
                   exists q r, In (q, r) (combine qs rs) /\ f q r = Err e).
    { clear - Hf Hlen. revert rs Hlen. induction qs as [|q qs IH]; intros [|r rs] Hl; try discriminate; [left; constructor|].
      destruct (IH rs ltac:(cbn in Hl; lia)) as [H|(q' & r' & Hin & He)].
      - destruct (Hf q r) as [Ho|He]; [left; constructor; auto|right; exists q, r; cbn; auto].
      - right. exists q', r'. cbn. auto. }
    destruct Hdec as [H|(q & r & Hin & He)].
    - set (g := fun q r => match f q r with Ok a => a | Err _ => init end).
      rewrite !(parallel_map _ tag init qs rs f g); auto;
        (clear - H; induction H as [|q r qs rs (a & Ha) H IH]; constructor; auto; unfold g; now rewrite Ha).
    - rewrite !(parallel_err _ tag init qs rs f e); eauto. }
  assert (Hl4 : forall f tag k, @lift4 N E f tag qs rs k lvl = @lift4 N E' f tag qs rs k lvl).
  { intros f tag k0. unfold lift4, with_k. destruct (assertr (0 <=? k0)%Z); cbn [bindr]; [|reflexivity].
    apply (Hp _ _ _ _ ValueError). eauto. }
  unfold metric_switch.
  repeat match goal with |- context[String.eqb name ?s] =>
     destruct (String.eqb name s);
     [intros H1 H2; injection H1 as <-; injection H2 as <-; destruct k as [k|p]; cbn [int_k float_k];
      try reflexivity; try apply Hl4|] end; try discriminate.
  - apply (Hp _ _ _ _ ValueError). eauto.
  - apply (Hp _ _ _ _ ZeroDivisionError). intros q r. unfold _bpref.
    match goal with |- context[if ?b then _ else _] => destruct b end; eauto.
  - apply (Hp _ _ _ _ ValueError). eauto.
  - apply (Hp _ _ _ _ ValueError). eauto.
Qed.
Print Assumptions C17_schedule_independent.
