(** T_Train.v: what training learns (C53, C56), over the reals *)
From Coq Require Import Reals Lra Lia.
From Verif Require Import Base Dict Num NumLaws Env M_Common M_Qrels M_Run M_History M_Metrics M_Strings M_Evaluate M_Norm M_Fusion M_Train
  Spec_DS Spec_Hist Spec_Strings Spec_Metrics Spec_MetricsAPI Spec_Eval Spec_Norm Spec_Fusion Spec_Train
  P_Base P_Dict P_Common P_DS P_Metrics T_Metrics2 P_Eval P_Eval3 T_Evaluate P_Train P_Train2 P_Train3 EnvEx.
Open Scope string_scope.
Open Scope list_scope.
Open Scope nat_scope.

(** ** C53: PosFuse and SlideFuse learn the relative frequency of relevant results per position *)
Theorem C53_posfuse_train : forall (E : env NumR), env_ok E -> forall y xs, trainable E y xs ->
  trained y xs (posfuse_train E y xs) (position_probs (q_map y)).
Proof.
  intros E HE y xs Ht. apply (hits_trained E HE (@_estimate_probs NumR) y xs); [exact Ht|].
  intros rk. apply position_probs_ok. apply Ht.
Qed.
Theorem C53_slidefuse_train : forall (E : env NumR), env_ok E -> forall y xs, trainable E y xs ->
  trained y xs (slidefuse_train E y xs) (position_probs (q_map y)).
Proof. exact C53_posfuse_train. Qed.

Lemma trained_map {A B} y xs y' xs' (r : result (list A)) (g : A -> result B) (G : list A -> result (list B)) P Q :
  trained y xs (y', xs', r) P ->
  (forall rk h, P rk h -> exists p, g h = Ok p /\ Q rk p) ->
  (forall l ps, Forall2 (fun h p => g h = Ok p) l ps -> G l = Ok ps) ->
  trained y xs (y', xs', do l <- r; G l) Q.
Proof.
  intros (y1 & xs1 & l & H1 & H2 & H3 & H4) Hg HG. inversion H1; subst.
  assert (Hex : exists ps, Forall2 (fun h p => g h = Ok p) l ps /\
     Forall2 (fun x p => exists rk, (forall q, has_query x q -> ranks (results_of x q) (rk q)) /\ Q rk p) xs ps).
  { clear - H4 Hg. induction H4 as [|x h xs l (rk & R1 & R2) _ (ps & I1 & I2)].
    - exists []. split; constructor.
    - destruct (Hg rk h R2) as (p & Hp & HQ). exists (p :: ps). split; constructor; eauto. }
  destruct Hex as (ps & E1 & E2). exists y1, xs1, ps. cbn [bindr]. rewrite (HG l ps E1). auto.
Qed.
Lemma map_m_F2 {A B} (g : A -> result B) l ps : Forall2 (fun h p => g h = Ok p) l ps -> map_m g l = Ok ps.
Proof. induction 1 as [|h p l ps H _ IH]; cbn; [reflexivity|]. now rewrite H, IH. Qed.
Lemma prange_F2 {A B} order (init : B) (g : A -> result B) l ps : Permutation order (seq 0 (length l)) ->
  Forall2 (fun h p => g h = Ok p) l ps -> prange_r order (length l) init (fun i => do h <- nth_r l i; g h) = Ok ps.
Proof.
  intros Hp H. assert (Hlen : length l = length ps) by (clear - H; induction H; cbn; congruence).
  rewrite (prange_r_ok order (length l) init _ (fun i => nth i ps init) Hp).
  - f_equal. rewrite Hlen. apply map_nth_seq.
  - intros i Hi. unfold nth_r. destruct (nth_error l i) as [h|] eqn:Hh; [|apply nth_error_None in Hh; lia]. cbn [bindr].
    clear Hp Hlen Hi. revert i h Hh. induction H as [|h0 p0 l ps H0 _ IH]; intros [|i] h Hh; try discriminate.
    + cbn in *. congruence.
    + cbn in *. now apply IH.
Qed.

(** ** C53: ProbFuse learns, for each of the n segments of the rankings, the mean precision of the segment *)
Theorem C53_probfuse_train : forall (E : env NumR), env_ok E -> forall y xs n_segments, trainable E y xs -> (0 < n_segments)%Z ->
  trained y xs (probfuse_train E y xs n_segments) (fun rk p => segment_probs (q_map y) rk (Z.to_nat n_segments) p).
Proof.
  intros E HE y xs n Ht Hn. unfold probfuse_train.
  pose proof (all_hits_trained E HE y xs Ht) as Ha. destruct (all_hits E y xs) as [[y' xs'] r].
  destruct (Z.ltb_spec n 0); [lia|].
  apply (trained_map y xs y' xs' r (@probfuse_segments NumR n)
    (fun l => prange_r (e_sched E "probfuse_train" (length l)) (length l) (repeat fzero (Z.to_nat n)) (fun i => do h <- nth_r l i; probfuse_segments n h))
    _ _ Ha).
  - intros rk h ->. destruct (segment_probs_ok (q_map y) rk (Z.to_nat n)) as (p & H1 & H2); [lia|].
    rewrite Z2Nat.id in H1 by lia. eauto.
  - intros l ps Hl. apply prange_F2; [apply (sched_perm _ HE)|exact Hl].
Qed.
(** ** C53: SegFuse learns the mean number of relevant results of its segments per position *)
Theorem C53_segfuse_train : forall (E : env NumR), env_ok E -> forall y xs, trainable E y xs ->
  trained y xs (segfuse_train E y xs) (seg_probs (q_map y)).
Proof.
  intros E HE y xs Ht. unfold segfuse_train.
  pose proof (all_hits_trained E HE y xs Ht) as Ha. destruct (all_hits E y xs) as [[y' xs'] r].
  apply (trained_map y xs y' xs' r (@segfuse_segments NumR) (map_m (@segfuse_segments NumR)) _ _ Ha).
  - intros rk h ->. apply seg_probs_ok.
  - intros l ps Hl. now apply map_m_F2.
Qed.
(** ** C56: BayesFuse learns log-odds per rank interval *)
Theorem C56_bayesfuse_train : forall (E : env NumR), env_ok E -> forall y xs, trainable E y xs ->
  trained y xs (bayesfuse_train E y xs) (bayes_odds (q_map y)).
Proof.
  intros E HE y xs Ht. apply (hits_trained E HE (@_estimate_log_odds NumR bayes_cut_offs) y xs); [exact Ht|].
  intros rk. apply log_odds_ok.
Qed.
(** ** C56: MAPFuse learns the mean average precision of each run *)
Theorem C56_mapfuse_train : forall (E : env NumR), env_ok E -> forall y xs, trainable E y xs ->
  trained y xs (mapfuse_train E y xs)
    (fun rk v => v = mean_over (q_map y) (fun q => S_map (of_query (q_map y) q) 1 (rk q) 0)).
Proof.
  intros E HE y xs Ht. destruct (trainable_ok E HE y xs Ht) as [Hy Hxs]. unfold mapfuse_train.
  apply train_each_trained with (E := E); auto.
  intros y1 x H1 Hp (X1 & X2 & X3).
  assert (Hden : denotes "map" "map" (@KInt NumR 0) 1) by (repeat split; try lia; cbn; tauto).
  assert (Hmet : metrics_ok ["map"] (q_map y1)).
  { intros s [<-|[]]. exists "map", (@KInt NumR 0), 1%Z. split; [exact Hden|]. intros q _ H. discriminate. }
  destruct (evaluate_objects E HE y1 x ["map"] true false true false H1 X1 (fun _ => X2) X3 Hmet)
    as (ranking & scores & y' & x' & E1 & E2 & E3 & E4 & (E5 & E6 & E7) & E8 & E9 & E10 & E11 & E12 & E13).
  set (out := evaluate E (QObj y1) (RObj x) ["map"] true false true false) in *.
  destruct E12 as (name & k & lvl & _ & Hres). cbn [orb] in Hres.
  exists y', x', (mean_of (scores "map")), ranking.
  split; [rewrite E1, E2, Hres; reflexivity|].
  split; [subst y'; now apply typed_inv|].
  split; [subst y'; destruct (qrels_typed E HE y1 H1) as (_ & _ & _ & _ & _ & Q6 & _); exact Q6|].
  split; [exact E7|]. split.
  { intros q d. destruct (run_typed E HE x X1) as (_ & _ & _ & _ & _ & _ & _ & _ & R9 & _).
    etransitivity; [exact (f_equal (fun m => @dget2 R m q d) E5)|]. exact (perm_of_dget2 (r_map x) _ (proj1 X1) R9 q d). }
  split.
  { intros q Hq. apply E10. eapply Permutation_in; [apply str_sort_perm|]. now apply X2. }
  specialize (E11 "map" "map" (@KInt NumR 0) 1%Z (or_introl eq_refl) Hden).
  assert (Hs : scores "map" = map (fun q => S_map (of_query (q_map y) q) 1 (ranking q) 0) (str_sort (dkeys (q_map y1)))).
  { clear - E11 Hy H1 Hp. induction E11 as [|q v qs vs Hv _ IH]; cbn [map]; [reflexivity|]. f_equal; [|exact IH].
    assert (Hv' : metric_value "map" (of_query (q_map y) q) 1 (ranking q) (@KInt NumR 0) v).
    { eapply metric_value_perm; [| |exact Hv]; [apply of_query_ok, H1|]. apply Permutation_sym, of_query_perm. exact Hp. }
    inversion Hv'; reflexivity. }
  rewrite Hs. unfold mean_over, mean_of. rewrite !map_length.
  assert (Hpk : Permutation (str_sort (dkeys (q_map y1))) (dkeys (q_map y))).
  { rewrite (str_sort_set_eq (dkeys (q_map y1)) (dkeys (q_map y))); [apply Permutation_sym, str_sort_perm|apply H1|apply Hy|intros q; symmetry; now apply perm_of_keys]. }
  f_equal; [apply Rsum_perm; now apply Permutation_map|]. f_equal. now apply Permutation_length.
Qed.
