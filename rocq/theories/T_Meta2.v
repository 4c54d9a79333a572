(** T_Meta2.v: what unjudged and non-relevant documents can change (C86); metrics with a cut-off look at the best
    results only (C87). *)
From Coq Require Import Reals Lra.
From Verif Require Import Base Dict Num NumLaws Env EnvEx M_Common M_Qrels M_Run M_History M_Metrics M_Evaluate
  Spec_DS Spec_Hist Spec_Strings Spec_Metrics Spec_MetricsAPI Spec_Eval Spec_Closure Spec_Meta
  P_Base P_Dict P_Common P_History P_DS P_Metrics P_Metrics4 P_Metrics6 P_Metrics7 P_Strings T_DS T_Metrics T_Parse
  P_Eval P_Eval2 P_Eval3 P_Eval4 P_Eval5 T_Evaluate T_Evaluate2 T_Evaluate3 T_Closure T_Meta.
Open Scope string_scope.
Open Scope list_scope.
Open Scope nat_scope.

(** ** two evaluations, compared query by query *)
Lemma same_evaluations E y x y' x' metrics mean std save : env_ok E -> evaluable E y x metrics -> evaluable E y' x' metrics ->
  same_queries (q_map y) (q_map y') ->
  (forall q ds ds' s name k l v v', In q (dkeys (q_map y)) -> In s metrics -> denotes s name k l ->
     ranks (of_query (r_map x) q) ds -> ranks (of_query (r_map x') q) ds' -> (x' = x -> ds' = ds) ->
     metric_value name (of_query (q_map y) q) l ds k v -> metric_value name (of_query (q_map y') q) l ds' k v' -> v = v') ->
  same_result (ev_res (@evaluate NumR E (QObj y) (RObj x) metrics mean std save false))
              (ev_res (@evaluate NumR E (QObj y') (RObj x') metrics mean std save false)).
Proof.
  intros HE (Hy & Hx & Hne & Hsq & Hids & Hmet) (Hy' & Hx' & Hne' & Hsq' & Hids' & Hmet') Hqs Hval.
  assert (Iy := obtained_qrels_inv E HE y Hy). assert (Iy' := obtained_qrels_inv E HE y' Hy').
  assert (Ix := obtained_inv E HE x Hx). assert (Ix' := obtained_inv E HE x' Hx').
  destruct (evaluate_objects E HE y x metrics mean std save false Iy Ix (fun _ => Hsq) Hids Hmet)
    as (rk1 & sc1 & y1 & x1 & _ & _ & _ & A4 & A5 & _ & _ & A10 & A11 & A12 & _).
  destruct (evaluate_objects E HE y' x' metrics mean std save false Iy' Ix' (fun _ => Hsq') Hids' Hmet')
    as (rk2 & sc2 & y2 & x2 & _ & _ & _ & B4 & B5 & _ & _ & B10 & B11 & B12 & _).
  assert (Hk : str_sort (dkeys (q_map y')) = str_sort (dkeys (q_map y))).
  { apply str_sort_set_eq; [apply Iy'|apply Iy|]. intros q. symmetry. apply Hqs. }
  rewrite Hk in B11, B10. set (qs := str_sort (dkeys (q_map y))) in *.
  assert (Hin : forall q, In q qs -> In q (dkeys (q_map y))) by (intros q; apply Permutation_in, Permutation_sym, str_sort_perm).
  assert (Hrk : forall q, x' = x -> rk2 q = rk1 q).
  { intros q ->. rewrite A4, B4. destruct A5 as [A5 _], B5 as [B5 _]. cbv zeta in A5, B5. rewrite A5, B5. reflexivity. }
  assert (Hsc : forall s, In s metrics -> sc1 s = sc2 s).
  { intros s Hs. destruct (Hmet s Hs) as (name & k & lvl & Hden & _).
    assert (F1 := A11 s name k lvl Hs Hden). assert (F2 := B11 s name k lvl Hs Hden).
    clear - F1 F2 Hrk Hin Hs Hden A10 B10 Hval. revert F1 F2. generalize (sc1 s) as l1, (sc2 s) as l2.
    induction qs as [|q l IH]; intros l1 l2 F1 F2.
    - inversion F1; inversion F2; congruence.
    - inversion F1 as [|? v1 ? t1 V1 T1]; inversion F2 as [|? v2 ? t2 V2 T2]; subst. f_equal.
      + apply (Hval q (rk1 q) (rk2 q) s name k lvl); auto; [apply Hin|apply A10|apply B10]; now left.
      + apply IH; auto; intros; [apply A10|apply B10|apply Hin]; now right. }
  unfold eval_result in A12, B12. destruct metrics as [|s [|s2 ms]].
  - destruct A12 as (d1 & -> & A13), B12 as (d2 & -> & B13). cbn. intros s. destruct (A13 s), (B13 s). rewrite H0, H2; auto.
  - destruct A12 as (n1 & k1 & l1 & E1 & ->), B12 as (n2 & k2 & l2 & E2 & ->).
    assert (Heq : Ok (n1, k1, l1) = Ok (n2, k2, l2)) by (rewrite <- E1; exact E2). injection Heq as <- <- <-.
    rewrite (Hsc s (or_introl eq_refl)). destruct (mean || save || String.eqb n1 s); reflexivity.
  - destruct A12 as (d1 & -> & A13), B12 as (d2 & -> & B13). cbn. intros a. destruct (A13 a) as [A1 A2], (B13 a) as [B1 B2].
    destruct (in_dec string_dec a (s :: s2 :: ms)) as [Hi|Hi].
    + rewrite A1, B1, Hsc by assumption. reflexivity.
    + rewrite A2, B2 by assumption. reflexivity.
Qed.

Lemma of_query_ok E y q : env_ok E -> obtained_qrels E y -> dict_ok (of_query (q_map y) q).
Proof.
  intros HE Hy. unfold of_query. destruct (dget (q_map y) q) as [r|] eqn:Hget; [|constructor].
  exact (proj2 (proj1 (obtained_qrels_inv E HE y Hy)) q r Hget).
Qed.

(** ** judgments below the level *)
Section Below.
Context (l : Z) (j j' : dict Z) (Hj : dict_ok j) (Hj' : dict_ok j') (Hs : same_relevant l j j').

Lemma sr_relevant d : relevant j' l d = relevant j l d.
Proof.
  unfold relevant. destruct (dget j d) as [v|] eqn:H1, (dget j' d) as [v'|] eqn:H2; auto.
  - destruct (Z.leb_spec l v) as [A|A].
    + apply (Hs d v A) in H1. rewrite H1 in H2. injection H2 as <-. now apply Z.leb_le.
    + destruct (Z.leb_spec l v') as [B|B]; auto. apply (Hs d v' B) in H2. rewrite H1 in H2. injection H2 as ->. lia.
  - destruct (Z.leb_spec l v) as [A|A]; auto. apply (Hs d v A) in H1. congruence.
  - destruct (Z.leb_spec l v') as [B|B]; auto. apply (Hs d v' B) in H2. congruence.
Qed.
Lemma sr_gain d : gain j' l d = gain j l d.
Proof.
  unfold gain. destruct (dget j d) as [v|] eqn:H1, (dget j' d) as [v'|] eqn:H2; auto.
  - destruct (Z.leb_spec l v) as [A|A].
    + apply (Hs d v A) in H1. rewrite H1 in H2. injection H2 as <-. destruct (Z.leb_spec l v); [reflexivity|lia].
    + destruct (Z.leb_spec l v') as [B|B]; auto. apply (Hs d v' B) in H2. rewrite H1 in H2. injection H2 as ->. lia.
  - destruct (Z.leb_spec l v) as [A|A]; auto. apply (Hs d v A) in H1. congruence.
  - destruct (Z.leb_spec l v') as [B|B]; auto. apply (Hs d v' B) in H2. congruence.
Qed.
Lemma count_filter {A} (p : A -> bool) m : count p m = length (filter p m).
Proof. induction m as [|a m IH]; cbn; auto. destruct (p a); cbn; lia. Qed.
Lemma nodup_pairs {V} (m : dict V) : dict_ok m -> NoDup m.
Proof. apply NoDup_map_inv. Qed.
Lemma nodup_filter {A} (p : A -> bool) m : NoDup m -> NoDup (filter p m).
Proof. apply NoDup_filter. Qed.
Lemma sr_nrel : n_relevant j' l = n_relevant j l.
Proof.
  unfold n_relevant. rewrite !count_filter. apply Permutation_length, NoDup_Permutation;
    [apply nodup_filter, nodup_pairs, Hj'|apply nodup_filter, nodup_pairs, Hj|].
  intros [d v]. rewrite !filter_In. cbn [snd]. split; intros [H1 H2]; split; auto; apply Z.leb_le in H2.
  - apply dget_Some_in. apply (Hs d v H2). apply (in_dget j'); auto.
  - apply dget_Some_in. apply (Hs d v H2). apply (in_dget j); auto.
Qed.
Lemma sr_hits ds k : S_hits j' l ds k = S_hits j l ds k.
Proof. unfold S_hits. apply count_ext. intros d. apply sr_relevant. Qed.
Lemma sr_prec ds k : S_precision j' l ds k = S_precision j l ds k.
Proof. unfold S_precision. now rewrite sr_hits. Qed.
Lemma sr_rec ds k : S_recall j' l ds k = S_recall j l ds k.
Proof. unfold S_recall. now rewrite sr_nrel, sr_hits. Qed.
Lemma sr_dcg (h h' : string -> R) ds k : (forall d, h' d = h d) -> S_dcg_with ds h' k = S_dcg_with ds h k.
Proof. intros H. unfold S_dcg_with. apply Rsum_n_ext_lt. intros i _. now rewrite H. Qed.
Lemma sr_ndcg (h h' : string -> R) ds k v : (forall d, h' d = h d) -> is_ndcg h ds k v -> is_ndcg h' ds k v.
Proof.
  intros H (m & [(r & Hn & Hr) Hmax] & ->). exists m. split; [split|].
  - exists r. split; [exact Hn|]. now rewrite (sr_dcg h h').
  - intros r' Hn'. rewrite (sr_dcg h h') by exact H. now apply Hmax.
  - now rewrite (sr_dcg h h').
Qed.
Lemma first_pos_ext (p p' : string -> bool) ds : (forall d, p' d = p d) -> first_pos p' ds = first_pos p ds.
Proof. intros H. induction ds as [|d ds IH]; cbn; auto. now rewrite H, IH. Qed.
Lemma existsb_ext (p p' : string -> bool) ds : (forall d, p' d = p d) -> existsb p' ds = existsb p ds.
Proof. intros H. induction ds as [|d ds IH]; cbn; auto. now rewrite H, IH. Qed.
Lemma sr_map ds k : S_map j' l ds k = S_map j l ds k.
Proof.
  unfold S_map. rewrite sr_nrel. destruct (n_relevant j l); auto. f_equal. apply Rsum_n_ext_lt. intros i _.
  rewrite sr_relevant. destruct (relevant j l (nth i ds "")); auto. unfold precision_at.
  now rewrite (count_ext _ (relevant j l) _ sr_relevant).
Qed.
End Below.
Lemma below_value name j j' l ds k v : dict_ok j -> dict_ok j' -> same_relevant l j j' -> name <> "bpref" ->
  metric_value name j l ds k v -> metric_value name j' l ds k v.
Proof.
  intros Hj Hj' Hs Hn Hv. destruct Hv.
  - rewrite <- (sr_hits l j j' Hs). constructor.
  - replace (S_hit_rate j l ds (Z.to_nat k)) with (S_hit_rate j' l ds (Z.to_nat k)); [constructor|].
    unfold S_hit_rate. now rewrite (existsb_ext (relevant j l) (relevant j' l) _ (sr_relevant l j j' Hs)).
  - rewrite <- (sr_prec l j j' Hs). constructor.
  - rewrite <- (sr_rec l j j' Hj Hj' Hs). constructor.
  - replace (S_f1 j l ds (Z.to_nat k)) with (S_f1 j' l ds (Z.to_nat k)); [constructor|].
    unfold S_f1. now rewrite (sr_prec l j j' Hs), (sr_rec l j j' Hj Hj' Hs).
  - replace (S_r_precision j l ds) with (S_r_precision j' l ds); [constructor|].
    unfold S_r_precision. rewrite (sr_nrel l j j' Hj Hj' Hs). destruct (n_relevant j l); auto. apply (sr_prec l j j' Hs).
  - replace (S_mrr j l ds (Z.to_nat k)) with (S_mrr j' l ds (Z.to_nat k)); [constructor|].
    unfold S_mrr. now rewrite (first_pos_ext (relevant j l) (relevant j' l) _ (sr_relevant l j j' Hs)).
  - rewrite <- (sr_map l j j' Hj Hj' Hs). constructor.
  - replace (S_dcg j l ds (Z.to_nat k)) with (S_dcg j' l ds (Z.to_nat k)); [constructor|].
    apply sr_dcg, (sr_gain l j j' Hs).
  - replace (S_dcg_burges j l ds (Z.to_nat k)) with (S_dcg_burges j' l ds (Z.to_nat k)); [constructor|].
    apply sr_dcg. intros d. unfold burges_gain. now rewrite (sr_gain l j j' Hs).
  - constructor. eapply sr_ndcg; [|eassumption]. apply (sr_gain l j j' Hs).
  - constructor. eapply sr_ndcg; [|eassumption]. intros d. unfold burges_gain. now rewrite (sr_gain l j j' Hs).
  - contradiction.
  - replace (S_rbp j l ds p) with (S_rbp j' l ds p); [constructor|].
    unfold S_rbp. f_equal. apply Rsum_n_ext_lt. intros i _. now rewrite (sr_gain l j j' Hs).
Qed.

Theorem C86_nonrelevant_judgments : forall (E : env NumR), env_ok E ->
  forall y y' x metrics mean std save,
  evaluable E y x metrics -> evaluable E y' x metrics ->
  (forall s name k l, In s metrics -> denotes s name k l -> name <> "bpref" /\
     forall q, In q (dkeys (q_map y)) -> same_relevant l (of_query (q_map y) q) (of_query (q_map y') q)) ->
  same_result (ev_res (@evaluate NumR E (QObj y) (RObj x) metrics mean std save false))
              (ev_res (@evaluate NumR E (QObj y') (RObj x) metrics mean std save false)).
Proof.
  intros E HE y y' x metrics mean std save He He' Hall. apply same_evaluations; auto.
  - intros q. destruct He as (_ & _ & _ & H & _), He' as (_ & _ & _ & H' & _). etransitivity; [apply H|symmetry; apply H'].
  - intros q ds ds' s name k l v v' Hq Hs Hd _ _ Hds V V'. rewrite (Hds eq_refl) in V'.
    destruct (Hall s name k l Hs Hd) as [Hn Hr].
    apply (below_value name _ (of_query (q_map y') q)) in V; auto.
    + exact (metric_value_unique _ _ _ _ _ _ _ V V').
    + exact (of_query_ok E y q HE (proj1 He)).
    + exact (of_query_ok E y' q HE (proj1 He')).
Qed.
Print Assumptions C86_nonrelevant_judgments.

(** ** bpref and unjudged documents *)
Fixpoint bp (j : dict Z) (l : Z) (n : nat) (m : R) (c : nat) (ds : list string) : R :=
  match ds with
  | [] => 0%R
  | d :: ds' => ((if relevant j l d then 1 - INR (Nat.min c n) / m else 0) +
                 bp j l n m ((if judged j d && negb (relevant j l d) then 1 else 0) + c) ds')%R
  end.
Lemma bp_sum j l n m ds : forall c,
  Rsum_n (length ds) (fun i => if relevant j l (nth i ds "") then (1 - INR (Nat.min (c + nonrel_above j l ds i) n) / m)%R else 0%R) = bp j l n m c ds.
Proof.
  induction ds as [|d ds IH]; intros c; cbn [bp length]; [reflexivity|].
  unfold Rsum_n. cbn [seq map Rsum nth]. unfold nonrel_above at 1. cbn [firstn count]. rewrite Nat.add_0_r.
  replace (if relevant j l d then (1 - INR (Nat.min c n) / m)%R else 0%R) with (if relevant j l d then (1 - INR (Nat.min c n) / m)%R else 0%R) by reflexivity.
  f_equal. rewrite <- IH. unfold Rsum_n. f_equal. rewrite <- seq_shift, map_map. apply map_ext. intros i. cbn [nth].
  destruct (relevant j l (nth i ds "")); auto. do 4 f_equal. unfold nonrel_above. cbn [firstn count].
  destruct (judged j d && negb (relevant j l d)); lia.
Qed.
Lemma bp_filter j l n m ds : forall c, bp j l n m c (filter (judged j) ds) = bp j l n m c ds.
Proof.
  induction ds as [|d ds IH]; intros c; cbn [filter bp]; auto. destruct (judged j d) eqn:Hjd.
  - cbn [bp]. rewrite Hjd, IH. reflexivity.
  - assert (Hr : relevant j l d = false) by (unfold judged in Hjd; unfold relevant; now destruct (dget j d)).
    rewrite Hr, IH. cbn. lra.
Qed.
Lemma bpref_judged j l ds : S_bpref j l (filter (judged j) ds) = S_bpref j l ds.
Proof.
  unfold S_bpref. f_equal.
  rewrite (Rsum_n_ext_lt _ _ (fun i => if relevant j l (nth i (filter (judged j) ds) "") then (1 - INR (Nat.min (0 + nonrel_above j l (filter (judged j) ds) i) (n_relevant j l)) / INR (Nat.min (n_relevant j l) (n_judged_nonrelevant j l)))%R else 0%R)) by reflexivity.
  rewrite bp_sum, bp_filter, <- bp_sum. reflexivity.
Qed.
Lemma filter_map_comm {A B} (f : A -> B) (p : B -> bool) m : filter p (map f m) = map f (filter (fun a => p (f a)) m).
Proof. induction m as [|a m IH]; cbn; auto. destruct (p (f a)); cbn; now rewrite IH. Qed.
Lemma filter_perm {A} (p : A -> bool) m m' : Permutation m m' -> Permutation (filter p m) (filter p m').
Proof.
  induction 1 as [|a m m' H IH|a b m|m1 m2 m3 H1 IH1 H2 IH2]; cbn; auto.
  - destruct (p a); auto.
  - destruct (p a), (p b); auto. apply perm_swap.
  - etransitivity; eauto.
Qed.
Lemma sorted_filter {A} (P : A -> A -> Prop) (p : A -> bool) m : StronglySorted P m -> StronglySorted P (filter p m).
Proof.
  induction 1 as [|a m H IH Hf]; cbn; [constructor|]. destruct (p a); auto. constructor; auto.
  rewrite Forall_forall in *. intros b Hb. apply filter_In in Hb as [Hb _]. now apply Hf.
Qed.
Lemma judged_mem j d : dmem j d = judged j d.
Proof. reflexivity. Qed.
Lemma ranks_judged j r r' ds : only_judged j r r' -> ranks r ds -> ranks r' (filter (judged j) ds).
Proof.
  intros Hp (rk & P1 & S1 & ->). exists (filter (fun dv => dmem j (fst dv)) rk). split; [|split].
  - etransitivity; [exact Hp|]. now apply filter_perm.
  - now apply sorted_filter.
  - unfold dkeys. rewrite filter_map_comm. reflexivity.
Qed.
Lemma tie_free_filter p (r r' : dict R) : Permutation r' (filter p r) -> tie_free r -> tie_free r'.
Proof.
  intros Hp Hn. unfold tie_free, dvals in *. eapply Permutation_NoDup; [apply Permutation_map, Permutation_sym, Hp|].
  clear Hp. induction r as [|a r IH]; cbn; [constructor|]. cbn in Hn. inversion Hn as [|? ? Hx Hn']; subst. destruct (p a); auto.
  cbn. constructor; auto. intros Hin. apply Hx. apply in_map_iff in Hin as (b & Hb & Hin). apply filter_In in Hin as [Hin _].
  rewrite <- Hb. now apply in_map.
Qed.

Theorem C86_bpref_ignores_unjudged : forall (E : env NumR), env_ok E ->
  forall y x x' metrics mean std save,
  evaluable E y x metrics -> evaluable E y x' metrics ->
  (forall s name k l, In s metrics -> denotes s name k l -> name = "bpref") ->
  (forall q, In q (dkeys (q_map y)) -> tie_free (of_query (r_map x) q) /\
     only_judged (of_query (q_map y) q) (of_query (r_map x) q) (of_query (r_map x') q)) ->
  same_result (ev_res (@evaluate NumR E (QObj y) (RObj x) metrics mean std save false))
              (ev_res (@evaluate NumR E (QObj y) (RObj x') metrics mean std save false)).
Proof.
  intros E HE y x x' metrics mean std save He He' Hb Hall. apply same_evaluations; auto.
  - intros q. reflexivity.
  - intros q ds ds' s name k l v v' Hq Hs Hd R1 R2 _ V V'. rewrite (Hb s name k l Hs Hd) in V, V'.
    destruct (Hall q Hq) as [Ht Ho].
    assert (Hds : ds' = filter (judged (of_query (q_map y) q)) ds).
    { apply (ranks_unique (of_query (r_map x') q)); [exact (tie_free_filter _ _ _ Ho Ht)|exact R2|exact (ranks_judged _ _ _ _ Ho R1)]. }
    rewrite Hds in V'. inversion V; subst. inversion V'; subst. symmetry. apply bpref_judged.
Qed.
Print Assumptions C86_bpref_ignores_unjudged.

(** ** C87 *)
Lemma ranks_best n r r' ds : best_results n r r' -> tie_free r -> ranks r ds -> ranks r' (firstn n ds).
Proof.
  intros (rk & P1 & S1 & P2) Ht R1.
  assert (ds = dkeys rk) as -> by (apply (ranks_unique r); [exact Ht|exact R1|exists rk; auto]).
  exists (firstn n rk). split; [exact P2|]. split; [|unfold dkeys; now rewrite firstn_map].
  clear - S1. revert n. induction S1 as [|a m H IH Hf]; intros [|n]; cbn; try constructor; auto.
  rewrite Forall_forall in *. intros b Hb. apply Hf. rewrite <- (firstn_skipn n m). apply in_or_app. now left.
Qed.
Lemma tie_free_best n r r' : best_results n r r' -> tie_free r -> tie_free r'.
Proof.
  intros (rk & P1 & _ & P2) Ht. unfold tie_free, dvals in *. eapply Permutation_NoDup; [apply Permutation_map, Permutation_sym, P2|].
  assert (H : NoDup (map snd rk)) by (eapply Permutation_NoDup; [apply Permutation_map, P1|exact Ht]).
  rewrite <- firstn_map. rewrite <- (firstn_skipn n (map snd rk)) in H. clear - H. induction (firstn n (map snd rk)) as [|a m IH]; constructor.
  - inversion H; subst. intros Hin. apply H2. apply in_or_app. now left.
  - apply IH. now inversion H.
Qed.
Lemma top_firstn n ds k : 0 < k -> k <= n -> top (firstn n ds) k = top ds k.
Proof. intros H1 H2. unfold top. destruct k; [lia|]. rewrite firstn_firstn. f_equal. lia. Qed.
Lemma hits_firstn j l n ds k : 0 < k -> k <= n -> S_hits j l (firstn n ds) k = S_hits j l ds k.
Proof. intros. unfold S_hits. now rewrite top_firstn. Qed.
Lemma depth_pos (ds : list string) k : 0 < k -> depth ds k = k.
Proof. destruct k; [lia|reflexivity]. Qed.
Lemma prec_firstn j l n ds k : 0 < k -> k <= n -> S_precision j l (firstn n ds) k = S_precision j l ds k.
Proof. intros. unfold S_precision. now rewrite !depth_pos, hits_firstn. Qed.
Lemma rec_firstn j l n ds k : 0 < k -> k <= n -> S_recall j l (firstn n ds) k = S_recall j l ds k.
Proof. intros. unfold S_recall. now rewrite hits_firstn. Qed.
Lemma nth_firstn {A} n i (m : list A) d : i < n -> nth i (firstn n m) d = nth i m d.
Proof. revert i m. induction n; intros i [|a m] H; try lia; destruct i; cbn; auto. apply IHn. lia. Qed.
Lemma top_len ds k : 0 < k -> length (top ds k) <= k.
Proof. intros H. unfold top. destruct k; [lia|]. rewrite firstn_length. lia. Qed.
Lemma dcg_firstn h n ds k : 0 < k -> k <= n -> S_dcg_with (firstn n ds) h k = S_dcg_with ds h k.
Proof.
  intros H1 H2. unfold S_dcg_with. rewrite top_firstn by assumption. apply Rsum_n_ext_lt. intros i Hi.
  assert (Hl := top_len ds k H1). rewrite nth_firstn by lia. reflexivity.
Qed.
Lemma ndcg_firstn h n ds k v : 0 < k -> k <= n -> is_ndcg h ds k v -> is_ndcg h (firstn n ds) k v.
Proof. intros H1 H2 (m & Hm & ->). exists m. split; [exact Hm|]. now rewrite dcg_firstn. Qed.
Lemma map_firstn_cut j l n ds k : 0 < k -> k <= n -> S_map j l (firstn n ds) k = S_map j l ds k.
Proof.
  intros H1 H2. unfold S_map. destruct (n_relevant j l); auto. f_equal. rewrite top_firstn by assumption.
  apply Rsum_n_ext_lt. intros i Hi. assert (Hl := top_len ds k H1). rewrite nth_firstn by lia.
  destruct (relevant j l (nth i ds "")); auto. unfold precision_at. rewrite firstn_firstn. do 3 f_equal. f_equal. lia.
Qed.
Lemma cut_value name j l n ds k v : In name truncated_metrics -> (0 < k <= Z.of_nat n)%Z ->
  metric_value name j l ds (KInt k) v -> metric_value name j l (firstn n ds) (KInt k) v.
Proof.
  intros Hn Hk Hv. assert (K1 : 0 < Z.to_nat k) by lia. assert (K2 : Z.to_nat k <= n) by lia.
  inversion Hv; subst; try (exfalso; cbn in Hn; repeat (destruct Hn as [Hn|Hn]; [discriminate|]); exact Hn).
  - rewrite <- (hits_firstn j l n ds) by assumption. constructor.
  - replace (S_hit_rate j l ds (Z.to_nat k)) with (S_hit_rate j l (firstn n ds) (Z.to_nat k)); [constructor|].
    unfold S_hit_rate. now rewrite top_firstn.
  - rewrite <- (prec_firstn j l n ds) by assumption. constructor.
  - rewrite <- (rec_firstn j l n ds) by assumption. constructor.
  - replace (S_f1 j l ds (Z.to_nat k)) with (S_f1 j l (firstn n ds) (Z.to_nat k)); [constructor|].
    unfold S_f1. now rewrite prec_firstn, rec_firstn.
  - replace (S_mrr j l ds (Z.to_nat k)) with (S_mrr j l (firstn n ds) (Z.to_nat k)); [constructor|].
    unfold S_mrr. now rewrite top_firstn.
  - rewrite <- (map_firstn_cut j l n ds) by assumption. constructor.
  - replace (S_dcg j l ds (Z.to_nat k)) with (S_dcg j l (firstn n ds) (Z.to_nat k)); [constructor|]. now apply dcg_firstn.
  - replace (S_dcg_burges j l ds (Z.to_nat k)) with (S_dcg_burges j l (firstn n ds) (Z.to_nat k)); [constructor|]. now apply dcg_firstn.
  - constructor. now apply ndcg_firstn.
  - constructor. now apply ndcg_firstn.
Qed.

Theorem C87_best_results_suffice : forall (E : env NumR), env_ok E ->
  forall y x x' metrics mean std save n,
  evaluable E y x metrics -> evaluable E y x' metrics ->
  (forall s name k l, In s metrics -> denotes s name k l ->
     In name truncated_metrics /\ exists c, k = KInt c /\ (0 < c <= Z.of_nat n)%Z) ->
  (forall q, In q (dkeys (q_map y)) -> tie_free (of_query (r_map x) q) /\
     best_results n (of_query (r_map x) q) (of_query (r_map x') q)) ->
  same_result (ev_res (@evaluate NumR E (QObj y) (RObj x) metrics mean std save false))
              (ev_res (@evaluate NumR E (QObj y) (RObj x') metrics mean std save false)).
Proof.
  intros E HE y x x' metrics mean std save n He He' Hm Hall. apply same_evaluations; auto.
  - intros q. reflexivity.
  - intros q ds ds' s name k l v v' Hq Hs Hd R1 R2 _ V V'. destruct (Hm s name k l Hs Hd) as [Hn (c & -> & Hc)].
    destruct (Hall q Hq) as [Ht Ho].
    assert (Hds : ds' = firstn n ds).
    { apply (ranks_unique (of_query (r_map x') q)); [exact (tie_free_best _ _ _ Ho Ht)|exact R2|exact (ranks_best n _ _ _ Ho Ht R1)]. }
    rewrite Hds in V'. apply (cut_value name _ l n) in V; auto. exact (metric_value_unique _ _ _ _ _ _ _ V V').
Qed.
Print Assumptions C87_best_results_suffice.
