(** T_Meta.v: scores of a query depend on nothing but its judgments and its ranking (C85); what unjudged and
    non-relevant documents can and cannot change (C86). *)
From Coq Require Import Reals Lra.
From Verif Require Import Base Dict Num NumLaws Env EnvEx M_Common M_Qrels M_Run M_History M_Metrics M_Evaluate
  Spec_DS Spec_Hist Spec_Strings Spec_Metrics Spec_MetricsAPI Spec_Eval Spec_Closure Spec_Meta
  P_Base P_Dict P_Common P_History P_DS P_Metrics P_Metrics4 P_Metrics6 P_Metrics7 P_Strings T_DS T_Metrics T_Parse
  P_Eval P_Eval2 P_Eval3 P_Eval4 P_Eval5 T_Evaluate T_Evaluate2 T_Evaluate3 T_Closure.
Open Scope string_scope.
Open Scope list_scope.
Open Scope nat_scope.

(** ** metric values under renaming *)
Section Rename.
Context (f g : string -> string) (Hgf : forall d, g (f d) = d) (Hfg : forall d, f (g d) = d).
Context (j j' : dict Z) (Hj : dict_ok j) (Hp : judgments_renamed f j j').

Lemma rn_inj a b : f a = f b -> a = b.
Proof. intros H. now rewrite <- (Hgf a), <- (Hgf b), H. Qed.
Lemma rn_get_map {V} (m : dict V) d : dget (map (fun dv => (f (fst dv), snd dv)) m) (f d) = dget m d.
Proof.
  induction m as [|[k v] m IH]; cbn [map dget fst snd]; auto.
  destruct (String.eqb_spec d k) as [->|Hn]; [now rewrite String.eqb_refl|].
  destruct (String.eqb_spec (f d) (f k)) as [He|_]; [now apply rn_inj in He|exact IH].
Qed.
Lemma rn_ok_map {V} (m : dict V) : dict_ok m -> dict_ok (map (fun dv => (f (fst dv), snd dv)) m).
Proof.
  unfold dict_ok, dkeys. rewrite map_map. cbn [fst]. rewrite <- (map_map fst f). intros H.
  induction (map fst m) as [|a l IH]; cbn; constructor; inversion H; subst; auto.
  intros Hin. apply in_map_iff in Hin as (b & Hb & Hin). apply rn_inj in Hb. now subst.
Qed.
Lemma rn_get d : dget j' (f d) = dget j d.
Proof.
  rewrite <- (rn_get_map j d). symmetry. apply dget_perm; [|exact (Permutation_sym Hp)].
  now apply rn_ok_map.
Qed.
Lemma rn_relevant l d : relevant j' l (f d) = relevant j l d.
Proof. unfold relevant. now rewrite rn_get. Qed.
Lemma rn_judged d : judged j' (f d) = judged j d.
Proof. unfold judged. now rewrite rn_get. Qed.
Lemma rn_gain l d : gain j' l (f d) = gain j l d.
Proof. unfold gain. now rewrite rn_get. Qed.
Lemma count_perm {A} (p : A -> bool) l l' : Permutation l l' -> count p l = count p l'.
Proof. induction 1; cbn; lia. Qed.
Lemma count_map {A B} (h : A -> B) (p : B -> bool) l : count p (map h l) = count (fun a => p (h a)) l.
Proof. induction l; cbn; auto. Qed.
Lemma rn_nrel l : n_relevant j' l = n_relevant j l.
Proof. unfold n_relevant. rewrite (count_perm _ _ _ Hp), count_map. reflexivity. Qed.
Lemma rn_nnon l : n_judged_nonrelevant j' l = n_judged_nonrelevant j l.
Proof. unfold n_judged_nonrelevant. rewrite (count_perm _ _ _ Hp), count_map. reflexivity. Qed.
Lemma rn_top ds k : top (map f ds) k = map f (top ds k).
Proof. unfold top. destruct k; auto. apply firstn_map. Qed.
Lemma rn_hits l ds k : S_hits j' l (map f ds) k = S_hits j l ds k.
Proof. unfold S_hits. rewrite rn_top, count_map. apply count_ext. apply rn_relevant. Qed.
Lemma rn_depth ds k : depth (map f ds) k = depth ds k.
Proof. unfold depth. now rewrite map_length. Qed.
Lemma rn_prec l ds k : S_precision j' l (map f ds) k = S_precision j l ds k.
Proof. unfold S_precision. now rewrite rn_depth, rn_hits. Qed.
Lemma rn_rec l ds k : S_recall j' l (map f ds) k = S_recall j l ds k.
Proof. unfold S_recall. now rewrite rn_nrel, rn_hits. Qed.
Lemma Rsum_n_ext_lt n h h' : (forall i, i < n -> h i = h' i) -> Rsum_n n h = Rsum_n n h'.
Proof. intros H. unfold Rsum_n. f_equal. apply map_ext_in. intros i Hi. apply in_seq in Hi. apply H. lia. Qed.
Lemma rn_nth ds i : i < length ds -> nth i (map f ds) "" = f (nth i ds "").
Proof. intros H. rewrite (nth_indep _ "" (f "")) by now rewrite map_length. apply map_nth. Qed.
Lemma top_le ds k : length (top ds k) <= length ds.
Proof. unfold top. destruct k; auto. rewrite firstn_length. lia. Qed.
Lemma rn_dcg (h h' : string -> R) ds k : (forall d, h' (f d) = h d) -> S_dcg_with (map f ds) h' k = S_dcg_with ds h k.
Proof.
  intros H. unfold S_dcg_with. rewrite rn_top, map_length. apply Rsum_n_ext_lt. intros i Hi.
  rewrite rn_nth, H; [reflexivity|]. assert (Hl := top_le ds k). lia.
Qed.
Lemma rn_map l ds k : S_map j' l (map f ds) k = S_map j l ds k.
Proof.
  unfold S_map. rewrite rn_nrel. destruct (n_relevant j l); auto. f_equal. rewrite rn_top, map_length.
  apply Rsum_n_ext_lt. intros i Hi. assert (Hl := top_le ds k). rewrite rn_nth by lia. rewrite rn_relevant.
  destruct (relevant j l (nth i ds "")); auto. unfold precision_at. rewrite firstn_map, count_map.
  now rewrite (count_ext _ _ _ (rn_relevant l)).
Qed.
Lemma rn_first_pos (p p' : string -> bool) ds : (forall d, p' (f d) = p d) -> first_pos p' (map f ds) = first_pos p ds.
Proof. intros H. induction ds as [|d ds IH]; cbn; auto. now rewrite H, IH. Qed.
Lemma rn_existsb (p p' : string -> bool) ds : (forall d, p' (f d) = p d) -> existsb p' (map f ds) = existsb p ds.
Proof. intros H. induction ds as [|d ds IH]; cbn; auto. now rewrite H, IH. Qed.
Lemma rn_bpref l ds : S_bpref j' l (map f ds) = S_bpref j l ds.
Proof.
  unfold S_bpref. rewrite rn_nrel, rn_nnon, map_length. f_equal. apply Rsum_n_ext_lt. intros i Hi.
  rewrite rn_nth by lia. rewrite rn_relevant. destruct (relevant j l (nth i ds "")); auto. do 3 f_equal. f_equal.
  unfold nonrel_above. rewrite firstn_map, count_map. apply count_ext. intros d. now rewrite rn_relevant, rn_judged.
Qed.
Lemma rn_rbp l ds p : S_rbp j' l (map f ds) p = S_rbp j l ds p.
Proof.
  unfold S_rbp. rewrite map_length. f_equal. apply Rsum_n_ext_lt. intros i Hi. rewrite rn_nth by lia. now rewrite rn_gain.
Qed.
Lemma nodup_rename l : NoDup l -> NoDup (map f l).
Proof.
  induction 1 as [|a l Ha Hl IH]; cbn; constructor; auto. intros Hin. apply in_map_iff in Hin as (b & Hb & Hin).
  apply rn_inj in Hb. now subst.
Qed.
Lemma nodup_unrename l : NoDup l -> NoDup (map g l).
Proof.
  induction 1 as [|a l Ha Hl IH]; cbn; constructor; auto. intros Hin. apply in_map_iff in Hin as (b & Hb & Hin).
  assert (b = a) by now rewrite <- (Hfg b), <- (Hfg a), Hb. now subst.
Qed.
Lemma rn_unrename l : map f (map g l) = l.
Proof. rewrite map_map. rewrite (map_ext _ (fun d => d)); [apply map_id|exact Hfg]. Qed.
Lemma rn_ndcg (h h' : string -> R) ds k v : (forall d, h' (f d) = h d) -> is_ndcg h ds k v -> is_ndcg h' (map f ds) k v.
Proof.
  intros H (m & [(r & Hn & Hr) Hmax] & ->). exists m. split.
  - split.
    + exists (map f r). split; [now apply nodup_rename|]. now rewrite (rn_dcg h h').
    + intros r' Hn'. rewrite <- (rn_unrename r'). rewrite (rn_dcg h h') by exact H. apply Hmax. now apply nodup_unrename.
  - now rewrite (rn_dcg h h').
Qed.
End Rename.

Lemma metric_value_rename f g j0 j' name l ds k v : (forall d, g (f d) = d) -> (forall d, f (g d) = d) ->
  dict_ok j0 -> judgments_renamed f j0 j' -> metric_value name j0 l ds k v -> metric_value name j' l (map f ds) k v.
Proof.
  intros Hgf Hfg Hj Hp Hv. destruct Hv.
  - rewrite <- (rn_hits f g Hgf j j' Hj Hp). constructor.
  - replace (S_hit_rate j l ds (Z.to_nat k)) with (S_hit_rate j' l (map f ds) (Z.to_nat k)); [constructor|].
    unfold S_hit_rate. rewrite rn_top. now rewrite (rn_existsb f (relevant j l) (relevant j' l) _ (rn_relevant f g Hgf j j' Hj Hp l)).
  - rewrite <- (rn_prec f g Hgf j j' Hj Hp). constructor.
  - rewrite <- (rn_rec f g Hgf j j' Hj Hp). constructor.
  - replace (S_f1 j l ds (Z.to_nat k)) with (S_f1 j' l (map f ds) (Z.to_nat k)); [constructor|].
    unfold S_f1. now rewrite (rn_prec f g Hgf j j' Hj Hp), (rn_rec f g Hgf j j' Hj Hp).
  - replace (S_r_precision j l ds) with (S_r_precision j' l (map f ds)); [constructor|].
    unfold S_r_precision. rewrite (rn_nrel f j j' Hp). destruct (n_relevant j l); auto. apply (rn_prec f g Hgf j j' Hj Hp).
  - replace (S_mrr j l ds (Z.to_nat k)) with (S_mrr j' l (map f ds) (Z.to_nat k)); [constructor|].
    unfold S_mrr. rewrite rn_top. now rewrite (rn_first_pos f (relevant j l) (relevant j' l) _ (rn_relevant f g Hgf j j' Hj Hp l)).
  - rewrite <- (rn_map f g Hgf j j' Hj Hp). constructor.
  - replace (S_dcg j l ds (Z.to_nat k)) with (S_dcg j' l (map f ds) (Z.to_nat k)); [constructor|].
    apply (rn_dcg f). apply (rn_gain f g Hgf j j' Hj Hp).
  - replace (S_dcg_burges j l ds (Z.to_nat k)) with (S_dcg_burges j' l (map f ds) (Z.to_nat k)); [constructor|].
    apply (rn_dcg f). intros d. unfold burges_gain. now rewrite (rn_gain f g Hgf j j' Hj Hp).
  - constructor. eapply (rn_ndcg f g Hgf Hfg); [|eassumption]. apply (rn_gain f g Hgf j j' Hj Hp).
  - constructor. eapply (rn_ndcg f g Hgf Hfg); [|eassumption]. intros d. unfold burges_gain. now rewrite (rn_gain f g Hgf j j' Hj Hp).
  - rewrite <- (rn_bpref f g Hgf j j' Hj Hp). constructor.
  - rewrite <- (rn_rbp f g Hgf j j' Hj Hp). constructor.
Qed.

Lemma ranks_rename f g r r' ds : increasing g -> results_renamed f g r r' -> ranks r ds -> ranks r' (map f ds).
Proof.
  intros Hg Hp (rk & P1 & S1 & ->). exists (map (fun dv => (f (fst dv), g (snd dv))) rk). split.
  - eapply Permutation_trans; [exact Hp|]. now apply Permutation_map.
  - split; [|unfold dkeys; now rewrite !map_map].
    apply StronglySorted_map. eapply StronglySorted_impl; [|exact S1]. intros a b. cbn [snd].
    intros H. destruct (Rle_lt_or_eq_dec _ _ H) as [H'|H']; [left; now apply Hg|rewrite H'; lra].
Qed.
Lemma tie_free_renamed f g r r' : increasing g -> results_renamed f g r r' -> tie_free r -> tie_free r'.
Proof.
  intros Hg Hp Hn. unfold tie_free, dvals in *. eapply Permutation_NoDup; [apply Permutation_map, Permutation_sym, Hp|].
  rewrite map_map. cbn [snd]. rewrite <- (map_map snd g). induction (map snd r) as [|a l IH]; cbn; constructor; inversion Hn; subst; auto.
  intros Hin. apply in_map_iff in Hin as (b & Hb & Hin).
  destruct (Rtotal_order a b) as [Hab|[Hab|Hab]]; [apply Hg in Hab; lra|subst; contradiction|apply Hg in Hab; lra].
Qed.

(** ** C85 *)
Lemma F2_in_l {A B} (P : A -> B -> Prop) l l' a : Forall2 P l l' -> In a l -> exists b, In b l' /\ P a b.
Proof.
  induction 1 as [|x y l l' H1 H2 IH]; intros []; [subst; exists y; cbn; auto|].
  destruct (IH H) as (b & Hb & Hp). exists b. cbn; auto.
Qed.
(** the saved score of a query is the value of the metric on it *)
Lemma saved_value E y x metrics mean std mk s name k l q : env_ok E -> evaluable E y x metrics ->
  In s metrics -> denotes s name k l -> In q (dkeys (q_map y)) ->
  exists x1 ds v, ev_r (@evaluate NumR E (QObj y) (RObj x) metrics mean std true mk) = RObj x1 /\
    ranks (of_query (r_map x) q) ds /\ metric_value name (of_query (q_map y) q) l ds k v /\ query_score x1 s q = Some v.
Proof.
  intros HE (Hy & Hx & Hne & Hsq & Hids & Hmet) Hs Hd Hq.
  destruct (C79_evaluate E HE y x metrics mean std true mk Hy Hx (fun _ => Hsq) Hids Hmet (fun _ _ => eq_refl))
    as (qs & ranking & scores & y1 & x1 & P1 & _ & P3 & P4 & _ & P6 & _ & P8 & _).
  exists x1, (ranking q). assert (Hq' : In q qs) by (apply (Permutation_in _ (Permutation_sym P1)); exact Hq).
  assert (F1 := P4 s name k l Hs Hd). destruct (P6 s) as [P7 _]. destruct (P7 Hs) as (_ & _ & F2 & _).
  clear - P8 P3 Hq' F1 F2.
  assert (Hv : exists v, metric_value name (of_query (q_map y) q) l (ranking q) k v /\ dget2 (r_scores x1) s q = Some v).
  { revert F1 F2 Hq'. generalize (scores s). clear P3. induction qs as [|a qs IH]; intros vs F1 F2 []; inversion F1; inversion F2; subst.
    - injection H8 as ->. eauto.
    - injection H8 as -> ->. eapply IH; eauto. }
  destruct Hv as (v & V1 & V2). exists v. split; [exact P8|]. split; [now apply P3|]. split; [exact V1|exact V2].
Qed.

Theorem C85_own_query_only : forall (E E' : env NumR), env_ok E -> env_ok E' ->
  forall y x metrics mean std mk y' x' metrics' mean' std' mk' s q q' f g,
  evaluable E y x metrics -> evaluable E' y' x' metrics' ->
  In s metrics -> In s metrics' -> In q (dkeys (q_map y)) -> In q' (dkeys (q_map y')) ->
  renaming f -> increasing g ->
  judgments_renamed f (of_query (q_map y) q) (of_query (q_map y') q') ->
  results_renamed f g (of_query (r_map x) q) (of_query (r_map x') q') -> tie_free (of_query (r_map x) q) ->
  exists x1 x1' v,
    ev_r (@evaluate NumR E (QObj y) (RObj x) metrics mean std true mk) = RObj x1 /\
    ev_r (@evaluate NumR E' (QObj y') (RObj x') metrics' mean' std' true mk') = RObj x1' /\
    query_score x1 s q = Some v /\ query_score x1' s q' = Some v.
Proof.
  intros E E' HE HE' y x metrics mean std mk y' x' metrics' mean' std' mk' s q q' f g He He' Hs Hs' Hq Hq' (fi & Hgf & Hfg) Hg Hj Hr Ht.
  destruct (proj2 (proj2 (proj2 (proj2 (proj2 He)))) s Hs) as (name & k & l & Hd & _).
  destruct (saved_value E y x metrics mean std mk s name k l q HE He Hs Hd Hq) as (x1 & ds & v & A1 & A2 & A3 & A4).
  destruct (saved_value E' y' x' metrics' mean' std' mk' s name k l q' HE' He' Hs' Hd Hq') as (x1' & ds' & v' & B1 & B2 & B3 & B4).
  exists x1, x1', v. split; [exact A1|]. split; [exact B1|]. split; [exact A4|]. rewrite B4. f_equal.
  assert (Hds : map f ds = ds').
  { apply (ranks_unique (of_query (r_map x') q')); [exact (tie_free_renamed f g _ _ Hg Hr Ht)|now apply (ranks_rename f g (of_query (r_map x) q))|exact B2]. }
  assert (Hok : dict_ok (of_query (q_map y) q)).
  { unfold of_query. destruct (dget (q_map y) q) as [r|] eqn:Hget; [|constructor].
    exact (proj2 (proj1 (obtained_qrels_inv E HE y (proj1 He))) q r Hget). }
  assert (V := metric_value_rename f fi _ _ name l ds k v Hgf Hfg Hok Hj A3). rewrite Hds in V.
  exact (metric_value_unique _ _ _ _ _ _ _ B3 V).
Qed.
Print Assumptions C85_own_query_only.

(** the value of a metric on every query, and the lists of scores *)
Lemma score_list E y x metrics mean std save mk : env_ok E -> evaluable E y x metrics ->
  (length metrics = 1 -> mean = false -> save = true) ->
  exists qs scores, Permutation qs (dkeys (q_map y)) /\
    returns metrics mean std scores (ev_res (@evaluate NumR E (QObj y) (RObj x) metrics mean std save mk)) /\
    forall s name k l, In s metrics -> denotes s name k l ->
      Forall2 (fun q v => exists ds, ranks (of_query (r_map x) q) ds /\ metric_value name (of_query (q_map y) q) l ds k v) qs (scores s).
Proof.
  intros HE (Hy & Hx & Hne & Hsq & Hids & Hmet) Hms.
  destruct (C79_evaluate E HE y x metrics mean std save mk Hy Hx (fun _ => Hsq) Hids Hmet Hms)
    as (qs & ranking & scores & y1 & x1 & P1 & _ & P3 & P4 & P5 & _).
  exists qs, scores. split; [exact P1|]. split; [exact P5|]. intros s name k l Hs Hd.
  assert (F1 := P4 s name k l Hs Hd). clear - F1 P3. revert P3.
  induction F1 as [|q v qs vs H1 H2 IH]; intros P3; constructor.
  - exists (ranking q). split; [apply P3; now left|exact H1].
  - apply IH. intros; apply P3; now right.
Qed.

Lemma Rsum_perm l l' : Permutation l l' -> Rsum l = Rsum l'.
Proof. induction 1; cbn; lra. Qed.
Lemma mean_perm l l' : Permutation l l' -> mean_of l = mean_of l'.
Proof. intros H. unfold mean_of. now rewrite (Rsum_perm _ _ H), (Permutation_length H). Qed.
Lemma std_perm l l' : Permutation l l' -> std_of l = std_of l'.
Proof.
  intros H. unfold std_of. rewrite (mean_perm _ _ H). f_equal. apply mean_perm. now apply Permutation_map.
Qed.
(** a relation that determines values, along a permutation *)
Lemma F2_perm_fun {A B} (P : A -> B -> Prop) l l' vs vs' : (forall a v v', P a v -> P a v' -> v = v') ->
  Permutation l l' -> Forall2 P l vs -> Forall2 P l' vs' -> Permutation vs vs'.
Proof.
  intros Hf Hp. revert vs vs'. induction Hp; intros vs vs' F1 F2.
  - inversion F1; inversion F2. constructor.
  - inversion F1 as [|? a ? u H1 H2]; inversion F2 as [|? b ? w K1 K2]; subst. rewrite (Hf _ _ _ H1 K1). constructor. now apply IHHp.
  - inversion F1 as [|? a1 ? u1 H1 H2]; subst. inversion H2 as [|? a2 ? u2 H3 H4]; subst.
    inversion F2 as [|? b1 ? w1 K1 K2]; subst. inversion K2 as [|? b2 ? w2 K3 K4]; subst.
    rewrite (Hf _ _ _ H1 K3), (Hf _ _ _ H3 K1).
    assert (u2 = w2) as ->. { clear - Hf H4 K4. revert w2 K4. induction H4; intros w K; inversion K; subst; auto. f_equal; eauto. }
    apply perm_swap.
  - assert (Hex : exists u, Forall2 P l' u).
    { clear - Hp1 F1. revert vs F1. induction Hp1; intros vs F1.
      - exists []. constructor.
      - inversion F1; subst. destruct (IHHp1 _ H3) as (u & Hu). eexists; constructor; eauto.
      - inversion F1; subst. inversion H3; subst. eexists. constructor; [eassumption|constructor; eassumption].
      - destruct (IHHp1_1 _ F1) as (u & Hu). eauto. }
    destruct Hex as (u & Hu). eapply Permutation_trans; [eapply IHHp1; eauto|eapply IHHp2; eauto].
Qed.

Theorem C85_ids_carry_no_meaning : forall (E E' : env NumR), env_ok E -> env_ok E' ->
  forall y x y' x' h f g metrics std save mk save' mk',
  evaluable E y x metrics -> evaluable E' y' x' metrics -> evaluation_renamed h f g y x y' x' ->
  same_result (ev_res (@evaluate NumR E (QObj y) (RObj x) metrics true std save mk))
              (ev_res (@evaluate NumR E' (QObj y') (RObj x') metrics true std save' mk')).
Proof.
  intros E E' HE HE' y x y' x' h f g metrics std save mk save' mk' He He' (Hh & Hf & Hg & Hp & Hall).
  destruct (score_list E y x metrics true std save mk HE He) as (qs & sc & P1 & P2 & P3); [discriminate|].
  destruct (score_list E' y' x' metrics true std save' mk' HE' He') as (qs' & sc' & Q1 & Q2 & Q3); [discriminate|].
  assert (Hsc : forall s, In s metrics -> Permutation (sc s) (sc' s)).
  { intros s Hs. destruct (proj2 (proj2 (proj2 (proj2 (proj2 He)))) s Hs) as (name & k & l & Hd & _).
    assert (F1 := P3 s name k l Hs Hd). assert (F2 := Q3 s name k l Hs Hd).
    set (P := fun q' v => In q' (dkeys (q_map y')) /\ exists ds, ranks (of_query (r_map x') q') ds /\ metric_value name (of_query (q_map y') q') l ds k v).
    apply (F2_perm_fun P (map h qs) qs').
    - intros q' v v' (Hin & ds & R1 & V1) (_ & ds' & R2 & V2).
      apply (Permutation_in _ Hp) in Hin. apply in_map_iff in Hin as (q & <- & Hin). destruct (Hall q Hin) as (_ & Hr & Ht).
      assert (Ht' := tie_free_renamed (f q) (g q) _ _ (Hg q) Hr Ht).
      rewrite (ranks_unique _ _ _ Ht' R1 R2) in V1. exact (metric_value_unique _ _ _ _ _ _ _ V1 V2).
    - eapply Permutation_trans; [apply Permutation_map, P1|]. eapply Permutation_trans; [apply Permutation_sym, Hp|]. now apply Permutation_sym.
    - apply Forall2_map_l. assert (Hin : forall q, In q qs -> In q (dkeys (q_map y))) by (intros q; apply Permutation_in; exact P1).
      clear - F1 Hin Hall Hf Hg Hp He HE. induction F1 as [|q v qs vs (ds & R1 & V1) H2 IH]; constructor.
      + assert (Hq := Hin q (or_introl eq_refl)). destruct (Hall q Hq) as (Hj & Hr & _). destruct (Hf q) as (fi & Hgf & Hfg). split.
        * apply (Permutation_in _ (Permutation_sym Hp)). now apply in_map.
        * exists (map (f q) ds). split; [exact (ranks_rename (f q) (g q) _ _ ds (Hg q) Hr R1)|].
          apply (metric_value_rename (f q) fi (of_query (q_map y) q)); auto.
          unfold of_query. destruct (dget (q_map y) q) as [r|] eqn:Hget; [|constructor].
          exact (proj2 (proj1 (obtained_qrels_inv E HE y (proj1 He))) q r Hget).
      + apply IH. intros; apply Hin; now right.
    - assert (Hin : forall q, In q qs' -> In q (dkeys (q_map y'))) by (intros q; apply Permutation_in; exact Q1).
      clear - F2 Hin. induction F2 as [|q v l1 vs H1 H2 IH]; constructor.
      + split; [apply Hin; now left|exact H1].
      + apply IH. intros; apply Hin; now right. }
  assert (Hrep : forall s, In s metrics -> reported true std (sc s) = reported true std (sc' s)).
  { intros s Hs. unfold reported. rewrite (mean_perm _ _ (Hsc s Hs)), (std_perm _ _ (Hsc s Hs)). reflexivity. }
  clear - P2 Q2 Hrep. unfold returns in P2, Q2.
  destruct metrics as [|s [|s2 ms]].
  - destruct P2 as (d1 & -> & A13), Q2 as (d2 & -> & B13). cbn. intros s. destruct (A13 s), (B13 s). rewrite H0, H2; auto.
  - rewrite P2, Q2. cbn. apply Hrep. now left.
  - destruct P2 as (d1 & -> & A13), Q2 as (d2 & -> & B13). cbn. intros a. destruct (A13 a) as [A1 A2], (B13 a) as [B1 B2].
    destruct (in_dec string_dec a (s :: s2 :: ms)) as [Hin|Hin].
    + rewrite A1, B1, Hrep by assumption. reflexivity.
    + rewrite A2, B2 by assumption. reflexivity.
Qed.
Print Assumptions C85_ids_carry_no_meaning.

Lemma returns_mean metrics scores res s : In s metrics -> returns metrics true false scores res -> mean_returned res s (mean_of (scores s)).
Proof.
  intros Hs H. unfold returns in H. destruct metrics as [|a [|b ms]].
  - destruct Hs.
  - destruct Hs as [->|[]]. left. exact H.
  - destruct H as (d & Hr & Hd). right. exists d. split; [exact Hr|]. apply Hd. exact Hs.
Qed.
Lemma mean_returned_unique res s m m' : mean_returned res s m -> mean_returned res s m' -> m = m'.
Proof. intros [H|(d & H & Hd)] [H'|(d' & H' & Hd')]; congruence. Qed.
Lemma mean_length l : l <> [] -> (INR (length l) * mean_of l = Rsum l)%R.
Proof.
  intros H. unfold mean_of. field. apply not_0_INR. destruct l; [contradiction|cbn; lia].
Qed.

(** The mean over all queries is the average of the means over two parts, weighted by their sizes. *)
Theorem C85_mean_of_parts : forall (E E1 E2 : env NumR), env_ok E -> env_ok E1 -> env_ok E2 ->
  forall y x y1 x1 y2 x2 metrics s save mk,
  evaluable E y x metrics -> evaluable E1 y1 x1 metrics -> evaluable E2 y2 x2 metrics -> In s metrics ->
  Permutation (dkeys (q_map y)) (dkeys (q_map y1) ++ dkeys (q_map y2)) ->
  part_of y x y1 x1 -> part_of y x y2 x2 ->
  exists m m1 m2,
    mean_returned (ev_res (@evaluate NumR E (QObj y) (RObj x) metrics true false save mk)) s m /\
    mean_returned (ev_res (@evaluate NumR E1 (QObj y1) (RObj x1) metrics true false save mk)) s m1 /\
    mean_returned (ev_res (@evaluate NumR E2 (QObj y2) (RObj x2) metrics true false save mk)) s m2 /\
    (INR (length (dkeys (q_map y))) * m =
     INR (length (dkeys (q_map y1))) * m1 + INR (length (dkeys (q_map y2))) * m2)%R.
Proof.
  intros E E1 E2 HE HE1 HE2 y x y1 x1 y2 x2 metrics s save mk He He1 He2 Hs Hp Hp1 Hp2.
  destruct (score_list E y x metrics true false save mk HE He) as (qs & sc & P1 & P2 & P3); [discriminate|].
  destruct (score_list E1 y1 x1 metrics true false save mk HE1 He1) as (qs1 & sc1 & Q1 & Q2 & Q3); [discriminate|].
  destruct (score_list E2 y2 x2 metrics true false save mk HE2 He2) as (qs2 & sc2 & T1 & T2 & T3); [discriminate|].
  exists (mean_of (sc s)), (mean_of (sc1 s)), (mean_of (sc2 s)).
  split; [exact (returns_mean _ _ _ _ Hs P2)|]. split; [exact (returns_mean _ _ _ _ Hs Q2)|]. split; [exact (returns_mean _ _ _ _ Hs T2)|].
  destruct (proj2 (proj2 (proj2 (proj2 (proj2 He)))) s Hs) as (name & k & l & Hd & _).
  assert (F := P3 s name k l Hs Hd). assert (F1 := Q3 s name k l Hs Hd). assert (F2 := T3 s name k l Hs Hd).
  set (P := fun q v => tie_free (of_query (r_map x) q) /\ exists ds, ranks (of_query (r_map x) q) ds /\ metric_value name (of_query (q_map y) q) l ds k v).
  assert (Hpart : forall E0 y0 x0 qs0 vs0, env_ok E0 -> obtained_qrels E0 y0 -> part_of y x y0 x0 -> Permutation qs0 (dkeys (q_map y0)) ->
    Forall2 (fun q v => exists ds, ranks (of_query (r_map x0) q) ds /\ metric_value name (of_query (q_map y0) q) l ds k v) qs0 vs0 ->
    Forall2 P qs0 vs0).
  { intros E0 y0 x0 qs0 vs0 HE0 Hr0 Hpt Hpm HF. assert (Hin : forall q, In q qs0 -> In q (dkeys (q_map y0))) by (intros q; now apply Permutation_in).
    clear Hpm. induction HF as [|q v l1 vs (ds & R1 & V1) H2 IH]; constructor.
    - destruct (Hpt q (Hin q (or_introl eq_refl))) as (Hj & Hr & Ht). split; [exact Ht|]. exists ds. split; [exact (ranks_perm _ _ _ Hr R1)|].
      assert (Hok : dict_ok (of_query (q_map y0) q)).
      { unfold of_query. destruct (dget (q_map y0) q) as [r|] eqn:Hget; [|constructor].
        exact (proj2 (proj1 (obtained_qrels_inv E0 HE0 y0 Hr0)) q r Hget). }
      rewrite <- (map_id ds). apply (metric_value_rename (fun d => d) (fun d => d) (of_query (q_map y0) q)); auto.
      unfold judgments_renamed. apply Permutation_sym.
      replace (map (fun dv : string * Z => (fst dv, snd dv)) (of_query (q_map y0) q)) with (of_query (q_map y0) q); [exact Hj|].
      symmetry. rewrite <- (map_id (of_query (q_map y0) q)) at 2. apply map_ext. now intros [].
    - apply IH. intros; apply Hin; now right. }
  assert (G1 := Hpart E1 y1 x1 qs1 _ HE1 (proj1 He1) Hp1 Q1 F1). assert (G2 := Hpart E2 y2 x2 qs2 _ HE2 (proj1 He2) Hp2 T1 F2).
  assert (Hqs : Permutation qs (qs1 ++ qs2)).
  { eapply Permutation_trans; [exact P1|]. eapply Permutation_trans; [exact Hp|]. apply Permutation_app; now apply Permutation_sym. }
  assert (G : Forall2 P qs (sc s)).
  { assert (Htf : forall q, In q qs -> tie_free (of_query (r_map x) q)).
    { intros q Hq. apply (Permutation_in _ P1) in Hq. apply (Permutation_in _ Hp) in Hq. apply in_app_or in Hq as [Hq|Hq];
      [exact (proj2 (proj2 (Hp1 q Hq)))|exact (proj2 (proj2 (Hp2 q Hq)))]. }
    clear - F Htf. induction F as [|q v l1 vs H1 H2 IH]; constructor; [split; [apply Htf; now left|exact H1]|apply IH; intros; apply Htf; now right]. }
  assert (Hvs : Permutation (sc s) (sc1 s ++ sc2 s)).
  { apply (F2_perm_fun P qs (qs1 ++ qs2)); [|exact Hqs|exact G|now apply Forall2_app].
    intros q v v' (Ht & ds & R1 & V1) (_ & ds' & R2 & V2). rewrite (ranks_unique _ _ _ Ht R1 R2) in V1.
    exact (metric_value_unique _ _ _ _ _ _ _ V1 V2). }
  assert (Hlen : forall (Q : string -> R -> Prop) l1 l2, Forall2 Q l1 l2 -> length l1 = length l2) by (intros Q l1 l2 H; induction H; cbn; auto).
  rewrite <- (Permutation_length P1), <- (Permutation_length Q1), <- (Permutation_length T1).
  rewrite (Hlen _ _ _ F), (Hlen _ _ _ F1), (Hlen _ _ _ F2).
  assert (Hne : forall q0 (m : dict (dict Z)) (v0 : list R), m <> [] -> Permutation q0 (dkeys m) -> length q0 = length v0 -> v0 <> []).
  { intros q0 m v0 Hm Hpm Hl ->. apply Hm. destruct m; [reflexivity|]. apply Permutation_length in Hpm. cbn in Hl, Hpm. lia. }
  rewrite !mean_length.
  - rewrite (Rsum_perm _ _ Hvs). clear. induction (sc1 s); cbn; lra.
  - exact (Hne qs2 (q_map y2) _ (proj1 (proj2 (proj2 He2))) T1 (Hlen _ _ _ F2)).
  - exact (Hne qs1 (q_map y1) _ (proj1 (proj2 (proj2 He1))) Q1 (Hlen _ _ _ F1)).
  - exact (Hne qs (q_map y) _ (proj1 (proj2 (proj2 He))) P1 (Hlen _ _ _ F)).
Qed.
Print Assumptions C85_mean_of_parts.
