(** P_Eval.v: lemmas for the theorems about evaluate. *)
From Coq Require Import Reals Lra FunctionalExtensionality.
From Verif Require Import Base Dict Num NumLaws Env M_Common M_Qrels M_Run M_History M_Metrics M_Evaluate
  Spec_DS Spec_Hist Spec_Strings Spec_Metrics Spec_MetricsAPI Spec_Eval
  P_Base P_Dict P_Common P_History P_DS P_Metrics P_Metrics4 P_Metrics6 P_Metrics7 T_Metrics T_Parse.
Open Scope string_scope.
Open Scope list_scope.
Open Scope nat_scope.

Lemma Forall2_impl {A B} (P Q : A -> B -> Prop) l1 l2 : (forall a b, P a b -> Q a b) -> Forall2 P l1 l2 -> Forall2 Q l1 l2.
Proof. intros H. induction 1; constructor; auto. Qed.
(** ** scores depend on the judgments as a map only *)
Section Perm.
Context (j j' : dict Z) (l : Z) (Hok : dict_ok j) (Hp : Permutation j j').
Lemma relevant_perm : relevant j l = relevant j' l.
Proof. apply functional_extensionality. intros d. unfold relevant. now rewrite (dget_perm j j' Hok Hp). Qed.
Lemma judged_perm : judged j = judged j'.
Proof. apply functional_extensionality. intros d. unfold judged. now rewrite (dget_perm j j' Hok Hp). Qed.
Lemma gain_perm : gain j l = gain j' l.
Proof. apply functional_extensionality. intros d. unfold gain. now rewrite (dget_perm j j' Hok Hp). Qed.
Lemma bgain_perm : burges_gain j l = burges_gain j' l.
Proof. apply functional_extensionality. intros d. unfold burges_gain. now rewrite gain_perm. Qed.
Lemma n_relevant_perm : n_relevant j l = n_relevant j' l.
Proof. apply count_perm, Hp. Qed.
Lemma n_nonrel_perm : n_judged_nonrelevant j l = n_judged_nonrelevant j' l.
Proof. apply count_perm, Hp. Qed.
Lemma S_hits_perm : S_hits j l = S_hits j' l.
Proof. unfold S_hits. now rewrite relevant_perm. Qed.
Lemma S_precision_perm : S_precision j l = S_precision j' l.
Proof. unfold S_precision. now rewrite S_hits_perm. Qed.
Lemma S_recall_perm : S_recall j l = S_recall j' l.
Proof. unfold S_recall. now rewrite S_hits_perm, n_relevant_perm. Qed.
Lemma S_map_perm : S_map j l = S_map j' l.
Proof. unfold S_map, precision_at. now rewrite relevant_perm, n_relevant_perm. Qed.
Lemma S_bpref_perm : S_bpref j l = S_bpref j' l.
Proof. unfold S_bpref, nonrel_above. now rewrite relevant_perm, n_relevant_perm, n_nonrel_perm, judged_perm. Qed.
Lemma S_rbp_perm : S_rbp j l = S_rbp j' l.
Proof. unfold S_rbp. now rewrite gain_perm. Qed.
End Perm.
Lemma metric_value_perm name j j' l ds k v : dict_ok j -> Permutation j j' ->
  metric_value name j l ds k v -> metric_value name j' l ds k v.
Proof.
  intros Hok Hp H. destruct H.
  - rewrite (S_hits_perm j j' l Hok Hp). constructor.
  - unfold S_hit_rate. rewrite (relevant_perm j j' l Hok Hp). fold (S_hit_rate j' l ds (Z.to_nat k)). constructor.
  - rewrite (S_precision_perm j j' l Hok Hp). constructor.
  - rewrite (S_recall_perm j j' l Hok Hp). constructor.
  - unfold S_f1. rewrite (S_precision_perm j j' l Hok Hp), (S_recall_perm j j' l Hok Hp). apply (MV_f1 j' l ds k).
  - unfold S_r_precision. rewrite (S_precision_perm j j' l Hok Hp), (n_relevant_perm j j' l Hp). apply (MV_r_precision j' l ds k).
  - unfold S_mrr. rewrite (relevant_perm j j' l Hok Hp). apply (MV_mrr j' l ds k).
  - rewrite (S_map_perm j j' l Hok Hp). constructor.
  - unfold S_dcg. rewrite (gain_perm j j' l Hok Hp). apply (MV_dcg j' l ds k).
  - unfold S_dcg_burges. rewrite (bgain_perm j j' l Hok Hp). apply (MV_dcg_burges j' l ds k).
  - constructor. now rewrite <- (gain_perm j j' l Hok Hp).
  - constructor. now rewrite <- (bgain_perm j j' l Hok Hp).
  - rewrite (S_bpref_perm j j' l Hok Hp). constructor.
  - rewrite (S_rbp_perm j j' l Hok Hp). constructor.
Qed.
Lemma metric_defined_perm name j j' l : Permutation j j' -> metric_defined name j l -> metric_defined name j' l.
Proof.
  intros Hp H Hn. specialize (H Hn). now rewrite <- (n_relevant_perm j j' l Hp), <- (n_nonrel_perm j j' l Hp).
Qed.

(** ** the score array of a metric *)
Lemma per_query_Forall2 {V} (P : dict Z -> dict V -> R -> Prop) (s : dict Z -> list string -> R) js rs :
  length js = length rs -> (forall j r, In (j, r) (combine js rs) -> P j r (s j (dkeys r))) ->
  Forall2 (fun jr v => P (fst jr) (snd jr) v) (combine js rs) (per_query s js rs).
Proof.
  intros _ H. unfold per_query. induction (combine js rs) as [|[j r] l IH]; constructor.
  - apply H. now left.
  - apply IH. intros. apply H. now right.
Qed.
Lemma metric_array E name k lvl js rs : env_ok E -> In name all_metrics -> k_fits name k -> (0 <= lvl)%Z ->
  aligned E js rs -> Forall judgments_desc js -> Forall (fun j => metric_defined name j lvl) js ->
  exists f vs, metric_switch E name = Ok f /\ f (qrels_arg E js) (run_arg E rs) k lvl = Ok vs /\
    Forall2 (fun jr v => metric_value name (fst jr) lvl (dkeys (snd jr)) k v) (combine js rs) vs.
Proof.
  intros HE Hn Hk Hl Ha Hd Hdef.
  assert (Hlen : length js = length rs) by (clear - Ha; induction Ha; cbn; congruence).
  destruct k as [k|p].
  - destruct Hk as [Hn' Hk].
    assert (Hgo : forall m s, computes E m s ->
       (forall j r, In (j, r) (combine js rs) -> metric_value name j lvl (dkeys r) (KInt k) (s j lvl (dkeys r) (Z.to_nat k))) ->
       metric_switch E name = Ok (int_k m) ->
       exists f vs, metric_switch E name = Ok f /\ f (qrels_arg E js) (run_arg E rs) (KInt k) lvl = Ok vs /\
       Forall2 (fun jr v => metric_value name (fst jr) lvl (dkeys (snd jr)) (KInt k) v) (combine js rs) vs).
    { intros m s Hc Hv Hsw. exists (int_k m), (per_query (fun j ds => s j lvl ds (Z.to_nat k)) js rs).
      split; [exact Hsw|]. split.
      - cbn [int_k]. rewrite (Hc js rs k lvl Ha). destruct (Z.ltb_spec k 0); [lia|reflexivity].
      - apply (per_query_Forall2 (fun j r v => metric_value name j lvl (dkeys r) (KInt k) v) (fun j ds => s j lvl ds (Z.to_nat k))); auto. }
    cbn in Hn'. repeat (destruct Hn' as [<-|Hn']); [..|easy].
    + refine (Hgo _ _ (C21_hits E HE) _ eq_refl). intros; constructor.
    + refine (Hgo _ _ (C21_hit_rate E HE) _ eq_refl). intros; constructor.
    + refine (Hgo _ _ (C21_precision E HE) _ eq_refl). intros; constructor.
    + refine (Hgo _ _ (C21_recall E HE) _ eq_refl). intros; constructor.
    + refine (Hgo _ _ (C22_f1 E HE) _ eq_refl). intros; constructor.
    + exists (int_k (@r_precision NumR E)), (per_query (fun j ds => S_r_precision j lvl ds) js rs). split; [reflexivity|]. split.
      * apply (C23_r_precision E HE js rs k lvl Ha).
      * apply (per_query_Forall2 (fun j r v => metric_value "r-precision" j lvl (dkeys r) (KInt k) v)); auto. intros; constructor.
    + refine (Hgo _ _ (C24_mrr E HE) _ eq_refl). intros; constructor.
    + refine (Hgo _ _ (C25_map E HE) _ eq_refl). intros; constructor.
    + refine (Hgo _ _ (C26_dcg E HE) _ eq_refl). intros; constructor.
    + refine (Hgo _ _ (C26_dcg_burges E HE) _ eq_refl). intros; constructor.
    + destruct (C26_ndcg E HE js rs k lvl Ha Hk Hl Hd) as (xs & H1 & H2).
      exists (int_k (@ndcg NumR E)), xs. split; [reflexivity|]. split; [exact H1|].
      eapply Forall2_impl; [|exact H2]. intros; now constructor.
    + destruct (C26_ndcg_burges E HE js rs k lvl Ha Hk Hl Hd) as (xs & H1 & H2).
      exists (int_k (@ndcg_burges NumR E)), xs. split; [reflexivity|]. split; [exact H1|].
      eapply Forall2_impl; [|exact H2]. intros; now constructor.
    + exists (int_k (@bpref NumR E)), (per_query (fun j ds => S_bpref j lvl ds) js rs). split; [reflexivity|]. split.
      * apply (C27_bpref E HE js rs k lvl Ha). eapply Forall_impl; [|exact Hdef]. intros j Hj. now apply Hj.
      * apply (per_query_Forall2 (fun j r v => metric_value "bpref" j lvl (dkeys r) (KInt k) v)); auto. intros; constructor.
  - cbn in Hk. subst name.
    exists (float_k (@rank_biased_precision NumR E)), (per_query (fun j ds => S_rbp j lvl ds p) js rs). split; [reflexivity|]. split.
    + apply (C28_rbp E HE js rs p lvl Ha).
    + apply (per_query_Forall2 (fun j r v => metric_value "rbp" j lvl (dkeys r) (KFloat p) v)); auto. intros; constructor.
Qed.

(** ** objects *)
Lemma dvals_of_keys {V} (m : dict (dict V)) : dict_ok m -> dvals m = map (of_query m) (dkeys m).
Proof.
  intros Hok. unfold dvals, dkeys. rewrite map_map. apply map_ext_in. intros [q r] Hin. unfold of_query.
  cbn. now rewrite (in_dget m q r Hok Hin).
Qed.
Section Obj.
Context (E : env NumR) (HE : env_ok E).
Lemma r_nan_free (d : dict (dict R)) : @nan_free2 NumR R r_negf d.
Proof. intros q r _. apply Forall_forall. intros v _. apply is_nan_R. Qed.
Lemma run_reachable_inv x : run_reachable E x -> @run_inv NumR x.
Proof.
  intros (x0 & os & H0 & Hs & Hm & Hso).
  assert (Hinv : @run_inv NumR (run_hist E x0 os)).
  2:{ unfold run_inv in *. rewrite Hm, Hso. exact Hinv. }
  assert (Hnan : Forall (@run_op_nan_free NumR) os).
  { apply Forall_forall. intros o _. destruct o; cbn; auto using is_nan_R.
    - apply Forall_forall. intros; apply is_nan_R.
    - apply Forall_forall. intros; apply Forall_forall; intros; apply is_nan_R. }
  apply run_hist_inv; auto using NumR_laws. destruct H0 as [->|(d & name & Hok & Hi)]; [apply run_inv_empty|].
  unfold Run_init in Hi. destruct (build_from_dict E r_negf d) as [m|] eqn:Hb; [|discriminate]. cbn in Hi. inversion Hi; subst.
  assert (Hd : has_doc d).
  { unfold build_from_dict in Hb. destruct (concat (map dkeys (dvals d))) eqn:Hc; [discriminate|].
    apply concat_has_doc; [exact Hok|]. congruence. }
  rewrite (build_from_dict_ok E r_negf d Hok Hd) in Hb. inversion Hb; subst.
  apply (canon_inv E HE (mkRun [] true name [] [] [])); auto. apply r_nan_free.
Qed.
Lemma qrels_reachable_inv y : qrels_reachable E y -> qrels_inv y.
Proof.
  intros (y0 & os & H0 & Hs & Hm & Hso).
  assert (Hinv : qrels_inv (@qrels_hist NumR E y0 os)).
  2:{ unfold qrels_inv in *. rewrite Hm, Hso. exact Hinv. }
  apply (qrels_hist_inv E HE); auto.
  destruct H0 as [->|(d & name & Hok & Hi)].
  - split; [split; [constructor|intros q r H; discriminate]|discriminate].
  - unfold Qrels_init in Hi. destruct (build_from_dict E q_negf d) as [m|] eqn:Hb; [|discriminate]. cbn in Hi. inversion Hi; subst.
    assert (Hd : has_doc d).
    { unfold build_from_dict in Hb. destruct (concat (map dkeys (dvals d))) eqn:Hc; [discriminate|].
      apply concat_has_doc; [exact Hok|]. congruence. }
    rewrite (build_from_dict_ok E q_negf d Hok Hd) in Hb. inversion Hb; subst. now apply canon_qinv.
Qed.

(** what [to_typed_list] returns *)
Lemma run_typed x : @run_inv NumR x ->
  let x' := fst (Run_to_typed_list E x) in
  snd (Run_to_typed_list E x) = run_arg E (map (of_query (r_map x')) (str_sort (dkeys (r_map x)))) /\
  dkeys (r_map x') = str_sort (dkeys (r_map x)) /\ dict2_ok (r_map x') /\ r_sorted x' = true /\
  r_name x' = r_name x /\ r_scores x' = r_scores x /\ r_mean x' = r_mean x /\ r_std x' = r_std x /\
  (forall q, match dget (r_map x) q, dget (r_map x') q with
             | Some r, Some r' => Permutation r r' | None, None => True | _, _ => False end) /\
  forall q, StronglySorted (fun a b : string * R => (snd b <= snd a)%R) (of_query (r_map x') q).
Proof.
  intros (Hok & Hnf & Hso). unfold Run_to_typed_list. cbn [fst snd].
  set (x' := if r_sorted x then x else Run_sort E x).
  assert (H : dkeys (r_map x') = str_sort (dkeys (r_map x)) /\ dict2_ok (r_map x') /\
     r_sorted x' = true /\ r_name x' = r_name x /\ r_scores x' = r_scores x /\ r_mean x' = r_mean x /\ r_std x' = r_std x /\
     (forall q, match dget (r_map x) q, dget (r_map x') q with
             | Some r, Some r' => Permutation r r' | None, None => True | _, _ => False end) /\
     is_sorted r_negf (r_map x')).
  { unfold x'. destruct (r_sorted x) eqn:Hs.
    - specialize (Hso eq_refl). repeat split; auto; try apply Hok; try apply Hso.
      + symmetry. apply str_sort_id. destruct Hso as [Hk _].
        eapply StronglySorted_impl; [|exact Hk]. intros a b Hab. unfold str_ltb in Hab.
        apply andb_true_iff in Hab. apply Hab.
      + intros q. destruct (dget (r_map x) q); auto.
    - repeat split.
      + apply (canon_keys E r_negf). apply Hok.
      + apply (canon_ok E HE r_negf). exact Hok.
      + apply (canon_ok E HE r_negf). exact Hok.
      + intros q. assert (Hg : dget (r_map (Run_sort E x)) q = option_map (sort_dict_by_value E r_negf) (dget (r_map x) q))
          by exact (canon_get E r_negf (r_map x) q (proj1 Hok)). rewrite Hg.
        destruct (dget (r_map x) q) as [r|] eqn:Hq; cbn; auto. apply sort_dict_by_value_perm; auto. now apply (proj2 Hok q).
      + apply (canon_sorted E HE r_negf (r_map x) Hok Hnf).
      + apply (canon_sorted E HE r_negf (r_map x) Hok Hnf). }
  destruct H as (H1 & H2 & H3 & H4 & H5 & H6 & H7 & H8 & H9).
  split; [|split; [exact H1|split; [exact H2|split; [exact H3|split; [exact H4|split; [exact H5|split; [exact H6|split; [exact H7|split; [exact H8|]]]]]]]]].
  - unfold to_typed_list. rewrite dvals_of_keys by apply H2. rewrite <- H1. unfold run_arg, qrels_arg. reflexivity.
  - intros q. unfold of_query. destruct (dget (r_map x') q) as [r|] eqn:Hq; [|constructor].
    destruct (is_sorted_in_order NumR_laws _ H9) as [_ Hd]. specialize (Hd q r Hq).
    eapply StronglySorted_impl; [|exact Hd]. intros a b Hab. cbn in Hab. now apply Rleb_true.
Qed.
Lemma qrels_typed y : qrels_inv y ->
  let y' := fst (@Qrels_to_typed_list NumR E y) in
  snd (@Qrels_to_typed_list NumR E y) = qrels_arg E (map (of_query (q_map y')) (str_sort (dkeys (q_map y)))) /\
  dkeys (q_map y') = str_sort (dkeys (q_map y)) /\ dict2_ok (q_map y') /\ q_sorted y' = true /\
  q_name y' = q_name y /\
  (forall q, match dget (q_map y) q, dget (q_map y') q with
             | Some r, Some r' => Permutation r r' | None, None => True | _, _ => False end) /\
  forall q, judgments_desc (of_query (q_map y') q).
Proof.
  intros (Hok & Hso). unfold Qrels_to_typed_list. cbn [fst snd].
  set (y' := if q_sorted y then y else Qrels_sort E y).
  assert (H : dkeys (q_map y') = str_sort (dkeys (q_map y)) /\ dict2_ok (q_map y') /\
     q_sorted y' = true /\ q_name y' = q_name y /\
     (forall q, match dget (q_map y) q, dget (q_map y') q with
             | Some r, Some r' => Permutation r r' | None, None => True | _, _ => False end) /\
     qrels_in_order (q_map y')).
  { unfold y'. destruct (q_sorted y) eqn:Hs.
    - specialize (Hso eq_refl). repeat split; auto; try apply Hok; try apply Hso.
      + symmetry. apply str_sort_id. destruct Hso as [Hk _].
        eapply StronglySorted_impl; [|exact Hk]. intros a b Hab. unfold str_ltb in Hab.
        apply andb_true_iff in Hab. apply Hab.
      + intros q. destruct (dget (q_map y) q); auto.
    - pose proof (canon_qinv E HE (q_map y) None Hok) as [_ Hc]. cbn in Hc. specialize (Hc eq_refl).
      repeat split; try apply Hc.
      + apply (canon_keys E q_negf). apply Hok.
      + apply (canon_ok E HE q_negf). exact Hok.
      + apply (canon_ok E HE q_negf). exact Hok.
      + intros q. assert (Hg : dget (q_map (@Qrels_sort NumR E y)) q = option_map (sort_dict_by_value E q_negf) (dget (q_map y) q))
          by exact (canon_get E q_negf (q_map y) q (proj1 Hok)). rewrite Hg.
        destruct (dget (q_map y) q) as [r|] eqn:Hq; cbn; auto. apply sort_dict_by_value_perm; auto. now apply (proj2 Hok q). }
  destruct H as (H1 & H2 & H3 & H4 & H5 & H6).
  split; [|split; [exact H1|split; [exact H2|split; [exact H3|split; [exact H4|split; [exact H5|]]]]]].
  - unfold to_typed_list. rewrite dvals_of_keys by apply H2. rewrite <- H1. unfold run_arg, qrels_arg. reflexivity.
  - intros q. unfold of_query. destruct (dget (q_map y') q) as [r|] eqn:Hq; [|constructor].
    apply (proj2 H6 q r Hq).
Qed.
End Obj.
