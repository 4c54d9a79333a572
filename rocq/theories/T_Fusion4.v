(** T_Fusion4.v: the union of the documents (C42), sortedness (C50), the checks of fuse (C51) *)
From Coq Require Import Reals Lra Psatz.
From Verif Require Import Base Dict Num NumLaws Env EnvEx M_Common M_Qrels M_Run M_History M_Norm M_Fusion
  Spec_DS Spec_Hist Spec_Metrics Spec_Eval Spec_Norm Spec_Fusion
  P_Base P_Dict P_Common P_DS P_Metrics P_Eval P_Norm T_Norm T_Norm2 T_Norm3 P_Fusion P_Fusion2 P_Fusion3
  T_Fusion T_Fusion2 T_Fusion3 Ex_Metrics.
Open Scope string_scope.
Open Scope list_scope.
Open Scope nat_scope.

Section G.
Context {N : Num} (E : env N) (HE : env_ok E).
Lemma map_results_keeps (g : dict F -> F -> F) : keeps (fun r => map_results (g r) r).
Proof. intros r r' Hr H. rewrite map_results_ok in H by exact Hr. inversion H. apply mapv_keys. Qed.
Lemma rank_norm_keeps : keeps (@_rank_norm N).
Proof. intros r r' Hr H. rewrite rank_norm_ok in H by exact Hr. inversion H. apply by_pos_keys. Qed.
Definition inverted (norm : string) : bool := String.eqb norm "min_max_inverted" || String.eqb norm "min-max-inverted".
Lemma norm_inv (x : Run N) norm y : dict2_ok (r_map x) -> normalize E x norm = Ok y ->
  exists m, same_docs (r_map x) m /\ y = if inverted norm then Run_sort E (new_run (r_name x) m) else new_run (r_name x) m.
Proof.
  intros Hx H. unfold normalize in H. apply bindr_ok in H as (f & Hf & H). destruct f as [f|]; [|discriminate].
  assert (Hgen : forall tag (g : dict F -> result (dict F)) (k : dict (dict F) -> Run N), keeps g ->
    bindr (M_Norm.per_query E tag (fun _ => g) (r_map x)) (fun m => Ok (k m)) = Ok y -> exists m, same_docs (r_map x) m /\ y = k m).
  { intros tag g k Hk Hb. apply bindr_ok in Hb as (m & Hm & Hb). inversion Hb. exists m. split; auto. eapply per_query_inv; eauto. }
  unfold norm_switch in Hf. unfold inverted.
  destruct (String.eqb norm "borda") eqn:H0; [discriminate|].
  destruct (String.eqb norm "max") eqn:H1.
  { apply String.eqb_eq in H1. subst norm. inversion Hf; subst f. eapply (Hgen _ _ (new_run (r_name x))); [|exact H]. exact (map_results_keeps _). }
  destruct (String.eqb norm "min_max" || String.eqb norm "min-max") eqn:H2.
  { inversion Hf; subst f. replace (String.eqb norm "min_max_inverted" || String.eqb norm "min-max-inverted") with false.
    - eapply (Hgen _ _ (new_run (r_name x))); [|exact H]. exact (map_results_keeps _).
    - apply orb_prop in H2 as [H2|H2]; apply String.eqb_eq in H2; subst; reflexivity. }
  destruct (String.eqb norm "min_max_inverted" || String.eqb norm "min-max-inverted") eqn:H3.
  { inversion Hf; subst f. eapply (Hgen _ _ (fun m => Run_sort E (new_run (r_name x) m))); [|exact H]. exact (map_results_keeps _). }
  destruct (String.eqb norm "rank") eqn:H4.
  { inversion Hf; subst f. eapply (Hgen _ _ (new_run (r_name x))); [|exact H]. exact rank_norm_keeps. }
  destruct (String.eqb norm "sum") eqn:H5.
  { inversion Hf; subst f. eapply (Hgen _ _ (new_run (r_name x))); [|exact H]. exact (map_results_keeps _). }
  destruct (String.eqb norm "zmuv") eqn:H6; [|discriminate].
  inversion Hf; subst f. eapply (Hgen _ _ (new_run (r_name x))); [|exact H]. exact (map_results_keeps _).
Qed.
End G.

(** ** what normalisation preserves *)
Definition same_content (x y : Run NumR) : Prop :=
  a_run y /\ (forall q, has_query y q <-> has_query x q) /\ (forall q d, retrieves y q d <-> retrieves x q d).
Lemma same_docs_content x m : a_run x -> same_docs (N := NumR) (r_map x) m -> same_content x (@new_run NumR (r_name x) m).
Proof.
  intros Hx (Hk & Hok & Hd). split; [exact Hok|]. split.
  - intros q. unfold has_query. cbn [new_run r_map]. exact (eq_ind_r (fun l => In q l <-> In q (dkeys (r_map x))) (iff_refl _) Hk).
  - intros q d. rewrite !retrieves_key. exact (eq_ind_r (fun l => In d l <-> In d (dkeys (results_of x q))) (iff_refl _) (Hd q)).
Qed.
Lemma sort_content (E : env NumR) x y : env_ok E -> same_content x y -> same_content x (Run_sort E y).
Proof.
  intros HE (H1 & H2 & H3). split; [now apply sort_a_run|]. split.
  - intros q. rewrite sort_has_query by exact H1. apply H2.
  - intros q d. unfold retrieves. rewrite sort_score by auto. apply H3.
Qed.
Lemma content_union xs ys : Forall2 same_content xs ys -> fusable xs ->
  fusable ys /\ (forall q d, candidate ys q d <-> candidate xs q d) /\ forall y, union_of ys y -> union_of xs y.
Proof.
  intros HF (Hne & Ha & Hs).
  assert (Hyx : forall y, In y ys -> exists x, In x xs /\ same_content x y).
  { clear - HF. induction HF as [|x y xs ys H HF IH]; [easy|]. intros z [<-|Hz]; [exists x; split; [now left|auto]|].
    destruct (IH z Hz) as (x' & Hx' & Hc). exists x'. split; [now right|auto]. }
  assert (Hxy : forall x, In x xs -> exists y, In y ys /\ same_content x y).
  { clear - HF. induction HF as [|x y xs ys H HF IH]; [easy|]. intros z [<-|Hz]; [exists y; split; [now left|auto]|].
    destruct (IH z Hz) as (x' & Hx' & Hc). exists x'. split; [now right|auto]. }
  assert (Hc : forall q d, candidate ys q d <-> candidate xs q d).
  { intros q d. split; intros (z & Hz & Hd).
    - destruct (Hyx z Hz) as (x & Hx & _ & _ & Hr). exists x. split; auto. now apply Hr.
    - destruct (Hxy z Hz) as (y & Hy & _ & _ & Hr). exists y. split; auto. now apply Hr. }
  assert (Hfus : fusable ys).
  { split; [|split].
    - inversion HF; subst; [easy|discriminate].
    - apply Forall_forall. intros y Hy. destruct (Hyx y Hy) as (x & _ & H & _). exact H.
    - intros y y' q Hy Hy' Hq. destruct (Hyx y Hy) as (x & Hx & _ & H1 & _). destruct (Hyx y' Hy') as (x' & Hx' & _ & H2 & _).
      apply H2. apply (Hs x x' q Hx Hx'). now apply H1. }
  split; [exact Hfus|]. split; [exact Hc|]. intros y (H1 & H2 & H3). split; [exact H1|]. split.
  - intros x q Hx. destruct (Hxy x Hx) as (z & Hz & _ & Hq & _). now rewrite (H2 z q Hz), Hq.
  - intros q d. now rewrite H3, Hc.
Qed.

Section U.
Context (E : env NumR) (HE : env_ok E) (pysort : (nat -> nat -> bool) -> list nat -> list nat) (Hsort : sorter_ok pysort).

Lemma combines_union xs y : fusable xs -> combines (N := NumR) E xs y -> union_of xs y /\ queries_sorted y /\ ranked y.
Proof.
  intros (Hne & Ha & Hs) (tag & formula & name & ms & Hc & HF).
  unfold comb in Hc. apply bindr_ok in Hc as (out & Hout & Hy). inversion Hy as [Hy']. clear Hy Hy'.
  assert (Hmx : forall m, In m ms -> exists x, In x xs /\ same_docs (N := NumR) (r_map x) m).
  { clear - HF. induction HF as [|x y xs ys H HF IH]; [easy|]. intros z [<-|Hz]; [exists x; split; [now left|auto]|].
    destruct (IH z Hz) as (x' & Hx' & Hc). exists x'. split; [now right|auto]. }
  assert (Hxm : forall x, In x xs -> exists m, In m ms /\ same_docs (N := NumR) (r_map x) m).
  { clear - HF. induction HF as [|x y xs ys H HF IH]; [easy|]. intros z [<-|Hz]; [exists y; split; [now left|auto]|].
    destruct (IH z Hz) as (x' & Hx' & Hc). exists x'. split; [now right|auto]. }
  apply (comb_parallel_docs (N := NumR) E HE) in Hout as (m0 & ms' & Hms & Hk & Hok & Hq).
  2:{ intros m Hm. destruct (Hmx m Hm) as (x & _ & _ & Hd & _). apply Hd. }
  set (z := @new_run NumR (Some name) out).
  assert (Hz : a_run z) by exact Hok.
  assert (Hhas : forall x q, In x xs -> (has_query z q <-> has_query x q)).
  { intros x q Hx. assert (Hm0 : In m0 ms) by (rewrite Hms; now left). destruct (Hmx m0 Hm0) as (x0 & Hx0 & Hk0 & _).
    assert (H1 : has_query z q <-> has_query x0 q).
    { unfold has_query, z. cbn [new_run r_map]. pose proof (eq_trans Hk Hk0) as Hkk. exact (eq_ind_r (fun l => In q l <-> In q (dkeys (r_map x0))) (iff_refl _) Hkk). }
    rewrite H1. split; intros H; [exact (Hs x0 x q Hx0 Hx H)|exact (Hs x x0 q Hx Hx0 H)]. }
  assert (Hret : forall q d, retrieves z q d <-> candidate xs q d).
  { assert (Hnq : forall q d, has_query z q -> (retrieves z q d <-> candidate xs q d)).
    { intros q d Hzq. assert (Hq0 : In q (dkeys m0)) by exact (eq_ind _ (fun l => In q l) Hzq _ Hk). destruct (Hq q Hq0) as [_ Hd].
      rewrite retrieves_key. transitivity (has_doc (map (fun m => ofq m q) ms) d = true); [exact (Hd d)|].
      rewrite has_doc_in. split.
      - intros (r & Hr & Hin). apply in_map_iff in Hr as (m & <- & Hm). destruct (Hmx m Hm) as (x & Hx & _ & _ & Hdx). exists x. split; auto.
        apply retrieves_key. exact (eq_ind _ (fun l => In d l) Hin _ (Hdx q)).
      - intros (x & Hx & Hin). destruct (Hxm x Hx) as (m & Hm & _ & _ & Hdx). exists (ofq m q). split; [apply in_map_iff; eauto|].
        apply retrieves_key in Hin. exact (eq_ind_r (fun l => In d l) Hin (Hdx q)). }
    intros q d. split; intros H.
    - apply (Hnq q d); auto. destruct H as [s H]. now apply score_has_query in H.
    - apply (Hnq q d); auto. destruct H as (x & Hx & s & Hd). apply (Hhas x q Hx). now apply score_has_query in Hd. }
  split; [|split; [now apply sort_queries_sorted|now apply sort_ranked]]. split; [now apply sort_a_run|]. split.
  - intros x q Hx. rewrite sort_has_query by exact Hz. now apply Hhas.
  - intros q d. unfold retrieves. rewrite sort_score by auto. apply Hret.
Qed.

Lemma cond_like_union xs y beats : condorcet_like xs y beats -> union_of xs y /\ ranked y.
Proof. intros (H1 & H2 & H3 & H4 & _). split; auto. split; auto. Qed.

Lemma fusion_union xs y beats : fusion_of xs y beats -> union_of xs y /\ queries_sorted y /\ ranked y.
Proof. intros (H1 & H2 & H3 & _ & H5 & H6). split; auto. split; auto. Qed.

Lemma condorcet_union xs lt f name y : fusable xs ->
  (forall q r, f (map (fun x => dkeys (results_of x q)) xs) (cands_of E (maps xs) q) = Ok r ->
     f (map (fun x => dkeys (results_of x q)) xs) (cands_of E (maps xs) q) = Ok (cond_res E pysort lt xs q)) ->
  (forall res, f res [] = Ok []) ->
  @condorcet_with NumR E f xs name = Ok y -> union_of xs y /\ ranked y.
Proof.
  intros Hxs Hf Hnil Hy. pose proof Hxs as (Hne & Ha & Hs). destruct xs as [|x0 xs0] eqn:Hx; [easy|]. rewrite <- Hx in *.
  assert (Hx0 : In x0 xs) by (rewrite Hx; now left).
  assert (Hin : forall q, In q (dkeys (r_map x0)) -> exists r, f (map (fun x => dkeys (results_of x q)) xs) (cands_of E (maps xs) q) = Ok r).
  { intros q Hq. apply (condorcet_with_inv (N := NumR) E f xs name y x0 xs0 Hx); auto. intros q' x Hq' Hxx. exact (Hs x0 x q' Hx0 Hxx Hq'). }
  destruct (condorcet_like_ok E HE pysort Hsort lt f xs name (fun _ _ _ => False) Hxs) as (y' & Hy' & _ & Hl); auto.
  - intros q. destruct (in_dec string_dec q (dkeys (r_map x0))) as [Hq|Hq].
    + destruct (Hin q Hq) as [r Hr]. eapply Hf; eauto.
    + assert (Hc : cands_of E (maps xs) q = []).
      { destruct (cands_of E (maps xs) q) as [|d c] eqn:Hc; auto. exfalso. apply Hq. eapply (candidate_query xs q d x0); auto.
        apply (cands_candidates E HE xs q). rewrite Hc. now left. }
      apply (Hf q []). rewrite Hc. apply Hnil.
  - rewrite Hy in Hy'. inversion Hy'. subst y'. now apply (cond_like_union xs y (fun _ _ _ => False)).
Qed.
Lemma pysort_nil lt : pysort lt [] = [].
Proof. destruct (Hsort lt []) as [Hp _]. apply Permutation_sym in Hp. now apply Permutation_nil in Hp. Qed.

Lemma switch_union xs method ps f y : fusable xs -> (method = "bordafuse" \/ method = "w_bordafuse" -> same_query_order xs) ->
  @fusion_switch NumR E pysort method = Ok f -> f xs ps = Ok y ->
  union_of xs y /\ ranked y /\ (method <> "condorcet" -> method <> "w_condorcet" -> queries_sorted y).
Proof.
  intros Hxs Hord Hf Hy. pose proof Hxs as (Hne & Ha & Hs).
  destruct (fusion_switch_inv (N := NumR) E HE pysort method f xs ps y Ha Hf Hy) as [H|[(Hm & nm & H)|[(Hm & ws & nm & H)|[(Hm & nm & H)|(Hm & ws & nm & H)]]]].
  - destruct (combines_union xs y Hxs H) as (H1 & H2 & H3). auto.
  - destruct (C46_bordafuse E HE xs nm Hxs (Hord (or_introl Hm))) as (y' & Hy' & _ & Hfu & _). rewrite H in Hy'. inversion Hy'; subst y'.
    apply fusion_union in Hfu as (H1 & H2 & H3). auto.
  - (* the weights may be too many or too few *)
    unfold weighted_bordafuse in H. rewrite (borda_scores_ok (N := NumR) E HE xs Hne Ha (Hord (or_intror Hm))) in H. cbn [bindr] in H.
    destruct (borda_comb E HE "_weighted_sum" (fun _ _ => Ok 0%R) nm xs (fun _ _ => 0%R) Hxs (Hord (or_intror Hm))) as (y0 & Hy0 & _ & Hf0); [reflexivity|].
    rewrite (borda_scores_ok (N := NumR) E HE xs Hne Ha (Hord (or_intror Hm))) in Hy0. cbn [bindr] in Hy0.
    set (ms := map (fun x => @borda_ms NumR E (maps xs) (r_map x)) xs) in *.
    unfold comb in H, Hy0. apply bindr_ok in H as (out & Hout & H). inversion H as [Hy']. apply bindr_ok in Hy0 as (out0 & Hout0 & H0). inversion H0 as [Hy0'].
    assert (Hok : forall m, In m ms -> dict_ok m).
    { intros m Hm'. apply in_map_iff in Hm' as (x & <- & Hx). rewrite Forall_forall in Ha. 
      exact (eq_ind_r (fun l => NoDup l) (proj1 (Ha x Hx)) (borda_ms_keys (N := NumR) E (maps xs) (r_map x))). }
    apply (comb_parallel_docs (N := NumR) E HE _ _ _ _ Hok) in Hout as (m0 & ms' & Hms & Hk & Hok2 & Hq).
    apply (comb_parallel_docs (N := NumR) E HE _ _ _ _ Hok) in Hout0 as (m0' & ms'' & Hms' & Hk' & Hok2' & Hq').
    rewrite Hms in Hms'. inversion Hms'; subst m0' ms''.
    assert (Hc : same_content (@new_run NumR (Some nm) out0) (@new_run NumR (Some nm) out)).
    { assert (Hkk : dkeys out = dkeys out0) by exact (eq_trans Hk (eq_sym Hk')).
      split; [exact Hok2|]. split.
      - intros q. unfold has_query. cbn [new_run r_map]. exact (eq_ind_r (fun l => In q l <-> In q (dkeys out0)) (iff_refl _) Hkk).
      - intros q d.
        assert (Hgen : forall q, In q (dkeys m0) -> (retrieves (@new_run NumR (Some nm) out) q d <-> retrieves (@new_run NumR (Some nm) out0) q d)).
        { intros q1 Hq1. rewrite !retrieves_key. destruct (Hq q1 Hq1) as [_ Hd]. destruct (Hq' q1 Hq1) as [_ Hd'].
          transitivity (has_doc (map (fun m => ofq m q1) ms) d = true); [exact (Hd d)|symmetry; exact (Hd' d)]. }
        split; intros [s Hsc]; apply Hgen; try (now exists s); pose proof (score_has_query _ _ _ _ Hsc) as Hh; unfold has_query in Hh; cbn [new_run r_map] in Hh.
        + exact (eq_ind _ (fun l => In q l) Hh _ Hk).
        + exact (eq_ind _ (fun l => In q l) Hh _ Hk'). }
    assert (Hu : union_of xs (Run_sort E (@new_run NumR (Some nm) out))).
    { destruct (proj1 (fusion_union xs y0 _ Hf0)) as (U1 & U2 & U3). rewrite <- Hy0' in U1, U2, U3. destruct Hc as (C1 & C2 & C3).
      split; [now apply sort_a_run|]. split.
      - intros x q Hx. rewrite sort_has_query by exact C1. rewrite C2. rewrite <- (U2 x q Hx). symmetry. apply sort_has_query. exact Hok2'.
      - intros q d. unfold retrieves at 1. rewrite sort_score by auto. fold (retrieves (@new_run NumR (Some nm) out) q d). rewrite C3, <- U3.
        unfold retrieves at 2. rewrite sort_score by auto. reflexivity. }
    split; [exact Hu|]. split; [apply sort_ranked; auto; exact Hok2|]. intros _ _. apply sort_queries_sorted. exact Hok2.
  - destruct (condorcet_union xs condorcet_lt (@_condorcet NumR pysort) nm y Hxs) as [H1 H2]; auto.
    + intros q r _. unfold _condorcet. apply (score_by_order_ok (N := NumR)); [now apply cands_of_nodup|apply Hsort].
    + intros res. unfold _condorcet. cbn [length seq]. rewrite pysort_nil. reflexivity.
    + split; [exact H1|]. split; [exact H2|]. congruence.
  - destruct (condorcet_union xs (@wcondorcet_lt NumR ws) (@_wcondorcet NumR pysort ws) nm y Hxs) as [H1 H2]; auto.
    + intros q r Hr. unfold _wcondorcet in Hr |- *.
      assert (Hgen : forall (b : bool) (X : result (dict R)) r0 r1, (if b then Err IndexError else X) = Ok r0 -> X = Ok r1 -> (if b then Err IndexError else X) = Ok r1)
        by (intros [|] X r0 r1 H0 H1; [discriminate|exact H1]).
      refine (Hgen _ _ _ _ Hr _).
      apply (score_by_order_ok (N := NumR)); [now apply cands_of_nodup|apply Hsort].
    + intros res. unfold _wcondorcet. cbn [length seq]. rewrite pysort_nil. reflexivity.
    + split; [exact H1|]. split; [exact H2|]. congruence.
Qed.

Lemma same_keys_sets xs : Forall a_run xs -> same_keys_check xs = true <-> same_query_sets xs.
Proof.
  intros Ha. induction Ha as [|x xs Hx Ha IH]; cbn [same_keys_check].
  - split; auto. intros _ x x' q [].
  - rewrite andb_true_iff, IH, forallb_forall. split.
    + intros [H1 H2]. assert (Hk : forall y q, In y xs -> (has_query x q <-> has_query y q)).
      { intros y q Hy. specialize (H1 y Hy). exact (proj1 (keys_eqb_spec (r_map x) (r_map y)) H1 q). }
      intros a b q [<-|Haa] [<-|Hbb] Hq; auto.
      * now apply (Hk b q).
      * now apply (Hk a q).
      * exact (H2 a b q Haa Hbb Hq).
    + intros H. split.
      * intros y Hy. refine (proj2 (keys_eqb_spec (r_map x) (r_map y)) _). intros q. split; intros Hq; [apply (H x y q)|apply (H y x q)]; auto; now (left + right).
      * intros a b q Haa Hbb. apply H; now right.
Qed.

Lemma norm_fusable xs norm ys : fusable xs -> (norm = Some "borda" -> same_query_order xs) ->
  normalize_runs E xs norm = Ok ys ->
  fusable ys /\ (forall q d, candidate ys q d <-> candidate xs q d) /\ (forall y, union_of ys y -> union_of xs y) /\
  (same_query_order xs -> same_query_order ys).
Proof.
  intros Hxs Hb H. pose proof Hxs as (Hne & Ha & Hs). destruct norm as [n|]; cbn [normalize_runs] in H.
  2:{ inversion H; subst. split; auto. split; [tauto|]. auto. }
  destruct (String.eqb n "borda") eqn:Hn.
  - apply String.eqb_eq in Hn. subst n. specialize (Hb eq_refl).
    destruct (C41_borda E HE xs Hne Ha Hb) as (ys' & Hys' & HF). cbn [normalize_runs String.eqb Ascii.eqb Bool.eqb] in Hys'.
    pose proof (borda_norm_R E HE xs Hne Ha Hb) as HR. rewrite H in Hys', HR. inversion Hys'; subst ys'. inversion HR as [HR'].
    assert (Hord : same_query_order ys).
    { intros a b Haa Hbb. rewrite HR' in Haa, Hbb. apply in_map_iff in Haa as (x & <- & Hx). apply in_map_iff in Hbb as (x' & <- & Hx').
      assert (Hk : forall x, dkeys (r_map (borda_run E xs x)) = dkeys (r_map x)).
      { intros z. unfold borda_run. cbn [new_run r_map]. unfold dkeys. now rewrite map_map. }
      rewrite !Hk. now apply Hb. }
    rewrite <- HR'.
    assert (Hyx : forall y, In y ys -> exists x, In x xs /\ a_run y /\ (forall q, has_query y q <-> has_query x q) /\ forall q d, retrieves y q d <-> candidate xs q d).
    { assert (Hgen : forall l l', (forall x, In x l -> In x xs) -> Forall2 (fun x y =>
        a_run y /\ r_name y = r_name x /\ (forall q, has_query y q <-> has_query x q) /\
        forall q cs, has_query x q -> candidates_are xs q cs ->
          let n := INR (length cs) in let r := INR (length (results_of x q)) in
          (forall d i, at_position x q d i -> score_of y q d = Some (1 - INR i / n)%R) /\
          (forall d, In d cs -> ~ retrieves x q d -> score_of y q d = Some (1 / 2 - (r - 1) / (2 * n))%R) /\
          (forall d, ~ In d cs -> score_of y q d = None) /\
          (cs <> [] -> Rsum (scores_for y q) = ((n + 1) / 2)%R) /\
          (forall d d' v v', retrieves x q d -> ~ retrieves x q d' ->
             score_of y q d = Some v -> score_of y q d' = Some v' -> (v' < v)%R)) l l' ->
        forall y, In y l' -> exists x, In x xs /\ a_run y /\ (forall q, has_query y q <-> has_query x q) /\ forall q d, retrieves y q d <-> candidate xs q d).
      { intros l l' Hl HF'. induction HF' as [|x y l l' (H1 & _ & H3 & H4) HF' IH]; [easy|]. intros z [<-|Hz].
        2:{ apply IH; auto. intros; apply Hl; now right. }
        exists x. assert (Hx : In x xs) by (apply Hl; now left). split; [exact Hx|]. split; [exact H1|]. split; [exact H3|].
        intros q d. pose proof (cands_candidates E HE xs q) as Hcs. split.
        - intros [s Hsc]. apply score_has_query in Hsc as Hh. apply H3 in Hh. destruct (H4 q _ Hh Hcs) as (_ & _ & Hno & _).
          destruct (in_dec string_dec d (cands_of E (maps xs) q)) as [Hi|Hi]; [now apply Hcs|]. rewrite (Hno d Hi) in Hsc. discriminate.
        - intros Hc. assert (Hh : has_query x q) by (eapply candidate_query; eauto). destruct (H4 q _ Hh Hcs) as (Hp1 & Hp2 & _).
          destruct (in_dec string_dec d (dkeys (results_of x q))) as [Hi|Hi].
          + apply In_nth_error in Hi as [i Hi]. eexists. apply (Hp1 d i Hi).
          + eexists. apply (Hp2 d); [now apply Hcs|]. now rewrite retrieves_key. }
      apply (Hgen xs ys); auto. }
    assert (Hne' : ys <> []) by (rewrite HR'; destruct xs; [easy|discriminate]).
    assert (Hin0 : exists y0, In y0 ys) by (destruct ys as [|y0 ?]; [easy|exists y0; now left]).
    assert (Hc : forall q d, candidate ys q d <-> candidate xs q d).
    { intros q d. split.
      - intros (y & Hy & Hd). destruct (Hyx y Hy) as (x & _ & _ & _ & Hr). now apply Hr.
      - intros Hc. destruct Hin0 as [y0 Hy0]. destruct (Hyx y0 Hy0) as (x & _ & _ & _ & Hr). exists y0. split; auto. now apply Hr. }
    split; [|split; [exact Hc|split; [|auto]]].
    + split; [exact Hne'|]. split.
      * apply Forall_forall. intros y Hy. destruct (Hyx y Hy) as (x & _ & H1 & _). exact H1.
      * intros a b q Haa Hbb Hq. destruct (Hyx a Haa) as (x & Hx & _ & H1 & _). destruct (Hyx b Hbb) as (x' & Hx' & _ & H2 & _).
        apply H2. apply (Hs x x' q Hx Hx'). now apply H1.
    + intros z (U1 & U2 & U3). split; [exact U1|]. split.
      * intros x q Hx. destruct Hin0 as [y0 Hy0]. destruct (Hyx y0 Hy0) as (x' & Hx' & _ & H2 & _). rewrite (U2 y0 q Hy0), H2.
        split; intros Hq; [apply (Hs x' x q)|apply (Hs x x' q)]; auto.
      * intros q d. now rewrite U3, Hc.
  - assert (HF : Forall2 (fun x y => exists m, same_docs (N := NumR) (r_map x) m /\ y = if inverted n then Run_sort E (@new_run NumR (r_name x) m) else @new_run NumR (r_name x) m) xs ys).
    { apply map_m_inv in H. clear - H Ha HE. induction H as [|x y xs ys Hxy H IH]; [constructor|]. inversion_clear Ha.
      constructor; auto. eapply (norm_inv (N := NumR)); eauto. }
    assert (HC : Forall2 same_content xs ys).
    { clear - HF Ha HE. induction HF as [|x y xs ys (m & Hm & ->) HF IH]; [constructor|]. inversion_clear Ha. constructor; auto.
      apply same_docs_content in Hm; auto. destruct (inverted n); auto. now apply sort_content. }
    destruct (content_union xs ys HC Hxs) as (H1 & H2 & H3). split; [exact H1|]. split; [exact H2|]. split; [exact H3|]. intros Ho.
    destruct (inverted n) eqn:Hi.
    + apply sorted_same_order; try apply H1. apply Forall_forall. intros y Hy.
      assert (Hex : exists x m, a_run x /\ same_docs (N := NumR) (r_map x) m /\ y = Run_sort E (@new_run NumR (r_name x) m)).
      { clear - HF Hy Ha. induction HF as [|x y' xs ys (m & Hm & ->) HF IH]; [easy|]. inversion_clear Ha. destruct Hy as [<-|Hy]; [exists x, m; auto|auto]. }
      destruct Hex as (x & m & Hx & Hm & ->). apply sort_queries_sorted. apply (same_docs_content x m Hx Hm).
    + assert (Hex : forall y, In y ys -> exists x, In x xs /\ dkeys (r_map y) = dkeys (r_map x)).
      { clear - HF. induction HF as [|x y' xs ys (m & Hm & ->) HF IH]; [easy|]. intros y [<-|Hy].
        - exists x. split; [now left|]. exact (proj1 Hm).
        - destruct (IH y Hy) as (z & Hz & Hk). exists z. split; [now right|auto]. }
      intros a b Haa Hbb. destruct (Hex a Haa) as (x & Hx & Hk). destruct (Hex b Hbb) as (x' & Hx' & Hk'). rewrite Hk, Hk'. now apply Ho.
Qed.
End U.

(** ** C42 *)
Theorem C42_fuse_union : forall (E : env NumR) pysort, env_ok E -> sorter_ok pysort ->
  forall xs norm method ps y, Forall a_run xs ->
  (norm = Some "borda" \/ method = "bordafuse" \/ method = "w_bordafuse" -> same_query_order xs) ->
  fuse E pysort xs norm method ps = Ok y -> union_of xs y.
Proof.
  intros E pysort HE Hsort xs norm method ps y Ha Hord H. unfold fuse in H.
  apply bindr_ok in H as (u1 & H1 & H). apply bindr_ok in H as (u2 & H2 & H). apply bindr_ok in H as (ys & H3 & H). apply bindr_ok in H as (f & Hf & Hy).
  assert (Hl : 1 <? length xs = true) by (destruct (1 <? length xs); [reflexivity|discriminate]).
  assert (Hk : same_keys_check xs = true) by (destruct (same_keys_check xs); [reflexivity|discriminate]).
  assert (Hxs : fusable xs).
  { split; [destruct xs; [discriminate|easy]|]. split; auto. now apply same_keys_sets. }
  destruct (norm_fusable E HE xs norm ys Hxs (fun e => Hord (or_introl e)) H3) as (Hys & _ & Hu & Ho). apply Hu.
  eapply (switch_union E HE pysort Hsort ys method ps f y Hys); eauto.
Qed.

(** ** C50 *)
Theorem C50_fuse_sorted : forall (E : env NumR) pysort, env_ok E -> sorter_ok pysort ->
  forall xs norm method ps y, Forall a_run xs ->
  (norm = Some "borda" \/ method = "bordafuse" \/ method = "w_bordafuse" -> same_query_order xs) ->
  fuse E pysort xs norm method ps = Ok y ->
  ranked y /\ (method <> "condorcet" -> method <> "w_condorcet" -> queries_sorted y).
Proof.
  intros E pysort HE Hsort xs norm method ps y Ha Hord H. unfold fuse in H.
  apply bindr_ok in H as (u1 & H1 & H). apply bindr_ok in H as (u2 & H2 & H). apply bindr_ok in H as (ys & H3 & H). apply bindr_ok in H as (f & Hf & Hy).
  assert (Hl : 1 <? length xs = true) by (destruct (1 <? length xs); [reflexivity|discriminate]).
  assert (Hk : same_keys_check xs = true) by (destruct (same_keys_check xs); [reflexivity|discriminate]).
  assert (Hxs : fusable xs).
  { split; [destruct xs; [discriminate|easy]|]. split; auto. now apply same_keys_sets. }
  destruct (norm_fusable E HE xs norm ys Hxs (fun e => Hord (or_introl e)) H3) as (Hys & _ & _ & Ho).
  eapply (switch_union E HE pysort Hsort ys method ps f y Hys); eauto.
Qed.

(** ** C51 *)
Theorem C51_few_runs : forall (E : env NumR) pysort xs norm method ps, length xs < 2 ->
  fuse E pysort xs norm method ps = Err AssertionError.
Proof.
  intros E pysort xs norm method ps H. unfold fuse. assert (Hl : 1 <? length xs = false) by (apply Nat.ltb_ge; lia). now rewrite Hl.
Qed.
Theorem C51_different_queries : forall (E : env NumR) pysort xs norm method ps, Forall a_run xs ->
  (exists x x' q, In x xs /\ In x' xs /\ has_query x q /\ ~ has_query x' q) ->
  fuse E pysort xs norm method ps = Err AssertionError.
Proof.
  intros E pysort xs norm method ps Ha (x & x' & q & Hx & Hx' & Hq & Hq'). unfold fuse.
  destruct (1 <? length xs); [|reflexivity]. cbn [assertr bindr].
  assert (Hk : same_keys_check xs = false).
  { destruct (same_keys_check xs) eqn:Hk; auto. exfalso. apply Hq'. apply (proj1 (same_keys_sets xs Ha) Hk x x' q); auto. }
  now rewrite Hk.
Qed.
Theorem C51_unknown_norm : forall (E : env NumR) pysort xs n method ps, fusable xs -> 2 <= length xs ->
  ~ In n ("borda" :: single_norms) -> fuse E pysort xs (Some n) method ps = Err ValueError.
Proof.
  intros E pysort xs n method ps (Hne & Ha & Hs) Hl Hn. unfold fuse. assert (Hl' : 1 <? length xs = true) by (apply Nat.ltb_lt; lia).
  rewrite Hl', (proj2 (same_keys_sets xs Ha) Hs). cbn [assertr bindr normalize_runs].
  assert (Hneq : forall s, In s ("borda" :: single_norms) -> String.eqb n s = false).
  { intros s Hs'. apply String.eqb_neq. intros ->. easy. }
  rewrite (Hneq "borda") by now left. destruct xs as [|x xs]; [easy|]. cbn [map_m]. unfold normalize at 1, norm_switch.
  rewrite !Hneq by (unfold single_norms; cbn; auto 12). reflexivity.
Qed.
Theorem C51_unknown_method : forall (E : env NumR) pysort xs norm ys method ps, fusable xs -> 2 <= length xs ->
  normalize_runs E xs norm = Ok ys -> ~ In method fusion_methods -> fuse E pysort xs norm method ps = Err ValueError.
Proof.
  intros E pysort xs norm ys method ps (Hne & Ha & Hs) Hl Hn Hm. unfold fuse. assert (Hl' : 1 <? length xs = true) by (apply Nat.ltb_lt; lia).
  rewrite Hl', (proj2 (same_keys_sets xs Ha) Hs). cbn [assertr bindr]. rewrite Hn. cbn [bindr].
  assert (Hneq : forall s, In s fusion_methods -> String.eqb method s = false).
  { intros s Hs'. apply String.eqb_neq. intros ->. easy. }
  unfold fusion_switch. rewrite !Hneq by (unfold fusion_methods; cbn; auto 30). reflexivity.
Qed.
(** with valid inputs: the method called [method], with its parameters, on the normalised runs *)
Theorem C51_dispatch : forall (E : env NumR) pysort xs norm ys, fusable xs -> 2 <= length xs -> normalize_runs E xs norm = Ok ys ->
  let fuse' := fuse E pysort xs norm in
  fuse' "sum" [] = comb_sum E ys "comb_sum" /\
  fuse' "max" [] = comb_max E ys "comb_max" /\
  fuse' "min" [] = comb_min E ys "comb_min" /\
  fuse' "med" [] = comb_med E ys "comb_med" /\
  fuse' "anz" [] = comb_anz E ys "comb_anz" /\
  fuse' "mnz" [] = comb_mnz E ys "comb_mnz" /\
  (forall g, fuse' "gmnz" [("gamma", PF g)] = comb_gmnz E ys g "comb_gmnz") /\
  fuse' "isr" [] = isr E ys "isr" /\
  fuse' "log_isr" [] = log_isr E ys "log_isr" /\
  (forall s, fuse' "logn_isr" [("sigma", PF s)] = logn_isr E ys s "logn_isr") /\
  (forall k, fuse' "rrf" [("k", PZ k)] = rrf E ys k "rrf") /\
  fuse' "rrf" [] = rrf E ys 60 "rrf" /\
  (forall p, fuse' "rbc" [("phi", PF p)] = rbc E ys p "rbc") /\
  fuse' "bordafuse" [] = bordafuse E ys "bordafuse" /\
  fuse' "condorcet" [] = condorcet E pysort ys "condorcet" /\
  (forall ws, fuse' "wsum" [("weights", PL ws)] = wsum E ys ws "weighted_sum" /\
              fuse' "wmnz" [("weights", PL ws)] = wmnz E ys ws "wmnz" /\
              fuse' "mixed" [("weights", PL ws)] = mixed E ys ws "mixed" /\
              fuse' "w_bordafuse" [("weights", PL ws)] = weighted_bordafuse E ys ws "weighted_bordafuse" /\
              fuse' "w_condorcet" [("weights", PL ws)] = weighted_condorcet E pysort ys ws "weighted_condorcet" /\
              fuse' "mapfuse" [("map_scores", PL ws)] = mapfuse E ys ws "mapfuse") /\
  (forall pr, fuse' "posfuse" [("probs", PLL pr)] = posfuse E ys pr "posfuse" /\
              fuse' "probfuse" [("probs", PLL pr)] = probfuse E ys pr "probfuse" /\
              fuse' "segfuse" [("probs", PLL pr)] = segfuse E ys pr "segfuse" /\
              fuse' "bayesfuse" [("log_odds", PLL pr)] = bayesfuse E ys pr "bayesfuse" /\
              forall w, fuse' "slidefuse" [("probs", PLL pr); ("w", PZ w)] = slidefuse E ys pr w "slidefuse").
Proof.
  intros E pysort xs norm ys (Hne & Ha & Hs) Hl Hn.
  assert (H : forall method ps f, @fusion_switch NumR E pysort method = Ok f -> fuse E pysort xs norm method ps = f ys ps).
  { intros method ps f Hf. unfold fuse. assert (Hl' : 1 <? length xs = true) by (apply Nat.ltb_lt; lia).
    rewrite Hl', (proj2 (same_keys_sets xs Ha) Hs). cbn [assertr bindr]. rewrite Hn. cbn [bindr]. rewrite Hf. reflexivity. }
  cbv zeta. repeat apply conj; intros; try (repeat apply conj; intros); (etransitivity; [apply H; reflexivity|reflexivity]).
Qed.
