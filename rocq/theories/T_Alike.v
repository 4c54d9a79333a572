(** T_Alike.v: runs that rank alike fuse to that ranking (C99) *)
From Coq Require Import Reals Lra Psatz.
From Verif Require Import Base Dict Num NumLaws Env EnvEx M_Common M_Qrels M_Run M_History M_Metrics M_Strings M_Evaluate M_Norm M_Fusion
  Spec_DS Spec_Hist Spec_Metrics Spec_Eval Spec_Norm Spec_Fusion Spec_Unanimity Spec_Local Spec_Alike
  P_Base P_Dict P_Common P_History P_DS P_Metrics P_Eval P_Eval2 P_Eval3 P_Eval4 P_Eval5 P_Norm T_Norm T_Norm2 T_Norm3 P_Fusion P_Fusion2 P_Fusion3
  T_Fusion T_Fusion2 T_Fusion3 T_Fusion4 T_Fusion5 T_Fusion6 Ex_Metrics P_Unanimity T_Unanimity T_Scale Spec_Closure P_Closure T_Evaluate2 T_Closure P_Alike.
Open Scope string_scope.
Open Scope list_scope.
Open Scope nat_scope.

(** what the fused ranking must be *)
Definition expected (norm : option string) (ds : list string) : list string :=
  match norm with Some n => if inverted n then rev ds else ds | None => ds end.

Section F.
Context (E : env NumR) (HE : env_ok E) (pysort : (nat -> nat -> bool) -> list nat -> list nat) (Hsort : sorter_ok pysort).

Lemma norm_list_alike xs norm ys q ds : Forall a_run xs -> In norm single_norms -> map_m (fun x => normalize E x norm) xs = Ok ys ->
  (forall x, In x xs -> ranks_as x q ds) -> forall y, In y ys -> ranks_as y q (expected (Some norm) ds).
Proof.
  intros Ha Hn H. apply map_m_inv in H. induction H as [|x y xs ys Hy H IH]; intros Hr z Hz; [easy|].
  inversion_clear Ha. destruct Hz as [<-|Hz]; [|apply IH; auto; intros; apply Hr; now right].
  cbn [expected]. apply (norm_alike E HE x norm y q ds); auto. apply Hr. now left.
Qed.
Lemma borda_alike xs ys q ds : xs <> [] -> Forall a_run xs -> same_query_order xs -> normalize_runs E xs (Some "borda") = Ok ys ->
  NoDup ds -> (forall x, In x xs -> ranks_as x q ds) -> forall y, In y ys -> scores_as y q ds.
Proof.
  intros Hne Ha Ho H Hnd Hr y Hy. destruct (C41_borda E HE xs Hne Ha Ho) as (ys' & H' & HF). rewrite H in H'. injection H' as <-.
  destruct (F2_in_r _ _ _ _ HF Hy) as (x & Hx & Hay & _ & Hq & Hv).
  assert (Hax : a_run x) by (rewrite Forall_forall in Ha; auto).
  assert (Hcs : candidates_are xs q ds).
  { split; auto. intros d. split.
    - intros Hd. exists x. split; auto. apply retrieves_key. now rewrite (proj1 (Hr x Hx)).
    - intros (z & Hz & Hd). apply retrieves_key in Hd. now rewrite (proj1 (Hr z Hz)) in Hd. }
  destruct ds as [|d0 ds0] eqn:Hds.
  { split; [|intros a b (i & j & _ & Hi & _); now destruct i]. intros d. split; [|easy]. intros [s Hs]. exfalso.
    assert (Hqy : has_query y q). { unfold score_of, dget2 in Hs. unfold has_query. destruct (@dget (dict R) (r_map y) q) as [r|] eqn:Hg; [now apply dget_Some_key in Hg|discriminate]. }
    apply Hq in Hqy. destruct (Hv q [] Hqy Hcs) as (_ & _ & Hno & _). specialize (Hno d (fun f => f)). rewrite Hno in Hs. discriminate. }
  rewrite <- Hds in *. assert (Hne' : ds <> []) by (rewrite Hds; discriminate). clear Hds.
  assert (Hqx : has_query x q).
  { unfold has_query. assert (Hk := proj1 (Hr x Hx)). unfold results_of, of_query in Hk. destruct (@dget (dict R) (r_map x) q) as [r|] eqn:Hg; [now apply dget_Some_key in Hg|].
    exfalso. apply Hne'. symmetry. exact Hk. }
  destruct (Hv q ds Hqx Hcs) as (V1 & V2 & V3 & _).
  assert (Hat : forall d i, nth_error ds i = Some d -> score_of y q d = Some (1 - INR i / INR (length ds))%R).
  { intros d i Hi. apply V1. unfold at_position. now rewrite (proj1 (Hr x Hx)). }
  split.
  - intros d. split.
    + intros [s Hs]. destruct (in_dec string_dec d ds) as [|Hni]; auto. rewrite (V3 d Hni) in Hs. discriminate.
    + intros Hd. apply In_nth_error in Hd as [i Hi]. eexists. exact (Hat d i Hi).
  - intros a b (i & j & Hij & Hi & Hj). eexists. eexists. split; [exact (Hat a i Hi)|]. split; [exact (Hat b j Hj)|].
    assert (0 < INR (length ds))%R by (apply lt_0_INR; destruct ds; [easy|cbn; lia]). apply lt_INR in Hij.
    assert (INR i / INR (length ds) < INR j / INR (length ds))%R by (apply Rmult_lt_compat_r; [now apply Rinv_0_lt_compat|exact Hij]). lra.
Qed.

Lemma norm_from xs norm ys : Forall a_run xs -> norm <> Some "borda" -> normalize_runs E xs norm = Ok ys ->
  forall z, In z ys -> exists x, In x xs /\ forall q d, retrieves z q d <-> retrieves x q d.
Proof.
  intros Ha Hnb H z Hz. destruct norm as [n|]; cbn [normalize_runs] in H; [|injection H as <-; exists z; split; [exact Hz|tauto]].
  assert (Hb : String.eqb n "borda" = false) by (apply String.eqb_neq; intros ->; now apply Hnb). rewrite Hb in H.
  apply map_m_inv in H. destruct (F2_in_r _ _ _ _ H Hz) as (x & Hx & Hn). exists x. split; auto. rewrite Forall_forall in Ha. specialize (Ha x Hx).
  destruct (norm_inv (N := NumR) E HE x n z (Ha : dict2_ok (r_map x)) Hn) as (m & Hm & ->). pose proof (same_docs_content x m Ha Hm) as Hc.
  assert (Hc' : same_content x (if inverted n then Run_sort E (new_run (r_name x) m) else new_run (r_name x) m)) by (destruct (inverted n); [now apply sort_content|exact Hc]).
  apply Hc'.
Qed.
Lemma same_length x z p : a_run x -> a_run z -> (forall q d, retrieves z q d <-> retrieves x q d) -> length (results_of z p) = length (results_of x p).
Proof.
  intros Hx Hz H. rewrite <- (map_length fst (results_of z p)), <- (map_length fst (results_of x p)). apply Permutation_length.
  apply NoDup_Permutation; [exact (results_ok z p Hz)|exact (results_ok x p Hx)|]. intros d. pose proof (H p d) as Hd. rewrite !retrieves_key in Hd. exact Hd.
Qed.
Lemma filter_none {A} (f : A -> bool) l : (forall x, In x l -> f x = false) -> filter f l = [].
Proof. induction l as [|a l IH]; intros H; [reflexivity|]. cbn. rewrite (H a (or_introl eq_refl)). apply IH. intros; apply H; now right. Qed.

Lemma finish xs norm method ps y q ds : Forall a_run xs ->
  (norm = Some "borda" \/ method = "bordafuse" \/ method = "w_bordafuse" -> same_query_order xs) ->
  fuse E pysort xs norm method ps = Ok y -> NoDup ds -> (forall d, candidate xs q d <-> In d ds) ->
  (forall a b, before ds a b -> puts (fuse E pysort xs norm method ps) q a b) -> ranks_as y q ds.
Proof.
  intros Ha Ho H Hnd Hc Hp. destruct (C50_fuse_sorted E pysort HE Hsort xs norm method ps y Ha Ho H) as [Hrk _].
  destruct (C42_fuse_union E pysort HE Hsort xs norm method ps y Ha Ho H) as (Hay & _ & Hret). apply scores_ranks; auto. split; [intros d; now rewrite Hret|].
  intros a b Hab. destruct (Hp a b Hab) as (y' & sa & sb & Hy & H1 & H2 & H3). rewrite H in Hy. injection Hy as <-. now exists sa, sb.
Qed.
End F.

(** The runs agree on documents and order for [q]: so does the fused run, whatever normalisation
    (the inverted ones reverse the order) and method. *)
Theorem C99_fuse : forall (E : env NumR) pysort, env_ok E -> sorter_ok pysort ->
  forall xs norm method ps y q ds, Forall a_run xs -> short_results xs ->
  (norm = Some "borda" \/ method = "bordafuse" \/ method = "w_bordafuse" -> same_query_order xs) ->
  (forall x, In x xs -> ranks_as x q ds) ->
  by_scores (length xs) method ps \/ (norm <> Some "borda" /\ by_ranks (length xs) method ps) ->
  fuse E pysort xs norm method ps = Ok y ->
  (In norm keeping_norms -> ranks_as y q ds) /\ (In norm reversing_norms -> ranks_as y q (rev ds)).
Proof.
  intros E pysort HE Hsort xs norm method ps y q ds Ha Hsh Ho Hr Hm H.
  enough (Hmain : In norm (keeping_norms ++ reversing_norms) -> ranks_as y q (expected norm ds)).
  { split; intros Hn.
    - assert (He : expected norm ds = ds) by (cbn in Hn; decompose [or] Hn; subst; try contradiction; reflexivity). rewrite <- He. apply Hmain, in_or_app; auto.
    - assert (He : expected norm ds = rev ds) by (cbn in Hn; decompose [or] Hn; subst; try contradiction; reflexivity). rewrite <- He. apply Hmain, in_or_app; auto. }
  intros Hn. pose proof H as H0. unfold fuse in H0.
  apply bindr_ok in H0 as (u1 & H1 & H0). apply bindr_ok in H0 as (u2 & H2 & H0). apply bindr_ok in H0 as (ys & H3 & _).
  assert (Hl : 1 <? length xs = true) by (destruct (1 <? length xs); [reflexivity|discriminate]). apply Nat.ltb_lt in Hl.
  assert (Hk : same_keys_check xs = true) by (destruct (same_keys_check xs); [reflexivity|discriminate]).
  assert (Hxs : fusable xs).
  { split; [destruct xs; [cbn in Hl; lia|easy]|]. split; auto. now apply same_keys_sets. }
  destruct (norm_fusable E HE xs norm ys Hxs (fun e => Ho (or_introl e)) H3) as (Hys & Hcand & _ & Hord).
  assert (Hay : forall z, In z ys -> a_run z) by (destruct Hys as (_ & Hf & _); now rewrite Forall_forall in Hf).
  assert (Hx0 : exists x, In x xs) by (destruct xs as [|x l]; [cbn in Hl; lia|exists x; now left]). destruct Hx0 as [x0 Hx0].
  assert (Hax : forall z, In z xs -> a_run z) by now rewrite Forall_forall in Ha.
  assert (Hnd : NoDup ds) by (exact (ranks_nodup x0 q ds (Hax x0 Hx0) (Hr x0 Hx0))).
  assert (Hnd' : NoDup (expected norm ds)).
  { destruct norm as [n|]; cbn [expected]; [destruct (inverted n); [now apply NoDup_rev|exact Hnd]|exact Hnd]. }
  assert (Hlen : length ys = length xs).
  { destruct norm as [n|]; cbn [normalize_runs] in H3; [|now injection H3 as <-]. destruct (String.eqb n "borda") eqn:Hb.
    - destruct (C41_borda E HE xs (proj1 Hxs) Ha) as (ys' & H3' & HF); [apply Ho; left; apply String.eqb_eq in Hb; now subst|].
      cbn [normalize_runs String.eqb Ascii.eqb Bool.eqb] in H3'. rewrite H3 in H3'. injection H3' as <-. clear - HF. induction HF; cbn; auto.
    - apply map_m_inv in H3. clear - H3. induction H3; cbn; auto. }
  assert (Hcd : forall d, candidate xs q d <-> In d (expected norm ds)).
  { intros d. assert (Hrev : In d (expected norm ds) <-> In d ds) by (destruct norm as [n|]; cbn [expected]; [destruct (inverted n); [now rewrite <- in_rev|tauto]|tauto]).
    rewrite Hrev. split.
    - intros (x & Hx & Hd). apply retrieves_key in Hd. now rewrite (proj1 (Hr x Hx)) in Hd.
    - intros Hd. exists x0. split; auto. apply retrieves_key. now rewrite (proj1 (Hr x0 Hx0)). }
  assert (Hrank : norm <> Some "borda" -> forall z, In z ys -> ranks_as z q (expected norm ds)).
  { intros Hnb. destruct norm as [n|]; cbn [normalize_runs] in H3.
    - assert (Hb : String.eqb n "borda" = false) by (apply String.eqb_neq; intros ->; now apply Hnb). rewrite Hb in H3.
      apply (norm_list_alike E HE xs n ys q ds); auto. apply in_app_or in Hn. cbn in Hn. unfold single_norms. cbn.
      decompose [or] Hn; try discriminate; try contradiction;
        match goal with h : Some _ = Some n |- _ => injection h as <-; auto 12; now destruct (Hnb eq_refl) end.
    - injection H3 as <-. exact Hr. }
  assert (Hscore : forall z, In z ys -> scores_as z q (expected norm ds)).
  { destruct norm as [n|].
    - destruct (string_dec n "borda") as [->|Hne].
      + cbn [expected]. change (inverted "borda") with false. cbn iota. apply (borda_alike E HE xs ys q ds); auto. apply Hxs.
      + intros z Hz. apply ranks_scores; auto. apply Hrank; auto. congruence.
    - intros z Hz. apply ranks_scores; auto. apply Hrank; auto. discriminate. }
  destruct (C51_dispatch E pysort xs norm ys Hxs Hl H3) as (D1 & D2 & D3 & D4 & D5 & D6 & D7 & D8 & D9 & D10 & D11 & D12 & D13 & D14 & D15 & D16 & _).
  assert (HS : forall a b name, before (expected norm ds) a b -> _) by (intros a b name Hab; exact (by_scores_puts E HE ys Hys q a b name (fun z Hz => proj2 (Hscore z Hz) a b Hab))).
  destruct Hm as [Hm|[Hnb Hm]].
  - apply (finish E HE pysort Hsort xs norm method ps y q (expected norm ds) Ha Ho H Hnd' Hcd). intros a b Hab.
    destruct Hm as [m Hin|g|m ws Hin Hlw Hpos].
    + cbn in Hin. decompose [or] Hin; subst; try contradiction; rewrite ?D1, ?D2, ?D3, ?D4, ?D5, ?D6; now apply HS.
    + rewrite D7. now apply HS.
    + destruct (D16 ws) as (W1 & W2 & W3 & _). rewrite <- Hlen in Hlw.
      cbn in Hin. decompose [or] Hin; subst; try contradiction; rewrite ?W1, ?W2, ?W3; now apply HS.
  - specialize (Hrank Hnb).
    assert (HP : forall a b, before (expected norm ds) a b -> forall z, In z ys -> exists ra rb, rank_of z q a = Some ra /\ rank_of z q b = Some rb /\ ra < rb).
    { intros a b Hab z Hz. exact (alike_prefers z q _ a b (Hay z Hz) (Hrank z Hz) Hab). }
    assert (HR : forall a b name, before (expected norm ds) a b -> _) by (intros a b name Hab; refine (by_ranks_puts E HE ys Hys q a b name _ (HP a b Hab)); lia).
    assert (Hshy : short_results ys).
    { intros z p Hz. destruct (norm_from E HE xs norm ys Ha Hnb H3 z Hz) as (x & Hx & Hc).
      rewrite (same_length x z p (Hax x Hx) (Hay z Hz) Hc). now apply Hsh. }
    assert (Hself : forall d z, In z ys -> prefers z q d d = false).
    { intros d z _. unfold prefers. destruct (rank_of z q d); [apply Nat.ltb_irrefl|reflexivity]. }
    assert (Hv0 : forall d, votes ys q d d = 0).
    { intros d. unfold votes. clear - Hself. induction ys as [|z l IH]; [reflexivity|]. cbn. rewrite (Hself d z (or_introl eq_refl)). cbn. apply IH. intros; apply Hself; now right. }
    assert (Hw0 : forall ws d, weighted_votes ws ys q d d = 0%R).
    { intros ws d. unfold weighted_votes. rewrite (Rsum_map_ext _ (fun _ => 0%R)); [rewrite Rsum_map_const; lra|].
      intros [w z] Hz. cbn [snd fst]. rewrite Hself; [reflexivity|]. eapply in_combine_r; eauto. }
    assert (HC : method = "condorcet" -> ps = [] -> ranks_as y q (expected norm ds)).
    { intros -> ->. rewrite D15 in H. destruct (C47_condorcet E pysort HE Hsort ys "condorcet" Hys Hshy) as (y' & Hy' & _ & Hc). rewrite H in Hy'. injection Hy' as <-.
      apply (condorcet_alike ys Hys q _ Hnd' y (majority ys) Hc Hrank).
      - intros a b Hab. destruct (votes_all ys q a b (HP a b Hab)) as (V1 & V2 & _). unfold majority. rewrite V1, V2. lia.
      - intros d. unfold majority. rewrite Hv0. lia. }
    assert (HW : forall ws, method = "w_condorcet" -> ps = [("weights", PL ws)] -> length ws = length xs -> (forall w, In w ws -> (0 < w)%R) -> ranks_as y q (expected norm ds)).
    { intros ws -> -> Hlw Hpos. destruct (D16 ws) as (_ & _ & _ & _ & W & _). rewrite W in H. rewrite <- Hlen in Hlw.
      destruct (C47_weighted_condorcet E pysort HE Hsort ys ws "weighted_condorcet" Hys Hshy Hlw) as (y' & Hy' & _ & Hc); [intros w Hw; apply Rlt_le; auto|]. rewrite H in Hy'. injection Hy' as <-.
      assert (Hsum : (0 < Rsum ws)%R).
      { destruct ws as [|w ws]; [cbn in Hlw; lia|]. cbn [Rsum fold_right]. change (fold_right Rplus 0%R ws) with (Rsum ws).
        assert (0 < w)%R by (apply Hpos; now left). assert (0 <= Rsum ws)%R; [|lra].
        rewrite <- (map_id ws). apply Rsum_map_nonneg. intros v Hv. apply Rlt_le, Hpos. now right. }
      apply (condorcet_alike ys Hys q _ Hnd' y (weighted_majority ws ys) Hc Hrank).
      - intros a b Hab. destruct (votes_all ys q a b (HP a b Hab)) as (_ & _ & V). destruct (V ws Hlw) as [V1 V2]. unfold weighted_majority. rewrite V1, V2. lra.
      - intros d. unfold weighted_majority. rewrite Hw0. lra. }
    destruct Hm as [m Hin|s Hs|k Hkk|p Hp|m ws Hin Hlw Hpos].
    + cbn in Hin. destruct Hin as [<-|[<-|[<-|[<-|[<-|[]]]]]]; [..|now apply HC];
        apply (finish E HE pysort Hsort xs norm _ [] y q (expected norm ds) Ha Ho H Hnd' Hcd); intros a b Hab; rewrite ?D8, ?D9, ?D12, ?D14;
        destruct (HR a b "isr" Hab) as (R1 & _); destruct (HR a b "log_isr" Hab) as (_ & R2 & _); destruct (HR a b "rrf" Hab) as (_ & _ & _ & R3 & _); destruct (HR a b "bordafuse" Hab) as (_ & _ & _ & _ & _ & R4 & _); auto.
      * apply R3. lia.
      * apply R4, Hord, Ho. auto.
    + apply (finish E HE pysort Hsort xs norm _ _ y q (expected norm ds) Ha Ho H Hnd' Hcd). intros a b Hab. rewrite D10. now apply HR.
    + apply (finish E HE pysort Hsort xs norm _ _ y q (expected norm ds) Ha Ho H Hnd' Hcd). intros a b Hab. rewrite D11. now apply HR.
    + apply (finish E HE pysort Hsort xs norm _ _ y q (expected norm ds) Ha Ho H Hnd' Hcd). intros a b Hab. rewrite D13. now apply HR.
    + cbn in Hin. destruct Hin as [<-|[<-|[]]]; [|now apply (HW ws)].
      apply (finish E HE pysort Hsort xs norm _ _ y q (expected norm ds) Ha Ho H Hnd' Hcd). intros a b Hab. destruct (D16 ws) as (_ & _ & _ & W & _). rewrite W.
      rewrite <- Hlen in Hlw. apply HR; auto.
Qed.
Print Assumptions C99_fuse.

(** ** the evaluation of the fused run *)
Lemma same_rankings_same_result (E : env NumR) (HE : env_ok E) y x x' metrics mean std save :
  qrels_inv y -> @run_inv NumR x -> @run_inv NumR x' ->
  same_queries (q_map y) (r_map x) -> same_queries (q_map y) (r_map x') ->
  docs_distinct E (q_map y) (r_map x) -> docs_distinct E (q_map y) (r_map x') -> metrics_ok metrics (q_map y) ->
  (forall q l l', ranks (of_query (r_map x) q) l -> ranks (of_query (r_map x') q) l' -> l = l') ->
  same_result (ev_res (@evaluate NumR E (QObj y) (RObj x) metrics mean std save false))
              (ev_res (@evaluate NumR E (QObj y) (RObj x') metrics mean std save false)).
Proof.
  intros Hy' Hx Hx' Hs Hs' Hids Hids' Hmet Huniq.
  destruct (P_Eval3.evaluate_objects E HE y x metrics mean std save false Hy' Hx (fun _ => Hs) Hids Hmet)
    as (rk1 & sc1 & y1 & x1 & _ & _ & _ & _ & _ & _ & _ & A10 & A11 & A12 & _).
  destruct (P_Eval3.evaluate_objects E HE y x' metrics mean std save false Hy' Hx' (fun _ => Hs') Hids' Hmet)
    as (rk2 & sc2 & y2 & x2 & _ & _ & _ & _ & _ & _ & _ & B10 & B11 & B12 & _).
  set (qs := str_sort (dkeys (q_map y))) in *.
  assert (Hrk : forall q, In q qs -> rk1 q = rk2 q) by (intros q Hq; eapply Huniq; [now apply A10|now apply B10]).
  assert (Hsc : forall s, In s metrics -> sc1 s = sc2 s).
  { intros s Hin. destruct (Hmet s Hin) as (name & k & lvl & Hden & _).
    assert (F1 := A11 s name k lvl Hin Hden). assert (F2 := B11 s name k lvl Hin Hden).
    clear - F1 F2 Hrk. revert F1 F2 Hrk. generalize (sc1 s) as l1, (sc2 s) as l2. induction qs as [|q l IH]; intros l1 l2 F1 F2 Hrk.
    - inversion F1; inversion F2; congruence.
    - inversion F1 as [|? v1 ? t1 V1 T1]; inversion F2 as [|? v2 ? t2 V2 T2]; subst. f_equal.
      + rewrite (Hrk q (or_introl eq_refl)) in V1. exact (metric_value_unique _ _ _ _ _ _ _ V1 V2).
      + apply IH; auto. intros; apply Hrk; now right. }
  unfold eval_result in A12, B12. destruct metrics as [|s [|s2 ms]].
  - destruct A12 as (d1 & -> & A13), B12 as (d2 & -> & B13). cbn. intros s. destruct (A13 s), (B13 s). rewrite H0, H2; auto.
  - destruct A12 as (n1 & k1 & l1 & E1 & ->), B12 as (n2 & k2 & l2 & E2 & ->).
    assert (Heq : Ok (n1, k1, l1) = Ok (n2, k2, l2)) by (rewrite <- E1; exact E2). injection Heq as <- <- <-.
    rewrite (Hsc s (or_introl eq_refl)). destruct (mean || save || String.eqb n1 s); reflexivity.
  - destruct A12 as (d1 & -> & A13), B12 as (d2 & -> & B13). cbn. intros a. destruct (A13 a) as [A1 A2], (B13 a) as [B1 B2].
    destruct (in_dec string_dec a (s :: s2 :: ms)) as [Hin|Hin].
    + rewrite A1, B1, Hsc by assumption. reflexivity.
    + rewrite A2, B2 by assumption. reflexivity.
Qed.
Lemma ranks_as_ranks x q ds l : ranks_as x q ds -> ranks (of_query (r_map x) q) l -> l = ds.
Proof.
  intros [Hk Hs] Hl. apply ranks_unique with (of_query (r_map x) q); [| exact Hl |].
  - assert (Hv : StronglySorted (fun a b => (b < a)%R) (@dvals R (results_of x q))) by (unfold dvals; now apply P_Common.StronglySorted_map).
    change (NoDup (@dvals R (results_of x q))). clear - Hv. induction Hv as [|a v Hv IH Hf]; constructor; auto. intros Hin. rewrite Forall_forall in Hf. specialize (Hf a Hin). lra.
  - exists (results_of x q). split; [apply Permutation_refl|]. split; [|now symmetry].
    eapply P_Common.StronglySorted_impl; [|exact Hs]. intros a b. cbn. lra.
Qed.

(** All metrics of the fused run are those of the runs. *)
Theorem C99_evaluate : forall (E : env NumR) pysort, env_ok E -> sorter_ok pysort ->
  forall xs norm method ps y Q metrics mean std save, Forall (obtained E) xs -> short_results xs ->
  (norm = Some "borda" \/ method = "bordafuse" \/ method = "w_bordafuse" -> same_query_order xs) ->
  (forall q, exists ds, forall x, In x xs -> ranks_as x q ds) -> In norm keeping_norms ->
  by_scores (length xs) method ps \/ (norm <> Some "borda" /\ by_ranks (length xs) method ps) ->
  fuse E pysort xs norm method ps = Ok y ->
  forall x, In x xs -> obtained_qrels E Q ->
  same_queries (q_map Q) (r_map x) -> docs_distinct E (q_map Q) (r_map x) -> metrics_ok metrics (q_map Q) ->
  same_result (ev_res (@evaluate NumR E (QObj Q) (RObj x) metrics mean std save false))
              (ev_res (@evaluate NumR E (QObj Q) (RObj y) metrics mean std save false)).
Proof.
  intros E pysort HE Hsort xs norm method ps y Q metrics mean std save Hob Hsh Ho Hr Hn Hm H x Hx HQ Hs Hids Hmet.
  assert (Hinv : forall z, obtained E z -> @run_inv NumR z) by (intros z Hz; exact (obtained_inv E HE z Hz)).
  assert (Ha : Forall a_run xs) by (eapply Forall_impl; [|exact Hob]; intros z Hz; apply (Hinv z Hz)).
  assert (Hy : @run_inv NumR y) by (apply Hinv; eapply OR_fuse; eauto).
  assert (Hxi : @run_inv NumR x) by (apply Hinv; rewrite Forall_forall in Hob; auto).
  assert (Hsame : forall q ds, (forall z, In z xs -> ranks_as z q ds) -> ranks_as y q ds).
  { intros q ds Hds. exact (proj1 (C99_fuse E pysort HE Hsort xs norm method ps y q ds Ha Hsh Ho Hds Hm H) Hn). }
  destruct (C42_fuse_union E pysort HE Hsort xs norm method ps y Ha Ho H) as (_ & Hq & _).
  assert (Hs' : same_queries (q_map Q) (r_map y)) by (intros q; etransitivity; [apply Hs|]; symmetry; exact (Hq x q Hx)).
  assert (Hids' : docs_distinct E (q_map Q) (r_map y)).
  { intros q Hq'. destruct (Hr q) as [ds Hds]. pose proof (proj1 (Hds x Hx)) as K1. pose proof (proj1 (Hsame q ds Hds)) as K2.
    eapply ids_distinct_perm; [|apply (Hids q Hq')]. apply Permutation_app_head.
    change (Permutation (dkeys (results_of x q)) (dkeys (results_of y q))). rewrite K1, K2. apply Permutation_refl. }
  apply same_rankings_same_result; auto; [exact (obtained_qrels_inv E HE Q HQ)|].
  intros q l l' H1 H2. destruct (Hr q) as [ds Hds]. apply (ranks_as_ranks x q ds) in H1; [|auto]. apply (ranks_as_ranks y q ds) in H2; [|auto]. congruence.
Qed.
Print Assumptions C99_evaluate.

(** Borda normalisation stores the candidates in the order of a Python set: a method that reads
    ranks then sees that order instead of the runs' rankings.  Two equal, correctly sorted runs
    are "fused" to the opposite ranking. *)
Section Ex.
Context {N : Num} (v1 v2 v3 v9 : F).
Definition alike1 : Run N := run_hist env_sorted Run_empty [RAddScore "q" "b" v2; RAddScore "q" "a" v1].
Definition alike2 : Run N := run_hist env_sorted Run_empty [RAddScore "q" "b" v9; RAddScore "q" "a" v3].
Lemma alike1_map : r_map alike1 = [("q", [("b", v2); ("a", v1)])]. Proof. reflexivity. Qed.
Lemma alike2_map : r_map alike2 = [("q", [("b", v9); ("a", v3)])]. Proof. reflexivity. Qed.
Lemma alike_cands : cands_of env_sorted [r_map alike1; r_map alike1] "q" = ["a"; "b"]. Proof. reflexivity. Qed.
End Ex.
Definition al1 : Run NumR := @alike1 NumR 1%R 2%R.
Definition al2 : Run NumR := @alike2 NumR 3%R 9%R.
Lemma al1_map : r_map al1 = [("q", [("b", 2%R); ("a", 1%R)])]. Proof. exact (@alike1_map NumR 1%R 2%R). Qed.
Lemma al2_map : r_map al2 = [("q", [("b", 9%R); ("a", 3%R)])]. Proof. exact (@alike2_map NumR 3%R 9%R). Qed.
Lemma al_reach : Forall (run_reachable env_sorted) [al1; al2].
Proof.
  constructor; [|constructor; [|constructor]]; (exists Run_empty; eexists; split; [left; reflexivity|split; [|split; reflexivity]]; repeat constructor).
Qed.
Lemma al_run x : In x [al1; al2] -> a_run x.
Proof. intros Hx. pose proof al_reach as Hr. rewrite Forall_forall in Hr. exact (proj1 (run_reachable_inv env_sorted env_sorted_ok x (Hr x Hx))). Qed.
Lemma al_keys x : In x [al1; al2] -> dkeys (r_map x) = ["q"].
Proof. intros [<-|[<-|[]]]; [rewrite al1_map|rewrite al2_map]; reflexivity. Qed.
Lemma al_results x : In x [al1; al2] -> exists s t, results_of x "q" = [("b", s); ("a", t)] /\ (t < s)%R.
Proof.
  intros [<-|[<-|[]]]; unfold results_of; [rewrite al1_map; exists 2%R, 1%R|rewrite al2_map; exists 9%R, 3%R]; (split; [reflexivity|lra]).
Qed.
Lemma al_ranks x q : In x [al1; al2] -> ranks_as x q (if String.eqb q "q" then ["b"; "a"] else []).
Proof.
  intros Hx. destruct (String.eqb_spec q "q") as [->|Hne].
  - destruct (al_results x Hx) as (s & t & Hr & Hlt). unfold ranks_as. rewrite Hr. split; [reflexivity|].
    constructor; [constructor; constructor|]. constructor; [exact Hlt|constructor].
  - assert (Hr : results_of x q = []).
    { unfold results_of. destruct Hx as [<-|[<-|[]]]; [rewrite al1_map|rewrite al2_map]; unfold of_query; cbn; destruct (String.eqb_spec q "q"); [contradiction|reflexivity|contradiction|reflexivity]. }
    unfold ranks_as. rewrite Hr. split; [reflexivity|constructor].
Qed.
Lemma al_fusable xs : xs <> [] -> (forall x, In x xs -> In x [al1; al2]) -> fusable xs.
Proof.
  intros Hne Hin. split; [exact Hne|]. split; [rewrite Forall_forall; intros x Hx; now apply al_run, Hin|].
  intros x x' q Hx Hx' Hq. unfold has_query in *. rewrite al_keys in * by auto. exact Hq.
Qed.
Lemma al_order xs : (forall x, In x xs -> In x [al1; al2]) -> same_query_order xs.
Proof. intros Hin x x' Hx Hx'. now rewrite !al_keys by auto. Qed.
Lemma al_short xs : (forall x, In x xs -> In x [al1; al2]) -> short_results xs.
Proof.
  intros Hin x q Hx. apply Hin in Hx. destruct (al_ranks x q Hx) as [Hk _]. rewrite <- (map_length fst (results_of x q)). change (map fst (results_of x q)) with (dkeys (results_of x q)). rewrite Hk.
  destruct (String.eqb q "q"); cbn; lia.
Qed.

Theorem C99_borda_ranks_refuted : exists (E : env NumR) pysort x y,
  env_ok E /\ sorter_ok pysort /\ run_reachable E x /\ ranked x /\ ranks_as x "q" ["b"; "a"] /\
  fuse E pysort [x; x] (Some "borda") "rrf" [] = Ok y /\ ranks_as y "q" ["a"; "b"].
Proof.
  assert (Hin : forall x, In x [al1; al1] -> In x [al1; al2]) by (intros x [<-|[<-|[]]]; now left).
  pose proof (al_fusable [al1; al1] ltac:(discriminate) Hin) as Hxs. pose proof (al_order [al1; al1] Hin) as Ho.
  pose proof (borda_norm_R env_sorted env_sorted_ok [al1; al1] (proj1 Hxs) (proj1 (proj2 Hxs)) Ho) as Hb.
  set (z := borda_run env_sorted [al1; al1] al1) in *. cbn [map] in Hb. fold z in Hb.
  assert (Hn : normalize_runs env_sorted [al1; al1] (Some "borda") = Ok [z; z]) by exact Hb.
  destruct (norm_fusable env_sorted env_sorted_ok _ _ _ Hxs (fun _ => Ho) Hn) as (Hys & Hc & _ & _).
  destruct (C51_dispatch env_sorted ins_sort [al1; al1] (Some "borda") [z; z] Hxs (le_n 2) Hn) as (_ & _ & _ & _ & _ & _ & _ & _ & _ & _ & _ & D & _).
  assert (Hk : dkeys (results_of z "q") = ["a"; "b"]).
  { unfold z, borda_run, results_of, of_query. cbn [new_run r_map]. rewrite al1_map. cbn [map fst snd dget String.eqb Ascii.eqb Bool.eqb].
    unfold borda_results, dkeys. rewrite map_map. cbn [fst]. rewrite map_id. exact (@alike_cands NumR 1%R 2%R). }
  assert (Hr : forall x, In x [z; z] -> exists ra rb, rank_of x "q" "a" = Some ra /\ rank_of x "q" "b" = Some rb /\ ra < rb).
  { intros x [<-|[<-|[]]]; exists 1, 2; unfold rank_of; rewrite Hk; repeat split; auto. }
  destruct (by_ranks_puts env_sorted env_sorted_ok [z; z] Hys "q" "a" "b" "rrf" (le_n 2) Hr) as (_ & _ & _ & R3 & _).
  destruct (R3 60%Z ltac:(lia)) as (y & sa & sb & Hy & Hsa & Hsb & Hlt).
  assert (Hfy : fuse env_sorted ins_sort [al1; al1] (Some "borda") "rrf" [] = Ok y) by (rewrite D; exact Hy).
  exists env_sorted, ins_sort, al1, y. split; [exact env_sorted_ok|]. split; [exact ins_sort_ok|].
  split; [pose proof al_reach as Hre; now inversion Hre|].
  split. { intros q. destruct (al_ranks al1 q (or_introl eq_refl)) as [_ Hs]. eapply P_Common.StronglySorted_impl; [|exact Hs]. intros; cbn; lra. }
  split; [exact (al_ranks al1 "q" (or_introl eq_refl))|]. split; [exact Hfy|].
  apply (finish env_sorted env_sorted_ok ins_sort ins_sort_ok [al1; al1] (Some "borda") "rrf" [] y "q" ["a"; "b"]).
  - exact (proj1 (proj2 Hxs)).
  - intros _. exact Ho.
  - exact Hfy.
  - repeat constructor; cbn; intuition discriminate.
  - intros d. assert (Hk1 : dkeys (results_of al1 "q") = ["b"; "a"]) by exact (proj1 (al_ranks al1 "q" (or_introl eq_refl))).
    assert (Hret : retrieves al1 "q" d <-> In d ["a"; "b"]) by (rewrite retrieves_key, Hk1; cbn; tauto).
    rewrite <- Hret. split; [intros (x & [<-|[<-|[]]] & Hd); exact Hd|]. intros Hd. exists al1. split; [now left|exact Hd].
  - intros a b (i & j & Hij & Hi & Hj). rewrite D.
    assert (a = "a" /\ b = "b") as [-> ->].
    { destruct i as [|[|i]]; cbn in Hi; [| |now destruct i].
      - injection Hi as <-. destruct j as [|[|j]]; cbn in Hj; [lia|injection Hj as <-; auto|now destruct j].
      - destruct j as [|[|j]]; [lia|lia|]. cbn in Hj. now destruct j. }
    exists y, sa, sb. auto.
Qed.
Print Assumptions C99_borda_ranks_refuted.

(** a case that meets the hypotheses of C99_fuse and C99_evaluate: two runs with different scores *)
Example ex_C99 : exists y, fuse env_sorted ins_sort [al1; al2] (Some "max") "condorcet" [] = Ok y /\
  Forall (obtained env_sorted) [al1; al2] /\ short_results [al1; al2] /\ same_query_order [al1; al2] /\
  (forall q, exists ds, forall x, In x [al1; al2] -> ranks_as x q ds) /\ In (Some "max") keeping_norms /\
  by_ranks (length [al1; al2]) "condorcet" [] /\ ranks_as y "q" ["b"; "a"].
Proof.
  assert (Hin : forall x, In x [al1; al2] -> In x [al1; al2]) by auto.
  pose proof (al_fusable [al1; al2] ltac:(discriminate) Hin) as Hxs. pose proof (al_order [al1; al2] Hin) as Ho. pose proof (al_short [al1; al2] Hin) as Hsh.
  destruct (C37_norm_keeps env_sorted env_sorted_ok al1 "max") as (z1 & Hz1 & Ha1 & _ & Hq1 & Hr1); [now apply al_run; left|cbn; auto|discriminate|].
  destruct (C37_norm_keeps env_sorted env_sorted_ok al2 "max") as (z2 & Hz2 & Ha2 & _ & Hq2 & Hr2); [now apply al_run; right; left|cbn; auto|discriminate|].
  assert (Hn : normalize_runs env_sorted [al1; al2] (Some "max") = Ok [z1; z2]).
  { cbn [normalize_runs String.eqb Ascii.eqb Bool.eqb map_m bindr]. rewrite Hz1. cbn [bindr]. rewrite Hz2. reflexivity. }
  destruct (norm_fusable env_sorted env_sorted_ok _ _ _ Hxs (fun _ => Ho) Hn) as (Hys & Hc & _ & _).
  destruct (C51_dispatch env_sorted ins_sort [al1; al2] (Some "max") [z1; z2] Hxs (le_n 2) Hn) as (_ & _ & _ & _ & _ & _ & _ & _ & _ & _ & _ & _ & _ & _ & D & _).
  destruct (C47_condorcet env_sorted ins_sort env_sorted_ok ins_sort_ok [z1; z2] "condorcet" Hys) as (y & Hy & _).
  { intros x q [<-|[<-|[]]].
    - rewrite (same_length al1 z1 q); [apply Hsh; now left|apply al_run; now left|exact Ha1|exact Hr1].
    - rewrite (same_length al2 z2 q); [apply Hsh; right; now left|apply al_run; right; now left|exact Ha2|exact Hr2]. }
  assert (Hfy : fuse env_sorted ins_sort [al1; al2] (Some "max") "condorcet" [] = Ok y) by (rewrite D; exact Hy).
  exists y. split; [exact Hfy|]. split.
  { apply Forall_forall. intros x [<-|[<-|[]]]; refine (OR_call _ _ (RAddScore _ _ _) (OR_call _ _ (RAddScore _ _ _) (OR_new _) I) I). }
  split; [exact Hsh|]. split; [exact Ho|]. split; [intros q; eexists; intros x Hx; exact (al_ranks x q Hx)|]. split; [cbn; auto|].
  assert (Hbr : by_ranks (length [al1; al2]) "condorcet" []) by (apply br_plain; cbn; auto 6). split; [exact Hbr|].
  refine (proj1 (C99_fuse env_sorted ins_sort env_sorted_ok ins_sort_ok [al1; al2] (Some "max") "condorcet" [] y "q" _ (proj1 (proj2 Hxs)) Hsh (fun _ => Ho) _ _ Hfy) _).
  - intros x Hx. exact (al_ranks x "q" Hx).
  - right. split; [discriminate|exact Hbr].
  - cbn; auto.
Qed.
