(** T_Fusion5.v: fusion does not depend on the order of the runs (C48) and is monotone (C49) *)
From Coq Require Import Reals Lra Psatz.
From Verif Require Import Base Dict Num NumLaws Env EnvEx M_Common M_Qrels M_Run M_History M_Norm M_Fusion
  Spec_DS Spec_Hist Spec_Metrics Spec_Eval Spec_Norm Spec_Fusion
  P_Base P_Dict P_Common P_DS P_Metrics P_Eval P_Norm T_Norm T_Norm2 T_Norm3 P_Fusion P_Fusion2 P_Fusion3
  T_Fusion T_Fusion2 T_Fusion3 T_Fusion4 Ex_Metrics.
Open Scope string_scope.
Open Scope list_scope.
Open Scope nat_scope.

(** ** permutations *)
Lemma concat_perm {A} (l l' : list (list A)) : Permutation l l' -> Permutation (concat l) (concat l').
Proof.
  induction 1; cbn; auto.
  - now apply Permutation_app_head.
  - rewrite !app_assoc. apply Permutation_app_tail. apply Permutation_app_comm.
  - etransitivity; eauto.
Qed.
Lemma scores_given_perm xs xs' q d : Permutation xs xs' -> Permutation (scores_given xs q d) (scores_given xs' q d).
Proof. intros H. unfold scores_given. now apply concat_perm, Permutation_map. Qed.
Lemma ranks_given_perm xs xs' q d : Permutation xs xs' -> Permutation (ranks_given xs q d) (ranks_given xs' q d).
Proof. intros H. unfold ranks_given. now apply concat_perm, Permutation_map. Qed.
Lemma weighted_given_perm ws xs ws' xs' q d : Permutation (combine ws xs) (combine ws' xs') ->
  Permutation (weighted_given ws xs q d) (weighted_given ws' xs' q d).
Proof. intros H. unfold weighted_given. now apply concat_perm, Permutation_map. Qed.
Lemma candidate_perm xs xs' q d : Permutation xs xs' -> (candidate xs q d <-> candidate xs' q d).
Proof. intros H. split; intros (x & Hx & Hd); exists x; split; auto; [|apply Permutation_sym in H]; eapply Permutation_in; eauto. Qed.
Lemma fusable_perm xs xs' : Permutation xs xs' -> fusable xs -> fusable xs'.
Proof.
  intros Hp (Hne & Ha & Hs). split; [|split].
  - intros ->. apply Permutation_sym, Permutation_nil in Hp. easy.
  - rewrite Forall_forall in *. intros x Hx. apply Ha. eapply Permutation_in; [symmetry|]; eauto.
  - intros x x' q Hx Hx'. apply Hs; eapply Permutation_in; try (symmetry; eauto); auto.
Qed.
Lemma order_perm xs xs' : Permutation xs xs' -> same_query_order xs -> same_query_order xs'.
Proof. intros Hp Ho x x' Hx Hx'. apply Ho; eapply Permutation_in; try (symmetry; eauto); auto. Qed.
Lemma is_max_unique l l' m m' : Permutation l l' -> is_max_of l m -> is_max_of l' m' -> m = m'.
Proof.
  intros Hp [H1 H2] [H3 H4]. apply Rle_antisym.
  - apply H4. eapply Permutation_in; eauto.
  - apply H2. eapply Permutation_in; [symmetry|]; eauto.
Qed.
Lemma is_min_unique l l' m m' : Permutation l l' -> is_min_of l m -> is_min_of l' m' -> m = m'.
Proof.
  intros Hp [H1 H2] [H3 H4]. apply Rle_antisym.
  - apply H2. eapply Permutation_in; [symmetry|]; eauto.
  - apply H4. eapply Permutation_in; eauto.
Qed.
Lemma sorted_Rle_unique (s s' : list R) : StronglySorted Rle s -> StronglySorted Rle s' -> Permutation s s' -> s = s'.
Proof. intros H1 H2 Hp. apply (StronglySorted_perm_eq Rle); auto. intros a b _ _. apply Rle_antisym. Qed.
Lemma is_median_unique l l' m m' : Permutation l l' -> is_median l m -> is_median l' m' -> m = m'.
Proof.
  intros Hp (s & Hs & Hss & H) (s' & Hs' & Hss' & H').
  assert (s = s') as <-. { apply sorted_Rle_unique; auto. rewrite Hs, Hs'. exact Hp. }
  apply Permutation_length in Hp.
  destruct H as [(h & a & Hl & Ha & ->)|(h & a & b & Hl & Ha & Hb & ->)], H' as [(h' & a' & Hl' & Ha' & ->)|(h' & a' & b' & Hl' & Ha' & Hb' & ->)];
    try (exfalso; lia); assert (h = h') as <- by lia; congruence.
Qed.

Lemma same_scores_intro (r r' : result (Run NumR)) xs xs' P Q (n n' : option string) :
  (exists y, r = Ok y /\ r_name y = n /\ fusion_of xs y P) -> (exists y, r' = Ok y /\ r_name y = n' /\ fusion_of xs' y Q) ->
  Permutation xs xs' -> (forall q d s t, candidate xs q d -> P q d s -> Q q d t -> s = t) -> same_scores r r'.
Proof.
  intros (y & Hy & _ & Fy) (y' & Hy' & _ & Fy') Hp H. exists y, y'. split; auto. split; auto.
  apply (fusion_same xs xs' y y' P Q Fy Fy'); auto. intros q d. now apply candidate_perm.
Qed.

(** ** C48 *)
Theorem C48_run_order : forall (E : env NumR), env_ok E -> forall xs xs' name, fusable xs -> Permutation xs xs' ->
  same_scores (comb_sum E xs name) (comb_sum E xs' name) /\
  same_scores (comb_max E xs name) (comb_max E xs' name) /\
  same_scores (comb_min E xs name) (comb_min E xs' name) /\
  same_scores (comb_med E xs name) (comb_med E xs' name) /\
  same_scores (comb_anz E xs name) (comb_anz E xs' name) /\
  same_scores (comb_mnz E xs name) (comb_mnz E xs' name) /\
  (forall gamma, same_scores (comb_gmnz E xs gamma name) (comb_gmnz E xs' gamma name)) /\
  same_scores (isr E xs name) (isr E xs' name) /\
  same_scores (log_isr E xs name) (log_isr E xs' name) /\
  (forall sigma, (0 <= sigma <= 1)%R -> same_scores (logn_isr E xs sigma name) (logn_isr E xs' sigma name)) /\
  (forall k, (0 <= k)%Z -> same_scores (rrf E xs k name) (rrf E xs' k name)) /\
  (forall phi, same_scores (rbc E xs phi name) (rbc E xs' phi name)) /\
  (same_query_order xs -> same_scores (bordafuse E xs name) (bordafuse E xs' name)).
Proof.
  intros E HE xs xs' name Hxs Hp. assert (Hxs' := fusable_perm xs xs' Hp Hxs).
  assert (Hsum : forall q d, Rsum (scores_given xs q d) = Rsum (scores_given xs' q d)) by (intros; now apply Rsum_perm, scores_given_perm).
  assert (Hlen : forall q d, length (scores_given xs q d) = length (scores_given xs' q d)) by (intros; now apply Permutation_length, scores_given_perm).
  assert (Hrlen : forall q d, length (ranks_given xs q d) = length (ranks_given xs' q d)) by (intros; now apply Permutation_length, ranks_given_perm).
  assert (Hrsum : forall q d f, Rsum (map f (ranks_given xs q d)) = Rsum (map f (ranks_given xs' q d))) by (intros; now apply Rsum_perm, Permutation_map, ranks_given_perm).
  repeat apply conj; intros.
  - eapply same_scores_intro; [apply (C43_comb_sum E HE xs); auto|apply (C43_comb_sum E HE xs'); auto|auto|]. cbn beta. intros q d s t _ -> ->. apply Hsum.
  - eapply same_scores_intro; [apply (comb_max_value E HE xs); auto|apply (comb_max_value E HE xs'); auto|auto|]. cbn beta. intros q d s t _. apply is_max_unique. now apply Permutation_map.
  - eapply same_scores_intro; [apply (comb_min_value E HE xs); auto|apply (comb_min_value E HE xs'); auto|auto|]. cbn beta. intros q d s t _. apply is_min_unique. now apply Permutation_map.
  - eapply same_scores_intro; [apply (C43_comb_med E HE xs); auto|apply (C43_comb_med E HE xs'); auto|auto|]. cbn beta. intros q d s t _. apply is_median_unique. now apply scores_given_perm.
  - eapply same_scores_intro; [apply (C43_comb_anz E HE xs); auto|apply (C43_comb_anz E HE xs'); auto|auto|]. cbn beta. intros q d s t _ -> ->. now rewrite Hsum, Hlen.
  - eapply same_scores_intro; [apply (C43_comb_mnz E HE xs); auto|apply (C43_comb_mnz E HE xs'); auto|auto|]. cbn beta. intros q d s t _ -> ->. now rewrite Hsum, Hlen.
  - eapply same_scores_intro; [apply (C43_comb_gmnz E HE xs); auto|apply (C43_comb_gmnz E HE xs'); auto|auto|]. cbn beta. intros q d s t _ -> ->. now rewrite Hsum, Hlen.
  - eapply same_scores_intro; [apply (C44_isr E HE xs); auto|apply (C44_isr E HE xs'); auto|auto|]. cbn beta. intros q d s t _ -> ->. now rewrite Hrsum, Hrlen.
  - eapply same_scores_intro; [apply (C44_log_isr E HE xs); auto|apply (C44_log_isr E HE xs'); auto|auto|]. cbn beta. intros q d s t _ -> ->. now rewrite Hrsum, Hrlen.
  - eapply same_scores_intro; [apply (C44_logn_isr E HE xs); auto|apply (C44_logn_isr E HE xs'); auto|auto|]. cbn beta. intros q d s t _ -> ->. now rewrite Hrsum, Hrlen.
  - eapply same_scores_intro; [apply (C44_rrf E HE xs); auto|apply (C44_rrf E HE xs'); auto|auto|]. cbn beta. intros q d s t _ -> ->. now rewrite Hrsum.
  - eapply same_scores_intro; [apply (C44_rbc E HE xs); auto|apply (C44_rbc E HE xs'); auto|auto|]. cbn beta. intros q d s t _ -> ->. now rewrite Hrsum.
  - destruct (C46_bordafuse E HE xs name Hxs H) as (y & Hy & Hn & Fy & _).
    destruct (C46_bordafuse E HE xs' name Hxs' (order_perm xs xs' Hp H)) as (y' & Hy' & Hn' & Fy' & _).
    eapply same_scores_intro; [exists y; eauto|exists y'; eauto|auto|]. cbn beta. intros q d s t _ Hs Ht.
    pose proof (cands_candidates E HE xs q) as Hc.
    assert (Hc' : candidates_are xs' q (cands_of E (maps xs) q)). { split; [apply Hc|]. intros e. rewrite (proj2 Hc e). now apply candidate_perm. }
    rewrite (Hs _ Hc), (Ht _ Hc'). apply Rsum_perm. now apply Permutation_map.
Qed.
Theorem C48_weighted_run_order : forall (E : env NumR), env_ok E -> forall xs xs' ws ws' name, fusable xs ->
  length ws = length xs -> length ws' = length xs' -> Permutation (combine ws xs) (combine ws' xs') ->
  same_scores (wsum E xs ws name) (wsum E xs' ws' name) /\
  same_scores (wmnz E xs ws name) (wmnz E xs' ws' name) /\
  same_scores (mixed E xs ws name) (mixed E xs' ws' name) /\
  (same_query_order xs -> same_scores (weighted_bordafuse E xs ws name) (weighted_bordafuse E xs' ws' name)).
Proof.
  intros E HE xs xs' ws ws' name Hxs Hl Hl' Hpw.
  assert (Hp : Permutation xs xs').
  { pose proof (Permutation_map snd Hpw) as H. now rewrite !combine_map_snd in H by auto. }
  assert (Hxs' := fusable_perm xs xs' Hp Hxs).
  assert (Hlw : length xs <= length ws) by (rewrite Hl; apply le_n). assert (Hlw' : length xs' <= length ws') by (rewrite Hl'; apply le_n).
  assert (Hsum : forall q d (f : R * R -> R), Rsum (map f (weighted_given ws xs q d)) = Rsum (map f (weighted_given ws' xs' q d))).
  { intros. now apply Rsum_perm, Permutation_map, weighted_given_perm. }
  assert (Hlen : forall q d, length (weighted_given ws xs q d) = length (weighted_given ws' xs' q d)) by (intros; now apply Permutation_length, weighted_given_perm).
  repeat apply conj; intros.
  - eapply same_scores_intro; [apply (C45_wsum E HE xs ws); auto|apply (C45_wsum E HE xs' ws'); auto|auto|]. cbn beta. intros q d s t _ -> ->. apply Hsum.
  - eapply same_scores_intro; [apply (C45_wmnz E HE xs ws); auto|apply (C45_wmnz E HE xs' ws'); auto|auto|]. cbn beta. intros q d s t _ -> ->. now rewrite !Hsum.
  - eapply same_scores_intro; [apply (C45_mixed E HE xs ws); auto|apply (C45_mixed E HE xs' ws'); auto|auto|]. cbn beta. intros q d s t _ -> ->. now rewrite Hsum, Hlen.
  - destruct (C46_weighted_bordafuse E HE xs ws name Hxs H (eq_sym Hl)) as (y & Hy & Hn & Fy & _).
    destruct (C46_weighted_bordafuse E HE xs' ws' name Hxs' (order_perm xs xs' Hp H) (eq_sym Hl')) as (y' & Hy' & Hn' & Fy' & _).
    eapply same_scores_intro; [exists y; eauto|exists y'; eauto|auto|]. cbn beta. intros q d s t _ Hs Ht.
    pose proof (cands_candidates E HE xs q) as Hc.
    assert (Hc' : candidates_are xs' q (cands_of E (maps xs) q)). { split; [apply Hc|]. intros e. rewrite (proj2 Hc e). now apply candidate_perm. }
    rewrite (Hs _ Hc), (Ht _ Hc'). apply Rsum_perm. now apply Permutation_map.
Qed.
(** the normalisation step of fuse commutes with permuting the runs (other than "borda") *)
Theorem C48_normalised_order : forall (E : env NumR) xs xs' norm ys, norm <> Some "borda" -> Permutation xs xs' ->
  normalize_runs E xs norm = Ok ys -> exists ys', normalize_runs E xs' norm = Ok ys' /\ Permutation ys ys'.
Proof.
  intros E xs xs' norm ys Hn Hp H. destruct norm as [n|]; cbn [normalize_runs] in *.
  2:{ inversion H; subst. eauto. }
  destruct (String.eqb_spec n "borda"); [subst; easy|].
  assert (Hall : forall l ys, map_m (fun x => normalize E x n) l = Ok ys ->
     map_m (fun x => normalize E x n) l = Ok (map (fun x => match normalize E x n with Ok y => y | Err _ => x end) l) /\
     ys = map (fun x => match normalize E x n with Ok y => y | Err _ => x end) l /\ forall x, In x l -> exists y, normalize E x n = Ok y).
  { intros l. induction l as [|x l IH]; cbn [map_m map]; intros zs Hz.
    - inversion Hz. split; auto. split; auto. easy.
    - apply bindr_ok in Hz as (y & Hy & Hz). apply bindr_ok in Hz as (zs' & Hzs & Hz). inversion Hz; subst.
      destruct (IH zs' Hzs) as (H1 & H2 & H3). rewrite Hy, H1. cbn [bindr]. split; [reflexivity|]. split; [now rewrite <- H2|]. intros z [<-|Hin]; eauto. }
  destruct (Hall xs ys H) as (_ & -> & Hex).
  exists (map (fun x => match normalize E x n with Ok y => y | Err _ => x end) xs'). split; [|now apply Permutation_map].
  apply map_m_ok. intros x Hx. destruct (Hex x) as [y Hy]; [eapply Permutation_in; [symmetry|]; eauto|]. now rewrite Hy.
Qed.

(** ** C49 *)
Lemma raised_other q0 d0 xs xs' q d : raised q0 d0 xs xs' -> (q, d) <> (q0, d0) -> scores_given xs' q d = scores_given xs q d.
Proof. intros H Hne. unfold scores_given. induction H as [|x x' xs xs' [Hx _] H IH]; cbn; auto. now rewrite (Hx q d Hne), IH. Qed.
Lemma raised_this q0 d0 xs xs' : raised q0 d0 xs xs' -> Forall2 Rle (scores_given xs q0 d0) (scores_given xs' q0 d0).
Proof.
  intros H. unfold scores_given. induction H as [|x x' xs xs' [_ Hx] H IH]; cbn; [constructor|].
  destruct (score_of x q0 d0), (score_of x' q0 d0); try easy. now constructor.
Qed.
Lemma raised_retrieves q0 d0 x x' : (forall q d, (q, d) <> (q0, d0) -> score_of x' q d = score_of x q d) /\
    match score_of x q0 d0, score_of x' q0 d0 with Some s, Some s' => (s <= s')%R | None, None => True | _, _ => False end ->
  forall q d, retrieves x' q d <-> retrieves x q d.
Proof.
  intros [H1 H2] q d. unfold retrieves. destruct (string_dec q q0) as [->|Hq].
  - destruct (string_dec d d0) as [->|Hd]; [|rewrite H1 by congruence; tauto].
    destruct (score_of x q0 d0), (score_of x' q0 d0); try easy; split; eauto. 
  - rewrite H1 by congruence. tauto.
Qed.
Lemma raised_candidate q0 d0 xs xs' q d : raised q0 d0 xs xs' -> (candidate xs q d <-> candidate xs' q d).
Proof.
  intros H. unfold candidate. induction H as [|x x' xs xs' Hx H IH].
  - split; intros (x & [] & _).
  - pose proof (raised_retrieves q0 d0 x x' Hx q d) as Hr. split; intros (z & [<-|Hz] & Hd).
    + exists x'. split; [now left|]. now apply Hr.
    + destruct (proj1 IH) as (w & Hw & Hd'); [eauto|]. exists w. split; [now right|auto].
    + exists x. split; [now left|]. now apply Hr.
    + destruct (proj2 IH) as (w & Hw & Hd'); [eauto|]. exists w. split; [now right|auto].
Qed.

Lemma fused_raised_intro (r r' : result (Run NumR)) q0 d0 xs xs' P Q (n n' : option string) :
  (exists y, r = Ok y /\ r_name y = n /\ fusion_of xs y P) -> (exists y, r' = Ok y /\ r_name y = n' /\ fusion_of xs' y Q) ->
  raised q0 d0 xs xs' ->
  (forall q d s t, candidate xs q d -> (q, d) <> (q0, d0) -> P q d s -> Q q d t -> t = s) ->
  (forall s t, candidate xs q0 d0 -> P q0 d0 s -> Q q0 d0 t -> (s <= t)%R) -> fused_raised q0 d0 r r'.
Proof.
  intros (y & Hy & _ & Fy) (y' & Hy' & _ & Fy') Hr H1 H2. exists y, y'. split; auto. split; auto.
  destruct Fy as (_ & _ & Ra & Va & _), Fy' as (_ & _ & Rb & Vb & _). split.
  - intros q d Hne. specialize (Ra q d). specialize (Rb q d). pose proof (raised_candidate q0 d0 xs xs' q d Hr) as Hc. unfold retrieves in *.
    destruct (score_of y q d) as [s|] eqn:Hs, (score_of y' q d) as [t|] eqn:Ht; auto.
    + f_equal. apply (H1 q d); auto. apply Ra. eauto.
    + destruct (proj2 Rb) as [t Ht']; [apply Hc, Ra; eauto|discriminate].
    + destruct (proj2 Ra) as [t' Ht']; [apply Hc, Rb; eauto|discriminate].
  - specialize (Ra q0 d0). specialize (Rb q0 d0). pose proof (raised_candidate q0 d0 xs xs' q0 d0 Hr) as Hc. unfold retrieves in *.
    destruct (score_of y q0 d0) as [s|] eqn:Hs, (score_of y' q0 d0) as [t|] eqn:Ht; auto.
    + apply H2; auto. apply Ra. eauto.
    + destruct (proj2 Rb) as [t Ht']; [apply Hc, Ra; eauto|discriminate].
    + destruct (proj2 Ra) as [t' Ht']; [apply Hc, Rb; eauto|discriminate].
Qed.

Lemma Rsum_le_F2 l l' : Forall2 Rle l l' -> (Rsum l <= Rsum l')%R.
Proof. induction 1; cbn; [lra|]. change (fold_right Rplus 0%R) with Rsum in *. lra. Qed.
Lemma F2_len {A B} (P : A -> B -> Prop) l l' : Forall2 P l l' -> length l = length l'.
Proof. induction 1; cbn; auto. Qed.
Lemma F2_in_l {A B} (P : A -> B -> Prop) l l' a : Forall2 P l l' -> In a l -> exists b, In b l' /\ P a b.
Proof. induction 1 as [|x y l l' Hxy H IH]; [easy|]. intros [<-|Ha]; [exists y; split; [now left|auto]|]. destruct (IH Ha) as (b & Hb & Hp). exists b. split; [now right|auto]. Qed.
Lemma F2_in_r {A B} (P : A -> B -> Prop) l l' b : Forall2 P l l' -> In b l' -> exists a, In a l /\ P a b.
Proof. induction 1 as [|x y l l' Hxy H IH]; [easy|]. intros [<-|Ha]; [exists x; split; [now left|auto]|]. destruct (IH Ha) as (a & Hb & Hp). exists a. split; [now right|auto]. Qed.
Lemma F2_nth {A B} (P : A -> B -> Prop) l l' i a b : Forall2 P l l' -> nth_error l i = Some a -> nth_error l' i = Some b -> P a b.
Proof. intros H. revert i. induction H; intros [|i]; cbn; try discriminate; intros; [congruence|eauto]. Qed.
Lemma max_mono l l' m m' : Forall2 Rle l l' -> is_max_of l m -> is_max_of l' m' -> (m <= m')%R.
Proof. intros HF [H1 _] [_ H4]. destruct (F2_in_l _ _ _ _ HF H1) as (b & Hb & Hle). specialize (H4 b Hb). lra. Qed.
Lemma min_mono l l' m m' : Forall2 Rle l l' -> is_min_of l m -> is_min_of l' m' -> (m <= m')%R.
Proof. intros HF [_ H2] [H3 _]. destruct (F2_in_r _ _ _ _ HF H3) as (a & Ha & Hle). specialize (H2 a Ha). lra. Qed.

Lemma finsert_head (y : R) t : Forall (Rle y) t -> @finsert NumR y t = y :: t.
Proof.
  intros H. destruct t as [|z t]; [reflexivity|]. cbn [finsert]. change (@fleb NumR y z) with (Rleb y z). unfold Rleb.
  inversion_clear H. destruct (Rle_dec y z); [reflexivity|easy].
Qed.
Lemma finsert_mono l l' : Forall2 Rle l l' -> forall x x' : R, StronglySorted Rle l -> StronglySorted Rle l' -> (x <= x')%R ->
  Forall2 Rle (@finsert NumR x l) (@finsert NumR x' l').
Proof.
  induction 1 as [|y y' t t' Hy HF IH]; intros x x' Hs Hs' Hx; [cbn; now constructor|].
  inversion_clear Hs as [|? ? Hst Hyt]. inversion_clear Hs' as [|? ? Hst' Hyt'].
  cbn [finsert]. change (@fleb NumR x y) with (Rleb x y). change (@fleb NumR x' y') with (Rleb x' y'). unfold Rleb.
  destruct (Rle_dec x y) as [H1|H1], (Rle_dec x' y') as [H2|H2].
  - constructor; auto.
  - constructor; [lra|]. rewrite <- (finsert_head y t Hyt). apply IH; auto. lra.
  - constructor; [lra|]. rewrite <- (finsert_head y' t' Hyt'). apply IH; auto. lra.
  - constructor; auto.
Qed.
Lemma fsort_mono l l' : Forall2 Rle l l' -> Forall2 Rle (@fsort NumR l) (@fsort NumR l').
Proof.
  induction 1 as [|x x' l l' Hx H IH]; [constructor|]. change (@fsort NumR (x :: l)) with (@finsert NumR x (@fsort NumR l)).
  change (@fsort NumR (x' :: l')) with (@finsert NumR x' (@fsort NumR l')). apply finsert_mono; auto using fsort_sorted.
Qed.
Lemma median_mono l l' m m' : Forall2 Rle l l' -> is_median l m -> is_median l' m' -> (m <= m')%R.
Proof.
  intros HF (s & Hs & Hss & H) (s' & Hs' & Hss' & H').
  assert (HFs : Forall2 Rle s s').
  { assert (@fsort NumR l = s) as <- by (apply sorted_Rle_unique; [apply fsort_sorted|auto|rewrite Hs; apply fsort_perm]).
    assert (@fsort NumR l' = s') as <- by (apply sorted_Rle_unique; [apply fsort_sorted|auto|rewrite Hs'; apply fsort_perm]).
    now apply fsort_mono. }
  apply F2_len in HF.
  destruct H as [(h & a & Hl & Ha & ->)|(h & a & b & Hl & Ha & Hb & ->)], H' as [(h' & a' & Hl' & Ha' & ->)|(h' & a' & b' & Hl' & Ha' & Hb' & ->)];
    try (exfalso; lia); assert (h = h') as <- by lia.
  - exact (F2_nth _ _ _ _ _ _ HFs Ha Ha').
  - pose proof (F2_nth _ _ _ _ _ _ HFs Ha Ha'). pose proof (F2_nth _ _ _ _ _ _ HFs Hb Hb'). lra.
Qed.
Lemma raised_default q0 d0 xs xs' v : raised q0 d0 xs xs' ->
  Forall2 Rle (map (fun x => match score_of x q0 d0 with Some s => s | None => v end) xs) (map (fun x => match score_of x q0 d0 with Some s => s | None => v end) xs') /\
  forall q d, (q, d) <> (q0, d0) -> map (fun x => match score_of x q d with Some s => s | None => v end) xs' = map (fun x => match score_of x q d with Some s => s | None => v end) xs.
Proof.
  intros H. split.
  - induction H as [|x x' xs xs' [_ Hx] H IH]; cbn; [constructor|]. constructor; auto.
    destruct (score_of x q0 d0), (score_of x' q0 d0); try easy. lra.
  - intros q d Hne. induction H as [|x x' xs xs' [Hx _] H IH]; cbn; auto. now rewrite (Hx q d Hne), IH.
Qed.
Lemma raised_weighted q0 d0 xs xs' (ws : list R) : raised q0 d0 xs xs' -> (forall w, In w ws -> 0 <= w)%R ->
  (forall q d, (q, d) <> (q0, d0) -> weighted_given ws xs' q d = weighted_given ws xs q d) /\
  (Rsum (map (fun wv => fst wv * snd wv)%R (weighted_given ws xs q0 d0)) <= Rsum (map (fun wv => fst wv * snd wv)%R (weighted_given ws xs' q0 d0)))%R.
Proof.
  unfold weighted_given. intros H Hw. split.
  - intros q d Hne. revert ws Hw. induction H as [|x x' xs xs' [Hx _] H IH]; intros [|w ws] Hw; cbn; auto. rewrite (Hx q d Hne). f_equal. apply IH. intros; apply Hw; now right.
  - revert ws Hw. induction H as [|x x' xs xs' [_ Hx] H IH]; intros [|w ws] Hw; cbn; try lra. cbn [fst snd].
    specialize (IH ws (fun w' Hw' => Hw w' (or_intror Hw'))). rewrite !map_app. fold (Rsum). 
    change (fold_right Rplus 0%R) with Rsum. rewrite !Rsum_app. apply Rplus_le_compat; [|exact IH].
    pose proof (Hw w (or_introl eq_refl)). destruct (score_of x q0 d0), (score_of x' q0 d0); try easy; cbn; [|lra]. nra.
Qed.

Theorem C49_monotone : forall (E : env NumR), env_ok E -> forall xs xs' q0 d0 name, fusable xs -> fusable xs' -> raised q0 d0 xs xs' ->
  fused_raised q0 d0 (comb_sum E xs name) (comb_sum E xs' name) /\
  fused_raised q0 d0 (comb_max E xs name) (comb_max E xs' name) /\
  fused_raised q0 d0 (comb_min E xs name) (comb_min E xs' name) /\
  fused_raised q0 d0 (comb_med E xs name) (comb_med E xs' name) /\
  fused_raised q0 d0 (comb_anz E xs name) (comb_anz E xs' name) /\
  fused_raised q0 d0 (comb_mnz E xs name) (comb_mnz E xs' name) /\
  (forall ws, length xs <= length ws -> (forall w, In w ws -> 0 <= w)%R ->
     fused_raised q0 d0 (wsum E xs ws name) (wsum E xs' ws name)).
Proof.
  intros E HE xs xs' q0 d0 name Hxs Hxs' Hr.
  assert (Hoth : forall q d, (q, d) <> (q0, d0) -> scores_given xs' q d = scores_given xs q d) by (intros; now apply (raised_other q0 d0)).
  assert (Hle := raised_this q0 d0 xs xs' Hr). assert (Hsum := Rsum_le_F2 _ _ Hle). assert (Hlen := F2_len _ _ _ Hle).
  assert (Hpos : candidate xs q0 d0 -> (0 < INR (length (scores_given xs q0 d0)))%R).
  { intros Hc. apply lt_0_INR. apply scores_given_ne in Hc. destruct (scores_given xs q0 d0); cbn; [easy|lia]. }
  repeat apply conj; intros.
  - eapply fused_raised_intro; [apply (C43_comb_sum E HE xs); auto|apply (C43_comb_sum E HE xs'); auto|eauto| |]; cbn beta.
    + intros q d s t _ Hne -> ->. now rewrite Hoth.
    + intros s t _ -> ->. exact Hsum.
  - eapply fused_raised_intro; [apply (comb_max_value E HE xs); auto|apply (comb_max_value E HE xs'); auto|eauto| |]; cbn beta.
    + intros q d s t _ Hne Hs Ht. rewrite (proj2 (raised_default q0 d0 xs xs' (- billion)%R Hr) q d Hne) in Ht. eapply is_max_unique; [reflexivity|eauto|eauto].
    + intros s t _. apply max_mono. apply (raised_default q0 d0 xs xs' _ Hr).
  - eapply fused_raised_intro; [apply (comb_min_value E HE xs); auto|apply (comb_min_value E HE xs'); auto|eauto| |]; cbn beta.
    + intros q d s t _ Hne Hs Ht. rewrite (proj2 (raised_default q0 d0 xs xs' billion Hr) q d Hne) in Ht. eapply is_min_unique; [reflexivity|eauto|eauto].
    + intros s t _. apply min_mono. apply (raised_default q0 d0 xs xs' _ Hr).
  - eapply fused_raised_intro; [apply (C43_comb_med E HE xs); auto|apply (C43_comb_med E HE xs'); auto|eauto| |]; cbn beta.
    + intros q d s t _ Hne Hs Ht. rewrite Hoth in Ht by auto. eapply is_median_unique; [reflexivity|eauto|eauto].
    + intros s t _. now apply median_mono.
  - eapply fused_raised_intro; [apply (C43_comb_anz E HE xs); auto|apply (C43_comb_anz E HE xs'); auto|eauto| |]; cbn beta.
    + intros q d s t _ Hne -> ->. now rewrite Hoth.
    + intros s t Hc -> ->. rewrite <- Hlen. apply Rmult_le_compat_r; auto. apply Rlt_le, Rinv_0_lt_compat. auto.
  - eapply fused_raised_intro; [apply (C43_comb_mnz E HE xs); auto|apply (C43_comb_mnz E HE xs'); auto|eauto| |]; cbn beta.
    + intros q d s t _ Hne -> ->. now rewrite Hoth.
    + intros s t Hc -> ->. rewrite <- Hlen. apply Rmult_le_compat_r; auto. apply Rlt_le. auto.
  - assert (Hl' : length xs' <= length ws) by (rewrite <- (F2_len _ _ _ Hr); auto).
    destruct (raised_weighted q0 d0 xs xs' ws Hr) as [W1 W2]; auto.
    eapply fused_raised_intro; [apply (C45_wsum E HE xs ws); auto|apply (C45_wsum E HE xs' ws); auto|eauto| |]; cbn beta.
    + intros q d s t _ Hne -> ->. now rewrite W1.
    + intros s t _ -> ->. exact W2.
Qed.
