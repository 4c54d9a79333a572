(** T_Unanimity.v: what all runs agree on, the fused run keeps (C83) *)
From Coq Require Import Reals Lra Psatz.
From Verif Require Import Base Dict Num NumLaws Env EnvEx M_Common M_Qrels M_Run M_History M_Norm M_Fusion
  Spec_DS Spec_Hist Spec_Metrics Spec_Eval Spec_Norm Spec_Fusion Spec_Unanimity
  P_Base P_Dict P_Common P_DS P_Metrics P_Eval P_Norm T_Norm T_Norm2 T_Norm3 P_Fusion P_Fusion2 P_Fusion3
  T_Fusion T_Fusion2 T_Fusion3 T_Fusion4 T_Fusion5 T_Fusion6 Ex_Metrics P_Unanimity.
Open Scope string_scope.
Open Scope list_scope.
Open Scope nat_scope.

(** every run holds both or neither, and scores [a] at least as high as [b] *)
Theorem C83_same_runs : forall (E : env NumR), env_ok E -> forall xs q a b name, fusable xs ->
  (forall x, In x xs -> scores_both x q a b) ->
  not_below (comb_sum E xs name) q a b /\ not_below (comb_max E xs name) q a b /\ not_below (comb_min E xs name) q a b /\
  not_below (comb_med E xs name) q a b /\ not_below (comb_anz E xs name) q a b /\ not_below (comb_mnz E xs name) q a b /\
  (forall gamma, not_below (comb_gmnz E xs gamma name) q a b) /\
  (forall ws, length xs <= length ws -> (forall w, In w ws -> 0 <= w)%R ->
     not_below (wsum E xs ws name) q a b /\ not_below (wmnz E xs ws name) q a b /\ not_below (mixed E xs ws name) q a b).
Proof.
  intros E HE xs q a b name Hxs H.
  assert (HF := both_F2 xs q a b H). assert (Hsum := Rsum_le_F2 _ _ HF). assert (Hlen := both_count xs q a b H).
  assert (Hc := proj1 (both_cand xs q a b H)).
  repeat apply conj.
  - eapply not_below_intro; [apply (C43_comb_sum E HE xs name Hxs)|exact Hc|]. cbn beta. intros sa sb _ _ -> ->. exact Hsum.
  - eapply not_below_intro; [apply (comb_max_value E HE xs name Hxs)|exact Hc|]. cbn beta. intros sa sb _ _ Ha Hb. eapply max_mono; [|exact Hb|exact Ha]. now apply both_default.
  - eapply not_below_intro; [apply (comb_min_value E HE xs name Hxs)|exact Hc|]. cbn beta. intros sa sb _ _ Ha Hb. eapply min_mono; [|exact Hb|exact Ha]. now apply both_default.
  - eapply not_below_intro; [apply (C43_comb_med E HE xs name Hxs)|exact Hc|]. cbn beta. intros sa sb _ _ Ha Hb. eapply median_mono; [exact HF|exact Hb|exact Ha].
  - eapply not_below_intro; [apply (C43_comb_anz E HE xs name Hxs)|exact Hc|]. cbn beta. intros sa sb Ca _ -> ->. rewrite Hlen. apply count_pos in Ca.
    apply Rmult_le_compat_r; [apply Rlt_le, Rinv_0_lt_compat; lra|exact Hsum].
  - eapply not_below_intro; [apply (C43_comb_mnz E HE xs name Hxs)|exact Hc|]. cbn beta. intros sa sb Ca _ -> ->. rewrite Hlen. apply count_pos in Ca.
    apply Rmult_le_compat_r; [lra|exact Hsum].
  - intros gamma. eapply not_below_intro; [apply (C43_comb_gmnz E HE xs gamma name Hxs)|exact Hc|]. cbn beta. intros sa sb Ca _ -> ->. rewrite Hlen.
    apply Rmult_le_compat_r; [apply Rlt_le, exp_pos|exact Hsum].
  - intros ws Hl Hw.
    assert (Hpt : forall wx, In wx (combine ws xs) -> (0 <= fst wx)%R /\ (at0 (score_of (snd wx) q b) <= at0 (score_of (snd wx) q a))%R /\ there (score_of (snd wx) q b) = there (score_of (snd wx) q a)).
    { intros [w x] Hin. cbn [fst snd]. split; [apply Hw; eapply in_combine_l; eauto|]. apply both_point, H. eapply in_combine_r; eauto. }
    assert (Hws : (Rsum (map (fun wv => fst wv * snd wv)%R (weighted_given ws xs q b)) <= Rsum (map (fun wv => fst wv * snd wv)%R (weighted_given ws xs q a)))%R).
    { rewrite !wsum_scores. apply Rsum_map_le. intros wx Hin. destruct (Hpt wx Hin) as (H0 & H1 & _). nra. }
    repeat apply conj.
    + eapply not_below_intro; [apply (C45_wsum E HE xs ws name Hxs Hl)|exact Hc|]. cbn beta. intros sa sb _ _ -> ->. exact Hws.
    + eapply not_below_intro; [apply (C45_wmnz E HE xs ws name Hxs Hl)|exact Hc|]. cbn beta. intros sa sb _ _ -> ->.
      assert (Heq : Rsum (map fst (weighted_given ws xs q b)) = Rsum (map fst (weighted_given ws xs q a))).
      { rewrite !wsum_fst. apply Rsum_map_ext. intros wx Hin. destruct (Hpt wx Hin) as (_ & _ & ->). reflexivity. }
      rewrite Heq. apply Rmult_le_compat_r.
      * rewrite wsum_fst. apply Rsum_map_nonneg. intros wx Hin. destruct (Hpt wx Hin) as (H0 & _). destruct (score_of (snd wx) q a); cbn; lra.
      * rewrite !wsum_snd. apply Rsum_map_le. intros wx Hin. apply (Hpt wx Hin).
    + eapply not_below_intro; [apply (C45_mixed E HE xs ws name Hxs Hl)|exact Hc|]. cbn beta. intros sa sb _ _ -> ->.
      assert (Heq : INR (length (weighted_given ws xs q b)) = INR (length (weighted_given ws xs q a))).
      { rewrite !wcount. apply Rsum_map_ext. intros wx Hin. apply (Hpt wx Hin). }
      rewrite Heq. apply Rmult_le_compat_l; [apply sqrt_pos|exact Hws].
Qed.

(** no negative scores; wherever a run holds [b] it holds [a] with at least the same score *)
Theorem C83_more_runs : forall (E : env NumR), env_ok E -> forall xs q a b name, fusable xs -> nonneg_scores xs ->
  (forall x, In x xs -> scores_more x q a b) ->
  not_below (comb_sum E xs name) q a b /\ not_below (comb_max E xs name) q a b /\ not_below (comb_mnz E xs name) q a b /\
  (forall gamma, (0 <= gamma)%R -> not_below (comb_gmnz E xs gamma name) q a b) /\
  (forall ws, length xs <= length ws -> (forall w, In w ws -> 0 <= w)%R ->
     not_below (wsum E xs ws name) q a b /\ not_below (wmnz E xs ws name) q a b /\ not_below (mixed E xs ws name) q a b).
Proof.
  intros E HE xs q a b name Hxs Hn H.
  assert (Hc := more_cand xs q a b H).
  assert (Hpt : forall x, In x xs -> (0 <= at0 (score_of x q b) <= at0 (score_of x q a))%R /\ (0 <= there (score_of x q b) <= there (score_of x q a))%R).
  { intros x Hx. apply more_point; auto. intros d s. now apply Hn. }
  assert (Hsum : (0 <= Rsum (scores_given xs q b) <= Rsum (scores_given xs q a))%R).
  { rewrite !sum_scores. split; [apply Rsum_map_nonneg|apply Rsum_map_le]; intros x Hx; apply (Hpt x Hx). }
  assert (Hlen : (INR (length (scores_given xs q b)) <= INR (length (scores_given xs q a)))%R).
  { rewrite !count_scores. apply Rsum_map_le; intros x Hx; apply (Hpt x Hx). }
  repeat apply conj.
  - eapply not_below_intro; [apply (C43_comb_sum E HE xs name Hxs)|exact Hc|]. cbn beta. intros sa sb _ _ -> ->. apply Hsum.
  - eapply not_below_intro; [apply (comb_max_value E HE xs name Hxs)|exact Hc|]. cbn beta. intros sa sb _ _ Ha Hb. eapply max_mono; [|exact Hb|exact Ha].
    revert Hn H. clear. intros Hn H. induction xs as [|x xs IH]; cbn; [constructor|]. constructor.
    + assert (Hx := H x (or_introl eq_refl)). assert (Hnx := fun s => Hn x q a s (or_introl eq_refl)).
      assert (0 < billion)%R by (unfold billion; lra).
      destruct (score_of x q b) as [sb|] eqn:Hb.
      * destruct (Hx sb Hb) as (sa & Ha & Hle). rewrite Ha. exact Hle.
      * destruct (score_of x q a) as [sa|]; [|lra]. specialize (Hnx sa eq_refl). lra.
    + apply IH; [intros z p d s Hz; apply Hn; now right|intros; apply H; now right].
  - eapply not_below_intro; [apply (C43_comb_mnz E HE xs name Hxs)|exact Hc|]. cbn beta. intros sa sb Ca Cb -> ->. apply count_pos in Cb.
    apply Rmult_le_compat; lra.
  - intros gamma Hg. eapply not_below_intro; [apply (C43_comb_gmnz E HE xs gamma name Hxs)|exact Hc|]. cbn beta. intros sa sb Ca Cb -> ->. apply count_pos in Cb.
    apply Rmult_le_compat; [lra|apply Rlt_le, exp_pos|lra|]. apply Rle_Rpower_l; auto. lra.
  - intros ws Hl Hw.
    assert (Hwt : forall wx, In wx (combine ws xs) -> (0 <= fst wx)%R /\ (0 <= at0 (score_of (snd wx) q b) <= at0 (score_of (snd wx) q a))%R /\ (0 <= there (score_of (snd wx) q b) <= there (score_of (snd wx) q a))%R).
    { intros [w x] Hin. cbn [fst snd]. split; [apply Hw; eapply in_combine_l; eauto|]. apply Hpt. eapply in_combine_r; eauto. }
    assert (Hws : (0 <= Rsum (map (fun wv => fst wv * snd wv)%R (weighted_given ws xs q b)) <= Rsum (map (fun wv => fst wv * snd wv)%R (weighted_given ws xs q a)))%R).
    { rewrite !wsum_scores. split; [apply Rsum_map_nonneg|apply Rsum_map_le]; intros wx Hin; destruct (Hwt wx Hin) as (H0 & H1 & _); nra. }
    repeat apply conj.
    + eapply not_below_intro; [apply (C45_wsum E HE xs ws name Hxs Hl)|exact Hc|]. cbn beta. intros sa sb _ _ -> ->. apply Hws.
    + eapply not_below_intro; [apply (C45_wmnz E HE xs ws name Hxs Hl)|exact Hc|]. cbn beta. intros sa sb _ _ -> ->.
      apply Rmult_le_compat; rewrite ?wsum_fst, ?wsum_snd.
      * apply Rsum_map_nonneg; intros wx Hin; apply (Hwt wx Hin).
      * apply Rsum_map_nonneg; intros wx Hin; destruct (Hwt wx Hin) as (H0 & _ & H1); nra.
      * apply Rsum_map_le; intros wx Hin; apply (Hwt wx Hin).
      * apply Rsum_map_le; intros wx Hin; destruct (Hwt wx Hin) as (H0 & _ & H1); nra.
    + eapply not_below_intro; [apply (C45_mixed E HE xs ws name Hxs Hl)|exact Hc|]. cbn beta. intros sa sb _ _ -> ->.
      apply Rmult_le_compat; [apply sqrt_pos|apply Hws| |apply Hws]. apply sqrt_le_1_alt. rewrite !wcount. apply Rsum_map_le; intros wx Hin; apply (Hwt wx Hin).
Qed.

(** BordaFuse points *)
Lemma rank_le_len x q d r : rank_of x q d = Some r -> 1 <= r <= length (results_of x q).
Proof.
  unfold rank_of. intros Hr. rewrite <- (map_length fst (results_of x q)). change (map fst (results_of x q)) with (dkeys (results_of x q)).
  revert r Hr. induction (dkeys (results_of x q)) as [|e l IH]; cbn; intros r Hr; [discriminate|].
  destruct (string_dec d e); [inversion Hr; lia|]. destruct (rank_in l d); [|discriminate]. inversion Hr; subst. specialize (IH n0 eq_refl). lia.
Qed.
Lemma results_le_cands xs q cs x : In x xs -> a_run x -> candidates_are xs q cs -> length (results_of x q) <= length cs.
Proof.
  intros Hx Hax [Hnd Hin]. rewrite <- (map_length fst (results_of x q)). apply NoDup_incl_length.
  - exact (results_ok x q Hax).
  - intros d Hd. apply Hin. exists x. split; auto. now apply retrieves_key.
Qed.
Lemma borda_le n x q a b : length (results_of x q) <= n -> ranks_more x q a b -> (borda_points n x q b <= borda_points n x q a)%R.
Proof.
  intros Hn H. unfold borda_points. apply le_INR in Hn. destruct (rank_of x q b) as [rb|] eqn:Hb.
  - destruct (H rb Hb) as (ra & Ha & Hle). rewrite Ha. apply le_INR in Hle. lra.
  - destruct (rank_of x q a) as [ra|] eqn:Ha; [|lra]. apply rank_le_len in Ha as [_ Ha]. apply le_INR in Ha. lra.
Qed.
Lemma borda_lt n x q a b : length (results_of x q) <= n -> prefers x q a b = true -> (borda_points n x q b < borda_points n x q a)%R.
Proof.
  intros Hn H. unfold borda_points, prefers in *. apply le_INR in Hn. destruct (rank_of x q a) as [ra|] eqn:Ha; [|discriminate].
  destruct (rank_of x q b) as [rb|] eqn:Hb.
  - apply Nat.ltb_lt in H. apply lt_INR in H. lra.
  - apply rank_le_len in Ha as [_ Ha]. apply le_INR in Ha. lra.
Qed.

Lemma square_anti r r' : 1 <= r -> r <= r' -> (0 <= inv_square r' <= inv_square r)%R.
Proof.
  intros H1 H2. unfold inv_square. apply (le_INR 1) in H1. apply le_INR in H2. cbn [INR] in H1.
  assert (0 < INR r ^ 2)%R by (apply pow_lt; lra). assert (INR r ^ 2 <= INR r' ^ 2)%R by (apply pow_incr; lra).
  split; [apply Rlt_le, Rdiv_lt_0_compat; lra|]. apply Rmult_le_compat_l; [lra|]. apply Rinv_le_contravar; auto.
Qed.
Lemma square_strict r r' : 1 <= r -> r < r' -> (inv_square r' < inv_square r)%R.
Proof.
  intros H1 H2. unfold inv_square. apply (le_INR 1) in H1. apply lt_INR in H2. cbn [INR] in H1.
  assert (0 < INR r ^ 2)%R by (apply pow_lt; lra). assert (INR r ^ 2 < INR r' ^ 2)%R by nra.
  apply Rmult_lt_compat_l; [lra|]. apply Rinv_lt_contravar; auto. apply Rmult_lt_0_compat; lra.
Qed.
Lemma square_pos r : 1 <= r -> (0 < inv_square r)%R.
Proof. intros H1. unfold inv_square. apply (le_INR 1) in H1. cbn [INR] in H1. apply Rdiv_lt_0_compat; [lra|]. apply pow_lt; lra. Qed.
Lemma rank_count_pos xs q d : candidate xs q d -> (1 <= INR (length (ranks_given xs q d)))%R.
Proof. intros H. rewrite ranks_given_len. now apply count_pos. Qed.

(** wherever a run ranks [b] it ranks [a], and no later *)
Theorem C83_ranks : forall (E : env NumR), env_ok E -> forall xs q a b name, fusable xs ->
  (forall x, In x xs -> ranks_more x q a b) ->
  not_below (isr E xs name) q a b /\ not_below (log_isr E xs name) q a b /\
  (forall sigma, (0 <= sigma <= 1)%R -> not_below (logn_isr E xs sigma name) q a b) /\
  (forall k, (0 <= k)%Z -> not_below (rrf E xs k name) q a b) /\
  (forall phi, (0 <= phi <= 1)%R -> not_below (rbc E xs phi name) q a b) /\
  (same_query_order xs -> not_below (bordafuse E xs name) q a b) /\
  (same_query_order xs -> forall ws, length xs = length ws -> (forall w, In w ws -> 0 <= w)%R -> not_below (weighted_bordafuse E xs ws name) q a b).
Proof.
  intros E HE xs q a b name Hxs H.
  assert (Hc := ranks_cand xs q a b H).
  assert (Hh : forall h : nat -> R, (forall r r', 1 <= r -> r <= r' -> (0 <= h r' <= h r)%R) ->
     (0 <= Rsum (map h (ranks_given xs q b)) <= Rsum (map h (ranks_given xs q a)))%R).
  { intros h Hh. rewrite !sum_ranks. split; [apply Rsum_map_nonneg|apply Rsum_map_le]; intros x Hx; apply (rank_point h x q a b Hh (H x Hx)). }
  assert (Hlen : (INR (length (ranks_given xs q b)) <= INR (length (ranks_given xs q a)))%R).
  { rewrite !count_ranks. apply Rsum_map_le. intros x Hx. apply (rank_point (fun _ => 1%R) x q a b); auto. intros; lra. }
  assert (Hsq := Hh inv_square square_anti).
  repeat apply conj.
  - eapply not_below_intro; [apply (C44_isr E HE xs name Hxs)|exact Hc|]. cbn beta. intros sa sb _ Cb -> ->. apply rank_count_pos in Cb. apply Rmult_le_compat; lra.
  - eapply not_below_intro; [apply (C44_log_isr E HE xs name Hxs)|exact Hc|]. cbn beta. intros sa sb _ Cb -> ->. apply rank_count_pos in Cb.
    apply Rmult_le_compat; try lra.
    + rewrite <- ln_1. destruct Cb as [Cb|<-]; [|lra]. apply Rlt_le, ln_increasing; lra.
    + destruct Hlen as [Hlt|Heq]; [|rewrite Heq; lra]. apply Rlt_le, ln_increasing; lra.
  - intros sigma Hs. eapply not_below_intro; [apply (C44_logn_isr E HE xs sigma name Hxs Hs)|exact Hc|]. cbn beta. intros sa sb _ Cb -> ->. apply rank_count_pos in Cb.
    apply Rmult_le_compat; try lra.
    + rewrite <- ln_1. destruct (Rle_lt_or_eq_dec 1 (INR (length (ranks_given xs q b)) + sigma)) as [Hlt|<-]; [lra| |lra]. apply Rlt_le, ln_increasing; lra.
    + destruct Hlen as [Hlt|Heq]; [|rewrite Heq; lra]. apply Rlt_le, ln_increasing; lra.
  - intros k Hk. eapply not_below_intro; [apply (C44_rrf E HE xs k name Hxs Hk)|exact Hc|]. cbn beta. intros sa sb _ _ -> ->.
    apply Hh. intros r r' H1 H2. apply (le_INR 1) in H1. apply le_INR in H2. cbn [INR] in H1. apply IZR_le in Hk.
    split; [apply Rlt_le, Rdiv_lt_0_compat; lra|]. apply Rmult_le_compat_l; [lra|]. apply Rinv_le_contravar; lra.
  - intros phi Hp. eapply not_below_intro; [apply (C44_rbc E HE xs phi name Hxs)|exact Hc|]. cbn beta. intros sa sb _ _ -> ->.
    apply (Hh (fun r => ((1 - phi) * phi ^ (r - 1))%R)). intros r r' H1 H2. split; [apply Rmult_le_pos; [lra|apply pow_le; lra]|].
    apply Rmult_le_compat_l; [lra|]. replace (r' - 1) with ((r - 1) + (r' - r)) by lia. rewrite pow_add.
    assert (0 <= phi ^ (r - 1))%R by (apply pow_le; lra). assert (phi ^ (r' - r) <= 1)%R by (rewrite <- (pow1 (r' - r)); apply pow_incr; lra).
    assert (0 <= phi ^ (r' - r))%R by (apply pow_le; lra). nra.
  - intros Ho. destruct (C46_bordafuse E HE xs name Hxs Ho) as (y & Hy & Hn & Hf & _).
    eapply not_below_intro; [exists y; split; [exact Hy|split; [exact Hn|exact Hf]]|exact Hc|]. cbn beta. intros sa sb _ _ Ha Hb.
    pose proof (cands_candidates E HE xs q) as Hcs. rewrite (Ha _ Hcs), (Hb _ Hcs). apply Rsum_map_le. intros x Hx. apply borda_le; auto.
    apply (results_le_cands xs); auto. destruct Hxs as (_ & Hall & _). rewrite Forall_forall in Hall. auto.
  - intros Ho ws Hl Hw. destruct (C46_weighted_bordafuse E HE xs ws name Hxs Ho Hl) as (y & Hy & Hn & Hf & _).
    eapply not_below_intro; [exists y; split; [exact Hy|split; [exact Hn|exact Hf]]|exact Hc|]. cbn beta. intros sa sb _ _ Ha Hb.
    pose proof (cands_candidates E HE xs q) as Hcs. rewrite (Ha _ Hcs), (Hb _ Hcs). apply Rsum_map_le. intros [w x] Hin. cbn [fst snd].
    apply Rmult_le_compat_l; [apply Hw; eapply in_combine_l; eauto|]. apply in_combine_r in Hin as Hx. apply borda_le; auto.
    apply (results_le_cands xs); auto. destruct Hxs as (_ & Hall & _). rewrite Forall_forall in Hall. auto.
Qed.

(** ... and if one run prefers [a] strictly, the fused run ranks [a] before [b] *)
Theorem C83_strict_scores : forall (E : env NumR), env_ok E -> forall xs q a b name, fusable xs ->
  (forall x, In x xs -> scores_both x q a b) -> (exists x, In x xs /\ scores_strictly x q a b) ->
  above (comb_sum E xs name) q a b /\ above (comb_anz E xs name) q a b /\ above (comb_mnz E xs name) q a b /\
  (forall gamma, above (comb_gmnz E xs gamma name) q a b) /\
  (forall ws, length xs <= length ws -> (forall w, In w ws -> 0 < w)%R ->
     above (wsum E xs ws name) q a b /\ above (wmnz E xs ws name) q a b /\ above (mixed E xs ws name) q a b).
Proof.
  intros E HE xs q a b name Hxs H (x0 & Hx0 & sa0 & sb0 & Ha0 & Hb0 & Hlt0).
  assert (Hca : candidate xs q a) by (exists x0; split; auto; eexists; eauto).
  assert (Hcb : candidate xs q b) by (exists x0; split; auto; eexists; eauto).
  assert (Hlen := both_count xs q a b H). assert (Hpos := count_pos xs q a Hca).
  assert (Hsum : (Rsum (scores_given xs q b) < Rsum (scores_given xs q a))%R).
  { rewrite !sum_scores. apply Rsum_map_lt; [intros x Hx; apply (both_point x q a b (H x Hx))|]. exists x0. split; auto. rewrite Ha0, Hb0. exact Hlt0. }
  repeat apply conj.
  - eapply above_intro; [apply (C43_comb_sum E HE xs name Hxs)|exact Hca|exact Hcb|]. cbn beta. intros sa sb -> ->. exact Hsum.
  - eapply above_intro; [apply (C43_comb_anz E HE xs name Hxs)|exact Hca|exact Hcb|]. cbn beta. intros sa sb -> ->. rewrite Hlen.
    apply Rmult_lt_compat_r; [apply Rinv_0_lt_compat; lra|exact Hsum].
  - eapply above_intro; [apply (C43_comb_mnz E HE xs name Hxs)|exact Hca|exact Hcb|]. cbn beta. intros sa sb -> ->. rewrite Hlen.
    apply Rmult_lt_compat_r; [lra|exact Hsum].
  - intros gamma. eapply above_intro; [apply (C43_comb_gmnz E HE xs gamma name Hxs)|exact Hca|exact Hcb|]. cbn beta. intros sa sb -> ->. rewrite Hlen.
    apply Rmult_lt_compat_r; [apply exp_pos|exact Hsum].
  - intros ws Hl Hw.
    assert (Hpt : forall wx, In wx (combine ws xs) -> (0 < fst wx)%R /\ (at0 (score_of (snd wx) q b) <= at0 (score_of (snd wx) q a))%R /\ there (score_of (snd wx) q b) = there (score_of (snd wx) q a)).
    { intros [w x] Hin. cbn [fst snd]. split; [apply Hw; eapply in_combine_l; eauto|]. apply both_point, H. eapply in_combine_r; eauto. }
    assert (Hw0 : exists w0, In (w0, x0) (combine ws xs)).
    { clear -Hl Hx0. revert ws Hl. induction xs as [|x xs IH]; intros [|w ws] Hl; cbn in *; try easy.
      destruct Hx0 as [ -> |Hx0]; [eauto|]. destruct (IH Hx0 ws) as [w0 Hw0]; [lia|]. eauto. }
    destruct Hw0 as [w0 Hin0].
    assert (Hws : (Rsum (map (fun wv => fst wv * snd wv)%R (weighted_given ws xs q b)) < Rsum (map (fun wv => fst wv * snd wv)%R (weighted_given ws xs q a)))%R).
    { rewrite !wsum_scores. apply Rsum_map_lt.
      - intros wx Hin. destruct (Hpt wx Hin) as (H0 & H1 & _). nra.
      - exists (w0, x0). split; auto. cbn [fst snd]. rewrite Ha0, Hb0. cbn. destruct (Hpt _ Hin0) as (H0 & _). cbn [fst] in H0. nra. }
    repeat apply conj.
    + eapply above_intro; [apply (C45_wsum E HE xs ws name Hxs Hl)|exact Hca|exact Hcb|]. cbn beta. intros sa sb -> ->. exact Hws.
    + eapply above_intro; [apply (C45_wmnz E HE xs ws name Hxs Hl)|exact Hca|exact Hcb|]. cbn beta. intros sa sb -> ->.
      assert (Heq : Rsum (map fst (weighted_given ws xs q b)) = Rsum (map fst (weighted_given ws xs q a))).
      { rewrite !wsum_fst. apply Rsum_map_ext. intros wx Hin. destruct (Hpt wx Hin) as (_ & _ & ->). reflexivity. }
      rewrite Heq. apply Rmult_lt_compat_r.
      * rewrite wsum_fst. replace 0%R with (Rsum (map (fun _ : R * Run NumR => 0%R) (combine ws xs))) by (rewrite Rsum_map_const; lra). apply Rsum_map_lt.
        -- intros wx Hin. destruct (Hpt wx Hin) as (H0 & _). destruct (score_of (snd wx) q a); cbn; lra.
        -- exists (w0, x0). split; auto. cbn [fst snd]. rewrite Ha0. cbn. destruct (Hpt _ Hin0) as (H0 & _). cbn [fst] in H0. lra.
      * rewrite !wsum_snd. apply Rsum_map_lt; [intros wx Hin; apply (Hpt wx Hin)|]. exists (w0, x0). split; auto. cbn [snd]. rewrite Ha0, Hb0. exact Hlt0.
    + eapply above_intro; [apply (C45_mixed E HE xs ws name Hxs Hl)|exact Hca|exact Hcb|]. cbn beta. intros sa sb -> ->.
      assert (Heq : INR (length (weighted_given ws xs q b)) = INR (length (weighted_given ws xs q a))).
      { rewrite !wcount. apply Rsum_map_ext. intros wx Hin. apply (Hpt wx Hin). }
      rewrite Heq. apply Rmult_lt_compat_l; [|exact Hws]. apply sqrt_lt_R0. rewrite wcount.
      replace 0%R with (Rsum (map (fun _ : R * Run NumR => 0%R) (combine ws xs))) by (rewrite Rsum_map_const; lra). apply Rsum_map_lt.
      * intros wx Hin. destruct (score_of (snd wx) q a); cbn; lra.
      * exists (w0, x0). split; auto. cbn [fst snd]. rewrite Ha0. cbn. lra.
Qed.

Theorem C83_strict_ranks : forall (E : env NumR), env_ok E -> forall xs q a b name, fusable xs ->
  (forall x, In x xs -> ranks_more x q a b) -> (exists x, In x xs /\ prefers x q a b = true) -> candidate xs q b ->
  above (isr E xs name) q a b /\
  (forall sigma, (0 < sigma <= 1)%R -> above (logn_isr E xs sigma name) q a b) /\
  (forall k, (0 <= k)%Z -> above (rrf E xs k name) q a b) /\
  (forall phi, (0 < phi < 1)%R -> above (rbc E xs phi name) q a b) /\
  (same_query_order xs -> above (bordafuse E xs name) q a b) /\
  (same_query_order xs -> forall ws, length xs = length ws -> (forall w, In w ws -> 0 < w)%R -> above (weighted_bordafuse E xs ws name) q a b).
Proof.
  intros E HE xs q a b name Hxs H (x0 & Hx0 & Hp0) Hcb.
  assert (Hca := ranks_cand xs q a b H Hcb).
  assert (Hh : forall h : nat -> R, (forall r r', 1 <= r -> r <= r' -> (0 <= h r' <= h r)%R) -> (forall r r', 1 <= r -> r < r' -> (h r' < h r)%R) -> (forall r, 1 <= r -> (0 < h r)%R) ->
     (0 <= Rsum (map h (ranks_given xs q b)) < Rsum (map h (ranks_given xs q a)))%R).
  { intros h Hh Hs Hp. rewrite !sum_ranks. split; [apply Rsum_map_nonneg|apply Rsum_map_lt]; try (intros x Hx; apply (rank_point h x q a b Hh (H x Hx))).
    exists x0. split; auto. now apply rank_strict. }
  assert (Hlen : (INR (length (ranks_given xs q b)) <= INR (length (ranks_given xs q a)))%R).
  { rewrite !count_ranks. apply Rsum_map_le. intros x Hx. apply (rank_point (fun _ => 1%R) x q a b); auto. intros; lra. }
  assert (Hsq := Hh inv_square square_anti square_strict square_pos).
  assert (Cb := rank_count_pos xs q b Hcb).
  repeat apply conj.
  - eapply above_intro; [apply (C44_isr E HE xs name Hxs)|exact Hca|exact Hcb|]. cbn beta. intros sa sb -> ->. nra.
  - intros sigma Hs. assert (Hs' : (0 <= sigma <= 1)%R) by lra. eapply above_intro; [apply (C44_logn_isr E HE xs sigma name Hxs Hs')|exact Hca|exact Hcb|]. cbn beta. intros sa sb -> ->.
    assert (L0 : (0 < ln (INR (length (ranks_given xs q b)) + sigma))%R) by (rewrite <- ln_1; apply ln_increasing; lra).
    assert (L1 : (ln (INR (length (ranks_given xs q b)) + sigma) <= ln (INR (length (ranks_given xs q a)) + sigma))%R).
    { destruct Hlen as [Hlt|Heq]; [|rewrite Heq; lra]. apply Rlt_le, ln_increasing; lra. }
    nra.
  - intros k Hk. eapply above_intro; [apply (C44_rrf E HE xs k name Hxs Hk)|exact Hca|exact Hcb|]. cbn beta. intros sa sb -> ->. apply IZR_le in Hk.
    apply Hh; intros r; [intros r' H1 H2|intros r' H1 H2|intros H1]; apply (le_INR 1) in H1; cbn [INR] in H1.
    + apply le_INR in H2. split; [apply Rlt_le, Rdiv_lt_0_compat; lra|]. apply Rmult_le_compat_l; [lra|]. apply Rinv_le_contravar; lra.
    + apply lt_INR in H2. apply Rmult_lt_compat_l; [lra|]. apply Rinv_lt_contravar; [apply Rmult_lt_0_compat; lra|lra].
    + apply Rdiv_lt_0_compat; lra.
  - intros phi Hp. eapply above_intro; [apply (C44_rbc E HE xs phi name Hxs)|exact Hca|exact Hcb|]. cbn beta. intros sa sb -> ->.
    assert (Hpw : forall n, (0 < phi ^ n)%R) by (intros; apply pow_lt; lra).
    apply (Hh (fun r => ((1 - phi) * phi ^ (r - 1))%R)); intros r; [intros r' H1 H2|intros r' H1 H2|intros H1].
    + pose proof (Hpw (r' - 1)). split; [nra|]. apply Rmult_le_compat_l; [lra|]. replace (r' - 1) with ((r - 1) + (r' - r)) by lia. rewrite pow_add.
      assert (phi ^ (r' - r) <= 1)%R by (rewrite <- (pow1 (r' - r)); apply pow_incr; lra). pose proof (Hpw (r - 1)). pose proof (Hpw (r' - r)). nra.
    + apply Rmult_lt_compat_l; [lra|]. replace (r' - 1) with ((r - 1) + S (r' - r - 1)) by lia. rewrite pow_add. cbn [pow].
      assert (phi ^ (r' - r - 1) <= 1)%R by (rewrite <- (pow1 (r' - r - 1)); apply pow_incr; lra). pose proof (Hpw (r - 1)). pose proof (Hpw (r' - r - 1)).
      assert (phi * phi ^ (r' - r - 1) < 1)%R by nra. nra.
    + pose proof (Hpw (r - 1)). nra.
  - intros Ho. destruct (C46_bordafuse E HE xs name Hxs Ho) as (y & Hy & Hn & Hf & _).
    eapply above_intro; [exists y; split; [exact Hy|split; [exact Hn|exact Hf]]|exact Hca|exact Hcb|]. cbn beta. intros sa sb Ha Hb.
    pose proof (cands_candidates E HE xs q) as Hcs. rewrite (Ha _ Hcs), (Hb _ Hcs).
    assert (Hlc : forall x, In x xs -> length (results_of x q) <= length (cands_of E (maps xs) q)).
    { intros x Hx. apply (results_le_cands xs); auto. destruct Hxs as (_ & Hall & _). rewrite Forall_forall in Hall. auto. }
    apply Rsum_map_lt; [intros x Hx; apply borda_le; auto|]. exists x0. split; auto. apply borda_lt; auto.
  - intros Ho ws Hl Hw. destruct (C46_weighted_bordafuse E HE xs ws name Hxs Ho Hl) as (y & Hy & Hn & Hf & _).
    eapply above_intro; [exists y; split; [exact Hy|split; [exact Hn|exact Hf]]|exact Hca|exact Hcb|]. cbn beta. intros sa sb Ha Hb.
    pose proof (cands_candidates E HE xs q) as Hcs. rewrite (Ha _ Hcs), (Hb _ Hcs).
    assert (Hlc : forall x, In x xs -> length (results_of x q) <= length (cands_of E (maps xs) q)).
    { intros x Hx. apply (results_le_cands xs); auto. destruct Hxs as (_ & Hall & _). rewrite Forall_forall in Hall. auto. }
    assert (Hw0 : exists w0, In (w0, x0) (combine ws xs)).
    { clear -Hl Hx0. revert ws Hl. induction xs as [|x xs IH]; intros [|w ws] Hl; cbn in *; try easy.
      destruct Hx0 as [ -> |Hx0]; [eauto|]. destruct (IH Hx0 ws) as [w0 Hw0]; [lia|]. eauto. }
    destruct Hw0 as [w0 Hin0].
    apply Rsum_map_lt.
    + intros [w x] Hin. cbn [fst snd]. apply Rmult_le_compat_l; [apply Rlt_le, Hw; eapply in_combine_l; eauto|]. apply in_combine_r in Hin as Hx. apply borda_le; auto.
    + exists (w0, x0). split; auto. cbn [fst snd]. apply Rmult_lt_compat_l; [apply Hw; eapply in_combine_l; eauto|]. apply borda_lt; auto.
Qed.

(** with log_isr, a document found by one run only gets 0, whatever its rank *)
Theorem C83_log_isr_single : forall (E : env NumR), env_ok E -> forall xs name, fusable xs ->
  exists y, log_isr E xs name = Ok y /\
    forall q d s, score_of y q d = Some s -> length (scores_given xs q d) = 1 -> s = 0%R.
Proof.
  intros E HE xs name Hxs. destruct (C44_log_isr E HE xs name Hxs) as (y & Hy & _ & (_ & _ & _ & Hv & _)).
  exists y. split; [exact Hy|]. intros q d s Hs Hl. rewrite (Hv q d s Hs). rewrite ranks_given_len, Hl. cbn [INR]. rewrite ln_1. lra.
Qed.

(** a run that also retrieves [a] can harm it: mean, median and minimum *)
Section Ex.
Context {N : Num} (v9 v10 v1 : F).
Definition una1 : Run N := run_hist env_sorted Run_empty [RAddScore "q" "a" v10; RAddScore "q" "b" v9].
Definition una2 : Run N := run_hist env_sorted Run_empty [RAddScore "q" "a" v1].
Definition una3 : Run N := run_hist env_sorted Run_empty [RAddScore "q" "a" v10; RAddScore "q" "b" v10].
Lemma una1_map : r_map una1 = [("q", [("a", v10); ("b", v9)])]. Proof. reflexivity. Qed.
Lemma una2_map : r_map una2 = [("q", [("a", v1)])]. Proof. reflexivity. Qed.
Lemma una3_map : r_map una3 = [("q", [("a", v10); ("b", v10)])]. Proof. reflexivity. Qed.
End Ex.
Definition u1 : Run NumR := @una1 NumR 9%R 10%R.
Definition u2 : Run NumR := @una2 NumR 1%R.
Definition u3 : Run NumR := @una3 NumR 10%R.
Lemma u_reach : Forall (run_reachable env_sorted) [u1; u2; u3].
Proof.
  constructor; [|constructor; [|constructor; [|constructor]]]; (exists Run_empty; eexists; split; [left; reflexivity|split; [|split; reflexivity]]; repeat constructor).
Qed.
Lemma u_query x q : In x [u1; u2; u3] -> (has_query x q <-> q = "q").
Proof. intros [<-|[<-|[<-|[]]]]; unfold has_query; cbn; intuition. Qed.
Lemma u_fusable xs : xs <> [] -> (forall x, In x xs -> In x [u1; u2; u3]) -> fusable xs.
Proof.
  intros Hne Hin. split; [exact Hne|]. split.
  - rewrite Forall_forall. intros x Hx. assert (Hr := u_reach). rewrite Forall_forall in Hr. now apply (run_reachable_inv env_sorted env_sorted_ok), Hr, Hin.
  - intros x x' q Hx Hx' Hq. apply (u_query x' q (Hin x' Hx')). now apply (u_query x q (Hin x Hx)).
Qed.
Lemma u1_a : score_of u1 "q" "a" = Some 10%R. Proof. reflexivity. Qed.
Lemma u1_b : score_of u1 "q" "b" = Some 9%R. Proof. reflexivity. Qed.
Lemma u2_a : score_of u2 "q" "a" = Some 1%R. Proof. reflexivity. Qed.
Lemma u2_b : score_of u2 "q" "b" = None. Proof. reflexivity. Qed.
Lemma u3_a : score_of u3 "q" "a" = Some 10%R. Proof. reflexivity. Qed.
Lemma u3_b : score_of u3 "q" "b" = Some 10%R. Proof. reflexivity. Qed.
Lemma u12 : fusable [u1; u2].
Proof. apply u_fusable; [discriminate|]. intros x [<-|[<-|[]]]; cbn; auto. Qed.
Lemma u13 : fusable [u1; u3].
Proof. apply u_fusable; [discriminate|]. intros x [<-|[<-|[]]]; cbn; auto. Qed.
Lemma u_given_a : scores_given [u1; u2] "q" "a" = [10; 1]%R.
Proof. unfold scores_given. cbn [map]. rewrite u1_a, u2_a. reflexivity. Qed.
Lemma u_given_b : scores_given [u1; u2] "q" "b" = [9]%R.
Proof. unfold scores_given. cbn [map]. rewrite u1_b, u2_b. reflexivity. Qed.
Lemma u_cand_a : candidate [u1; u2] "q" "a". Proof. exists u1. split; [now left|]. exists 10%R. exact u1_a. Qed.
Lemma u_cand_b : candidate [u1; u2] "q" "b". Proof. exists u1. split; [now left|]. exists 9%R. exact u1_b. Qed.
Lemma u_nonneg x q d s : In x [u1; u2; u3] -> score_of x q d = Some s -> (0 <= s)%R.
Proof.
  intros Hx Hs. assert (Hg : forall m : dict (dict R), r_map x = m -> dget2 m q d = Some s) by (intros m <-; exact Hs).
  destruct Hx as [<-|[<-|[<-|[]]]]; [specialize (Hg _ (@una1_map NumR 9%R 10%R))|specialize (Hg _ (@una2_map NumR 1%R))|specialize (Hg _ (@una3_map NumR 10%R))];
    unfold dget2 in Hg; cbn in Hg; destruct (String.eqb q "q"); try discriminate; cbn in Hg;
    repeat match goal with H : context [String.eqb d ?z] |- _ => destruct (String.eqb d z) end; inversion Hg; lra.
Qed.
Theorem C83_extra_run_refuted : exists (E : env NumR) xs, env_ok E /\ Forall (run_reachable E) xs /\ fusable xs /\ nonneg_scores xs /\
  (forall x, In x xs -> scores_more x "q" "a" "b") /\
  ~ not_below (comb_anz E xs "f") "q" "a" "b" /\ ~ not_below (comb_med E xs "f") "q" "a" "b" /\ ~ not_below (comb_min E xs "f") "q" "a" "b".
Proof.
  exists env_sorted, [u1; u2]. split; [exact env_sorted_ok|]. split.
  { assert (Hr := u_reach). rewrite Forall_forall in *. intros x Hx. apply Hr. destruct Hx as [<-|[<-|[]]]; cbn; auto. }
  split; [exact u12|]. split.
  { intros x q d s Hx. apply u_nonneg. destruct Hx as [<-|[<-|[]]]; cbn; auto. }
  split.
  { intros x [<-|[<-|[]]] sb Hsb; [|rewrite u2_b in Hsb; discriminate]. rewrite u1_b in Hsb. inversion Hsb; subst. exists 10%R. split; [exact u1_a|lra]. }
  assert (Hno : forall (r : result (Run NumR)) P (n : option string), (exists y, r = Ok y /\ r_name y = n /\ fusion_of [u1; u2] y P) ->
     (forall sa sb, P "q" "a" sa -> P "q" "b" sb -> (sa < sb)%R) -> ~ not_below r "q" "a" "b").
  { intros r P n (y & Hy & _ & (_ & _ & Hr & Hv & _)) HP (y' & Hy' & Hnb). rewrite Hy in Hy'. inversion Hy'; subst y'.
    destruct (proj2 (Hr "q" "b") u_cand_b) as [sb Hsb]. destruct (Hnb sb Hsb) as (sa & Hsa & Hle).
    specialize (HP sa sb (Hv _ _ _ Hsa) (Hv _ _ _ Hsb)). lra. }
  repeat apply conj.
  - eapply Hno; [apply (C43_comb_anz env_sorted env_sorted_ok _ "f" u12)|]. cbn beta. intros sa sb -> ->. rewrite u_given_a, u_given_b. cbn. lra.
  - eapply Hno; [apply (C43_comb_med env_sorted env_sorted_ok _ "f" u12)|]. cbn beta. intros sa sb. rewrite u_given_a, u_given_b. intros Ha Hb.
    assert (sb = 9%R) as ->. { eapply is_median_unique; [reflexivity|exact Hb|]. exists [9%R]. split; auto. split; [repeat constructor|]. left. exists 0, 9%R. auto. }
    assert (sa = ((1 + 10) / 2)%R) as ->; [|lra]. eapply is_median_unique; [reflexivity|exact Ha|]. exists [1; 10]%R. split; [apply perm_swap|].
    split; [repeat constructor; lra|]. right. exists 0, 1%R, 10%R. auto.
  - eapply Hno; [apply (comb_min_value env_sorted env_sorted_ok _ "f" u12)|]. cbn beta. cbn [map]. rewrite u1_a, u2_a, u1_b, u2_b.
    intros sa sb [_ Ha] [Hb _]. specialize (Ha 1%R (or_intror (or_introl eq_refl))). destruct Hb as [<-|[<-|[]]]; unfold billion; lra.
Qed.

(** ** the hypotheses can be met *)
Lemma u13_both x : In x [u1; u3] -> scores_both x "q" "a" "b".
Proof.
  intros [<-|[<-|[]]]; split.
  - split; intros _; eexists; [exact u1_b|exact u1_a].
  - rewrite u1_a, u1_b. intros sa sb [= <-] [= <-]. lra.
  - split; intros _; eexists; [exact u3_b|exact u3_a].
  - rewrite u3_a, u3_b. intros sa sb [= <-] [= <-]. lra.
Qed.
Example ex_C83_scores : above (comb_sum env_sorted [u1; u3] "f") "q" "a" "b".
Proof.
  refine (proj1 (C83_strict_scores env_sorted env_sorted_ok [u1; u3] "q" "a" "b" "f" u13 u13_both _)).
  exists u1. split; [now left|]. exists 10%R, 9%R. split; [exact u1_a|]. split; [exact u1_b|lra].
Qed.
Example ex_C83_more : not_below (comb_mnz env_sorted [u1; u2] "f") "q" "a" "b".
Proof.
  refine (proj1 (proj2 (proj2 (C83_more_runs env_sorted env_sorted_ok [u1; u2] "q" "a" "b" "f" u12 _ _)))).
  - intros x q d s Hx. apply u_nonneg. destruct Hx as [<-|[<-|[]]]; cbn; auto.
  - intros x [<-|[<-|[]]] sb Hsb; [|rewrite u2_b in Hsb; discriminate]. rewrite u1_b in Hsb. inversion Hsb; subst. exists 10%R. split; [exact u1_a|lra].
Qed.
Lemma u12_ranks x : In x [u1; u2] -> ranks_more x "q" "a" "b".
Proof.
  intros [<-|[<-|[]]] rb Hb.
  - exists 1. split; [reflexivity|]. apply rank_le_len in Hb. lia.
  - assert (Hn : rank_of u2 "q" "b" = None) by reflexivity. congruence.
Qed.
Example ex_C83_ranks : above (rrf env_sorted [u1; u2] 60 "f") "q" "a" "b" /\ above (bordafuse env_sorted [u1; u2] "f") "q" "a" "b".
Proof.
  destruct (C83_strict_ranks env_sorted env_sorted_ok [u1; u2] "q" "a" "b" "f" u12 u12_ranks) as (_ & _ & Hr & _ & Hb & _).
  - exists u1. split; [now left|reflexivity].
  - exact u_cand_b.
  - split; [exact (Hr 60%Z ltac:(lia))|]. refine (Hb _). intros x x' [<-|[<-|[]]] [<-|[<-|[]]]; reflexivity.
Qed.

Print Assumptions C83_same_runs.
Print Assumptions C83_more_runs.
Print Assumptions C83_ranks.
Print Assumptions C83_strict_scores.
Print Assumptions C83_strict_ranks.
Print Assumptions C83_log_isr_single.
Print Assumptions C83_extra_run_refuted.
