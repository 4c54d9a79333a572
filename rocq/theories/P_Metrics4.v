(** P_Metrics4.v: bounds, ideal rankings, cut-offs, swaps and tails for the textbook
    metrics of Spec_Metrics.v. *)
From Coq Require Import Reals Lra Psatz.
From Verif Require Import Base Dict Spec_Metrics P_Base P_Dict P_Metrics P_Metrics2 P_Metrics3.
Open Scope list_scope.
Open Scope nat_scope.

Lemma count_NoDup_le {A} (p : A -> bool) (l1 l2 : list A) : NoDup l1 ->
  (forall a, In a l1 -> p a = true -> In a l2) -> count p l1 <= count p l2.
Proof.
  intros Hn H. rewrite !count_filter. apply NoDup_incl_length; [now apply NoDup_filter|].
  intros a Ha. apply filter_In in Ha as [H1 H2]. apply filter_In. auto.
Qed.
Lemma count_zero_iff {A} (p : A -> bool) l : count p l = 0 <-> forall a, In a l -> p a = false.
Proof.
  induction l as [|a l IH]; cbn; [split; [easy|auto]|]. destruct (p a) eqn:Hp.
  - split; [lia|]. intros H. specialize (H a (or_introl eq_refl)). congruence.
  - cbn. rewrite IH. split; [intros H b [<-|Hb]; auto|intros; auto].
Qed.

Section J.
Context (j : dict Z) (lvl : Z) (Hj : dict_ok j).
Notation rel := (relevant j lvl).
Notation g := (gain j lvl).

Lemma n_relevant_count : n_relevant j lvl = count rel (dkeys j).
Proof.
  unfold n_relevant, dkeys. rewrite count_map. apply count_ext. intros [d v] Hd. cbn.
  unfold relevant. now rewrite (in_dget j d v Hj Hd).
Qed.
Lemma n_nonrel_count : n_judged_nonrelevant j lvl = count (fun d => judged j d && negb (rel d)) (dkeys j).
Proof.
  unfold n_judged_nonrelevant, dkeys. rewrite count_map. apply count_ext. intros [d v] Hd. cbn.
  unfold relevant, judged. rewrite (in_dget j d v Hj Hd). cbn.
  destruct (Z.ltb_spec v lvl), (Z.leb_spec lvl v); cbn; auto; lia.
Qed.
Lemma rel_judged d : rel d = true -> In d (dkeys j).
Proof.
  unfold relevant. destruct (dget j d) eqn:Hd; [|discriminate]. intros _.
  apply dget_Some_in in Hd. change d with (fst (d, z)). now apply in_map.
Qed.
Lemma judged_in d : judged j d = true -> In d (dkeys j).
Proof.
  unfold judged. destruct (dget j d) eqn:Hd; [|discriminate]. intros _.
  apply dget_Some_in in Hd. change d with (fst (d, z)). now apply in_map.
Qed.

Lemma count_rel_le ds : NoDup ds -> count rel ds <= n_relevant j lvl.
Proof.
  intros H. rewrite n_relevant_count. apply count_NoDup_le; [exact H|].
  intros a _ Ha. now apply rel_judged.
Qed.
Lemma hits_le_depth ds k : S_hits j lvl ds k <= depth ds k.
Proof.
  unfold S_hits, top, depth. destruct k; [apply count_le_length|].
  eapply Nat.le_trans; [apply count_le_length|]. rewrite firstn_length. lia.
Qed.
Lemma hits_le_rel ds k : NoDup ds -> S_hits j lvl ds k <= n_relevant j lvl.
Proof. intros H. apply count_rel_le. now apply NoDup_top. Qed.

Lemma ratio_01 a b : a <= b -> (0 <= INR a / INR b <= 1)%R.
Proof.
  intros H. destruct b as [|b].
  - replace a with 0 by lia. cbn. unfold Rdiv. rewrite Rmult_0_l. lra.
  - assert (0 < INR (S b))%R by (apply lt_0_INR; lia). apply le_INR in H. pose proof (pos_INR a).
    split.
    + apply Rmult_le_pos; [lra|]. apply Rlt_le, Rinv_0_lt_compat. lra.
    + apply (Rmult_le_reg_r (INR (S b))); [lra|]. unfold Rdiv. rewrite Rmult_assoc, Rinv_l; lra.
Qed.

(** *** bounds *)
Lemma hit_rate_01 ds k : (0 <= S_hit_rate j lvl ds k <= 1)%R.
Proof. unfold S_hit_rate. destruct existsb; lra. Qed.
Lemma precision_01 ds k : (0 <= S_precision j lvl ds k <= 1)%R.
Proof.
  unfold S_precision. pose proof (hits_le_depth ds k). destruct (depth ds k); [lra|]. now apply ratio_01.
Qed.
Lemma recall_01 ds k : NoDup ds -> (0 <= S_recall j lvl ds k <= 1)%R.
Proof.
  intros Hd. unfold S_recall. pose proof (hits_le_rel ds k Hd). destruct (n_relevant j lvl); [lra|]. now apply ratio_01.
Qed.
Lemma harmonic_01 P Q : (0 <= P <= 1 -> 0 <= Q <= 1 -> P + Q <> 0 -> 0 <= 2 * P * Q / (P + Q) <= 1)%R.
Proof.
  intros HP HQ Hne. assert (0 < P + Q)%R by lra. split.
  - apply Rmult_le_pos; [nra|]. apply Rlt_le, Rinv_0_lt_compat. lra.
  - apply (Rmult_le_reg_r (P + Q)); [lra|]. unfold Rdiv. rewrite Rmult_assoc, Rinv_l by lra. nra.
Qed.
Lemma f1_01 ds k : NoDup ds -> (0 <= S_f1 j lvl ds k <= 1)%R.
Proof.
  intros Hd. unfold S_f1. destruct Req_EM_T; [lra|]. apply harmonic_01; auto.
  - apply precision_01.
  - now apply recall_01.
Qed.
Lemma r_precision_01 ds : (0 <= S_r_precision j lvl ds <= 1)%R.
Proof. unfold S_r_precision. destruct (n_relevant j lvl); [lra|]. apply precision_01. Qed.
Lemma mrr_01 ds k : (0 <= S_mrr j lvl ds k <= 1)%R.
Proof.
  unfold S_mrr. destruct first_pos; [|lra]. change 1%R with (INR 1) at 1 3. apply ratio_01. lia.
Qed.
Lemma precision_at_01 ds r : (0 <= precision_at j lvl ds r <= 1)%R.
Proof.
  unfold precision_at. apply ratio_01. eapply Nat.le_trans; [apply count_le_length|].
  rewrite firstn_length. lia.
Qed.
Lemma Rsum_n_01_count (l : list string) n (p : string -> bool) (f : nat -> R) :
  n <= length l -> (forall i, (0 <= f i <= 1)%R) ->
  (0 <= Rsum_n n (fun i => if p (nth i l EmptyString) then f i else 0%R) <= INR (count p (firstn n l)))%R.
Proof.
  revert n f. induction l as [|d l IH]; intros n f Hn Hf.
  - replace n with 0 by (cbn in Hn; lia). cbn. lra.
  - destruct n as [|n]; [cbn; lra|]. rewrite Rsum_n_S. cbn [nth firstn count]. cbn [length] in Hn.
    specialize (IH n (fun i => f (S i)) ltac:(lia) (fun i => Hf (S i))).
    specialize (Hf 0). rewrite plus_INR. destruct (p d); cbn [INR]; lra.
Qed.
Lemma top_firstn ds k : top ds k = firstn (length (top ds k)) ds.
Proof.
  unfold top. destruct k; [now rewrite firstn_all|]. rewrite firstn_length.
  destruct (Nat.min_spec (S k) (length ds)) as [[_ ->]|[H ->]]; [reflexivity|].
  rewrite firstn_all. now apply firstn_all2.
Qed.
Lemma top_length_le ds k : length (top ds k) <= length ds.
Proof. unfold top. destruct k; [lia|]. rewrite firstn_length. lia. Qed.
Lemma div_nat_01 x n : (0 <= x <= INR n)%R -> (0 <= x / INR n <= 1)%R.
Proof.
  intros H. destruct n as [|n].
  - cbn in *. replace x with 0%R by lra. unfold Rdiv. rewrite Rmult_0_l. lra.
  - assert (0 < INR (S n))%R by (apply lt_0_INR; lia). split.
    + apply Rmult_le_pos; [lra|]. apply Rlt_le, Rinv_0_lt_compat. lra.
    + apply (Rmult_le_reg_r (INR (S n))); [lra|]. unfold Rdiv. rewrite Rmult_assoc, Rinv_l; lra.
Qed.
Lemma map_01 ds k : NoDup ds -> (0 <= S_map j lvl ds k <= 1)%R.
Proof.
  intros Hd. unfold S_map. destruct (n_relevant j lvl) as [|n] eqn:Hn; [lra|]. rewrite <- Hn.
  apply div_nat_01.
  pose proof (Rsum_n_01_count ds (length (top ds k)) rel (fun i => precision_at j lvl ds (i + 1))
    (top_length_le ds k) (fun i => precision_at_01 ds (i + 1))) as H.
  rewrite <- top_firstn in H. pose proof (le_INR _ _ (count_rel_le _ (NoDup_top ds k Hd))). lra.
Qed.
Lemma bpref_01 ds : NoDup ds -> (0 <= S_bpref j lvl ds <= 1)%R.
Proof.
  intros Hd. unfold S_bpref. apply div_nat_01.
  assert (Hf : forall i, (0 <= 1 - INR (Nat.min (nonrel_above j lvl ds i) (n_relevant j lvl))
                       / INR (Nat.min (n_relevant j lvl) (n_judged_nonrelevant j lvl)) <= 1)%R).
  { intros i. assert (H : nonrel_above j lvl ds i <= n_judged_nonrelevant j lvl).
    { rewrite n_nonrel_count. unfold nonrel_above. apply count_NoDup_le; [now apply NoDup_firstn|].
      intros a _ Ha. apply andb_true_iff in Ha as [Ha _]. now apply judged_in. }
    pose proof (ratio_01 (Nat.min (nonrel_above j lvl ds i) (n_relevant j lvl))
      (Nat.min (n_relevant j lvl) (n_judged_nonrelevant j lvl)) ltac:(lia)). lra. }
  pose proof (Rsum_n_01_count ds (length ds) rel _ (le_n _) Hf) as H.
  rewrite firstn_all in H. pose proof (le_INR _ _ (count_rel_le _ Hd)). lra.
Qed.

Lemma interpolated_01 ds c : (0 <= S_interpolated j lvl ds c <= 1)%R.
Proof.
  unfold S_interpolated. split; [apply Rmax_list_nonneg|]. apply Rmax_list_le; [lra|].
  intros x Hx. apply in_map_iff in Hx as (i & <- & _). apply precision_at_01.
Qed.
Lemma interpolated_mono ds c c' : c <= c' -> (S_interpolated j lvl ds c' <= S_interpolated j lvl ds c)%R.
Proof.
  intros H. unfold S_interpolated. apply Rmax_list_le; [apply Rmax_list_nonneg|].
  intros x Hx. apply in_map_iff in Hx as (i & <- & Hi). apply filter_In in Hi as [Hi Hc].
  apply Rmax_list_ub, in_map, filter_In. split; [exact Hi|]. apply Nat.leb_le in Hc. apply Nat.leb_le. lia.
Qed.

Lemma geo_sum p n : (Rsum_n n (fun i => p ^ i) * (1 - p) = 1 - p ^ n)%R.
Proof.
  assert (H : forall i, (Rsum (map (fun m => p ^ m) (seq i n)) * (1 - p) = p ^ i - p ^ (i + n))%R).
  { induction n as [|n IH]; intros i; cbn [seq map Rsum].
    - rewrite Nat.add_0_r. lra.
    - rewrite Rmult_plus_distr_r, IH. rewrite <- Nat.add_succ_comm. cbn [pow]. ring. }
  unfold Rsum_n. rewrite H. cbn. reflexivity.
Qed.
Lemma gain_le1 d : (forall d v, dget j d = Some v -> (v <= 1)%Z) -> (g d <= 1)%R.
Proof.
  intros H. unfold gain. destruct (dget j d) as [v|] eqn:Hd; [|lra].
  destruct (lvl <=? v)%Z; [|lra]. apply (IZR_le v 1). eauto.
Qed.
Lemma gain_nonneg d : (0 <= lvl)%Z -> (0 <= g d)%R.
Proof.
  intros H. unfold gain. destruct (dget j d) as [v|] eqn:Hd; [|lra].
  destruct (Z.leb_spec lvl v); [|lra]. apply (IZR_le 0 v). lia.
Qed.
Lemma rbp_01 ds p : (0 <= lvl)%Z -> (forall d v, dget j d = Some v -> (v <= 1)%Z) ->
  (0 <= p <= 1)%R -> (0 <= S_rbp j lvl ds p <= 1)%R.
Proof.
  intros Hl Hv Hp. unfold S_rbp.
  assert (H0 : (0 <= Rsum_n (length ds) (fun i => g (nth i ds EmptyString) * p ^ i))%R).
  { apply Rsum_nonneg. intros x Hx. apply in_map_iff in Hx as (i & <- & _).
    apply Rmult_le_pos; [now apply gain_nonneg|]. apply pow_le. lra. }
  assert (H1 : (Rsum_n (length ds) (fun i => g (nth i ds EmptyString) * p ^ i)
                <= Rsum_n (length ds) (fun i => p ^ i))%R).
  { apply Rsum_map_le. intros i _. rewrite <- (Rmult_1_l (p ^ i)) at 2.
    apply Rmult_le_compat_r; [apply pow_le; lra|]. now apply gain_le1. }
  pose proof (geo_sum p (length ds)). pose proof (pow_le p (length ds) (proj1 Hp)).
  split; [apply Rmult_le_pos; lra|]. nra.
Qed.
Lemma rbp_is_binary ds p : (1 <= lvl)%Z -> (forall d v, dget j d = Some v -> (v <= 1)%Z) ->
  S_rbp j lvl ds p = S_rbp_binary j lvl ds p.
Proof.
  intros Hl Hv. unfold S_rbp, S_rbp_binary. f_equal. apply Rsum_n_ext. intros i _. f_equal.
  unfold gain, relevant. destruct (dget j (nth i ds EmptyString)) as [v|] eqn:Hd; [|reflexivity].
  destruct (Z.leb_spec lvl v); [|reflexivity]. apply Hv in Hd. replace v with 1%Z by lia. reflexivity.
Qed.
Lemma rbp_ge_binary ds p : (1 <= lvl)%Z -> (0 <= p <= 1)%R ->
  (S_rbp_binary j lvl ds p <= S_rbp j lvl ds p)%R.
Proof.
  intros Hl Hp. unfold S_rbp, S_rbp_binary. apply Rmult_le_compat_l; [lra|].
  apply Rsum_map_le. intros i _. apply Rmult_le_compat_r; [apply pow_le; lra|].
  unfold gain, relevant. destruct (dget j (nth i ds EmptyString)) as [v|] eqn:Hd; [|lra].
  destruct (Z.leb_spec lvl v); [|lra]. apply (IZR_le 1 v). lia.
Qed.

(** *** ideal dcg *)
Lemma gain_not_in d : ~ In d (dkeys j) -> g d = 0%R.
Proof.
  intros H. unfold gain. destruct (dget j d) as [v|] eqn:Hd; [|reflexivity].
  exfalso. apply H. apply dget_Some_in in Hd. change d with (fst (d, v)). now apply in_map.
Qed.
Definition bgain := burges_gain j lvl.
Lemma Rpower2_mono a b : (a <= b)%R -> (Rpower 2 a <= Rpower 2 b)%R.
Proof. intros H. apply Rle_Rpower; lra. Qed.
Lemma bgain_nonneg d : (0 <= lvl)%Z -> (0 <= bgain d)%R.
Proof.
  intros H. unfold bgain, burges_gain. pose proof (Rpower2_mono 0 (g d) (gain_nonneg d H)).
  rewrite Rpower_O in H0 by lra. lra.
Qed.
Lemma bgain_zero d : g d = 0%R -> bgain d = 0%R.
Proof. unfold bgain, burges_gain. intros ->. rewrite Rpower_O; lra. Qed.

Lemma gain_in d v : In (d, v) j -> g d = if (lvl <=? v)%Z then IZR v else 0%R.
Proof. intros H. unfold gain. now rewrite (in_dget j d v Hj H). Qed.

Lemma sorted_gain : (0 <= lvl)%Z -> judgments_desc j ->
  StronglySorted (fun a b => (g b <= g a)%R) (dkeys j).
Proof.
  intros Hl Hs.
  assert (H : forall l, (forall x, In x l -> In x j) -> StronglySorted (fun a b => (snd b <= snd a)%Z) l ->
     StronglySorted (fun a b => (g b <= g a)%R) (dkeys l)).
  { induction l as [|[d v] l IH]; intros Hin Hss; [constructor|].
    inversion Hss as [|? ? Hss' Hf]; subst. constructor.
    - apply IH; auto. intros; apply Hin; now right.
    - rewrite Forall_forall in Hf |- *. intros d' Hd'. apply in_map_iff in Hd' as ([d2 v2] & <- & Hx).
      specialize (Hf _ Hx). cbn in Hf. cbn [fst].
      rewrite (gain_in d v) by (apply Hin; now left). rewrite (gain_in d2 v2) by (apply Hin; now right).
      destruct (Z.leb_spec lvl v2), (Z.leb_spec lvl v); try lia; try lra.
      + now apply IZR_le.
      + apply (IZR_le 0 v). lia. }
  apply H; auto.
Qed.
Lemma sorted_bgain : (0 <= lvl)%Z -> judgments_desc j ->
  StronglySorted (fun a b => (bgain b <= bgain a)%R) (dkeys j).
Proof.
  intros Hl Hs. pose proof (sorted_gain Hl Hs) as H. induction H as [|a l H IH Hf]; constructor; auto.
  rewrite Forall_forall in *. intros b Hb. unfold bgain, burges_gain.
  pose proof (Rpower2_mono _ _ (Hf b Hb)). lra.
Qed.
Lemma dcg_ideal k : (0 <= lvl)%Z -> judgments_desc j -> is_ideal g k (S_dcg j lvl (dkeys j) k).
Proof.
  intros Hl Hs. apply sorted_is_ideal; auto using gain_not_in, sorted_gain.
  intros; now apply gain_nonneg.
Qed.
Lemma dcg_burges_ideal k : (0 <= lvl)%Z -> judgments_desc j ->
  is_ideal bgain k (S_dcg_burges j lvl (dkeys j) k).
Proof.
  intros Hl Hs. apply sorted_is_ideal; auto using sorted_bgain.
  - intros; now apply bgain_nonneg.
  - intros d Hd. apply bgain_zero. now apply gain_not_in.
Qed.
End J.
