(** P_Float5.v: average precision of one query in binary64 *)
From Coq Require Import Reals ZArith Lra Lia SpecFloat Psatz List.
From Flocq Require Import Core.Core IEEE754.BinarySingleNaN.
From Verif Require Import Base Dict Num Env M_Common M_Qrels M_Run M_Metrics Spec_Metrics Spec_Float P_Base P_Dict P_Metrics P_Metrics2 P_Metrics4 P_Float P_MetricsG P_Float2 P_Float3 P_Float4.
Import ListNotations.
Open Scope R_scope.

Lemma Forall2_map_same {A B C} (P : B -> C -> Prop) (f : A -> B) (g : A -> C) l : (forall a, In a l -> P (f a) (g a)) -> Forall2 P (map f l) (map g l).
Proof. induction l as [|a l IH]; intros H; constructor; [apply H; now left|apply IH; intros; apply H; now right]. Qed.
Lemma list_sum_count (p : string -> bool) l : list_sum (map (fun d => if p d then 1%nat else 0%nat) l) = count p l.
Proof. induction l as [|d l IH]; [reflexivity|]. unfold list_sum in *. cbn. rewrite IH. now destruct (p d). Qed.
Lemma Rsum_sep c l : 0 < c -> (forall x, In x l -> x = 0 \/ c <= x) -> Rsum l = 0 \/ c <= Rsum l.
Proof.
  intros Hc. induction l as [|x l IH]; intros H; [now left|]. cbn. destruct (H x ltac:(now left)) as [ -> |Hx], IH as [ -> |Hl]; try (intros; apply H; now right); [left; lra|right; lra|right; lra|right; lra].
Qed.
Lemma Rsum_INR (l : list nat) : Rsum (map INR l) = INR (list_sum l).
Proof. induction l as [|n l IH]; [reflexivity|]. unfold list_sum in *. cbn [map Rsum fold_right]. now rewrite plus_INR, IH. Qed.
Lemma Rsum_sandwich (l : list nat) (f : nat -> R) (b : nat -> nat) : (forall i, In i l -> f i <= INR (b i)) -> INR (list_sum (map b l)) <= Rsum (map f l) -> forall i, In i l -> f i = INR (b i).
Proof.
  induction l as [|a l IH]; intros H Hs i Hi; [easy|]. unfold list_sum in *. cbn [map fold_right Rsum] in Hs. rewrite plus_INR in Hs.
  assert (Hl : Rsum (map f l) <= INR (fold_right Nat.add 0%nat (map b l))).
  { fold (list_sum (map b l)). rewrite <- Rsum_INR, map_map. apply Rsum_map_le. intros; apply H; now right. }
  pose proof (H a ltac:(now left)) as Ha. destruct Hi as [ -> |Hi]; [lra|]. apply IH; auto; [intros; apply H; now right|lra].
Qed.

Section S.
Variables (l1 l2 : sf -> sf) (pw : sf -> sf -> sf).
Notation N64 := (NumSF_with l1 l2 pw).
Variables (E : @env N64) (lvl : Z) (j : dict Z) (r : dict sf).
Hypothesis (Q : query64 E lvl j r).
Notation qr := (@to_rows N64 E Z (@q_tof N64) j).
Notation rr := (@to_rows N64 E sf (@r_tof N64) r).
Notation ds := (dkeys r).
Notation rel := (relevant j lvl).

Lemma hitf_64 d : is64 (@hitf N64 j lvl d) (INR (if rel d then 1 else 0)).
Proof. unfold hitf. destruct (rel d); [apply (fin_one l1 l2 pw)|apply (fin_zero l1 l2 pw)]. Qed.
Lemma hit_sum l : small_n (length l) -> is64 (@fsum N64 (map (@hitf N64 j lvl) l)) (INR (count rel l)).
Proof.
  intros H. rewrite <- list_sum_count. apply fsum_exact; [|rewrite list_sum_count; eapply small_n_le; [apply count_le_length|exact H]]. apply Forall2_map_same. intros d _. apply hitf_64.
Qed.
Variable k : nat.
Notation t := (top ds k).
Definition fx (i : nat) : sf := if @feqb N64 (nth i (map (@hitf N64 j lvl) t) (@fzero N64)) (@fzero N64) then @fzero N64
  else @fdiv N64 (@fsum N64 (firstn (i + 1) (map (@hitf N64 j lvl) t))) (@fnat N64 (i + 1)).
Definition sx (i : nat) : R := if rel (nth i ds EmptyString) then precision_at j lvl ds (i + 1) else 0.
Definition bx (i : nat) : nat := if rel (nth i ds EmptyString) then 1%nat else 0%nat.
Lemma scores_seq : @precision_scores_of N64 (map (@hitf N64 j lvl) t) = map fx (seq 0 (length t)).
Proof.
  unfold precision_scores_of.
  etransitivity; [exact (map_enumerate_seq (fun i (x : sf) => if @feqb N64 x (@fzero N64) then @fzero N64
     else @fdiv N64 (@fsum N64 (firstn (i + 1) (map (@hitf N64 j lvl) t))) (@fnat N64 (i + 1))) (map (@hitf N64 j lvl) t) (@fzero N64))|].
  rewrite map_length. reflexivity.
Qed.
Lemma nth_top' i : (i < length t)%nat -> nth i t EmptyString = nth i ds EmptyString.
Proof.
  unfold top. destruct k as [|k']; [reflexivity|]. intros H. rewrite firstn_length in H. rewrite <- (firstn_skipn (S k') ds) at 2. rewrite app_nth1; [reflexivity|rewrite firstn_length; lia].
Qed.
Lemma firstn_top' i : (i <= length t)%nat -> firstn i t = firstn i ds.
Proof. unfold top. destruct k as [|k']; [reflexivity|]. intros H. rewrite firstn_length in H. rewrite firstn_firstn. f_equal. lia. Qed.
Lemma small_t : small_n (length t).
Proof. eapply small_n_le; [apply top_length_le|exact (small_nr _ _ _ _ _ _ _ Q)]. Qed.
Lemma fx_64 i : (i < length t)%nat -> is64 (fx i) (if rel (nth i ds EmptyString) then rnd64 (sx i) else 0).
Proof.
  intros Hi. unfold fx, sx. assert (Hn : nth i (map (@hitf N64 j lvl) t) (@fzero N64) = @hitf N64 j lvl (nth i ds EmptyString)).
  { rewrite (nth_indep _ (@fzero N64) (@hitf N64 j lvl EmptyString)) by (rewrite map_length; exact Hi). rewrite (map_nth (@hitf N64 j lvl)), nth_top' by exact Hi. reflexivity. }
  rewrite Hn. pose proof (hitf_64 (nth i ds EmptyString)) as Hh.
  assert (He : @feqb N64 (@hitf N64 j lvl (nth i ds EmptyString)) (@fzero N64) = negb (rel (nth i ds EmptyString))).
  { etransitivity; [exact (eqb64 _ _ _ _ Hh (fin_zero l1 l2 pw))|]. destruct (rel (nth i ds EmptyString)); [apply Req_bool_false|apply Req_bool_true]; cbn; lra. }
  rewrite He. destruct (rel (nth i ds EmptyString)); cbn [negb]; [|apply (fin_zero l1 l2 pw)].
  pose proof small_t as Hs. rewrite firstn_map, firstn_top' by lia. unfold precision_at.
  assert (Hc : small_n (count rel (firstn (i + 1) ds))) by (eapply small_n_le; [|exact Hs]; eapply Nat.le_trans; [apply count_le_length|]; rewrite firstn_length; lia).
  apply fin_div; [apply hit_sum; eapply small_n_le; [|exact Hs]; rewrite firstn_length; lia|apply (fin_nat l1 l2 pw); eapply small_n_le; [|exact Hs]; lia|apply not_0_INR; lia|].
  apply rnd_bounded. apply quot_bounds; [exact Hc|lia].
Qed.
Lemma sx_01 i : 0 <= sx i <= INR (bx i).
Proof. unfold sx, bx. destruct (rel _); cbn [INR]; [apply precision_at_01|lra]. Qed.
Lemma sx_sep i : (i < length t)%nat -> sx i = 0 \/ ulp64 <= sx i.
Proof.
  intros Hi. unfold sx. destruct (rel _); [|now left]. unfold precision_at. destruct (count rel (firstn (i + 1) ds)) as [|c] eqn:Hc; [left; cbn; unfold Rdiv; ring|right].
  apply quot_pos; [lia|lia|]. eapply small_n_le; [|exact small_t]. lia.
Qed.
Lemma sx_rnd_01 i : (i < length t)%nat -> rel (nth i ds EmptyString) = true -> 0 <= rnd64 (sx i) <= 1.
Proof.
  intros Hi Hr. unfold sx. rewrite Hr. unfold precision_at. apply frac_01; [|eapply small_n_le; [|exact small_t]; lia|lia].
  eapply Nat.le_trans; [apply count_le_length|]. rewrite firstn_length. lia.
Qed.
Lemma fx_within i : (i < length t)%nat -> within 1 (fx i) (sx i).
Proof.
  intros Hi. pose proof (fx_64 i Hi) as Hf. exists (if rel (nth i ds EmptyString) then rnd64 (sx i) else 0). split; [exact Hf|]. rewrite pow_1.
  destruct (sx_sep i Hi) as [H0|Hp].
  - rewrite H0, rnd_0. destruct (rel _); unfold Rdiv; lra.
  - assert (rel (nth i ds EmptyString) = true) as Hr. { unfold sx in Hp. destruct (rel _); [reflexivity|]. pose proof u_pos. lra. } rewrite Hr.
    apply rnd_rel. apply Rle_trans with ulp64; [|exact Hp]. rewrite ulp64_bpow. apply bpow_le. lia.
Qed.
Lemma bx_sum : list_sum (map bx (seq 0 (length t))) = S_hits j lvl ds k.
Proof.
  unfold S_hits. rewrite <- list_sum_count.
  f_equal. apply (nth_ext _ _ 0%nat 0%nat); [now rewrite !map_length, seq_length|]. intros i Hi. rewrite map_length, seq_length in Hi.
  rewrite (nth_indep _ 0%nat (bx 0)) by (now rewrite map_length, seq_length). rewrite map_nth, seq_nth by exact Hi. cbn [plus].
  rewrite (nth_indep _ 0%nat (if rel EmptyString then 1%nat else 0%nat)) by (now rewrite map_length). rewrite (map_nth (fun d => if rel d then 1%nat else 0%nat)), nth_top' by exact Hi. reflexivity.
Qed.

Lemma map_64 : near_score (length t + 2) (@_average_precision N64 qr rr k lvl) (S_map j lvl ds k).
Proof.
  refine (eq_ind_r (fun x => near_score _ x _) _ (map_g E j lvl (Hle _ _ _ _ _ _ _ Q) r (q64_j _ _ _ _ Q) (q64_ids _ _ _ _ Q) k)).
  unfold S_map, rkg. change (@dkeys (@F N64) r) with (@dkeys sf r). pose proof (small_rel _ _ _ _ _ _ _ Q) as Sn. pose proof (hits_rel _ _ _ _ _ _ _ Q k) as Hh.
  destruct (n_relevant j lvl) as [|n]; [apply near_score_zero|]. rewrite scores_seq. pose proof small_t as St.
  change (Rsum_n (length t) _) with (Rsum (map sx (seq 0 (length t)))).
  pose proof bx_sum as Hb. assert (Sh : small_n (S_hits j lvl ds k)) by (eapply small_n_le; eauto). pose proof u_pos as Hu.
  assert (Hin : forall i, In i (seq 0 (length t)) -> (i < length t)%nat) by (intros i Hi; apply in_seq in Hi; lia).
  assert (Hn1 : 1 <= INR (S n)) by (apply (le_INR 1); lia). assert (HhR : INR (S_hits j lvl ds k) <= INR (S n)) by now apply le_INR.
  assert (Hsum : 0 <= Rsum (map sx (seq 0 (length t))) <= INR (S_hits j lvl ds k)).
  { split; [apply Rsum_nonneg; intros x Hx; apply in_map_iff in Hx as (i & <- & _); apply sx_01|]. rewrite <- Hb, <- Rsum_INR, map_map. apply Rsum_map_le. intros i _. apply sx_01. }
  assert (H53 : 2 ^ 53 <= 2 ^ 53 * 2 ^ 53) by (pose proof pow53_ge_1; nra). pose proof (small_n_R _ Sh) as ShR.
  destruct (fsum_within l1 l2 pw 1 (map fx (seq 0 (length t))) (map sx (seq 0 (length t)))) as (W & _ & Tn).
  { apply Forall2_map_same. intros i Hi. split; [apply fx_within; auto|]. split; [apply sx_01|]. destruct (sx_sep i (Hin i Hi)) as [H0|H0]; [now left|right]. apply Rle_trans with ulp64; [|exact H0]. rewrite ulp64_bpow. apply bpow_le. lia. }
  { rewrite map_length, seq_length. unfold small_n in St. lia. }
  { lra. }
  rewrite map_length, seq_length in W.
  destruct (fsum_bound l1 l2 pw (map fx (seq 0 (length t))) (map bx (seq 0 (length t)))) as (v & Fv & Bv).
  { apply Forall2_map_same. intros i Hi. eexists. split; [apply fx_64; auto|]. unfold bx. destruct (rel (nth i ds EmptyString)) eqn:Hr; [cbn [INR]; apply sx_rnd_01; auto|cbn; lra]. }
  { now rewrite Hb. }
  rewrite Hb in Bv.
  assert (W2 : within (length t + 2) (sf_div (@fsum N64 (map fx (seq 0 (length t)))) (@fnat N64 (S n))) (Rsum (map sx (seq 0 (length t))) / INR (S n))).
  { replace (length t + 2)%nat with (S (1 + length t + 0)) by lia. apply within_div; [exact W|apply within_is64; now apply fin_nat|lra|exact Hn1|exact Tn| | |unfold small_n in St; lia].
    - pose proof (small_n_R _ Sn). apply Rle_trans with (2 ^ 53); [lra|]. rewrite <- bpow_53. apply bpow_le. lia.
    - destruct (Rsum_sep ulp64 (map sx (seq 0 (length t))) Hu) as [H0|H0]; [intros x Hx; apply in_map_iff in Hx as (i & <- & Hi); apply sx_sep; auto|now right|left].
      apply Rle_trans with ulp64; [|exact H0]. rewrite ulp64_bpow. apply bpow_le. lia. }
  split; [exact W2|].
  assert (Hv : 0 <= v / INR (S n) <= 1). { split; [apply Rmult_le_pos; [lra|left; apply Rinv_0_lt_compat; lra]|]. apply (Rmult_le_reg_r (INR (S n))); [lra|]. unfold Rdiv. rewrite Rmult_assoc, Rinv_l by lra. lra. }
  assert (H1_200 : 1 <= 2 ^ 200) by (apply pow_R1_Rle; lra).
  assert (FF : is64 (sf_div (@fsum N64 (map fx (seq 0 (length t)))) (@fnat N64 (S n))) (rnd64 (v / INR (S n)))).
  { apply fin_div; [exact Fv|now apply fin_nat|lra|]. apply rnd_bounded. lra. }
  exists (rnd64 (v / INR (S n))). split; [exact FF|]. split; [split; [apply rnd_ge_fmt; [apply fmt_0|tauto]|apply rnd_le_fmt; [apply fmt_1|tauto]]|].
  destruct W2 as (v' & Fv' & Nv). rewrite (is64_fun _ _ _ FF Fv'). split.
  - apply (near_zero ((1 + ulp64) ^ (length t + 2))); [apply Rmult_le_pos; [lra|left; apply Rinv_0_lt_compat; lra]|apply one_u|exact Nv].
  - intros H1. rewrite <- (is64_fun _ _ _ FF Fv'). assert (H2 : Rsum (map sx (seq 0 (length t))) = INR (S n)). { apply (Rmult_eq_compat_r (INR (S n))) in H1. unfold Rdiv in H1. rewrite Rmult_assoc, Rinv_l in H1 by lra. lra. }
    assert (Heq : forall i, In i (seq 0 (length t)) -> sx i = INR (bx i)) by (apply Rsum_sandwich; [intros; apply sx_01|rewrite Hb; lra]).
    assert (Fe : is64 (@fsum N64 (map fx (seq 0 (length t)))) (INR (list_sum (map bx (seq 0 (length t)))))).
    { apply fsum_exact; [|now rewrite Hb]. apply Forall2_map_same. intros i Hi. pose proof (fx_64 i (Hin i Hi)) as Hf. rewrite (Heq i Hi) in Hf. unfold bx in *. destruct (rel (nth i ds EmptyString)); [|exact Hf]. cbn [INR] in *. rewrite (rnd_fmt 1 fmt_1) in Hf. exact Hf. }
    rewrite Hb in Fe. assert (v = INR (S n)) as -> by (rewrite (is64_fun _ _ _ Fv Fe); lra). replace (INR (S n) / INR (S n)) with 1 by (field; lra). apply rnd_fmt, fmt_1.
Qed.
End S.
