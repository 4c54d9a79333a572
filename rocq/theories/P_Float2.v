(** P_Float2.v: counts, quotients and sums in binary64 *)
From Coq Require Import Reals ZArith Lra Lia SpecFloat Psatz List.
From Flocq Require Import Core.Core IEEE754.BinarySingleNaN Relative.
From Verif Require Import Base Num Spec_Float P_Float P_MetricsG.
Import ListNotations.
Open Scope R_scope.

Lemma pow53 : 2 ^ 53 = IZR (2 ^ 53).
Proof. rewrite (pow_IZR 2 53). reflexivity. Qed.
Lemma bpow_1024_small r : Rabs r <= 2 ^ 200 -> Rabs r < bpow radix2 1024.
Proof.
  intros H. eapply Rle_lt_trans; [exact H|]. replace (2 ^ 200) with (bpow radix2 200); [apply bpow_lt; lia|].
  rewrite <- (IZR_Zpower radix2 200) by lia. rewrite (pow_IZR 2 200). reflexivity.
Qed.
Lemma fmt_200 : fmt (2 ^ 200).
Proof.
  replace (2 ^ 200) with (bpow radix2 200); [apply generic_format_bpow; cbn; lia|]. rewrite <- (IZR_Zpower radix2 200) by lia. rewrite (pow_IZR 2 200). reflexivity.
Qed.
Lemma fmt_0 : fmt 0.
Proof. apply generic_format_0. Qed.
Lemma fmt_1 : fmt 1.
Proof. apply (small_fmt 1). unfold small. lia. Qed.
(** bounded results do not overflow *)
Lemma rnd_bounded a : 0 <= a <= 2 ^ 200 -> Rabs (rnd64 a) < bpow radix2 1024.
Proof.
  intros [H1 H2]. assert (0 <= rnd64 a) by (apply rnd_ge_fmt; [apply fmt_0|exact H1]). apply bpow_1024_small. rewrite Rabs_pos_eq by assumption. apply rnd_le_fmt; [apply fmt_200|exact H2].
Qed.
Lemma pow53_le_200 : 2 ^ 53 <= 2 ^ 200.
Proof. apply Rle_pow; [lra|lia]. Qed.
Lemma pow53_ge_1 : 1 <= 2 ^ 53.
Proof. rewrite pow53. apply (IZR_le 1). lia. Qed.

Section S.
Variables (l1 l2 : sf -> sf) (pw : sf -> sf -> sf).
Notation N64 := (NumSF_with l1 l2 pw).

Definition small_n (n : nat) : Prop := (Z.of_nat n <= 2 ^ 53)%Z.
Lemma small_n_small n : small_n n -> small (Z.of_nat n).
Proof. unfold small_n, small. intros H. lia. Qed.
Lemma small_n_R n : small_n n -> 0 <= INR n <= 2 ^ 53.
Proof. intros H. split; [apply pos_INR|]. rewrite INR_IZR_INZ, pow53. now apply IZR_le. Qed.
Lemma small_n_le n m : (n <= m)%nat -> small_n m -> small_n n.
Proof. unfold small_n. lia. Qed.
Lemma fmt_n n : small_n n -> fmt (INR n).
Proof. intros H. rewrite INR_IZR_INZ. apply small_fmt. now apply small_n_small. Qed.
Lemma fin_nat n : small_n n -> is64 (@fnat N64 n) (INR n).
Proof. intros H. rewrite INR_IZR_INZ. apply fin_ofZ. now apply small_n_small. Qed.
Lemma fin_zero : is64 (@fzero N64) 0.
Proof. apply (fin_ofZ 0). unfold small. lia. Qed.
Lemma fin_one : is64 (@fone N64) 1.
Proof. apply (fin_ofZ 1). unfold small. lia. Qed.
Lemma fin_two : is64 (@fofZ N64 2) 2.
Proof. apply (fin_ofZ 2). unfold small. lia. Qed.
Lemma fin_count n : small_n n -> is64 (@count_f N64 n) (INR n).
Proof.
  induction n as [|n IH]; intros H; [apply fin_zero|]. cbn [count_f]. assert (Hn : small_n n) by (unfold small_n in *; lia).
  pose proof (fmt_n (S n) H) as Hf. rewrite S_INR in Hf |- *. rewrite <- (rnd_fmt _ Hf). apply fin_add; [now apply IH|apply fin_one|].
  apply rnd_bounded. pose proof (small_n_R n Hn) as Hb. pose proof (small_n_R (S n) H) as Hb'. rewrite S_INR in Hb'. pose proof pow53_le_200. lra.
Qed.
Lemma quot_bounds h n : small_n h -> (n <> 0)%nat -> 0 <= INR h / INR n <= 2 ^ 200.
Proof.
  intros Hh Hn. pose proof (small_n_R h Hh) as Hb. assert (1 <= INR n) by (apply (le_INR 1); lia). split.
  - apply Rmult_le_pos; [lra|]. left. apply Rinv_0_lt_compat. lra.
  - apply (Rmult_le_reg_r (INR n)); [lra|]. unfold Rdiv. rewrite Rmult_assoc, Rinv_l by lra. pose proof pow53_le_200. nra.
Qed.
Lemma fin_quot h n : small_n h -> small_n n -> (n <> 0)%nat -> is64 (@fdiv N64 (@count_f N64 h) (@fnat N64 n)) (rnd64 (INR h / INR n)).
Proof.
  intros Hh Hn H0. apply fin_div; [now apply fin_count|now apply fin_nat|now apply not_0_INR|]. apply rnd_bounded. now apply quot_bounds.
Qed.

(** a fraction of small integers: 0 and 1 are recognised exactly *)
Lemma ulp64_bpow : ulp64 = bpow radix2 (-53).
Proof. unfold ulp64. rewrite <- bpow_53. rewrite <- bpow_opp. reflexivity. Qed.
Lemma fmt_pred1 : fmt (1 - ulp64).
Proof.
  rewrite ulp64_bpow. apply generic_format_FLT. exists (Float radix2 (2 ^ 53 - 1) (-53)); [|cbn; lia|cbn; lia].
  unfold F2R. cbn [Fnum Fexp]. rewrite minus_IZR, <- pow53, <- bpow_53. rewrite Rmult_minus_distr_r, <- bpow_plus. cbn. lra.
Qed.
Lemma fmt_u : fmt ulp64.
Proof. rewrite ulp64_bpow. apply generic_format_bpow. cbn. lia. Qed.
Lemma frac_01 h n : (h <= n)%nat -> small_n n -> (n <> 0)%nat ->
  0 <= rnd64 (INR h / INR n) <= 1 /\ (rnd64 (INR h / INR n) = 0 <-> h = 0%nat) /\ (rnd64 (INR h / INR n) = 1 <-> h = n).
Proof.
  intros Hle Hn H0. assert (Hh : small_n h) by (eapply small_n_le; eauto). assert (Hn1 : 1 <= INR n) by (apply (le_INR 1); lia).
  pose proof (small_n_R n Hn) as Hnb. assert (HhR : INR h <= INR n) by now apply le_INR. pose proof (pos_INR h) as Hh0. pose proof u_pos as Hu.
  assert (Hun : ulp64 <= / INR n) by (unfold ulp64; apply Rinv_le; lra).
  assert (Hq : INR h / INR n <= 1) by (apply (Rmult_le_reg_r (INR n)); [lra|]; unfold Rdiv; rewrite Rmult_assoc, Rinv_l by lra; lra).
  assert (Hq0 : 0 <= INR h / INR n) by (apply quot_bounds; auto).
  split; [split; [apply rnd_ge_fmt; [apply fmt_0|exact Hq0]|apply rnd_le_fmt; [apply fmt_1|exact Hq]]|]. split; split; intros H.
  - destruct (Nat.eq_dec h 0) as [|Hne]; [assumption|]. exfalso. assert (ulp64 <= rnd64 (INR h / INR n)); [|lra]. apply rnd_ge_fmt; [apply fmt_u|].
    assert (1 <= INR h) by (apply (le_INR 1); lia). apply Rle_trans with (/ INR n); [exact Hun|]. unfold Rdiv. rewrite <- (Rmult_1_l (/ INR n)) at 1. apply Rmult_le_compat_r; [left; apply Rinv_0_lt_compat; lra|lra].
  - subst h. cbn. unfold Rdiv. rewrite Rmult_0_l. apply rnd_0.
  - destruct (Nat.eq_dec h n) as [|Hne]; [assumption|]. exfalso. assert (rnd64 (INR h / INR n) <= 1 - ulp64); [|lra]. apply rnd_le_fmt; [apply fmt_pred1|].
    assert (Hs : INR h <= INR n - 1) by (assert (Hs : INR (S h) <= INR n) by (apply le_INR; lia); rewrite S_INR in Hs; lra).
    apply Rle_trans with (1 - / INR n); [|lra]. apply (Rmult_le_reg_r (INR n)); [lra|]. unfold Rdiv. rewrite Rmult_assoc, Rinv_l by lra. rewrite Rmult_minus_distr_r, Rinv_l by lra. lra.
  - subst h. unfold Rdiv. rewrite Rinv_r by lra. apply rnd_fmt. apply fmt_1.
Qed.

(** ** [within]: how many roundings *)
Lemma one_u n : 1 <= (1 + ulp64) ^ n.
Proof. apply pow_R1_Rle. pose proof u_pos. lra. Qed.
Lemma within_is64 x r : is64 x r -> within 0 x r.
Proof. intros H. exists r. split; [exact H|]. cbn. lra. Qed.
Lemma pow_mono n m : (n <= m)%nat -> (1 + ulp64) ^ n <= (1 + ulp64) ^ m.
Proof. intros H. apply Rle_pow; [pose proof u_pos; lra|exact H]. Qed.
(** an abstract form: [r] lies between [s / c] and [s * c] *)
Definition near (c s r : R) : Prop := s / c <= r <= s * c.
Lemma near_mono c c' s r : 0 <= s -> 1 <= c -> c <= c' -> near c s r -> near c' s r.
Proof.
  intros Hs Hc Hcc [H1 H2]. split.
  - apply Rle_trans with (s / c); [|exact H1]. apply Rmult_le_compat_l; [exact Hs|]. apply Rinv_le; lra.
  - apply Rle_trans with (s * c); [exact H2|]. nra.
Qed.
Lemma within_mono n m x s : 0 <= s -> (n <= m)%nat -> within n x s -> within m x s.
Proof. intros Hs Hnm (r & Hr & Hn). exists r. split; [exact Hr|]. apply (near_mono ((1 + ulp64) ^ n)); auto using one_u, pow_mono. Qed.
Lemma near_nonneg c s r : 0 <= s -> 1 <= c -> near c s r -> 0 <= r.
Proof. intros Hs Hc [H _]. apply Rle_trans with (s / c); [|exact H]. apply Rmult_le_pos; [exact Hs|]. left. apply Rinv_0_lt_compat. lra. Qed.
Lemma near_mul c d s t a b : 0 <= s -> 0 <= t -> 1 <= c -> 1 <= d -> near c s a -> near d t b -> near (c * d) (s * t) (a * b).
Proof.
  intros Hs Ht Hc Hd Ha Hb. pose proof (near_nonneg _ _ _ Hs Hc Ha) as Ha0. pose proof (near_nonneg _ _ _ Ht Hd Hb) as Hb0. destruct Ha as [A1 A2], Hb as [B1 B2]. split.
  - replace (s * t / (c * d)) with (s / c * (t / d)) by (field; lra). apply Rmult_le_compat; try assumption; (apply Rmult_le_pos; [assumption|left; apply Rinv_0_lt_compat; lra]).
  - replace (s * t * (c * d)) with (s * c * (t * d)) by ring. apply Rmult_le_compat; assumption.
Qed.
Lemma near_inv d t b : 0 < t -> 1 <= d -> near d t b -> near d (/ t) (/ b).
Proof.
  intros Ht Hd [B1 B2]. assert (Hp : 0 < t / d) by (apply Rmult_lt_0_compat; [exact Ht|apply Rinv_0_lt_compat; lra]). split.
  - replace (/ t / d) with (/ (t * d)) by (field; lra). apply Rinv_le; lra.
  - replace (/ t * d) with (/ (t / d)) by (field; lra). apply Rinv_le; lra.
Qed.
Lemma near_add c s t a b : near c s a -> near c t b -> near c (s + t) (a + b).
Proof. intros [A1 A2] [B1 B2]. split; [unfold Rdiv in *; rewrite Rmult_plus_distr_r; lra|rewrite Rmult_plus_distr_r; lra]. Qed.
Lemma near_rnd c s a : 0 <= s -> 1 <= c -> (s = 0 \/ bpow radix2 (-1022) <= s / c) -> near c s a -> near (c * (1 + ulp64)) s (rnd64 a).
Proof.
  intros Hs Hc Hn [H1 H2]. pose proof u_pos as Hu. destruct Hn as [ -> |Hn].
  - assert (a = 0) as -> by (unfold Rdiv in *; rewrite Rmult_0_l in *; lra). rewrite rnd_0. unfold near, Rdiv. rewrite !Rmult_0_l. lra.
  - destruct (rnd_rel a) as [R1 R2]; [lra|]. split.
    + replace (s / (c * (1 + ulp64))) with (s / c / (1 + ulp64)) by (field; lra). apply Rle_trans with (a / (1 + ulp64)); [|exact R1]. apply Rmult_le_compat_r; [left; apply Rinv_0_lt_compat; lra|exact H1].
    + apply Rle_trans with (a * (1 + ulp64)); [exact R2|]. rewrite <- Rmult_assoc. apply Rmult_le_compat_r; lra.
Qed.
(** rounding errors never double a value within 2^52 operations *)
Lemma pow_u_le_2 n : (Z.of_nat n <= 2 ^ 53)%Z -> (1 + ulp64) ^ n <= 4.
Proof.
  intros H. apply Rle_trans with (exp (INR n * ulp64)).
  - pose proof u_pos as Hu. clear H. induction n as [|n IH]; [cbn [pow INR]; rewrite Rmult_0_l, exp_0; lra|].
    rewrite S_INR. replace ((INR n + 1) * ulp64) with (ulp64 + INR n * ulp64) by ring. rewrite exp_plus. cbn [pow]. apply Rmult_le_compat; [lra|pose proof (one_u n); lra|left; apply exp_ineq1; lra|exact IH].
  - apply Rle_trans with (exp 1).
    + destruct (Req_dec (INR n * ulp64) 1) as [ -> |Hne]; [lra|]. left. apply exp_increasing. pose proof (small_n_R n H) as [_ Hb]. unfold ulp64 in *. pose proof pow53_ge_1.
      assert (INR n * / 2 ^ 53 <= 1); [|lra]. apply (Rmult_le_reg_r (2 ^ 53)); [lra|]. rewrite Rmult_assoc, Rinv_l by lra. lra.
    + pose proof exp_le_3. lra.
Qed.
End S.
