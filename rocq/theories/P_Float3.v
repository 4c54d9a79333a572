(** P_Float3.v: sums of binary64 numbers, and the metrics of one query *)
From Coq Require Import Reals ZArith Lra Lia SpecFloat Psatz List.
From Flocq Require Import Core.Core IEEE754.BinarySingleNaN.
From Verif Require Import Base Dict Num Env M_Common M_Qrels M_Run M_Metrics Spec_Metrics Spec_Float P_Base P_Dict P_Metrics P_Metrics4 P_Float P_MetricsG P_Float2.
Import ListNotations.
Open Scope R_scope.

Lemma pow53_big : 2 ^ 53 * 2 ^ 53 * 16 <= 2 ^ 200.
Proof.
  replace (2 ^ 200) with (2 ^ 53 * 2 ^ 53 * 2 ^ 94) by (rewrite <- !pow_add; reflexivity). apply Rmult_le_compat_l.
  - apply Rmult_le_pos; apply pow_le; lra.
  - replace 16 with (2 ^ 4) by (cbn; lra). apply Rle_pow; [lra|lia].
Qed.

Section S.
Variables (l1 l2 : sf -> sf) (pw : sf -> sf -> sf).
Notation N64 := (NumSF_with l1 l2 pw).

Lemma fsum_snoc (xs : list sf) x : @fsum N64 (xs ++ [x]) = sf_add (@fsum N64 xs) x.
Proof. unfold fsum. rewrite fold_left_app. reflexivity. Qed.
Lemma Forall2_snoc_inv {A B} (P : A -> B -> Prop) l ys x : Forall2 P (l ++ [x]) ys -> exists l' y, ys = l' ++ [y] /\ Forall2 P l l' /\ P x y.
Proof.
  intros H. apply Forall2_app_inv_l in H as (l' & l'' & H1 & H2 & ->). inversion H2 as [|? y ? ? Hy Hn]; subst. inversion Hn; subst. eauto.
Qed.
Lemma list_sum_snoc bs b : list_sum (bs ++ [b]) = (list_sum bs + b)%nat.
Proof. rewrite list_sum_app. cbn. lia. Qed.
(** sums of bounded numbers stay below the sum of the bounds, if these are integers *)
Lemma fsum_bound (xs : list sf) : forall bs, Forall2 (fun x b => exists r, is64 x r /\ 0 <= r <= INR b) xs bs -> small_n (list_sum bs) ->
  exists r, is64 (@fsum N64 xs) r /\ 0 <= r <= INR (list_sum bs).
Proof.
  induction xs as [|x xs IH] using rev_ind; intros bs H Hs.
  - inversion H; subst. exists 0. split; [apply (fin_zero l1 l2 pw)|cbn; lra].
  - apply Forall2_snoc_inv in H as (bs' & b & -> & H & (r & Hr & Hb)). rewrite list_sum_snoc in *.
    destruct (IH bs' H) as (s & Hs' & Hsb); [unfold small_n in *; lia|]. rewrite fsum_snoc. exists (rnd64 (s + r)).
    pose proof (small_n_R _ Hs) as Hbig. rewrite plus_INR in Hbig.
    assert (H0 : 0 <= rnd64 (s + r) <= INR (list_sum bs' + b)).
    { split; [apply rnd_ge_fmt; [apply fmt_0|lra]|]. apply rnd_le_fmt; [now apply fmt_n|]. rewrite plus_INR. lra. }
    split; [|exact H0]. apply fin_add; [exact Hs'|exact Hr|]. apply rnd_bounded. pose proof pow53_le_200. lra.
Qed.
Lemma fsum_exact (xs : list sf) : forall bs, Forall2 (fun x b => is64 x (INR b)) xs bs -> small_n (list_sum bs) -> is64 (@fsum N64 xs) (INR (list_sum bs)).
Proof.
  induction xs as [|x xs IH] using rev_ind; intros bs H Hs.
  - inversion H; subst. apply (fin_zero l1 l2 pw).
  - apply Forall2_snoc_inv in H as (bs' & b & -> & H & Hb). rewrite list_sum_snoc in *. rewrite fsum_snoc.
    pose proof (fmt_n _ Hs) as Hf. rewrite <- (rnd_fmt _ Hf). rewrite plus_INR. apply fin_add; [apply IH; [exact H|unfold small_n in *; lia]|exact Hb|].
    apply rnd_bounded. pose proof (small_n_R _ Hs) as Hbig. rewrite plus_INR in Hbig. pose proof (pos_INR (list_sum bs')). pose proof (pos_INR b). pose proof pow53_le_200. lra.
Qed.
(** no underflow: terms are 0 or not tiny *)
Definition not_tiny (s : R) : Prop := s = 0 \/ bpow radix2 (-1000) <= s.
Lemma not_tiny_add s t : 0 <= s -> 0 <= t -> not_tiny s -> not_tiny t -> not_tiny (s + t).
Proof. unfold not_tiny. pose proof (bpow_gt_0 radix2 (-1000)). intros Hs Ht [ -> |H1] [ -> |H2]; [left|right|right|right]; lra. Qed.
Lemma bpow_m1000 : bpow radix2 (-1022) * 16 <= bpow radix2 (-1000).
Proof. replace 16 with (bpow radix2 4) by reflexivity. rewrite <- bpow_plus. apply bpow_le. lia. Qed.
Lemma tiny_guard s c : 0 <= s -> 1 <= c <= 16 -> not_tiny s -> s = 0 \/ bpow radix2 (-1022) <= s / c.
Proof.
  intros Hs Hc [ -> |H]; [now left|right]. apply (Rmult_le_reg_r c); [lra|]. unfold Rdiv. rewrite Rmult_assoc, Rinv_l by lra.
  pose proof bpow_m1000. pose proof (bpow_gt_0 radix2 (-1022)). nra.
Qed.
Lemma pow_S n : (1 + ulp64) ^ S n = (1 + ulp64) ^ n * (1 + ulp64).
Proof. cbn. ring. Qed.
Lemma pow_le_16 n : (Z.of_nat n <= 2 * 2 ^ 53)%Z -> 1 <= (1 + ulp64) ^ n <= 16.
Proof.
  intros H. split; [apply one_u|].
  assert (Hh : exists a b, n = (a + b)%nat /\ (Z.of_nat a <= 2 ^ 53)%Z /\ (Z.of_nat b <= 2 ^ 53)%Z).
  { destruct (Z_le_gt_dec (Z.of_nat n) (2 ^ 53)); [exists n, 0%nat; lia|]. exists (Z.to_nat (2 ^ 53)), (n - Z.to_nat (2 ^ 53))%nat. lia. }
  destruct Hh as (a & b & -> & Ha & Hb). rewrite pow_add. pose proof (pow_u_le_2 a Ha). pose proof (pow_u_le_2 b Hb). pose proof (one_u a). pose proof (one_u b). nra.
Qed.
Lemma within_add n x y s t : within n x s -> within n y t -> 0 <= s -> 0 <= t -> not_tiny s -> not_tiny t -> (Z.of_nat n <= 2 * 2 ^ 53)%Z -> s + t <= 2 ^ 53 * 2 ^ 53 ->
  within (S n) (sf_add x y) (s + t).
Proof.
  intros (a & Ha & Na) (b & Hb & Nb) Hs Ht Ts Tt Hn Hbig. pose proof (pow_le_16 n Hn) as Hc. pose proof (near_add _ _ _ _ _ Na Nb) as Nab. exists (rnd64 (a + b)). split.
  - apply fin_add; [exact Ha|exact Hb|]. apply rnd_bounded. pose proof (near_nonneg _ _ _ (Rplus_le_le_0_compat _ _ Hs Ht) (proj1 Hc) Nab). split; [assumption|].
    destruct Nab as [_ Nab]. pose proof pow53_big. nra.
  - rewrite pow_S. apply near_rnd; [lra|lra| |exact Nab]. apply tiny_guard; [lra|lra|]. now apply not_tiny_add.
Qed.
Lemma within_div n m x y s t : within n x s -> within m y t -> 0 <= s <= 2 ^ 53 * 2 ^ 53 -> 1 <= t -> not_tiny s -> t <= bpow radix2 190 -> bpow radix2 (-800) <= s \/ s = 0 ->
  (Z.of_nat (n + m) <= 2 * 2 ^ 53)%Z -> within (S (n + m)) (sf_div x y) (s / t).
Proof.
  intros (a & Ha & Na) (b & Hb & Nb) Hs Ht Ts Htb Hs8 Hn. pose proof (pow_le_16 (n + m) Hn) as Hc. rewrite pow_add in Hc. pose proof (one_u n) as Cn. pose proof (one_u m) as Cm.
  assert (Nab : near ((1 + ulp64) ^ n * (1 + ulp64) ^ m) (s / t) (a / b)).
  { apply near_mul; auto; [lra|left; apply Rinv_0_lt_compat; lra|]. apply near_inv; [lra|exact Cm|exact Nb]. }
  assert (Hq : 0 <= s / t) by (apply Rmult_le_pos; [lra|left; apply Rinv_0_lt_compat; lra]).
  assert (Hb0 : 0 < b) by (destruct Nb as [Nb _]; apply Rlt_le_trans with (t / (1 + ulp64) ^ m); [apply Rmult_lt_0_compat; [lra|apply Rinv_0_lt_compat; lra]|exact Nb]).
  exists (rnd64 (a / b)). split.
  - apply fin_div; [exact Ha|exact Hb|lra|]. apply rnd_bounded. pose proof (near_nonneg _ _ _ Hq (proj1 Hc) Nab). split; [assumption|]. destruct Nab as [_ Nab].
    assert (s / t <= 2 ^ 53 * 2 ^ 53) by (apply (Rmult_le_reg_r t); [lra|]; unfold Rdiv; rewrite Rmult_assoc, Rinv_l by lra; pose proof (pow_le 2 53); nra). pose proof pow53_big. nra.
  - rewrite pow_S, pow_add. apply near_rnd; [exact Hq|lra| |exact Nab]. apply tiny_guard; [exact Hq|lra|]. destruct Hs8 as [Hs8|Hs8]; [right|left; rewrite Hs8; unfold Rdiv; ring].
    apply (Rmult_le_reg_r t); [lra|]. unfold Rdiv. rewrite Rmult_assoc, Rinv_l, Rmult_1_r by lra. apply Rle_trans with (bpow radix2 (-1000) * bpow radix2 190); [apply Rmult_le_compat_l; [apply bpow_ge_0|exact Htb]|].
    rewrite <- bpow_plus. apply Rle_trans with (bpow radix2 (-800)); [apply bpow_le; lia|exact Hs8].
Qed.
Lemma fsum_within n (xs : list sf) : forall ss, Forall2 (fun x s => within n x s /\ 0 <= s /\ not_tiny s) xs ss -> (Z.of_nat (n + length xs) <= 2 * 2 ^ 53)%Z -> Rsum ss <= 2 ^ 53 * 2 ^ 53 ->
  within (n + length xs) (@fsum N64 xs) (Rsum ss) /\ 0 <= Rsum ss /\ not_tiny (Rsum ss).
Proof.
  induction xs as [|x xs IH] using rev_ind; intros ss H Hn Hbig.
  - inversion H; subst. split; [exists 0; split; [apply (fin_zero l1 l2 pw)|cbn; unfold Rdiv; rewrite !Rmult_0_l; lra]|]. split; [cbn; lra|now left].
  - apply Forall2_snoc_inv in H as (ss' & s & -> & H & Hx & Hs & Ht). rewrite Rsum_app in *. cbn [Rsum] in *. rewrite Rplus_0_r in *. rewrite app_length in *. cbn [length] in *.
    destruct (IH ss' H) as (I1 & I2 & I3); [lia|lra|]. split; [|split; [lra|now apply not_tiny_add]]. rewrite fsum_snoc. replace (n + (length xs + 1))%nat with (S (n + length xs)) by lia.
    apply within_add; auto; [|lia]. apply (within_mono n); auto. lia.
Qed.
End S.
