(** P_Float10.v: the real-number facts behind normalisation in binary64 *)
From Coq Require Import Reals ZArith Lra Lia SpecFloat Psatz List String.
From Flocq Require Import Core.Core IEEE754.BinarySingleNaN.
From Flocq Require Import Relative.
From Verif Require Import Base Dict Num Spec_Norm Spec_Float P_Float P_Float2.
Import ListNotations.
Open Scope R_scope.

Definition half_min : R := bpow radix2 (-1075).
Lemma half_min_pos : 0 < half_min.
Proof. apply bpow_gt_0. Qed.
Lemma rnd_abs a : 0 <= a -> Rabs (rnd64 a - a) <= ulp64 * a + half_min.
Proof.
  intros Ha. destruct (error_N_FLT radix2 (-1074) 53 eq_refl (fun z => negb (Z.even z)) a) as (eps & eta & H1 & H2 & _ & H4).
  unfold rnd64. rewrite H4. replace (a * (1 + eps) + eta - a) with (a * eps + eta) by ring.
  eapply Rle_trans; [apply Rabs_triang|]. apply Rplus_le_compat.
  - rewrite Rabs_mult, (Rabs_pos_eq a) by exact Ha. rewrite Rmult_comm. apply Rmult_le_compat_r; [exact Ha|]. eapply Rle_trans; [exact H1|].
    rewrite ulp64_bpow. change (- (53) + 1)%Z with (-53 + 1)%Z. rewrite bpow_plus. change (bpow radix2 1) with 2. lra.
  - eapply Rle_trans; [exact H2|]. unfold half_min. change (-1074)%Z with (-1075 + 1)%Z at 1. rewrite bpow_plus. change (bpow radix2 1) with 2. pose proof (bpow_gt_0 radix2 (-1075)). lra.
Qed.
Definition eps_r : R := rnd64 tiny.
Lemma tiny_bounds : bpow radix2 (-30) <= tiny <= bpow radix2 (-29).
Proof.
  unfold tiny. replace (10 ^ 9) with (IZR (10 ^ 9)) by (rewrite (pow_IZR 10 9); reflexivity).
  change (bpow radix2 (-30)) with (/ IZR (2 ^ 30)). change (bpow radix2 (-29)) with (/ IZR (2 ^ 29)).
  unfold Rdiv. rewrite Rmult_1_l. split; apply Rinv_le; try (apply (IZR_lt 0); reflexivity); apply IZR_le; lia.
Qed.
Lemma eps_bounds : bpow radix2 (-30) <= eps_r <= bpow radix2 (-29).
Proof.
  pose proof tiny_bounds as [H1 H2]. unfold eps_r. split; [apply rnd_ge_fmt|apply rnd_le_fmt]; try assumption; apply generic_format_bpow; cbn; lia.
Qed.
Lemma eps_pos : 0 < eps_r.
Proof. pose proof eps_bounds. pose proof (bpow_gt_0 radix2 (-30)). lra. Qed.
Lemma fmt_eps : fmt eps_r.
Proof. apply fmt_rnd. Qed.
Lemma half_min_small d : eps_r <= d -> half_min <= ulp64 * ulp64 * d.
Proof.
  intros H. pose proof eps_bounds as [H1 _]. eapply Rle_trans; [|apply Rmult_le_compat_l; [|exact (Rle_trans _ _ _ H1 H)]].
  - rewrite !ulp64_bpow, <- !bpow_plus. apply bpow_le. lia.
  - pose proof u_pos. nra.
Qed.
Lemma u_small : ulp64 <= / 1024.
Proof. rewrite ulp64_bpow. change (/ 1024) with (bpow radix2 (-10)). apply bpow_le. lia. Qed.

(** ** min-max *)
Definition mm_den (lo hi : R) : R := Rmax (rnd64 (hi - lo)) eps_r.
Definition mm (a D : R) : R := rnd64 (rnd64 a / D).
Lemma div_le1 a D : 0 < D -> a <= D -> a / D <= 1.
Proof. intros HD Ha. apply (Rmult_le_reg_r D); [exact HD|]. unfold Rdiv. rewrite Rmult_assoc, Rinv_l by lra. lra. Qed.
Lemma div_ge0 a D : 0 < D -> 0 <= a -> 0 <= a / D.
Proof. intros HD Ha. unfold Rdiv. apply Rmult_le_pos; [exact Ha|]. left. now apply Rinv_0_lt_compat. Qed.
Lemma div_mono a b D : 0 < D -> a <= b -> a / D <= b / D.
Proof. intros HD H. unfold Rdiv. apply Rmult_le_compat_r; [left; now apply Rinv_0_lt_compat|exact H]. Qed.
Lemma rnd_ge0 a : 0 <= a -> 0 <= rnd64 a.
Proof. intros H. apply rnd_ge_fmt; [apply fmt_0|exact H]. Qed.
Lemma mm_01 a D : 0 < D -> 0 <= a -> rnd64 a <= D -> 0 <= mm a D <= 1.
Proof.
  intros HD Ha Hb. pose proof (rnd_ge0 a Ha). unfold mm. split.
  - apply rnd_ge0. now apply div_ge0.
  - apply rnd_le_fmt; [apply fmt_1|]. now apply div_le1.
Qed.
Lemma mm_zero D : mm 0 D = 0.
Proof. unfold mm. rewrite rnd_0. unfold Rdiv. now rewrite Rmult_0_l, rnd_0. Qed.
Lemma mm_one a : 0 < rnd64 a -> mm a (rnd64 a) = 1.
Proof. intros H. unfold mm. unfold Rdiv. rewrite Rinv_r by lra. apply (rnd_fmt 1 fmt_1). Qed.
Lemma mm_mono a b D : 0 < D -> a <= b -> mm a D <= mm b D.
Proof. intros HD H. unfold mm. apply rnd_le. apply div_mono; [exact HD|]. now apply rnd_le. Qed.
Lemma mm_err a D : eps_r <= D -> 0 <= a -> rnd64 a <= D -> Rabs (mm a D - a / D) <= 4 * ulp64.
Proof.
  intros HD Ha Hb. pose proof eps_pos as He. assert (HD0 : 0 < D) by lra. pose proof u_pos as Hu. pose proof u_small as Hus.
  pose proof (half_min_small D HD) as Hm. pose proof (rnd_abs a Ha) as H1. pose proof (rnd_ge0 a Ha) as H0.
  assert (Haub : a <= D * (1 + 2 * ulp64)).
  { apply Rabs_le_inv in H1. assert (a * (1 - ulp64) <= D * (1 + ulp64 * ulp64)) by lra. 
    assert (a * (1 - ulp64) <= D * (1 + 2 * ulp64) * (1 - ulp64)) by (eapply Rle_trans; [eassumption|]; rewrite (Rmult_assoc D); apply Rmult_le_compat_l; [lra|]; nra).
    apply (Rmult_le_reg_r (1 - ulp64)); [lra|assumption]. }
  assert (H2 : Rabs (rnd64 a / D - a / D) <= 2 * ulp64).
  { replace (rnd64 a / D - a / D) with ((rnd64 a - a) / D) by (unfold Rdiv; ring). unfold Rdiv. rewrite Rabs_mult, (Rabs_pos_eq (/ D)) by (left; now apply Rinv_0_lt_compat).
    apply (Rmult_le_reg_r D); [exact HD0|]. rewrite Rmult_assoc, Rinv_l, Rmult_1_r by lra. eapply Rle_trans; [exact H1|]. 
    assert (ulp64 * a <= ulp64 * (D * (1 + 2 * ulp64))) by (apply Rmult_le_compat_l; lra). assert (ulp64 * ulp64 * D <= / 1024 * (ulp64 * D)) by (rewrite (Rmult_assoc ulp64 ulp64 D); apply Rmult_le_compat_r; [|exact Hus]; nra). nra. }
  assert (H3 : 0 <= rnd64 a / D <= 1) by (split; [now apply div_ge0|now apply div_le1]).
  pose proof (rnd_abs (rnd64 a / D) (proj1 H3)) as H4.
  assert (Hm2 : half_min <= ulp64 * ulp64). { unfold half_min. rewrite ulp64_bpow, <- bpow_plus. apply bpow_le. lia. }
  unfold mm. replace (rnd64 (rnd64 a / D) - a / D) with ((rnd64 (rnd64 a / D) - rnd64 a / D) + (rnd64 a / D - a / D)) by ring.
  eapply Rle_trans; [apply Rabs_triang|]. nra.
Qed.
Lemma mm_strict a b D : eps_r <= D -> 0 <= a -> rnd64 b <= D -> a + 9 * ulp64 * D <= b -> mm a D < mm b D.
Proof.
  intros HD Ha Hb Hab. pose proof eps_pos as He. pose proof u_pos as Hu. assert (HD0 : 0 < D) by lra. assert (Hle : a <= b) by nra.
  assert (HaD : rnd64 a <= D) by (eapply Rle_trans; [apply rnd_le; exact Hle|exact Hb]).
  pose proof (mm_err a D HD Ha HaD) as H1. pose proof (mm_err b D HD ltac:(lra) Hb) as H2. apply Rabs_le_inv in H1, H2.
  assert (9 * ulp64 <= (b - a) / D) by (apply (Rmult_le_reg_r D); [exact HD0|]; replace ((b - a) / D * D) with (b - a) by (field; lra); lra).
  replace ((b - a) / D) with (b / D - a / D) in H by (unfold Rdiv; ring). lra.
Qed.
Lemma den_le d : 0 <= d -> Rmax (rnd64 d) eps_r <= Rmax d tiny * (1 + 2 * ulp64).
Proof.
  intros Hd. pose proof u_pos as Hu. pose proof u_small as Hus. pose proof tiny_bounds as [Ht _]. pose proof (bpow_gt_0 radix2 (-30)).
  assert (Hx : forall z, 0 <= z -> rnd64 z <= Rmax z tiny * (1 + 2 * ulp64)).
  { intros z Hz. pose proof (rnd_abs z Hz) as Hr. apply Rabs_le_inv in Hr. 
    assert (Hm : half_min <= ulp64 * tiny) by (eapply Rle_trans; [|apply Rmult_le_compat_l; [lra|exact Ht]]; unfold half_min; rewrite ulp64_bpow, <- bpow_plus; apply bpow_le; lia).
    pose proof (Rmax_l z tiny). pose proof (Rmax_r z tiny). nra. }
  apply Rmax_lub; [now apply Hx|]. eapply Rle_trans; [apply Hx; lra|]. rewrite Rmax_left by lra. apply Rmult_le_compat_r; [lra|]. apply Rmax_r.
Qed.
Lemma u_50 : 16 * ulp64 = / 2 ^ 49.
Proof. unfold ulp64. replace (2 ^ 53) with (16 * 2 ^ 49) by (rewrite (pow_add 2 4 49 : 2 ^ 53 = _); ring). field. Qed.
(** a separation of 2^-49 of the range is enough *)
Lemma sep_enough d D s s' : 0 <= d -> D = Rmax (rnd64 d) eps_r -> Rmax d tiny / 2 ^ 49 <= s' - s -> 9 * ulp64 * D <= s' - s.
Proof.
  intros Hd -> H. pose proof (den_le d Hd) as H1. pose proof u_pos as Hu. pose proof u_small as Hus. unfold Rdiv in H. rewrite <- u_50 in H.
  pose proof (Rmax_r d tiny) as Hm. pose proof tiny_bounds as [Ht _]. pose proof (bpow_gt_0 radix2 (-30)). eapply Rle_trans; [|exact H].
  apply Rle_trans with (9 * ulp64 * (Rmax d tiny * (1 + 2 * ulp64))); [apply Rmult_le_compat_l; [lra|exact H1]|]. assert (0 <= Rmax d tiny * ulp64) by (apply Rmult_le_pos; lra). nra.
Qed.
