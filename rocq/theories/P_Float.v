(** P_Float.v: binary64 arithmetic of the model (Num.v) by Flocq *)
From Coq Require Import Reals ZArith Lra Lia SpecFloat Psatz.
From Flocq Require Import Core.Core IEEE754.BinarySingleNaN Relative.
From Verif Require Import Num Spec_Float.
Open Scope R_scope.

#[local] Instance Hprec : FLX.Prec_gt_0 53 := eq_refl _.
#[local] Instance Hmax : Prec_lt_emax 53 1024 := eq_refl _.
Notation b64 := (binary_float 53 1024).
Notation rm := (ZnearestE).

(** ** the operations are Flocq's (as in Flocq's PrimFloat.v) *)
Lemma round_nearest_even_equiv s m l : round_nearest_even m l = choice_mode mode_NE s m l.
Proof. case l; [reflexivity|intro c]. case c; [ | reflexivity..]. now simpl; unfold Round.cond_incr; case Z.even. Qed.
Lemma binary_round_aux_equiv sx mx ex lx : SpecFloat.binary_round_aux 53 1024 sx mx ex lx = binary_round_aux 53 1024 mode_NE sx mx ex lx.
Proof.
  unfold SpecFloat.binary_round_aux, binary_round_aux. set (mrse' := shr_fexp _ _ _ _ _). case mrse'; intros mrs' e'; simpl.
  now rewrite (round_nearest_even_equiv sx).
Qed.
Lemma binary_round_equiv s m e : SpecFloat.binary_round 53 1024 s m e = binary_round 53 1024 mode_NE s m e.
Proof.
  unfold SpecFloat.binary_round, binary_round, shl_align_fexp. set (mez := shl_align _ _ _); case mez as [mz ez]. apply binary_round_aux_equiv.
Qed.
Lemma binary_normalize_equiv m e szero : SpecFloat.binary_normalize 53 1024 m e szero = B2SF (binary_normalize 53 1024 Hprec Hmax mode_NE m e szero).
Proof. case m as [ | p | p]; [now simpl|simpl; rewrite B2SF_SF2B; apply binary_round_equiv..]. Qed.
Lemma add_equiv (x y : b64) : sf_add (B2SF x) (B2SF y) = B2SF (Bplus mode_NE x y).
Proof.
  case x as [sx|sx| |sx mx ex Bx]; case y as [sy|sy| |sy my ey By]; [now (trivial || simpl; case Bool.eqb).. | ]. apply binary_normalize_equiv.
Qed.
Lemma sub_equiv (x y : b64) : sf_sub (B2SF x) (B2SF y) = B2SF (Bminus mode_NE x y).
Proof.
  case x as [sx|sx| |sx mx ex Bx]; case y as [sy|sy| |sy my ey By]; [now (trivial || simpl; case Bool.eqb).. | ].
  unfold sf_sub, sf_prec, sf_emax. simpl. unfold Zminus. rewrite <- cond_Zopp_negb. apply binary_normalize_equiv.
Qed.
Lemma mul_equiv (x y : b64) : sf_mul (B2SF x) (B2SF y) = B2SF (Bmult mode_NE x y).
Proof.
  case x as [sx|sx| |sx mx ex Bx]; case y as [sy|sy| |sy my ey By]; [now trivial.. | ]. simpl. rewrite B2SF_SF2B. apply binary_round_aux_equiv.
Qed.
Lemma div_equiv (x y : b64) : sf_div (B2SF x) (B2SF y) = B2SF (Bdiv mode_NE x y).
Proof.
  case x as [sx|sx| |sx mx ex Bx]; case y as [sy|sy| |sy my ey By]; [now (trivial || simpl; case Bool.eqb).. | ].
  unfold sf_div, sf_prec, sf_emax. simpl. rewrite B2SF_SF2B. set (melz := SFdiv_core_binary _ _ _ _ _ _). case melz as [[mz ez] lz]. apply binary_round_aux_equiv.
Qed.
Lemma sqrt_equiv (x : b64) : sf_sqrt (B2SF x) = B2SF (Bsqrt mode_NE x).
Proof.
  case x as [sx|sx| |sx mx ex Bx]; [now (trivial || case sx).. | ]. case sx; [reflexivity | ]. unfold sf_sqrt, sf_prec, sf_emax. simpl.
  rewrite B2SF_SF2B. set (melz := SFsqrt_core_binary _ _ _ _). case melz as [[mz ez] lz]. apply binary_round_aux_equiv.
Qed.

(** ** values *)
Lemma is64_b x r : is64 x r <-> exists b : b64, x = B2SF b /\ is_finite b = true /\ B2R b = r.
Proof.
  split.
  - intros (Hv & Hf & Hr). exists (SF2B x Hv). rewrite B2SF_SF2B, is_finite_SF2B, B2R_SF2B. auto.
  - intros (b & -> & Hf & Hr). split; [apply valid_binary_B2SF|]. split; [now rewrite is_finite_SF_B2SF|]. now rewrite SF2R_B2SF.
Qed.
Lemma is64_fun x r r' : is64 x r -> is64 x r' -> r = r'.
Proof. intros (_ & _ & <-) (_ & _ & <-). reflexivity. Qed.

Definition fmt (r : R) : Prop := generic_format radix2 (FLT_exp (-1074) 53) r.
Lemma is64_fmt x r : is64 x r -> fmt r.
Proof. rewrite is64_b. intros (b & _ & _ & <-). apply (generic_format_B2R 53 1024). Qed.
Lemma is64_lt x r : is64 x r -> Rabs r < bpow radix2 1024.
Proof. rewrite is64_b. intros (b & _ & _ & <-). apply abs_B2R_lt_emax. Qed.
Lemma rnd_fmt r : fmt r -> rnd64 r = r.
Proof. intros H. apply round_generic; [apply valid_rnd_N|exact H]. Qed.
Lemma fmt_rnd r : fmt (rnd64 r).
Proof. apply generic_format_round; [apply FLT_exp_valid; reflexivity|apply valid_rnd_N]. Qed.
Lemma rnd_le a b : a <= b -> rnd64 a <= rnd64 b.
Proof. apply round_le; [apply FLT_exp_valid; reflexivity|apply valid_rnd_N]. Qed.
Lemma rnd_0 : rnd64 0 = 0.
Proof. apply round_0. apply valid_rnd_N. Qed.
Lemma rnd_le_fmt a b : fmt b -> a <= b -> rnd64 a <= b.
Proof. intros Hb H. rewrite <- (rnd_fmt b Hb). now apply rnd_le. Qed.
Lemma rnd_ge_fmt a b : fmt b -> b <= a -> b <= rnd64 a.
Proof. intros Hb H. rewrite <- (rnd_fmt b Hb). now apply rnd_le. Qed.

Lemma fin_add x y a b : is64 x a -> is64 y b -> Rabs (rnd64 (a + b)) < bpow radix2 1024 -> is64 (sf_add x y) (rnd64 (a + b)).
Proof.
  rewrite !is64_b. intros (bx & -> & Fx & <-) (by_ & -> & Fy & <-) H. exists (Bplus mode_NE bx by_). rewrite <- add_equiv. split; [reflexivity|].
  pose proof (Bplus_correct 53 1024 Hprec Hmax mode_NE bx by_ Fx Fy) as Hc. rewrite Rlt_bool_true in Hc by exact H. destruct Hc as (H1 & H2 & _). auto.
Qed.
Lemma fin_sub x y a b : is64 x a -> is64 y b -> Rabs (rnd64 (a - b)) < bpow radix2 1024 -> is64 (sf_sub x y) (rnd64 (a - b)).
Proof.
  rewrite !is64_b. intros (bx & -> & Fx & <-) (by_ & -> & Fy & <-) H. exists (Bminus mode_NE bx by_). rewrite <- sub_equiv. split; [reflexivity|].
  pose proof (Bminus_correct 53 1024 Hprec Hmax mode_NE bx by_ Fx Fy) as Hc. rewrite Rlt_bool_true in Hc by exact H. destruct Hc as (H1 & H2 & _). auto.
Qed.
Lemma fin_mul x y a b : is64 x a -> is64 y b -> Rabs (rnd64 (a * b)) < bpow radix2 1024 -> is64 (sf_mul x y) (rnd64 (a * b)).
Proof.
  rewrite !is64_b. intros (bx & -> & Fx & <-) (by_ & -> & Fy & <-) H. exists (Bmult mode_NE bx by_). rewrite <- mul_equiv. split; [reflexivity|].
  pose proof (Bmult_correct 53 1024 Hprec Hmax mode_NE bx by_) as Hc. rewrite Rlt_bool_true in Hc by exact H. destruct Hc as (H1 & H2 & _). rewrite Fx, Fy in H2. auto.
Qed.
Lemma fin_div x y a b : is64 x a -> is64 y b -> b <> 0 -> Rabs (rnd64 (a / b)) < bpow radix2 1024 -> is64 (sf_div x y) (rnd64 (a / b)).
Proof.
  rewrite !is64_b. intros (bx & -> & Fx & <-) (by_ & -> & Fy & <-) Hb H. exists (Bdiv mode_NE bx by_). rewrite <- div_equiv. split; [reflexivity|].
  pose proof (Bdiv_correct 53 1024 Hprec Hmax mode_NE bx by_ Hb) as Hc. rewrite Rlt_bool_true in Hc by exact H. destruct Hc as (H1 & H2 & _). rewrite Fx in H2. auto.
Qed.
Lemma fin_sqrt x a : is64 x a -> 0 < a -> is64 (sf_sqrt x) (rnd64 (sqrt a)).
Proof.
  rewrite !is64_b. intros (bx & -> & Fx & <-) H. exists (Bsqrt mode_NE bx). rewrite <- sqrt_equiv. split; [reflexivity|].
  destruct (Bsqrt_correct 53 1024 Hprec Hmax mode_NE bx) as (H1 & H2 & _). split; [|exact H1]. rewrite H2.
  destruct bx as [s|s| |s m e]; try reflexivity; try discriminate. destruct s; [|reflexivity]. exfalso.
  cbn in H. pose proof (F2R_lt_0 radix2 (Float radix2 (Zneg m) e)) as Hn. cbn in Hn. specialize (Hn eq_refl). change (F2R (Float radix2 (Zneg m) e) < 0) in Hn. cbn in *. lra.
Qed.

(** ** integers *)
Lemma bpow_53 : bpow radix2 53 = 2 ^ 53.
Proof. rewrite <- (IZR_Zpower radix2 53) by lia. change (Zpower radix2 53) with (2 ^ 53)%Z. rewrite (pow_IZR 2 53). reflexivity. Qed.
Lemma small_fmt z : small z -> fmt (IZR z).
Proof.
  unfold small, fmt. intros Hz. destruct (Z_lt_le_dec (Z.abs z) (2 ^ 53)) as [Hlt|Hge].
  - apply generic_format_FLT. exists (Float radix2 z 0); [unfold F2R; cbn; ring|exact Hlt|cbn; lia].
  - assert (Hz' : z = (2 ^ 53)%Z \/ z = (- 2 ^ 53)%Z) by lia.
    assert (Hp : generic_format radix2 (FLT_exp (-1074) 53) (bpow radix2 53)) by (apply generic_format_bpow; cbn; lia).
    replace (bpow radix2 53) with (IZR (2 ^ 53)) in Hp by (rewrite <- (IZR_Zpower radix2 53) by lia; reflexivity).
    destruct Hz' as [ -> | -> ]; [exact Hp|]. rewrite opp_IZR. now apply generic_format_opp.
Qed.
Lemma rnd_Z z : small z -> rnd64 (IZR z) = IZR z.
Proof. intros H. apply rnd_fmt. now apply small_fmt. Qed.
Lemma bpow_1024_big r : Rabs r <= 2 ^ 53 -> Rabs r < bpow radix2 1024.
Proof. intros H. eapply Rle_lt_trans; [exact H|]. rewrite <- bpow_53. apply bpow_lt. lia. Qed.
Lemma small_abs z : small z -> Rabs (IZR z) <= 2 ^ 53.
Proof. intros H. rewrite <- abs_IZR. apply (IZR_le _ _) in H. rewrite (pow_IZR 2 53). exact H. Qed.
Lemma fin_ofZ z : small z -> is64 (sf_of_Z z) (IZR z).
Proof.
  intros H. unfold sf_of_Z, sf_prec, sf_emax. rewrite binary_normalize_equiv. apply is64_b. eexists. split; [reflexivity|].
  pose proof (binary_normalize_correct 53 1024 Hprec Hmax mode_NE z 0 false) as Hc. cbv zeta in Hc.
  replace (F2R (Float radix2 z 0)) with (IZR z) in Hc by (unfold F2R; cbn; ring).
  change (round radix2 (SpecFloat.fexp 53 1024) (round_mode mode_NE) (IZR z)) with (rnd64 (IZR z)) in Hc. rewrite rnd_Z in Hc by exact H.
  rewrite Rlt_bool_true in Hc by (apply bpow_1024_big; now apply small_abs). destruct Hc as (H1 & H2 & _). auto.
Qed.

(** ** comparisons *)
Lemma cmp64 x y a b : is64 x a -> is64 y b -> SFcompare x y = Some (Rcompare a b).
Proof.
  rewrite !is64_b. intros (bx & -> & Fx & <-) (by_ & -> & Fy & <-). apply (Bcompare_correct 53 1024 bx by_ Fx Fy).
Qed.
Lemma leb64 x y a b : is64 x a -> is64 y b -> sf_leb x y = Rle_bool a b.
Proof.
  intros Hx Hy. unfold sf_leb, SFleb. rewrite (cmp64 x y a b Hx Hy). destruct (Rcompare_spec a b); [rewrite Rle_bool_true|rewrite Rle_bool_true|rewrite Rle_bool_false]; auto; lra.
Qed.
Lemma ltb64 x y a b : is64 x a -> is64 y b -> sf_ltb x y = Rlt_bool a b.
Proof.
  intros Hx Hy. unfold sf_ltb, SFltb. rewrite (cmp64 x y a b Hx Hy). destruct (Rcompare_spec a b); [rewrite Rlt_bool_true|rewrite Rlt_bool_false|rewrite Rlt_bool_false]; auto; lra.
Qed.
Lemma eqb64 x y a b : is64 x a -> is64 y b -> sf_eqb x y = Req_bool a b.
Proof.
  intros Hx Hy. unfold sf_eqb, SFeqb. rewrite (cmp64 x y a b Hx Hy). destruct (Rcompare_spec a b); [rewrite Req_bool_false|rewrite Req_bool_true|rewrite Req_bool_false]; auto; lra.
Qed.

(** ** relative errors *)
Lemma u_pos : 0 < ulp64.
Proof. unfold ulp64. apply Rinv_0_lt_compat. apply pow_lt. lra. Qed.
Lemma rnd_rel a : bpow radix2 (-1022) <= a -> a / (1 + ulp64) <= rnd64 a <= a * (1 + ulp64).
Proof.
  intros Ha. pose proof (bpow_gt_0 radix2 (-1022)) as Hb. pose proof u_pos as Hu.
  unfold rnd64. rewrite (round_FLT_FLX radix2 (-1074) 53) by (rewrite Rabs_pos_eq by lra; exact Ha).
  pose proof (relative_error_N_FLX' radix2 53 eq_refl (fun z => negb (Z.even z)) a) as He.
  set (x := round radix2 (FLX_exp 53) _ a) in *. clearbody x. rewrite (Rabs_pos_eq a) in He by lra.
  replace (u_ro radix2 53) with ulp64 in He.
  2: { unfold u_ro, ulp64. change (bpow radix2 (- (53) + 1)) with (/ 4503599627370496). replace (2 ^ 53) with 9007199254740992 by (rewrite (pow_IZR 2 53); reflexivity). lra. }
  apply Rabs_le_inv in He. set (u := ulp64) in *. clearbody u.
  assert (H1 : u / (1 + u) * a = a - a / (1 + u)) by (field; lra).
  assert (H2 : u / (1 + u) * a <= u * a).
  { apply Rmult_le_compat_r; [lra|]. apply (Rmult_le_reg_r (1 + u)); [lra|]. unfold Rdiv. rewrite Rmult_assoc, Rinv_l by lra. nra. }
  lra.
Qed.
