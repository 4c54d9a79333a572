(** T_Float2.v: C76-C78 are not vacuous; graded ndcg may exceed 1 (C78) *)
From Coq Require Import Reals ZArith Lra Lia SpecFloat Psatz List String Sorted Permutation.
From Flocq Require Import Core.Core IEEE754.BinarySingleNaN.
From Verif Require Import Base Dict Num NumLaws Env M_Common M_Qrels M_Run M_Metrics Spec_Metrics Spec_MetricsAPI Spec_Float
  P_Base P_Dict P_Metrics P_Metrics2 P_Metrics3 P_Metrics4 P_Metrics5 P_Metrics7 T_Metrics T_Metrics2 EnvEx
  P_Float P_MetricsG P_Float2 P_Float3 P_Float4 P_Float5 P_Float6 P_Float7 T_Float.
Import ListNotations.
Open Scope list_scope.
Open Scope R_scope.

(** the correctly rounded library functions satisfy the hypotheses *)
Definition round64 (r : R) : sf :=
  SpecFloat.binary_normalize 53 1024 (Ztrunc (scaled_mantissa radix2 (FLT_exp (-1074) 53) (rnd64 r))) (cexp radix2 (FLT_exp (-1074) 53) (rnd64 r)) false.
Lemma round64_is64 r : Rabs (rnd64 r) < bpow radix2 1024 -> is64 (round64 r) (rnd64 r).
Proof.
  intros H. unfold round64. rewrite binary_normalize_equiv. apply is64_b. eexists. split; [reflexivity|].
  pose proof (binary_normalize_correct 53 1024 Hprec Hmax mode_NE (Ztrunc (scaled_mantissa radix2 (FLT_exp (-1074) 53) (rnd64 r))) (cexp radix2 (FLT_exp (-1074) 53) (rnd64 r)) false) as Hc. cbv zeta in Hc.
  assert (Hf : F2R (Float radix2 (Ztrunc (scaled_mantissa radix2 (FLT_exp (-1074) 53) (rnd64 r))) (cexp radix2 (FLT_exp (-1074) 53) (rnd64 r))) = rnd64 r) by (symmetry; apply fmt_rnd).
  rewrite Hf in Hc. change (SpecFloat.emin 53 1024) with (-1074)%Z in Hc. change (BinarySingleNaN.round_mode mode_NE) with ZnearestE in Hc.
  assert (Hr : round radix2 (SpecFloat.fexp 53 1024) ZnearestE (rnd64 r) = rnd64 r) by (apply rnd_fmt, fmt_rnd). rewrite Hr in Hc. rewrite Rlt_bool_true in Hc by exact H. tauto.
Qed.
Definition log2_64 (x : sf) : sf := round64 (log2 (SF2R radix2 x)).
Definition pow_64 (x y : sf) : sf := round64 (Rpower (SF2R radix2 x) (SF2R radix2 y)).
Lemma ofZ_val n : small n -> SF2R radix2 (sf_of_Z n) = IZR n.
Proof. intros H. apply (fin_ofZ n H). Qed.
Lemma log2_mono x y : 2 <= x -> x <= y -> log2 x <= log2 y.
Proof.
  intros Hx Hy. unfold log2. apply Rmult_le_compat_r; [left; apply Rinv_0_lt_compat, ln2_pos|]. destruct (Req_dec x y) as [ -> |Hn]; [lra|]. left. apply ln_increasing; lra.
Qed.
Lemma log2_bounds n : (2 <= n <= 2 ^ 53)%Z -> 1 <= log2 (IZR n) <= 2 ^ 200.
Proof.
  intros Hn. assert (2 <= IZR n) by (apply (IZR_le 2); lia). split; [now apply log2_ge1|]. pose proof (log2_le _ H). assert (IZR n <= 2 ^ 53) by (rewrite pow53; apply IZR_le; lia).
  apply Rle_trans with (2 ^ 53 * 2 ^ 53 * 16); [|apply pow53_big]. pose proof pow53_ge_1. nra.
Qed.
Example log2_64_accurate : log2_accurate 1 log2_64.
Proof.
  intros n Hn. unfold log2_64. rewrite ofZ_val by (unfold small; lia). pose proof (log2_bounds n Hn) as Hb. assert (F : is64 (round64 (log2 (IZR n))) (rnd64 (log2 (IZR n)))) by (apply round64_is64, rnd_bounded; lra).
  split; [exists (rnd64 (log2 (IZR n))); split; [exact F|]; rewrite pow_1; apply rnd_rel; apply Rle_trans with 1; [|lra]; change 1 with (bpow radix2 0); apply bpow_le; lia|].
  eexists. split; [exact F|]. apply rnd_ge_fmt; [apply fmt_1|lra].
Qed.
Example log2_64_monotone : log2_monotone log2_64.
Proof.
  intros n n' v v' Hn Hn' Fv Fv'. unfold log2_64 in *. rewrite ofZ_val in Fv, Fv' by (unfold small; lia).
  pose proof (log2_bounds n ltac:(lia)) as Hb. pose proof (log2_bounds n' ltac:(lia)) as Hb'.
  rewrite (is64_fun _ _ _ Fv (round64_is64 (log2 (IZR n)) (rnd_bounded _ (conj (Rle_trans _ _ _ Rle_0_1 (proj1 Hb)) (proj2 Hb))))), (is64_fun _ _ _ Fv' (round64_is64 (log2 (IZR n')) (rnd_bounded _ (conj (Rle_trans _ _ _ Rle_0_1 (proj1 Hb')) (proj2 Hb'))))). apply rnd_le. apply log2_mono; [apply (IZR_le 2); lia|apply IZR_le; lia].
Qed.
Example pow_64_exact : pow2_exact pow_64.
Proof.
  intros v Hv. unfold pow_64. rewrite !ofZ_val by (unfold small; lia). rewrite Rpower2_Z by lia.
  assert (Hs : small (2 ^ v)) by (unfold small; assert (2 ^ v <= 2 ^ 53)%Z by (apply Z.pow_le_mono_r; lia); assert (0 < 2 ^ v)%Z by (apply Z.pow_pos_nonneg; lia); lia).
  rewrite <- (rnd_Z _ Hs) at 2. apply round64_is64. apply rnd_bounded. assert (0 < 2 ^ v)%Z by (apply Z.pow_pos_nonneg; lia). split; [apply (IZR_le 0); lia|]. pose proof (small_abs _ Hs) as Ha. rewrite Rabs_pos_eq in Ha by (apply (IZR_le 0); lia). pose proof pow53_le_200. lra.
Qed.

Notation N64c := (NumSF_with sf0 log2_64 pow_64).
Definition E64 : @env N64c := @env_ex N64c.
Lemma E64_ok : env_ok E64.
Proof. apply env_ex_ok. apply NumSF_laws. Qed.

Open Scope string_scope.
Definition j64 : dict Z := [("a", 3%Z); ("b", 2%Z); ("c", 0%Z)].
Definition r64 : dict sf := [("x", sf_of_Z 5); ("a", sf_of_Z 4); ("b", sf_of_Z 1)].
(** best judgment first *)
Definition r64i : dict sf := [("a", sf_of_Z 5); ("b", sf_of_Z 4); ("x", sf_of_Z 1)].
Lemma ids_ex (l : list string) : ids_distinctb (fun d => round53 (ex_hash d)) l = true -> ids_distinct (@doc_key N64c E64) l.
Proof. apply ids_distinctb_ok. Qed.
Example j64_query : query64 E64 1 j64 r64 /\ query64 E64 1 j64 r64i.
Proof.
  split; (split; [apply nodupb_ok; reflexivity|apply nodupb_ok; reflexivity| |repeat constructor; cbn; unfold small; lia|unfold small; lia|cbn; lia|cbn; lia]); (apply ids_ex; vm_compute; reflexivity).
Qed.
Example j64_desc : judgments_desc j64.
Proof. repeat constructor; cbn; lia. Qed.
Example j64_ideal : (1 <= 1)%Z /\ (0 < n_relevant j64 1)%nat /\ ideal_ranking j64 1 (dkeys r64i).
Proof.
  split; [lia|]. split; [cbn; lia|]. exists ["a"; "b"], ["x"]. split; [reflexivity|]. split.
  - intros d. unfold relevant, j64. cbn [dget]. destruct (String.eqb_spec d "a") as [ -> |H1]; [cbn; tauto|]. destruct (String.eqb_spec d "b") as [ -> |H2]; [cbn; tauto|].
    destruct (String.eqb d "c"); cbn; split; intros H; try discriminate; intuition congruence.
  - repeat constructor; cbn; lra.
Qed.
(** so the theorems apply to this query: two of three retrieved documents are relevant *)
Example C76_example : exists x, @precision N64c E64 (qrels_arg64 E64 [j64]) (run_arg64 E64 [r64]) 0 1 = Ok [x] /\ is64 x (rnd64 (2 / 3)).
Proof.
  destruct (C76_precision_rounded sf0 log2_64 pow_64 E64 E64_ok [j64] [r64] 0%Z 1%Z) as (xs & Hx & H); [constructor; [apply j64_query|constructor]|lia|unfold small; lia|].
  inversion H as [|? x ? l (Hr & _) Hn]; subst. inversion Hn; subst. exists x. split; [exact Hx|]. cbn [fst snd] in Hr. replace (2 / 3) with (S_precision j64 1 (dkeys r64) (Z.to_nat 0)); [exact Hr|]. unfold S_precision. cbn. lra.
Qed.
Example C78_example : exists x, @ndcg N64c E64 (qrels_arg64 E64 [j64]) (run_arg64 E64 [r64i]) 0 1 = Ok [x] /\ is64 x 1.
Proof.
  destruct (C78_ideal_is_exactly_one sf0 log2_64 pow_64 E64 1 E64_ok log2_64_accurate ltac:(lia)) as (H & _).
  destruct (H [j64] [r64i] 0%Z 1%Z) as (xs & Hx & Hf); [constructor; [apply j64_query|constructor]|lia|unfold small; lia|].
  inversion Hf as [|? x ? l Hr Hn]; subst. inversion Hn; subst. exists x. split; [exact Hx|]. apply Hr; [apply j64_ideal|apply j64_desc].
Qed.
