(** T_Float3.v: with graded judgments, ndcg in binary64 may exceed 1 (C78) *)
From Coq Require Import Reals ZArith Lra Lia SpecFloat Psatz List String Sorted Permutation.
From Flocq Require Import Core.Core IEEE754.BinarySingleNaN.
From Verif Require Import Base Dict Num NumLaws Env M_Common M_Qrels M_Run M_Metrics Spec_Metrics Spec_MetricsAPI Spec_Float
  P_Base P_Dict P_Metrics P_Metrics7 EnvEx P_Float P_MetricsG P_Float2 P_Float3 P_Float4 P_Float5 P_Float6 P_Float7 T_Float T_Float2.
Import ListNotations.
Open Scope list_scope.
Open Scope R_scope.

Lemma rnd_scaled e x : (-1074 <= e)%Z -> bpow radix2 (e + 52) <= x < bpow radix2 (e + 53) -> rnd64 x = IZR (ZnearestE (x * bpow radix2 (- e))) * bpow radix2 e.
Proof.
  intros He Hx. unfold rnd64, Generic_fmt.round, scaled_mantissa, cexp. assert (Hm : (mag radix2 x : Z) = (e + 53)%Z).
  { apply mag_unique. rewrite Rabs_pos_eq by (pose proof (bpow_gt_0 radix2 (e + 52)); lra). replace (e + 53 - 1)%Z with (e + 52)%Z by lia. exact Hx. }
  rewrite Hm. assert (Hf : FLT_exp (-1074) 53 (e + 53) = e) by (unfold FLT_exp; lia). rewrite Hf. reflexivity.
Qed.
Lemma rnd_int x n : 2 ^ 52 <= x < 2 ^ 53 -> Rabs (x - IZR n) < 1 / 2 -> rnd64 x = IZR n.
Proof.
  intros Hx Hn. rewrite (rnd_scaled 0) by (try lia; change (0 + 53)%Z with 53%Z; change (0 + 52)%Z with 52%Z; rewrite bpow_53; replace (bpow radix2 52) with (2 ^ 52) by (rewrite <- (IZR_Zpower radix2 52) by lia; rewrite (pow_IZR 2 52); reflexivity); exact Hx).
  cbn [bpow Z.opp]. rewrite !Rmult_1_r. f_equal. apply Znearest_imp. replace (/ 2) with (1 / 2) by field. exact Hn.
Qed.
Lemma ln_pow_n x n : 0 < x -> ln (x ^ n) = INR n * ln x.
Proof.
  intros Hx. induction n as [|n IH]; [cbn; rewrite ln_1; ring|]. cbn [pow]. rewrite ln_mult by (auto using pow_lt). rewrite IH, S_INR. ring.
Qed.
Lemma log2_3 : 19 / 12 < log2 3 < 317 / 200.
Proof.
  pose proof ln2_pos as H2. unfold log2. split.
  - apply (Rmult_lt_reg_r (ln 2)); [exact H2|]. unfold Rdiv at 2. rewrite Rmult_assoc, Rinv_l by lra.
    assert (H : ln (2 ^ 19) < ln (3 ^ 12)) by (apply ln_increasing; [apply pow_lt; lra|rewrite (pow_IZR 2 19), (pow_IZR 3 12); apply IZR_lt; reflexivity]).
    rewrite !ln_pow_n in H by lra. cbn [INR] in H. lra.
  - apply (Rmult_lt_reg_r (ln 2)); [exact H2|]. unfold Rdiv at 1. rewrite Rmult_assoc, Rinv_l by lra.
    assert (H : ln (3 ^ 200) < ln (2 ^ 317)) by (apply ln_increasing; [apply pow_lt; lra|rewrite (pow_IZR 2 317), (pow_IZR 3 200); apply IZR_lt; reflexivity]).
    rewrite !ln_pow_n in H by lra. rewrite !INR_IZR_INZ in H. change (Z.of_nat 200) with 200%Z in H. change (Z.of_nat 317) with 317%Z in H. lra.
Qed.
Lemma ulp_small : 0 < ulp64 < 1 / 10000.
Proof.
  split; [apply u_pos|]. unfold ulp64, Rdiv. rewrite Rmult_1_l. apply Rinv_lt_contravar; [apply Rmult_lt_0_compat; [lra|apply pow_lt; lra]|]. rewrite pow53. apply IZR_lt. reflexivity.
Qed.
Lemma norm_ge1 x : 1 <= x -> bpow radix2 (-1022) <= x.
Proof. intros H. apply Rle_trans with 1; [|exact H]. change 1 with (bpow radix2 0). apply bpow_le. lia. Qed.
Lemma lv0 : lv log2_64 0 = 1.
Proof. unfold lv, log2_64. change (Z.of_nat (0 + 1 + 1)) with 2%Z. rewrite ofZ_val by (unfold small; lia). rewrite (log2_2). pose proof (round64_is64 1) as H. rewrite (rnd_fmt 1 fmt_1) in H. apply H. apply bpow_1024_small. rewrite Rabs_R1. apply pow_R1_Rle. lra. Qed.
Lemma log2_4 : log2 4 = 2.
Proof. unfold log2. replace 4 with (2 ^ 2) by ring. rewrite ln_pow_n by lra. cbn [INR]. field. pose proof ln2_pos. lra. Qed.
Lemma fmt_2 : fmt 2.
Proof. apply (small_fmt 2). unfold small. lia. Qed.
Lemma lv2 : lv log2_64 2 = 2.
Proof.
  unfold lv, log2_64. change (Z.of_nat (2 + 1 + 1)) with 4%Z. rewrite ofZ_val by (unfold small; lia). rewrite log2_4. pose proof (round64_is64 2) as H. rewrite (rnd_fmt 2 fmt_2) in H. apply H. apply bpow_1024_small. rewrite Rabs_pos_eq by lra.
  apply Rle_trans with (2 ^ 1); [lra|]. apply Rle_pow; [lra|lia].
Qed.
Lemma lv1 : 158 / 100 < lv log2_64 1 < 159 / 100.
Proof.
  unfold lv, log2_64. change (Z.of_nat (1 + 1 + 1)) with 3%Z. rewrite ofZ_val by (unfold small; lia). pose proof log2_3 as H3. pose proof ulp_small as Hu.
  pose proof (round64_is64 (log2 3)) as H. assert (Hb : Rabs (rnd64 (log2 3)) < bpow radix2 1024).
  { apply rnd_bounded. split; [lra|]. apply Rle_trans with (2 ^ 1); [lra|]. apply Rle_pow; [lra|lia]. }
  destruct (H Hb) as (_ & _ & ->). assert (H1 : 1 <= log2 3) by lra. pose proof (rnd_rel (log2 3) (norm_ge1 _ H1)) as [A B]. split.
  - eapply Rlt_le_trans; [|exact A]. apply (Rmult_lt_reg_r (1 + ulp64)); [lra|]. unfold Rdiv at 2. rewrite Rmult_assoc, Rinv_l by lra. nra.
  - eapply Rle_lt_trans; [exact B|]. nra.
Qed.
Definition G : Z := (2 ^ 52 + 1)%Z.
Lemma pow52 : 2 ^ 52 = IZR (2 ^ 52).
Proof. rewrite (pow_IZR 2 52). reflexivity. Qed.
Lemma G_R : IZR G = 2 ^ 52 + 1.
Proof. unfold G. rewrite plus_IZR, pow52. reflexivity. Qed.
Lemma V_G : V (lv log2_64) (gi true) [G] = IZR G.
Proof.
  change [G] with ([] ++ [G]). rewrite V_snoc. unfold V at 1. cbn [enumerate enum_from fold_left length]. rewrite lv0. unfold gi. replace (IZR G / 1) with (IZR G) by field.
  assert (Hs : small G) by (unfold small, G; lia). rewrite Rplus_0_l, (rnd_Z G Hs), (rnd_Z G Hs). reflexivity.
Qed.
Lemma quot_lv1 g : (1 <= g <= 100)%Z -> IZR g / (159 / 100) * (9999 / 10000) <= rnd64 (IZR g / lv log2_64 1) <= IZR g / (158 / 100) * (10001 / 10000).
Proof.
  intros Hg. pose proof lv1 as L. pose proof ulp_small as Hu. assert (H1 : 1 <= IZR g) by (apply (IZR_le 1); lia).
  assert (A : IZR g / (159 / 100) <= IZR g / lv log2_64 1) by (apply Rmult_le_compat_l; [lra|apply Rinv_le; lra]). assert (B : IZR g / lv log2_64 1 <= IZR g / (158 / 100)) by (apply Rmult_le_compat_l; [lra|apply Rinv_le; lra]).
  assert (Hn : bpow radix2 (-1022) <= IZR g / lv log2_64 1). { eapply Rle_trans; [|exact A]. apply Rle_trans with (bpow radix2 (-1)); [apply bpow_le; lia|]. cbn. lra. }
  destruct (rnd_rel _ Hn) as [C D]. split.
  - eapply Rle_trans; [|exact C]. assert (Hinv : 9999 / 10000 <= / (1 + ulp64)). { apply (Rmult_le_reg_r (1 + ulp64)); [lra|]. rewrite Rinv_l by lra. lra. }
    set (t := IZR g / lv log2_64 1) in *. change (t / (1 + ulp64)) with (t * / (1 + ulp64)). assert (0 <= IZR g / (159 / 100)) by lra. apply Rmult_le_compat; lra.
  - eapply Rle_trans; [exact D|]. assert (0 <= IZR g / lv log2_64 1) by lra. apply Rmult_le_compat; lra.
Qed.
Lemma pow52_53 : 2 ^ 53 = 2 * 2 ^ 52.
Proof. cbn [pow]. ring. Qed.
Lemma pow52_ge : 100 <= 2 ^ 52.
Proof. rewrite pow52. apply IZR_le. lia. Qed.
Lemma V_Gx g n : (1 <= g <= 100)%Z -> (1 <= n <= 90)%Z -> IZR n - 1 / 2 < 1 + IZR g / (159 / 100) * (9999 / 10000) -> 1 + IZR g / (158 / 100) * (10001 / 10000) < IZR n + 1 / 2 ->
  V (lv log2_64) (gi true) [G; g] = IZR (2 ^ 52 + n).
Proof.
  intros Hg Hn A B. change [G; g] with ([G] ++ [g]). rewrite V_snoc, V_G, G_R. cbn [length gi]. pose proof (quot_lv1 g Hg) as Q. pose proof pow52_ge. pose proof pow52_53.
  assert (1 <= IZR n <= 90) by (split; apply IZR_le; lia). apply rnd_int; [lra|]. rewrite plus_IZR, <- pow52. apply Rabs_def1; lra.
Qed.
Lemma V_ideal : V (lv log2_64) (gi true) [G; 15%Z; 14%Z] = IZR (2 ^ 52 + 17).
Proof.
  change [G; 15%Z; 14%Z] with ([G; 15%Z] ++ [14%Z]). rewrite V_snoc, (V_Gx 15 10) by (lia || lra). cbn [length gi]. rewrite lv2. replace (14 / 2) with 7 by field. rewrite (rnd_Z 7) by (unfold small; lia). rewrite <- plus_IZR. apply rnd_Z. unfold small. lia.
Qed.
Lemma V_run : V (lv log2_64) (gi true) [G; 14%Z; 15%Z] = IZR (2 ^ 52 + 18).
Proof.
  change [G; 14%Z; 15%Z] with ([G; 14%Z] ++ [15%Z]). rewrite V_snoc, (V_Gx 14 10) by (lia || lra). cbn [length gi]. rewrite lv2.
  assert (Hf : fmt (15 / 2)). { apply generic_format_FLT. exists (Float radix2 15 (-1)); [unfold F2R; cbn; lra|cbn; lia|cbn; lia]. } rewrite (rnd_fmt _ Hf).
  rewrite (rnd_scaled 0). 2:{ lia. } 2:{ change (0 + 53)%Z with 53%Z. change (0 + 52)%Z with 52%Z. rewrite bpow_53. replace (bpow radix2 52) with (2 ^ 52) by (rewrite <- (IZR_Zpower radix2 52) by lia; rewrite (pow_IZR 2 52); reflexivity). rewrite plus_IZR, <- pow52. pose proof pow52_ge. pose proof pow52_53. lra. }
  cbn [bpow Z.opp]. rewrite !Rmult_1_r. f_equal. unfold Znearest.
  assert (Hfl : Zfloor (IZR (2 ^ 52 + 10) + 15 / 2) = (2 ^ 52 + 17)%Z) by (apply Zfloor_imp; rewrite !plus_IZR; lra).
  assert (Hcl : Zceil (IZR (2 ^ 52 + 10) + 15 / 2) = (2 ^ 52 + 18)%Z) by (apply Zceil_imp; rewrite minus_IZR, !plus_IZR; lra).
  rewrite Hfl, Hcl. rewrite Rcompare_Eq by (rewrite !plus_IZR; lra). reflexivity.
Qed.

Open Scope string_scope.
Definition j_above : dict Z := [("a", G); ("b", 15%Z); ("c", 14%Z)].
Definition r_above : dict sf := [("a", sf_of_Z 3); ("c", sf_of_Z 2); ("b", sf_of_Z 1)].
Lemma above_query : query64 E64 1 j_above r_above.
Proof.
  split; [apply nodupb_ok; reflexivity|apply nodupb_ok; reflexivity| |repeat constructor; cbn [snd]; unfold small, G; lia|unfold small; lia|cbn; lia|cbn; lia]. apply ids_ex. vm_compute. reflexivity.
Qed.
Lemma above_desc : judgments_desc j_above.
Proof. unfold G, j_above. repeat constructor; cbn [snd]; unfold G; lia. Qed.
(** The claim "ndcg is between 0 and 1" is false of the computed score for graded judgments, even if log2 is correctly rounded. *)
Theorem C78_graded_above_one_refuted : exists j r x v, query64 E64 1 j r /\ judgments_desc j /\
  @ndcg N64c E64 (qrels_arg64 E64 [j]) (run_arg64 E64 [r]) 0 1 = Ok [x] /\ is64 x v /\ 1 < v.
Proof.
  exists j_above, r_above. pose proof (ndcg_quot sf0 log2_64 pow_64 1 log2_64_accurate ltac:(lia) true ltac:(discriminate) E64 1%Z j_above r_above above_query ltac:(lia) above_desc ltac:(discriminate) 0 ltac:(cbn; lia)) as (_ & H).
  eexists. eexists. split; [exact above_query|]. split; [exact above_desc|]. split; [|split; [exact H|]].
  - unfold qrels_arg64, run_arg64. apply (lift4_g E64 E64_ok (fun q r k l => @_ndcg N64c q r k l true) "ndcg" [j_above] [r_above] 0 1); [lia|reflexivity].
  - change (map (gainZ j_above 1) (top (dkeys r_above) 0)) with [G; 14%Z; 15%Z]. change (map (gainZ j_above 1) (top (dkeys j_above) 0)) with [G; 15%Z; 14%Z].
    rewrite V_run, V_ideal. pose proof pow52_ge as Hp. set (q := IZR (2 ^ 52 + 18) / IZR (2 ^ 52 + 17)).
    assert (Hq : q = 1 + / (2 ^ 52 + 17)) by (unfold q; rewrite !plus_IZR, <- !pow52; field; lra).
    assert (Hi : 0 < / (2 ^ 52 + 17) < / 100) by (split; [apply Rinv_0_lt_compat; lra|apply Rinv_lt_contravar; [apply Rmult_lt_0_compat; lra|lra]]).
    rewrite (rnd_scaled (-52)). 2:{ lia. } 2:{ change (-52 + 52)%Z with 0%Z. change (-52 + 53)%Z with 1%Z. change (bpow radix2 0) with 1. change (bpow radix2 1) with 2. lra. }
    change (- (-52))%Z with 52%Z. replace (bpow radix2 52) with (2 ^ 52) by (rewrite <- (IZR_Zpower radix2 52) by lia; rewrite (pow_IZR 2 52); reflexivity).
    replace (ZnearestE (q * 2 ^ 52)) with (2 ^ 52 + 1)%Z.
    + rewrite plus_IZR, <- pow52. replace (bpow radix2 (-52)) with (/ 2 ^ 52); [rewrite Rmult_plus_distr_r, Rinv_r by lra; assert (0 < / 2 ^ 52) by (apply Rinv_0_lt_compat; lra); lra|].
      change (-52)%Z with (- (52))%Z. rewrite bpow_opp. f_equal. rewrite <- (IZR_Zpower radix2 52) by lia. rewrite (pow_IZR 2 52). reflexivity.
    + symmetry. apply Znearest_imp. rewrite plus_IZR, <- pow52, Hq. replace ((1 + / (2 ^ 52 + 17)) * 2 ^ 52 - (2 ^ 52 + 1)) with (- (17 * / (2 ^ 52 + 17))) by (field; lra). rewrite Rabs_Ropp, Rabs_pos_eq by lra. lra.
Qed.
Print Assumptions C78_graded_above_one_refuted.
