(** P_Float16.v: the fused values in binary64, method by method *)
From Coq Require Import Reals ZArith Lra Lia SpecFloat Psatz List String Permutation Sorting.Sorted.
From Flocq Require Import Core.Core IEEE754.BinarySingleNaN.
From Verif Require Import Base Dict Num NumLaws Env EnvEx M_Common M_Qrels M_Run M_Norm M_Fusion Spec_DS Spec_Hist Spec_Metrics Spec_Eval Spec_Norm Spec_Fusion Spec_Float Spec_Float3 Spec_Float4
  P_Base P_Dict P_Common P_History P_Norm P_Fusion P_Fusion2 P_Float P_Float2 P_Float3 P_Float10 P_Float11 P_Float12 P_Float13 P_Float14 P_Float15 T_Fusion5 P_Metrics7 T_Float2 T_Float5.
Import ListNotations.
Open Scope R_scope.
Open Scope list_scope.

Section N.
Variables (l1 l2 : sf -> sf) (pw : sf -> sf -> sf).
Notation N64 := (NumSF_with l1 l2 pw).
Variable E : @env N64.
Hypothesis HE : env_ok E.
Variable xs : list (Run N64).
Hypothesis Hxs : fusable64 xs.
Let Hr : Forall run64 xs := proj1 (proj2 Hxs).

Lemma sum_exact name : fused64 xs (comb_sum E xs name) (fun l v => v = rsum64 l).
Proof. apply fused_self; auto. intros q d l Hl _. destruct (sum_value l1 l2 pw xs Hxs q d l Hl) as (s & Hs & Hv). now exists s, (rsum64 l). Qed.
Lemma max_exact name : fused64 xs (comb_max E xs name) (fun l v => is_max_of (with_default (- (1000000000)) (length xs) l) v).
Proof. apply fused_self; auto. intros q d l Hl _. now apply max_value64. Qed.
Lemma min_exact name : fused64 xs (comb_min E xs name) (fun l v => is_min_of (with_default 1000000000 (length xs) l) v).
Proof. apply fused_self; auto. intros q d l Hl _. now apply min_value64. Qed.
Lemma med_exact name : fused64 xs (comb_med E xs name) (fun l v => v = med64 l /\ median64 l v).
Proof. apply fused_self; auto. intros q d l Hl Hne. destruct (med_value l1 l2 pw xs Hxs q d l Hl Hne) as (s & Hs & Hv). exists s, (med64 l). split; [exact Hs|]. split; [exact Hv|]. split; [reflexivity|now apply med64_median]. Qed.
Lemma anz_exact name : fused64 xs (comb_anz E xs name) (fun l v => v = rnd64 (rsum64 l / INR (length l))).
Proof. apply fused_self; auto. intros q d l Hl Hne. destruct (anz_value l1 l2 pw xs Hxs q d l Hl Hne) as (s & Hs & Hv). eauto. Qed.
Lemma mnz_exact name : fused64 xs (comb_mnz E xs name) (fun l v => v = rnd64 (rsum64 l * INR (length l))).
Proof. apply fused_self; auto. intros q d l Hl Hne. destruct (mnz_value l1 l2 pw xs Hxs q d l Hl Hne) as (s & Hs & Hv). eauto. Qed.
Lemma fused_impl (r : result (Run N64)) (P Q : list R -> R -> Prop) : (forall q d l v, given64 q d xs l -> P l v -> Q l v) -> fused64 xs r P -> fused64 xs r Q.
Proof. intros H (y & Hy & Hu & Hv). exists y. split; [exact Hy|]. split; [exact Hu|]. intros q d l v Hl Hval. eapply H; eauto. Qed.

(** ranks *)
Lemma rrf_h k i : (0 <= k)%Z -> (Z.of_nat (S i) <= 2 ^ 52)%Z -> (k <= 2 ^ 52)%Z ->
  is64 (@fdiv N64 (@fone N64) (@fofZ N64 (k + Z.of_nat i + 1))) (rnd64 (1 / IZR (k + Z.of_nat (S i)))) /\ 0 <= rnd64 (1 / IZR (k + Z.of_nat (S i))) <= 1.
Proof.
  intros Hk Hi Hk2. replace (k + Z.of_nat i + 1)%Z with (k + Z.of_nat (S i))%Z by lia. set (z := (k + Z.of_nat (S i))%Z). assert (Hz : (1 <= z <= 2 ^ 53)%Z) by lia. clearbody z.
  assert (H1 : 1 <= IZR z) by (apply (IZR_le 1); lia).
  assert (Hq : 0 <= 1 / IZR z <= 1) by (split; [apply div_ge0; lra|apply div_le1; lra]).
  split; [|split; [apply rnd_ge0; lra|apply rnd_le_fmt; [exact fmt_1|lra]]].
  change (@fdiv N64) with sf_div. apply fin_div; [apply fin_one|apply fin_ofZ; unfold small; lia|lra|]. apply bounded. rewrite Rabs_pos_eq by lra.
  apply Rle_trans with 1; [lra|]. change 1 with (bpow radix2 0). apply bpow_le. lia.
Qed.
Lemma isr_h i : (Z.of_nat (S i) <= 2 ^ 26)%Z ->
  is64 (@fdiv N64 (@fone N64) (@fofZ N64 ((Z.of_nat i + 1) ^ 2))) (rnd64 (1 / IZR (Z.of_nat (S i) ^ 2))) /\ 0 <= rnd64 (1 / IZR (Z.of_nat (S i) ^ 2)) <= 1.
Proof.
  intros Hi. replace (Z.of_nat i + 1)%Z with (Z.of_nat (S i))%Z by lia. set (z := (Z.of_nat (S i) ^ 2)%Z).
  assert (Hz : (1 <= z <= 2 ^ 53)%Z). { unfold z. rewrite Z.pow_2_r. nia. } clearbody z.
  assert (H1 : 1 <= IZR z) by (apply (IZR_le 1); lia).
  assert (Hq : 0 <= 1 / IZR z <= 1) by (split; [apply div_ge0; lra|apply div_le1; lra]).
  split; [|split; [apply rnd_ge0; lra|apply rnd_le_fmt; [exact fmt_1|lra]]].
  change (@fdiv N64) with sf_div. apply fin_div; [apply fin_one|apply fin_ofZ; unfold small; lia|lra|]. apply bounded. rewrite Rabs_pos_eq by lra.
  apply Rle_trans with 1; [lra|]. change 1 with (bpow radix2 0). apply bpow_le. lia.
Qed.
Definition h_rrf (k : Z) (i : nat) : sf := @fdiv N64 (@fone N64) (@fofZ N64 (k + Z.of_nat i + 1)).
Definition g_rrf (k : Z) (r : nat) : R := rnd64 (1 / IZR (k + Z.of_nat r)).
Definition h_isr (i : nat) : sf := @fdiv N64 (@fone N64) (@fofZ N64 ((Z.of_nat i + 1) ^ 2)).
Definition g_isr (r : nat) : R := rnd64 (1 / IZR (Z.of_nat r ^ 2)).
Lemma okmaps : Forall (fun x : Run N64 => dict2_ok (r_map x)) xs.
Proof. apply Forall_forall. intros x Hx. assert (H := Hr). rewrite Forall_forall in H. exact (proj1 (H x Hx)). Qed.
Lemma rrf_maps k : (0 <= k)%Z -> rescore E "_rrf_score" (_rrf_score k) xs = Ok (@maps N64 (map (rescored l1 l2 pw (h_rrf k)) xs)).
Proof.
  intros Hk. rewrite <- rescored_maps. apply (rescore_ok E HE "_rrf_score" (_rrf_score k) (fun _ => h_rrf k) xs okmaps). intros r Hok.
  apply pos_scores_ok; [exact Hok|]. intros i _. cbv zeta. destruct (Z.eqb_spec (k + Z.of_nat i + 1) 0); [lia|reflexivity].
Qed.
Lemma isr_maps : rescore E "_isr_score" _isr_score xs = Ok (@maps N64 (map (rescored l1 l2 pw h_isr) xs)).
Proof.
  rewrite <- rescored_maps. apply (rescore_ok E HE "_isr_score" _isr_score (fun _ => h_isr) xs okmaps). intros r Hok.
  apply pos_scores_ok; [exact Hok|]. intros i _. reflexivity.
Qed.
End N.
