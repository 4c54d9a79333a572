(** T_Float6.v: theorem C84: fusion in binary64 *)
From Coq Require Import Reals ZArith Lra Lia SpecFloat Psatz List String Permutation Sorting.Sorted.
From Flocq Require Import Core.Core IEEE754.BinarySingleNaN.
From Verif Require Import Base Dict Num NumLaws Env EnvEx M_Common M_Qrels M_Run M_Norm M_Fusion Spec_DS Spec_Hist Spec_Metrics Spec_Eval Spec_Norm Spec_Fusion Spec_Float Spec_Float3 Spec_Float4
  P_Base P_Dict P_Common P_History P_Norm P_Fusion P_Fusion2 P_Float P_Float2 P_Float3 P_Float10 P_Float11 P_Float12 P_Float13 P_Float14 P_Float15 P_Float16 T_Fusion5 P_Metrics7 T_Float2 T_Float5.
Import ListNotations.
Open Scope R_scope.
Open Scope list_scope.

(** ** the fused scores *)
(** CombSUM: the scores added up run by run, rounding each time; the result is within (1+2^-53)^(n-1) - 1 of the sum,
    relative to the sum of the absolute values *)
Theorem C84_sum : forall l1 l2 pw (E : @env (NumSF_with l1 l2 pw)), env_ok E -> forall (xs : list (Run (NumSF_with l1 l2 pw))) name, fusable64 xs ->
  fused64 xs (comb_sum E xs name) (fun l v => v = rsum64 l /\ Rabs (v - Rsum l) <= ((1 + ulp64) ^ (length l - 1) - 1) * Rsum (map Rabs l)).
Proof.
  intros l1 l2 pw E HE xs name Hxs. eapply fused_impl; [|apply (sum_exact l1 l2 pw E HE xs Hxs name)]. cbn beta. intros q d l v Hl ->. split; [reflexivity|].
  apply rsum_error. exact (given_fmt l1 l2 pw q d xs l Hl).
Qed.
Print Assumptions C84_sum.
(** CombMAX and CombMIN: exact, with -1e9 and 1e9 for the runs that miss the document *)
Theorem C84_max_min : forall l1 l2 pw (E : @env (NumSF_with l1 l2 pw)), env_ok E -> forall (xs : list (Run (NumSF_with l1 l2 pw))) name, fusable64 xs ->
  fused64 xs (comb_max E xs name) (fun l v => is_max_of (with_default (- 1000000000) (length xs) l) v /\ ((exists r, In r l /\ - 1000000000 <= r) \/ length l = length xs -> is_max_of l v)) /\
  fused64 xs (comb_min E xs name) (fun l v => is_min_of (with_default 1000000000 (length xs) l) v /\ ((exists r, In r l /\ r <= 1000000000) \/ length l = length xs -> is_min_of l v)).
Proof.
  intros l1 l2 pw E HE xs name Hxs. split.
  - eapply fused_impl; [|apply (max_exact l1 l2 pw E HE xs Hxs name)]. cbn beta. intros q d l v Hl Hm. split; [exact Hm|]. destruct Hm as [Hi Hm]. unfold with_default in *.
    intros [(r & Hr & Hle)|Hlen].
    + split; [|intros x Hx; apply Hm, in_app_iff; now left]. apply in_app_iff in Hi as [Hi|Hi]; [exact Hi|].
      destruct (length l <? length xs)%nat; [|easy]. destruct Hi as [Hi|[]]. assert (r <= v) by (apply Hm, in_app_iff; now left). replace v with r by lra. exact Hr.
    + rewrite Hlen, Nat.ltb_irrefl, app_nil_r in *. now split.
  - eapply fused_impl; [|apply (min_exact l1 l2 pw E HE xs Hxs name)]. cbn beta. intros q d l v Hl Hm. split; [exact Hm|]. destruct Hm as [Hi Hm]. unfold with_default in *.
    intros [(r & Hr & Hle)|Hlen].
    + split; [|intros x Hx; apply Hm, in_app_iff; now left]. apply in_app_iff in Hi as [Hi|Hi]; [exact Hi|].
      destruct (length l <? length xs)%nat; [|easy]. destruct Hi as [Hi|[]]. assert (v <= r) by (apply Hm, in_app_iff; now left). replace v with r by lra. exact Hr.
    + rewrite Hlen, Nat.ltb_irrefl, app_nil_r in *. now split.
Qed.
Print Assumptions C84_max_min.
(** CombMED, CombANZ, CombMNZ *)
Theorem C84_med_anz_mnz : forall l1 l2 pw (E : @env (NumSF_with l1 l2 pw)), env_ok E -> forall (xs : list (Run (NumSF_with l1 l2 pw))) name, fusable64 xs ->
  fused64 xs (comb_med E xs name) median64 /\
  fused64 xs (comb_anz E xs name) (fun l v => v = rnd64 (rsum64 l / INR (length l))) /\
  fused64 xs (comb_mnz E xs name) (fun l v => v = rnd64 (rsum64 l * INR (length l))).
Proof.
  intros l1 l2 pw E HE xs name Hxs. split; [|split; [exact (anz_exact l1 l2 pw E HE xs Hxs name)|exact (mnz_exact l1 l2 pw E HE xs Hxs name)]].
  eapply fused_impl; [|apply (med_exact l1 l2 pw E HE xs Hxs name)]. cbn beta. tauto.
Qed.
Print Assumptions C84_med_anz_mnz.
(** weighted sum: each product is rounded, then they are added up *)
Theorem C84_wsum : forall l1 l2 pw (E : @env (NumSF_with l1 l2 pw)), env_ok E -> forall (xs : list (Run (NumSF_with l1 l2 pw))) ws wr name, fusable64 xs ->
  weights64 ws wr -> (length xs <= length ws)%nat ->
  fusedw64 wr xs (wsum E xs ws name) (fun l v => v = rsum64 (map (fun wv => rnd64 (fst wv * snd wv)) l)).
Proof.
  intros l1 l2 pw E HE xs ws wr name Hxs Hw Hlen. pose proof Hxs as (_ & Hr & _). assert (Hlr : length ws = length wr) by exact (F2_length _ _ _ Hw).
  destruct (fuse_intro l1 l2 pw E HE "_weighted_sum" (@wsum_formula (NumSF_with l1 l2 pw) ws) name xs (maps xs) Hxs (same_docs_self _ _ _ xs Hr)) as (y & Hy & Hu & Hv).
  - intros q d Hd. destruct (weighted_exists l1 l2 pw q d wr xs Hr) as [l Hl]; [lia|]. destruct (wsum_value l1 l2 pw ws wr xs q d l Hxs Hw Hlen Hl) as (s & Hs & Hv). eauto.
  - exists y. split; [exact Hy|]. split; [exact Hu|]. intros q d l v Hl Hval.
    destruct (wsum_value l1 l2 pw ws wr xs q d l Hxs Hw Hlen Hl) as (s & Hs & Hv'). destruct (Hv q d v Hval) as (s' & Hs' & Hr').
    assert (He : Ok s = Ok s') by exact (eq_trans (eq_sym Hs) Hs'). injection He as <-. exact (is64_fun _ _ _ Hr' Hv').
Qed.
Print Assumptions C84_wsum.

(** RRF and ISR *)
Lemma Rsum_abs_pos l : Forall (Rle 0) l -> Rsum (map Rabs l) = Rsum l.
Proof. induction 1 as [|r l Hr H IH]; [reflexivity|]. cbn [map Rsum fold_right]. change (fold_right Rplus 0) with Rsum. rewrite (Rabs_pos_eq r Hr). now rewrite IH. Qed.
Lemma Rsum_pos l : Forall (Rle 0) l -> 0 <= Rsum l.
Proof. induction 1 as [|r l Hr H IH]; cbn; [lra|]. change (fold_right Rplus 0) with Rsum. lra. Qed.
(** adding up the rounded values of non-negative, not tiny numbers *)
Lemma rsum_rel (l : list R) : Forall (fun t => bpow radix2 (-1022) <= t) l -> Rabs (rsum64 (map rnd64 l) - Rsum l) <= ((1 + ulp64) ^ length l - 1) * Rsum l.
Proof.
  intros H. assert (Hp : Forall (Rle 0) l). { eapply Forall_impl; [|exact H]. cbn. intros t Ht. pose proof (bpow_ge_0 radix2 (-1022)). lra. }
  pose proof u_pos as Hu. pose proof (Rsum_pos l Hp) as Hs.
  assert (Hone : forall t, bpow radix2 (-1022) <= t -> 0 <= rnd64 t /\ Rabs (rnd64 t - t) <= ulp64 * t).
  { intros t Ht. pose proof (bpow_gt_0 radix2 (-1022)). destruct (rnd_rel t Ht) as [Ha Hb]. assert (Hq : t * (1 - ulp64) <= t / (1 + ulp64)).
    { unfold Rdiv. apply Rmult_le_compat_l; [lra|]. apply (Rmult_le_reg_r (1 + ulp64)); [lra|]. rewrite Rinv_l by lra. nra. }
    split; [apply rnd_ge0; lra|]. apply Rabs_le. split; nra. }
  assert (Hd : Rabs (Rsum (map rnd64 l) - Rsum l) <= ulp64 * Rsum l).
  { clear Hs. induction H as [|t l Ht H IH]; [cbn; rewrite Rminus_0_r, Rabs_R0; lra|]. inversion_clear Hp as [|? ? Ht0 Hp']. specialize (IH Hp'). destruct (Hone t Ht) as [_ H1].
    cbn [map Rsum fold_right]. change (fold_right Rplus 0) with Rsum. replace (rnd64 t + Rsum (map rnd64 l) - (t + Rsum l)) with ((rnd64 t - t) + (Rsum (map rnd64 l) - Rsum l)) by ring.
    eapply Rle_trans; [apply Rabs_triang|]. lra. }
  assert (Hpr : Forall (Rle 0) (map rnd64 l)). { apply Forall_forall. intros r Hr. apply in_map_iff in Hr as (t & <- & Hin). rewrite Forall_forall in H. apply (Hone t (H t Hin)). }
  destruct l as [|t l']; [cbn; rewrite Rminus_0_r, Rabs_R0; lra|]. set (l := t :: l') in *.
  assert (Hf : Forall fmt (map rnd64 l)). { apply Forall_forall. intros r Hr. apply in_map_iff in Hr as (z & <- & _). apply fmt_rnd. }
  pose proof (rsum_error (map rnd64 l) Hf) as He. rewrite (Rsum_abs_pos _ Hpr), map_length in He. change (length l - 1)%nat with (length l' - 0)%nat in He. rewrite Nat.sub_0_r in He.
  change ((1 + ulp64) ^ length l) with ((1 + ulp64) * (1 + ulp64) ^ length l'). pose proof (one_u (length l')) as Hc. set (c := (1 + ulp64) ^ length l') in *.
  replace (rsum64 (map rnd64 l) - Rsum l) with ((rsum64 (map rnd64 l) - Rsum (map rnd64 l)) + (Rsum (map rnd64 l) - Rsum l)) by ring.
  eapply Rle_trans; [apply Rabs_triang|]. apply Rabs_le_inv in Hd as [Hd1 Hd2].
  assert (K : (c - 1) * Rsum (map rnd64 l) <= (c - 1) * ((1 + ulp64) * Rsum l)) by (apply Rmult_le_compat_l; lra).
  assert (K2 : Rabs (Rsum (map rnd64 l) - Rsum l) <= ulp64 * Rsum l) by (apply Rabs_le; split; lra). nra.
Qed.
Lemma inv_not_tiny z : (1 <= z <= 2 ^ 53)%Z -> bpow radix2 (-1022) <= 1 / IZR z.
Proof.
  intros Hz. assert (H1 : 1 <= IZR z) by (apply (IZR_le 1); lia). apply Rle_trans with (bpow radix2 (-53)); [apply bpow_le; lia|]. change (-53)%Z with (Z.opp 53). rewrite bpow_opp. unfold Rdiv. rewrite Rmult_1_l.
  apply Rinv_le_contravar; [lra|]. rewrite bpow_53, pow53. apply IZR_le. lia.
Qed.
Lemma ranks_bound l1 l2 pw (xs : list (Run (NumSF_with l1 l2 pw))) n q d : lists_upto n xs -> Forall (fun r => (1 <= r)%nat /\ (Z.of_nat r <= n)%Z) (ranks64 xs q d).
Proof.
  induction xs as [|x xs IH]; intros Hup; [constructor|]. rewrite ranks_cons. apply Forall_app. split; [|apply IH; intros z q0 Hz; apply Hup; now right].
  destruct (index_of (dkeys (@of_query sf (r_map x) q)) d) as [i|] eqn:Hi; [|constructor]. constructor; [|constructor]. split; [lia|].
  exact (rank_up l1 l2 pw n (x :: xs) Hup x q d i (or_introl eq_refl) Hi).
Qed.
Theorem C84_rrf : forall l1 l2 pw (E : @env (NumSF_with l1 l2 pw)), env_ok E -> forall (xs : list (Run (NumSF_with l1 l2 pw))) k name, fusable64 xs ->
  (0 <= k <= 2 ^ 52)%Z -> lists_upto (2 ^ 52) xs ->
  fusedr64 xs (rrf E xs k name) (fun rks v => v = rsum64 (map (fun r => rnd64 (1 / (IZR k + INR r))) rks) /\
    let exact := Rsum (map (fun r => 1 / (IZR k + INR r)) rks) in Rabs (v - exact) <= ((1 + ulp64) ^ length rks - 1) * exact).
Proof.
  intros l1 l2 pw E HE xs k name Hxs Hk Hup.
  assert (Hh : forall i, (Z.of_nat (S i) <= 2 ^ 52)%Z -> is64 (h_rrf l1 l2 pw k i) (g_rrf k (S i)) /\ 0 <= g_rrf k (S i) <= 1) by (intros i Hi; apply rrf_h; lia).
  assert (Heq : rrf E xs k name = comb_sum E (map (rescored l1 l2 pw (h_rrf l1 l2 pw k)) xs) name).
  { unfold rrf. rewrite (rrf_maps l1 l2 pw E HE xs Hxs k) by lia. reflexivity. }
  rewrite Heq. pose proof (rescored_fusable l1 l2 pw (h_rrf l1 l2 pw k) (g_rrf k) (2 ^ 52) xs Hh Hxs Hup) as Hf.
  destruct (fusedr_intro l1 l2 pw _ _ _ xs Hh Hup _ _ (sum_exact l1 l2 pw E HE _ Hf name)) as (y & Hy & Hu & Hv).
  exists y. split; [exact Hy|]. split; [exact Hu|]. intros q d v Hval. pose proof (Hv q d v Hval) as Hvv. cbn beta in Hvv.
  assert (Hm : map (g_rrf k) (ranks64 xs q d) = map rnd64 (map (fun r => 1 / (IZR k + INR r)) (ranks64 xs q d))).
  { rewrite map_map. apply map_ext. intros r. unfold g_rrf. now rewrite plus_IZR, <- INR_IZR_INZ. }
  rewrite Hm in Hvv. split; [rewrite Hvv; f_equal; apply map_map|]. cbv zeta. rewrite Hvv.
  rewrite <- (map_length (fun r => 1 / (IZR k + INR r)) (ranks64 xs q d)). apply rsum_rel.
  pose proof (ranks_bound l1 l2 pw xs _ q d Hup) as Hb. apply Forall_forall. intros t Ht. apply in_map_iff in Ht as (r & <- & Hr). rewrite Forall_forall in Hb. destruct (Hb r Hr) as [H1 H2].
  rewrite INR_IZR_INZ, <- plus_IZR. apply inv_not_tiny. lia.
Qed.
Print Assumptions C84_rrf.
Theorem C84_isr : forall l1 l2 pw (E : @env (NumSF_with l1 l2 pw)), env_ok E -> forall (xs : list (Run (NumSF_with l1 l2 pw))) name, fusable64 xs ->
  lists_upto (2 ^ 26) xs ->
  fusedr64 xs (isr E xs name) (fun rks v => v = rnd64 (rsum64 (map (fun r => rnd64 (1 / INR r ^ 2)) rks) * INR (length rks))).
Proof.
  intros l1 l2 pw E HE xs name Hxs Hup.
  assert (Hh : forall i, (Z.of_nat (S i) <= 2 ^ 26)%Z -> is64 (h_isr l1 l2 pw i) (g_isr (S i)) /\ 0 <= g_isr (S i) <= 1) by (intros i Hi; apply isr_h; lia).
  assert (Heq : isr E xs name = comb_mnz E (map (rescored l1 l2 pw (h_isr l1 l2 pw)) xs) name).
  { unfold isr. rewrite (isr_maps l1 l2 pw E HE xs Hxs). reflexivity. }
  rewrite Heq. pose proof (rescored_fusable l1 l2 pw (h_isr l1 l2 pw) g_isr (2 ^ 26) xs Hh Hxs Hup) as Hf.
  destruct (fusedr_intro l1 l2 pw _ _ _ xs Hh Hup _ _ (mnz_exact l1 l2 pw E HE _ Hf name)) as (y & Hy & Hu & Hv).
  exists y. split; [exact Hy|]. split; [exact Hu|]. intros q d v Hval. pose proof (Hv q d v Hval) as Hvv. cbn beta in Hvv. rewrite map_length in Hvv. rewrite Hvv. f_equal. f_equal. f_equal.
  apply map_ext. intros r. unfold g_isr. rewrite INR_IZR_INZ. do 2 f_equal. rewrite Z.pow_2_r, mult_IZR. ring.
Qed.
Print Assumptions C84_isr.
