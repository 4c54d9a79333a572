(** T_Float7.v: theorem C84, continued: what rounding keeps and what it does not *)
From Coq Require Import Reals ZArith Lra Lia SpecFloat Psatz List String Permutation Sorting.Sorted.
From Flocq Require Import Core.Core IEEE754.BinarySingleNaN.
From Verif Require Import Base Dict Num NumLaws Env EnvEx M_Common M_Qrels M_Run M_Norm M_Fusion Spec_DS Spec_Hist Spec_Metrics Spec_Eval Spec_Norm Spec_Fusion Spec_Float Spec_Float3 Spec_Float4
  P_Base P_Dict P_Common P_History P_Norm P_Fusion P_Fusion2 P_Float P_Float2 P_Float3 P_Float10 P_Float11 P_Float12 P_Float13 P_Float14 P_Float15 P_Float16 T_Fusion5 P_Metrics7 T_Float2 T_Float5 T_Float6.
Import ListNotations.
Open Scope R_scope.
Open Scope list_scope.

Lemma both_holds l1 l2 pw (xs : list (Run (NumSF_with l1 l2 pw))) q a b : (forall x, In x xs -> scores_both64 x q a b) ->
  forall x, In x xs -> holds64 x q b -> exists x', In x' xs /\ holds64 x' q a.
Proof. intros H x Hx Hb. exists x. split; [exact Hx|]. now apply (proj1 (H x Hx)). Qed.
Lemma med64_mono l l' : Forall2 Rle l l' -> med64 l <= med64 l'.
Proof.
  intros H. pose proof (F2_length _ _ _ H) as Hl. apply fsort_mono in H. unfold med64. rewrite Hl. pose proof (F2_nth_le _ _ H) as Hn.
  destruct (Nat.even (length l')); [|apply Hn]. apply rnd_le. apply div_mono; [lra|]. apply rnd_le. apply Rplus_le_compat; apply Hn.
Qed.
Lemma weighted_both l1 l2 pw q a b wr : forall (xs : list (Run (NumSF_with l1 l2 pw))) la lb, Forall (Rle 0) wr -> weighted64 q a wr xs la -> weighted64 q b wr xs lb ->
  (forall x, In x xs -> scores_both64 x q a b) ->
  Forall2 Rle (map (fun wv => rnd64 (fst wv * snd wv)) lb) (map (fun wv => rnd64 (fst wv * snd wv)) la).
Proof.
  intros xs la lb Hw Ha. revert lb Hw. induction Ha as [wr|w wr x xs r l Hv H IH|w wr x xs l Hn H IH]; intros lb Hw Hb Hd.
  - inversion Hb; constructor.
  - inversion_clear Hw as [|? ? Hw0 Hw']. inversion Hb as [|? ? ? ? r' l' Hv' H'|? ? ? ? l' Hn' H']; subst.
    + cbn [map fst snd]. constructor; [|apply IH; auto; intros; apply Hd; now right]. apply rnd_le. apply Rmult_le_compat_l; [exact Hw0|]. exact (proj2 (Hd x (or_introl eq_refl)) r r' Hv Hv').
    + exfalso. apply Hn'. apply (proj1 (Hd x (or_introl eq_refl))). destruct Hv as (s & Hs & _). now exists s.
  - inversion_clear Hw as [|? ? Hw0 Hw']. inversion Hb as [|? ? ? ? r' l' Hv' H'|? ? ? ? l' Hn' H']; subst.
    + exfalso. apply Hn. apply (proj1 (Hd x (or_introl eq_refl))). destruct Hv' as (s & Hs & _). now exists s.
    + apply IH; auto. intros; apply Hd; now right.
Qed.
(** rounding never puts [a] below [b] when every run scores [a] at least as high as [b] *)
Theorem C84_unanimity : forall l1 l2 pw (E : @env (NumSF_with l1 l2 pw)), env_ok E -> forall (xs : list (Run (NumSF_with l1 l2 pw))) q a b name, fusable64 xs ->
  (forall x, In x xs -> scores_both64 x q a b) ->
  not_below64 (comb_sum E xs name) q a b /\ not_below64 (comb_max E xs name) q a b /\ not_below64 (comb_min E xs name) q a b /\
  not_below64 (comb_med E xs name) q a b /\ not_below64 (comb_anz E xs name) q a b /\ not_below64 (comb_mnz E xs name) q a b /\
  (forall ws wr, weights64 ws wr -> Forall (Rle 0) wr -> (length xs <= length ws)%nat -> not_below64 (wsum E xs ws name) q a b).
Proof.
  intros l1 l2 pw E HE xs q a b name Hxs H. pose proof (proj1 (proj2 Hxs)) as Hr. pose proof (both_holds l1 l2 pw xs q a b H) as Hc.
  assert (HF : forall la lb, given64 q a xs la -> given64 q b xs lb -> Forall2 Rle lb la) by (intros la lb Ha Hb; exact (both_given l1 l2 pw q a b xs la Ha lb Hb H)).
  assert (Hpos : forall l : list R, l <> [] -> 1 <= INR (length l)) by exact len_pos.
  split; [|split; [|split; [|split; [|split; [|split]]]]].
  - apply (not_below_intro64 l1 l2 pw xs _ _ q a b Hr (sum_exact l1 l2 pw E HE xs Hxs name) Hc). cbn beta. intros la lb va vb Ha Hb _ -> ->. apply rsum_mono. now apply HF.
  - apply (not_below_intro64 l1 l2 pw xs _ _ q a b Hr (max_exact l1 l2 pw E HE xs Hxs name) Hc). cbn beta. intros la lb va vb Ha Hb _ Hma Hmb. eapply max_mono; [|exact Hmb|exact Hma]. apply with_default_mono. now apply HF.
  - apply (not_below_intro64 l1 l2 pw xs _ _ q a b Hr (min_exact l1 l2 pw E HE xs Hxs name) Hc). cbn beta. intros la lb va vb Ha Hb _ Hma Hmb. eapply min_mono; [|exact Hmb|exact Hma]. apply with_default_mono. now apply HF.
  - apply (not_below_intro64 l1 l2 pw xs _ _ q a b Hr (med_exact l1 l2 pw E HE xs Hxs name) Hc). cbn beta. intros la lb va vb Ha Hb _ [-> _] [-> _]. apply med64_mono. now apply HF.
  - apply (not_below_intro64 l1 l2 pw xs _ _ q a b Hr (anz_exact l1 l2 pw E HE xs Hxs name) Hc). cbn beta. intros la lb va vb Ha Hb Hne -> ->. rewrite <- (F2_length _ _ _ (HF la lb Ha Hb)).
    apply rnd_le, div_mono; [pose proof (Hpos lb Hne); lra|]. apply rsum_mono. now apply HF.
  - apply (not_below_intro64 l1 l2 pw xs _ _ q a b Hr (mnz_exact l1 l2 pw E HE xs Hxs name) Hc). cbn beta. intros la lb va vb Ha Hb Hne -> ->. rewrite <- (F2_length _ _ _ (HF la lb Ha Hb)).
    apply rnd_le, Rmult_le_compat_r; [apply pos_INR|]. apply rsum_mono. now apply HF.
  - intros ws wr Hw Hwp Hlen. destruct (C84_wsum l1 l2 pw E HE xs ws wr name Hxs Hw Hlen) as (y & Hy & (_ & Hh & Hval & _) & Hv). exists y. split; [exact Hy|]. intros vb Hvb.
    assert (Hb : exists x, In x xs /\ holds64 x q b). { apply Hh. destruct Hvb as (s & Hs & _). now exists s. }
    assert (Ha : holds64 y q a). { apply Hh. destruct Hb as (x & Hx & Hb). exact (Hc x Hx Hb). }
    destruct (Hval q a Ha) as [va Hva]. exists va. split; [exact Hva|]. pose proof (F2_length _ _ _ Hw) as Hlr.
    destruct (weighted_exists l1 l2 pw q a wr xs Hr) as [la Hla]; [lia|]. destruct (weighted_exists l1 l2 pw q b wr xs Hr) as [lb Hlb]; [lia|].
    rewrite (Hv q a la va Hla Hva), (Hv q b lb vb Hlb Hvb). apply rsum_mono. exact (weighted_both l1 l2 pw q a b wr xs la lb Hwp Hla Hlb H).
Qed.
Print Assumptions C84_unanimity.
Lemma more_index l1 l2 pw (x : Run (NumSF_with l1 l2 pw)) q a b i : ranks_more64 x q a b -> index_of (dkeys (@of_query sf (r_map x) q)) b = Some i ->
  exists j, index_of (dkeys (@of_query sf (r_map x) q)) a = Some j.
Proof.
  intros H Hi. assert (Hb : rank_in (dkeys (@of_query sf (r_map x) q)) b = Some (S i)) by now rewrite rank_in_index, Hi.
  destruct (H (S i) Hb) as (ra & Hra & _). change (rank_in (dkeys (@of_query sf (r_map x) q)) a = Some ra) in Hra. rewrite rank_in_index in Hra.
  destruct (index_of (dkeys (@of_query sf (r_map x) q)) a) as [j|]; [now exists j|discriminate Hra].
Qed.
Lemma more_count l1 l2 pw (xs : list (Run (NumSF_with l1 l2 pw))) q a b : (forall x, In x xs -> ranks_more64 x q a b) -> (length (ranks64 xs q b) <= length (ranks64 xs q a))%nat.
Proof.
  induction xs as [|x xs IH]; intros H; [cbn; lia|]. rewrite !ranks_cons, !app_length. assert (IH' := IH (fun z Hz => H z (or_intror Hz))). clear IH.
  pose proof (fun i => more_index l1 l2 pw x q a b i (H x (or_introl eq_refl))) as Hx.
  destruct (index_of (dkeys (@of_query sf (r_map x) q)) b) as [i|]; [|cbn; lia]. destruct (Hx i eq_refl) as (j & Hj).
  rewrite Hj. cbn. lia.
Qed.
Lemma more_holds l1 l2 pw (xs : list (Run (NumSF_with l1 l2 pw))) q a b : (forall x, In x xs -> ranks_more64 x q a b) ->
  forall x, In x xs -> holds64 x q b -> exists x', In x' xs /\ holds64 x' q a.
Proof.
  intros H x Hx Hb. exists x. split; [exact Hx|]. apply (holds_key l1 l2 pw) in Hb. apply (holds_key l1 l2 pw). pose proof (fun i => more_index l1 l2 pw x q a b i (H x Hx)) as Hm.
  change (@ofq sf (r_map x) q) with (@of_query sf (r_map x) q) in *. destruct (index_of (dkeys (@of_query sf (r_map x) q)) b) as [i|] eqn:Hi; [|apply index_of_None in Hi; contradiction].
  destruct (Hm i eq_refl) as (j & Hj). destruct (in_dec string_dec a (dkeys (@of_query sf (r_map x) q))) as [Hd|Hd]; [exact Hd|]. apply index_of_None in Hd. pose proof (eq_trans (eq_sym Hd) Hj) as He. discriminate He.
Qed.
Theorem C84_rank_unanimity : forall l1 l2 pw (E : @env (NumSF_with l1 l2 pw)), env_ok E -> forall (xs : list (Run (NumSF_with l1 l2 pw))) q a b name, fusable64 xs ->
  (forall x, In x xs -> ranks_more64 x q a b) ->
  (forall k, (0 <= k <= 2 ^ 52)%Z -> lists_upto (2 ^ 52) xs -> not_below64 (rrf E xs k name) q a b) /\
  (lists_upto (2 ^ 26) xs -> not_below64 (isr E xs name) q a b).
Proof.
  intros l1 l2 pw E HE xs q a b name Hxs H. pose proof (proj1 (proj2 Hxs)) as Hr. pose proof (more_holds l1 l2 pw xs q a b H) as Hc.
  assert (Hdef : forall h g n, (forall i, (Z.of_nat (S i) <= n)%Z -> is64 (h i) (g (S i)) /\ 0 <= g (S i) <= 1) -> (forall i j, (1 <= i <= j)%nat -> (Z.of_nat j <= n)%Z -> g j <= g i) -> lists_upto n xs ->
    rsum64 (map g (ranks64 xs q b)) <= rsum64 (map g (ranks64 xs q a))).
  { intros h g n Hh Hg Hup. pose proof (rescored_fusable l1 l2 pw h g n xs Hh Hxs Hup) as Hf. pose proof (proj1 (proj2 Hf)) as Hfr.
    destruct (default_exists l1 l2 pw q a 0 _ Hfr) as [la Hla], (default_exists l1 l2 pw q b 0 _ Hfr) as [lb Hlb].
    pose proof (rescored_given l1 l2 pw h g n xs Hh Hup q a xs (incl_refl _)) as Ga. pose proof (rescored_given l1 l2 pw h g n xs Hh Hup q b xs (incl_refl _)) as Gb.
    unfold rsum64. change (fun acc r => rnd64 (acc + r)) with radd.
    rewrite <- (default_zero l1 l2 pw q a _ _ Ga la Hfr Hla 0 fmt_0), <- (default_zero l1 l2 pw q b _ _ Gb lb Hfr Hlb 0 fmt_0).
    apply fold_mono; [|lra]. exact (rescored_more l1 l2 pw h g n xs Hh Hup Hg q a b xs (incl_refl _) H la lb Hla Hlb). }
  assert (Hmain : forall (r : result (Run (NumSF_with l1 l2 pw))) (P : list nat -> R -> Prop), fusedr64 xs r P -> (forall va vb, P (ranks64 xs q a) va -> P (ranks64 xs q b) vb -> vb <= va) -> not_below64 r q a b).
  { intros r P (y & Hy & (_ & Hh & Hval & _) & Hv) Hle. exists y. split; [exact Hy|]. intros vb Hvb.
    assert (Hb : exists x, In x xs /\ holds64 x q b). { apply Hh. destruct Hvb as (s & Hs & _). now exists s. }
    assert (Ha : holds64 y q a). { apply Hh. destruct Hb as (x & Hx & Hb). exact (Hc x Hx Hb). }
    destruct (Hval q a Ha) as [va Hva]. exists va. split; [exact Hva|]. apply Hle; apply Hv; assumption. }
  split.
  - intros k Hk Hup. eapply Hmain; [exact (C84_rrf l1 l2 pw E HE xs k name Hxs Hk Hup)|]. cbn beta. intros va vb [-> _] [-> _].
    assert (Heq : forall rks, map (fun r => rnd64 (1 / (IZR k + INR r))) rks = map (g_rrf k) rks) by (intros rks; apply map_ext; intros r; unfold g_rrf; now rewrite plus_IZR, <- INR_IZR_INZ).
    rewrite !Heq. apply (Hdef (h_rrf l1 l2 pw k) (g_rrf k) (2 ^ 52)%Z); [intros i Hi; apply rrf_h; lia| |exact Hup].
    intros i j Hij Hj. unfold g_rrf. apply rnd_le. unfold Rdiv. rewrite !Rmult_1_l. apply Rinv_le_contravar; [apply (IZR_lt 0); lia|apply IZR_le; lia].
  - intros Hup. eapply Hmain; [exact (C84_isr l1 l2 pw E HE xs name Hxs Hup)|]. cbn beta. intros va vb -> ->.
    assert (Heq : forall rks, map (fun r => rnd64 (1 / INR r ^ 2)) rks = map g_isr rks) by (intros rks; apply map_ext; intros r; unfold g_isr; rewrite INR_IZR_INZ; do 2 f_equal; rewrite Z.pow_2_r, mult_IZR; ring).
    rewrite !Heq. apply rnd_le. apply Rmult_le_compat.
    + apply rsum_nonneg. pose proof (ranks_bound l1 l2 pw xs _ q b Hup) as Hb. apply Forall_forall. intros t Ht. apply in_map_iff in Ht as (r & <- & Hin). rewrite Forall_forall in Hb. destruct (Hb r Hin) as [H1 H2].
      destruct r as [|i]; [lia|]. apply (isr_h l1 l2 pw i H2).
    + apply pos_INR.
    + apply (Hdef (h_isr l1 l2 pw) g_isr (2 ^ 26)%Z); [intros i Hi; apply isr_h; lia| |exact Hup].
      intros i j Hij Hj. unfold g_isr. apply rnd_le. unfold Rdiv. rewrite !Rmult_1_l. apply Rinv_le_contravar; [apply (IZR_lt 0); apply Z.pow_pos_nonneg; lia|apply IZR_le; rewrite !Z.pow_2_r; nia].
    + apply le_INR. now apply more_count.
Qed.
Print Assumptions C84_rank_unanimity.
