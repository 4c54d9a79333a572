(** P_Float6.v: discounted cumulative gain in binary64 *)
From Coq Require Import Reals ZArith Lra Lia SpecFloat Psatz List.
From Flocq Require Import Core.Core IEEE754.BinarySingleNaN Mult_error.
From Verif Require Import Base Dict Num Env M_Common M_Qrels M_Run M_Metrics Spec_Metrics Spec_Float P_Base P_Dict P_Metrics P_Metrics2 P_Metrics4 P_Float P_MetricsG P_Float2 P_Float3 P_Float4 P_Float5.
Import ListNotations.
Open Scope R_scope.

Lemma ln2_pos : 0 < ln 2.
Proof. rewrite <- ln_1. apply ln_increasing; lra. Qed.
Lemma log2_ge1 x : 2 <= x -> 1 <= log2 x.
Proof.
  intros H. pose proof ln2_pos. unfold log2. apply (Rmult_le_reg_r (ln 2)); [exact H0|]. unfold Rdiv. rewrite Rmult_assoc, Rinv_l by lra.
  destruct (Req_dec x 2) as [ -> |Hn]; [lra|]. assert (ln 2 < ln x) by (apply ln_increasing; lra). lra.
Qed.
Lemma log2_le x : 2 <= x -> log2 x <= x * 2.
Proof.
  intros H. unfold log2. assert (Hl : ln x <= x - 1). { pose proof (exp_ineq1_le (ln x)) as He. rewrite exp_ln in He by lra. lra. }
  assert (H2 : 1 / 2 <= ln 2). { pose proof (exp_ineq1_le (- ln 2)) as He. rewrite exp_Ropp, exp_ln in He by lra. lra. }
  apply (Rmult_le_reg_r (ln 2)); [lra|]. unfold Rdiv. rewrite Rmult_assoc, Rinv_l by lra. nra.
Qed.
Definition lv (l2 : sf -> sf) (i : nat) : R := SF2R radix2 (l2 (sf_of_Z (Z.of_nat (i + 1 + 1)))).
Lemma enumerate_snoc {A} (l : list A) a : enumerate (l ++ [a]) = enumerate l ++ [(length l, a)].
Proof. unfold enumerate. rewrite enum_from_app. reflexivity. Qed.

(** the value of the sum of [gi z / lv i], rounded at each step *)
Definition V (lvv : nat -> R) (gi : Z -> Z) (zs : list Z) : R :=
  fold_left (fun a iz => rnd64 (a + rnd64 (IZR (gi (snd iz)) / lvv (fst iz)))) (enumerate zs) 0.
Lemma V_snoc lvv gi zs z : V lvv gi (zs ++ [z]) = rnd64 (V lvv gi zs + rnd64 (IZR (gi z) / lvv (length zs))).
Proof. unfold V. rewrite enumerate_snoc, fold_left_app. reflexivity. Qed.
Lemma V_fmt lvv gi zs : fmt (V lvv gi zs).
Proof. destruct zs as [|z zs _] using rev_ind; [apply fmt_0|]. rewrite V_snoc. apply fmt_rnd. Qed.
Lemma V_zeros lvv gi zs m : gi 0%Z = 0%Z -> V lvv gi (zs ++ repeat 0%Z m) = V lvv gi zs.
Proof.
  intros Hg. induction m as [|m IH]; [cbn; now rewrite app_nil_r|]. replace (repeat 0%Z (S m)) with (repeat 0%Z m ++ [0%Z]).
  - rewrite app_assoc, V_snoc, IH, Hg. unfold Rdiv. rewrite Rmult_0_l, rnd_0, Rplus_0_r. apply rnd_fmt, V_fmt.
  - clear. induction m as [|m IH]; [reflexivity|]. cbn in *. now rewrite IH.
Qed.

Section S.
Variables (l1 l2 : sf -> sf) (pw : sf -> sf -> sf).
Notation N64 := (NumSF_with l1 l2 pw).
Variable (c : nat).
Hypothesis (Hlog : log2_accurate c l2) (Hc : (c <= 1000)%nat).

Lemma lv_64 i : (Z.of_nat i + 2 <= 2 ^ 53)%Z -> is64 (l2 (@fnat N64 (i + 1 + 1))) (lv l2 i) /\ 1 <= lv l2 i /\ within c (l2 (@fnat N64 (i + 1 + 1))) (log2 (INR (i + 2))).
Proof.
  intros Hi. destruct (Hlog (Z.of_nat (i + 1 + 1)) ltac:(lia)) as (W & v & Hv & H1). unfold fnat, fofZ. cbn [NumSF_with].
  assert (lv l2 i = v) as -> by (unfold lv; destruct Hv as (_ & _ & Hv); exact Hv). split; [exact Hv|]. split; [exact H1|].
  replace (log2 (INR (i + 2))) with (log2 (IZR (Z.of_nat (i + 1 + 1)))); [exact W|]. rewrite INR_IZR_INZ. do 2 f_equal. lia.
Qed.

Variable (jv : bool).
(** the integer gain of a judgment *)
Definition gi (z : Z) : Z := if jv then z else (2 ^ z - 1)%Z.
Definition gok (z : Z) : Prop := if jv then (0 <= z <= 2 ^ 53)%Z else (0 <= z <= 53)%Z.
Hypothesis Hpow : jv = false -> pow2_exact pw.
Lemma gi_0 : gi 0 = 0%Z.
Proof. unfold gi. now destruct jv. Qed.
Lemma gi_bound z : gok z -> (0 <= gi z <= 2 ^ 53)%Z.
Proof.
  unfold gok, gi. destruct jv; [auto|]. intros H. assert (1 <= 2 ^ z)%Z by (apply (Z.pow_le_mono_r 2 0 z); lia). assert (2 ^ z <= 2 ^ 53)%Z by (apply Z.pow_le_mono_r; lia). lia.
Qed.
Definition gf (z : Z) : sf := if jv then sf_of_Z z else sf_sub (pw (sf_of_Z 2) (sf_of_Z z)) (sf_of_Z 1).
Lemma gf_64 z : gok z -> is64 (gf z) (IZR (gi z)).
Proof.
  intros H. pose proof (gi_bound z H) as Hb. assert (Hs : small (gi z)) by (unfold small; lia). unfold gf, gi, gok in *. destruct jv; [now apply fin_ofZ|].
  rewrite minus_IZR in *. rewrite <- (rnd_fmt (IZR (2 ^ z) - 1)); [|rewrite <- minus_IZR; now apply small_fmt].
  apply fin_sub; [now apply Hpow|apply (fin_one l1 l2 pw)|]. apply rnd_bounded. rewrite <- minus_IZR. split; [apply (IZR_le 0); lia|].
  apply Rle_trans with (2 ^ 53); [rewrite pow53; apply IZR_le; lia|apply pow53_le_200].
Qed.
Definition sumf (zs : list Z) : sf := @fsum N64 (map (fun iz => sf_div (gf (snd iz)) (l2 (@fnat N64 (fst iz + 1 + 1)))) (enumerate zs)).
Lemma dcg_terms_sumf zs : @fsum N64 (@dcg_terms N64 jv (map (@fofZ N64) zs)) = sumf zs.
Proof.
  unfold dcg_terms, sumf, enumerate. rewrite enum_from_map, map_map. f_equal.
Qed.
Lemma sumf_snoc zs z : sumf (zs ++ [z]) = sf_add (sumf zs) (sf_div (gf z) (l2 (@fnat N64 (length zs + 1 + 1)))).
Proof. unfold sumf. rewrite enumerate_snoc, map_app. cbn [map fst snd]. apply fsum_snoc. Qed.
Lemma fmt_n53 n : small_n n -> fmt (INR n * 2 ^ 53).
Proof. intros H. rewrite <- bpow_53. apply mult_bpow_pos_exact_FLT; [now apply fmt_n|lia]. Qed.
Lemma term_bound g t : (0 <= g <= 2 ^ 53)%Z -> 1 <= t -> 0 <= IZR g / t <= 2 ^ 53.
Proof.
  intros Hg Ht. assert (0 <= IZR g) by (apply (IZR_le 0); lia). assert (IZR g <= 2 ^ 53) by (rewrite pow53; apply IZR_le; lia). split.
  - apply Rmult_le_pos; [lra|left; apply Rinv_0_lt_compat; lra].
  - apply (Rmult_le_reg_r t); [lra|]. unfold Rdiv. rewrite Rmult_assoc, Rinv_l by lra. pose proof pow53_ge_1. nra.
Qed.
Lemma fmt_53 : fmt (2 ^ 53).
Proof. rewrite <- bpow_53. apply generic_format_bpow. cbn. lia. Qed.
Lemma term_rnd g t : (0 <= g <= 2 ^ 53)%Z -> 1 <= t -> 0 <= rnd64 (IZR g / t) <= 2 ^ 53.
Proof. intros Hg Ht. pose proof (term_bound g t Hg Ht). split; [apply rnd_ge_fmt; [apply fmt_0|lra]|apply rnd_le_fmt; [apply fmt_53|lra]]. Qed.
Lemma n53_200 n : small_n n -> INR n * 2 ^ 53 <= 2 ^ 200.
Proof. intros H. pose proof (small_n_R n H). pose proof pow53_big. pose proof pow53_ge_1. nra. Qed.
Lemma V_64 zs : Forall gok zs -> (Z.of_nat (length zs) <= 2 ^ 52)%Z -> is64 (sumf zs) (V (lv l2) gi zs) /\ 0 <= V (lv l2) gi zs <= INR (length zs) * 2 ^ 53.
Proof.
  induction zs as [|z zs IH] using rev_ind; intros Hg Hl.
  - split; [apply (fin_zero l1 l2 pw)|]. cbn. lra.
  - rewrite app_length in Hl |- *. cbn [length] in *. apply Forall_app in Hg as [Hg Hz]. inversion Hz as [|? ? Hz' _]; subst. destruct (IH Hg ltac:(lia)) as (F1 & B1).
    rewrite sumf_snoc, V_snoc. destruct (lv_64 (length zs) ltac:(lia)) as (L1 & L2 & _). pose proof (gi_bound z Hz') as Gb. pose proof (term_bound _ _ Gb L2) as Tb. pose proof (term_rnd _ _ Gb L2) as Tr.
    assert (Sn : small_n (length zs + 1)) by (unfold small_n; lia).
    assert (Ub : V (lv l2) gi zs + rnd64 (IZR (gi z) / lv l2 (length zs)) <= INR (length zs + 1) * 2 ^ 53) by (rewrite plus_INR; cbn [INR]; lra).
    split.
    + apply fin_add; [exact F1| |apply rnd_bounded; split; [lra|eapply Rle_trans; [exact Ub|now apply n53_200]]].
      apply fin_div; [now apply gf_64|exact L1|lra|apply rnd_bounded; split; [lra|]]. apply Rle_trans with (2 ^ 53); [lra|apply pow53_le_200].
    + split; [apply rnd_ge_fmt; [apply fmt_0|lra]|]. apply rnd_le_fmt; [now apply fmt_n53|exact Ub].
Qed.
Lemma V_le_snoc zs z : gok z -> (Z.of_nat (length zs) < 2 ^ 52)%Z -> V (lv l2) gi zs <= V (lv l2) gi (zs ++ [z]).
Proof.
  intros Hz Hl. rewrite V_snoc. apply rnd_ge_fmt; [apply V_fmt|]. destruct (lv_64 (length zs) ltac:(lia)) as (_ & L2 & _). pose proof (term_rnd _ _ (gi_bound z Hz) L2). lra.
Qed.
Lemma V_le_app zs zs' : Forall gok zs' -> (Z.of_nat (length zs + length zs') <= 2 ^ 52)%Z -> V (lv l2) gi zs <= V (lv l2) gi (zs ++ zs').
Proof.
  induction zs' as [|z zs' IH] using rev_ind; intros Hg Hl; [rewrite app_nil_r; lra|]. apply Forall_app in Hg as [Hg Hz]. inversion Hz as [|? ? Hz' _]; subst. rewrite app_length in Hl. cbn in Hl.
  rewrite app_assoc. eapply Rle_trans; [apply IH; [exact Hg|lia]|]. apply V_le_snoc; [exact Hz'|]. rewrite app_length. lia.
Qed.

(** accuracy *)
Definition Sx (zs : list Z) : R := Rsum (map (fun iz => IZR (gi (snd iz)) / log2 (INR (fst iz + 2))) (enumerate zs)).
Lemma bpow_m60 : bpow radix2 (-60) <= / (2 ^ 53 * 2 * 2).
Proof.
  replace (/ (2 ^ 53 * 2 * 2)) with (bpow radix2 (-55)); [apply bpow_le; lia|]. rewrite <- bpow_53. change 2 with (bpow radix2 1). rewrite <- !bpow_plus, <- bpow_opp. reflexivity.
Qed.
Lemma term_sep g i : (0 <= g)%Z -> (Z.of_nat i + 2 <= 2 ^ 53)%Z -> IZR g / log2 (INR (i + 2)) = 0 \/ bpow radix2 (-60) <= IZR g / log2 (INR (i + 2)).
Proof.
  intros Hg Hi. destruct (Z.eq_dec g 0) as [ -> |Hn]; [left; unfold Rdiv; ring|right].
  assert (2 <= INR (i + 2)) by (apply (le_INR 2); lia). pose proof (log2_ge1 _ H) as H1. pose proof (log2_le _ H) as H2.
  assert (H3 : INR (i + 2) <= 2 ^ 53) by (rewrite INR_IZR_INZ, pow53; apply IZR_le; lia). assert (1 <= IZR g) by (apply (IZR_le 1); lia). pose proof pow53_ge_1.
  eapply Rle_trans; [apply bpow_m60|]. apply Rle_trans with (/ log2 (INR (i + 2))); [apply Rinv_le; lra|]. unfold Rdiv. rewrite <- (Rmult_1_l (/ log2 _)) at 1. apply Rmult_le_compat_r; [left; apply Rinv_0_lt_compat; lra|lra].
Qed.
Lemma sumf_within zs : Forall gok zs -> (Z.of_nat (length zs) <= 2 ^ 52)%Z ->
  within (S c + length zs) (sumf zs) (Sx zs) /\ 0 <= Sx zs <= 2 ^ 53 * 2 ^ 53 /\ not_tiny (Sx zs) /\ (Sx zs = 0 \/ bpow radix2 (-60) <= Sx zs).
Proof.
  intros Hg Hl.
  assert (Hin : forall iz, In iz (enumerate zs) -> gok (snd iz) /\ (Z.of_nat (fst iz) + 2 <= 2 ^ 53)%Z).
  { intros [i z] Hi. apply enumerate_in in Hi. cbn [fst snd]. rewrite Forall_forall in Hg. split; [apply Hg; eapply nth_error_In; eauto|]. assert (i < length zs)%nat by (apply nth_error_Some; rewrite Hi; discriminate). lia. }
  assert (Hel : length (enumerate zs) = length zs) by (unfold enumerate; apply enum_from_length).
  assert (Hsep : Sx zs = 0 \/ bpow radix2 (-60) <= Sx zs).
  { unfold Sx. apply Rsum_sep; [apply bpow_gt_0|]. intros x Hx. apply in_map_iff in Hx as (iz & <- & Hi). destruct (Hin _ Hi) as [A B]. apply term_sep; [apply gi_bound in A; lia|exact B]. }
  assert (Hup : Sx zs <= INR (length zs) * 2 ^ 53).
  { unfold Sx. rewrite <- Hel. rewrite <- (Rsum_map_const (2 ^ 53) (enumerate zs)). apply Rsum_map_le. intros iz Hi. destruct (Hin _ Hi) as [A B].
    apply term_bound; [now apply gi_bound|]. apply log2_ge1. apply (le_INR 2). lia. }
  assert (Hbig : Sx zs <= 2 ^ 53 * 2 ^ 53).
  { eapply Rle_trans; [exact Hup|]. apply Rmult_le_compat_r; [pose proof pow53_ge_1; lra|]. rewrite INR_IZR_INZ, pow53. apply IZR_le. lia. }
  destruct (fsum_within l1 l2 pw (S c) (map (fun iz => sf_div (gf (snd iz)) (l2 (@fnat N64 (fst iz + 1 + 1)))) (enumerate zs)) (map (fun iz => IZR (gi (snd iz)) / log2 (INR (fst iz + 2))) (enumerate zs))) as (W & W0 & W1).
  { apply Forall2_map_same. intros iz Hi. destruct (Hin _ Hi) as [A B]. destruct (lv_64 _ B) as (L1 & L2 & L3). pose proof (gi_bound _ A) as Gb.
    assert (H2 : 2 <= INR (fst iz + 2)) by (apply (le_INR 2); lia). pose proof (log2_ge1 _ H2) as Lg. pose proof (log2_le _ H2) as Ll. pose proof (term_bound _ _ Gb Lg) as Tb.
    assert (H0 : 0 <= IZR (gi (snd iz))) by (apply (IZR_le 0); lia). assert (H53 : IZR (gi (snd iz)) <= 2 ^ 53) by (rewrite pow53; apply IZR_le; lia). pose proof pow53_ge_1.
    assert (Hz : IZR (gi (snd iz)) = 0 \/ 1 <= IZR (gi (snd iz))) by (destruct (Z.eq_dec (gi (snd iz)) 0) as [e|e]; [left; now rewrite e|right; apply (IZR_le 1); lia]).
    split; [|split; [lra|]].
    - replace (S c) with (S (0 + c)) by lia. apply within_div; [apply within_is64; now apply gf_64|exact L3|split; [lra|nra]|exact Lg| | | |lia].
      + destruct Hz as [Hz|Hz]; [now left|right]. eapply Rle_trans; [|exact Hz]. change 1 with (bpow radix2 0). apply bpow_le. lia.
      + assert (INR (fst iz + 2) <= 2 ^ 53) by (rewrite INR_IZR_INZ, pow53; apply IZR_le; lia). apply Rle_trans with (2 ^ 53 * 2); [lra|]. rewrite <- bpow_53. change 2 with (bpow radix2 1). rewrite <- bpow_plus. apply bpow_le. lia.
      + destruct Hz as [Hz|Hz]; [now right|left]. eapply Rle_trans; [|exact Hz]. change 1 with (bpow radix2 0). apply bpow_le. lia.
    - destruct (term_sep (gi (snd iz)) (fst iz) ltac:(lia) B) as [e|e]; [now left|right]. eapply Rle_trans; [|exact e]. apply bpow_le. lia. }
  { rewrite map_length, Hel. lia. }
  { exact Hbig. }
  rewrite map_length, Hel in W. split; [exact W|]. split; [split; [exact W0|exact Hbig]|]. split; [exact W1|exact Hsep].
Qed.

(** *** equal gains *)
Lemma V_equal (g : Z) zs : (forall i i', (i <= i')%nat -> (Z.of_nat i' < 2 ^ 52)%Z -> lv l2 i <= lv l2 i') -> gok g -> Forall (fun z => z = g \/ z = 0%Z) zs -> (Z.of_nat (length zs) <= 2 ^ 52)%Z ->
  V (lv l2) gi zs <= V (lv l2) gi (repeat g (count (fun z => negb (z =? 0)%Z) zs)).
Proof.
  intros Hm Hg. induction zs as [|z zs IH] using rev_ind; intros Hz Hl; [cbn; lra|]. apply Forall_app in Hz as [Hz Hz1]. inversion Hz1 as [|? ? Hz' _]; subst. rewrite app_length in Hl. cbn [length] in Hl.
  specialize (IH Hz ltac:(lia)).
  assert (Hca : forall a b, count (fun z => negb (z =? 0)%Z) (a ++ b) = (count (fun z => negb (z =? 0)%Z) a + count (fun z => negb (z =? 0)%Z) b)%nat) by (intros a b; induction a as [|x a IHa]; cbn; [reflexivity|rewrite IHa; lia]).
  rewrite Hca. cbn [count]. rewrite Nat.add_0_r. destruct (Z.eqb_spec z 0) as [ -> |Hnz]; cbn [negb].
  - rewrite Nat.add_0_r. change [0%Z] with (repeat 0%Z 1). rewrite V_zeros by apply gi_0. exact IH.
  - destruct Hz' as [ -> | -> ]; [|congruence]. rewrite repeat_app. cbn [repeat]. rewrite !V_snoc, repeat_length. apply rnd_le. apply Rplus_le_compat; [exact IH|]. apply rnd_le.
    set (n := count _ zs) in *. assert (Hn : (n <= length zs)%nat) by apply count_le_length.
    destruct (lv_64 n ltac:(lia)) as (_ & L2 & _). pose proof (Hm n (length zs) Hn ltac:(lia)) as Hlv. apply Rmult_le_compat_l; [apply (IZR_le 0); apply gi_bound; exact Hg|]. apply Rinv_le; lra.
Qed.
End S.
