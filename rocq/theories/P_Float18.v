(** P_Float18.v: interpolated precision of one query in binary64 *)
From Coq Require Import Reals ZArith Lra Lia SpecFloat Psatz List.
From Flocq Require Import Core.Core IEEE754.BinarySingleNaN.
From Verif Require Import Base Dict Num Env M_Common M_Qrels M_Run M_Metrics Spec_Metrics Spec_Float Spec_Float5 P_Base P_Dict P_Metrics P_Metrics2 P_Metrics3 P_Metrics4 P_Float P_MetricsG P_MetricsG2 P_Float2 P_Float3 P_Float4 P_Float5 P_Float11.
Import ListNotations.
Open Scope R_scope.

Lemma trunc64 x v : is64 x v -> 0 <= v -> sf_trunc x = Zfloor v.
Proof.
  intros (Hv & Hf & <-) H0. destruct x as [s|s| |s m e]; try discriminate.
  - cbn. symmetry. apply (Zfloor_IZR 0).
  - cbn [SF2R] in *. destruct s.
    + exfalso. cbn [cond_Zopp] in H0. assert (F2R (Float radix2 (Z.neg m) e) < 0) by (apply F2R_lt_0; cbn; lia). change (- Z.pos m)%Z with (Z.neg m) in H0. lra.
    + cbn [cond_Zopp sf_trunc]. unfold F2R. cbn [Fnum Fexp]. destruct e as [|p|p].
      * cbn [bpow]. rewrite Rmult_1_r. symmetry. apply Zfloor_IZR.
      * change (bpow radix2 (Z.pos p)) with (IZR (Z.pow_pos radix2 p)). rewrite <- mult_IZR, Zfloor_IZR. reflexivity.
      * change (bpow radix2 (Z.neg p)) with (/ IZR (Z.pow_pos radix2 p)). symmetry. apply (Zfloor_div (Z.pos m) (Z.pow_pos 2 p)).
        intros He. pose proof (Zpower_pos_gt_0 2 p). lia.
Qed.

Lemma div_nat_eq a b q r : (b <> 0)%nat -> (a = b * q + r)%nat -> (r < b)%nat -> (a / b)%nat = q.
Proof. intros Hb He Hr. symmetry. eapply Nat.div_unique; eauto. Qed.

Section C.
Variables (l1 l2 : sf -> sf) (pw : sf -> sf -> sf).
Notation N64 := (NumSF_with l1 l2 pw).

Lemma dec1_div i : (i <= 10)%nat -> sf_dec (Z.of_nat i) 1 = sf_div (sf_of_Z (Z.of_nat i)) (sf_of_Z 10).
Proof. intros H. do 11 (destruct i as [|i]; [vm_compute; reflexivity|]). lia. Qed.
Lemma dec1_within i : (i <= 10)%nat -> within 1 (sf_dec (Z.of_nat i) 1) (INR i / 10).
Proof.
  intros H. rewrite dec1_div by exact H. exists (rnd64 (INR i / 10)). split.
  - apply fin_div; [rewrite INR_IZR_INZ; apply fin_ofZ; unfold small; lia|apply (fin_ofZ 10); unfold small; lia|lra|].
    apply bounded. rewrite Rabs_pos_eq by (pose proof (pos_INR i); lra). apply Rle_trans with 1; [apply (le_INR i 10) in H; cbn [INR] in H; lra|]. change 1 with (bpow radix2 0). apply bpow_le. lia.
  - rewrite pow_1. destruct i as [|i]; [cbn [INR]; unfold Rdiv; rewrite !Rmult_0_l, rnd_0; lra|]. apply rnd_rel. pose proof (pos_INR i). rewrite S_INR.
    apply Rle_trans with (bpow radix2 (-4)); [apply bpow_le; lia|]. cbn. lra.
Qed.
Lemma within_mul_nat m x s n : within m x s -> 0 <= s <= 1 -> (s = 0 \/ / 16 <= s) -> (m <= 10)%nat -> small_n n -> within (S m) (sf_mul x (@fnat N64 n)) (s * INR n).
Proof.
  intros (a & Fa & Na) Hs Hs16 Hm Hn. pose proof (fin_nat l1 l2 pw n Hn) as Fn. pose proof (small_n_R n Hn) as Rn. pose proof (pow_le_16 m ltac:(lia)) as H16.
  assert (Nn : near ((1 + ulp64) ^ m) (s * INR n) (a * INR n)).
  { destruct Na as [A1 A2]. split; [|nra]. unfold Rdiv in *. replace (s * INR n * / (1 + ulp64) ^ m) with (s * / (1 + ulp64) ^ m * INR n) by ring. nra. }
  assert (Hp : 0 <= s * INR n) by nra. pose proof (near_nonneg _ _ _ Hp (one_u m) Nn) as Hap.
  exists (rnd64 (a * INR n)). split.
  - apply fin_mul; [exact Fa|exact Fn|]. apply rnd_bounded. split; [exact Hap|]. eapply Rle_trans; [apply Nn|]. pose proof pow53_ge_1. pose proof pow53_big. nra.
  - destruct (Req_dec (s * INR n) 0) as [Hz|Hz].
    + apply (near_zero _ _ _ Hp (one_u m) Nn) in Hz as Hz'. rewrite Hz', Hz, rnd_0. unfold Rdiv. lra.
    + assert (Hn1 : 1 <= INR n). { destruct n as [|n]; [exfalso; apply Hz; cbn; ring|]. apply (le_INR 1). lia. }
      destruct Hs16 as [ -> |H6]; [exfalso; apply Hz; ring|].
      assert (Ha : bpow radix2 (-8) <= a * INR n).
      { eapply Rle_trans; [|apply Nn]. apply (Rmult_le_reg_r ((1 + ulp64) ^ m)); [lra|]. unfold Rdiv. rewrite Rmult_assoc, Rinv_l, Rmult_1_r by lra.
        apply Rle_trans with (/ 256 * 16); [replace (bpow radix2 (-8)) with (/ 256) by (cbn; lra); nra|]. nra. }
      assert (Hr : a * INR n / (1 + ulp64) <= rnd64 (a * INR n) <= a * INR n * (1 + ulp64)).
      { apply rnd_rel. eapply Rle_trans; [|exact Ha]. apply bpow_le. lia. }
      pose proof u_pos as Hu. rewrite pow_S. destruct Nn as [N1 N2]. split; [|nra].
      eapply Rle_trans; [|apply Hr]. unfold Rdiv in *. rewrite Rinv_mult. rewrite <- Rmult_assoc. apply Rmult_le_compat_r; [left; apply Rinv_0_lt_compat; lra|exact N1].
Qed.
Lemma cube_small : (1 + ulp64) ^ 3 <= 1 + / 2 ^ 51 /\ 1 - / 2 ^ 51 <= / (1 + ulp64) ^ 3.
Proof.
  pose proof u_pos as Hu. assert (H51 : / 2 ^ 51 = 4 * ulp64) by (unfold ulp64; replace 53%nat with (51 + 2)%nat by reflexivity; rewrite pow_add; field; apply pow_nonzero; lra).
  assert (Hs : ulp64 <= / 16).
  { unfold ulp64. apply Rinv_le_contravar; [lra|]. replace 16 with (2 ^ 4) by lra. apply Rle_pow; [lra|lia]. }
  rewrite H51. assert (H3 : (1 + ulp64) ^ 3 <= 1 + 4 * ulp64) by (cbn [pow]; nra). split; [exact H3|].
  apply Rle_trans with (/ (1 + 4 * ulp64)); [|apply Rinv_le_contravar; [apply pow_lt; lra|exact H3]].
  apply (Rmult_le_reg_r (1 + 4 * ulp64)); [lra|]. rewrite Rinv_l by lra. nra.
Qed.
Lemma cutoff_64 i n : (i <= 10)%nat -> (Z.of_nat n <= 2 ^ 45)%Z -> float_cutoff i n (@ip_cutoff N64 i n).
Proof.
  intros Hi Hn. assert (Sn : small_n n) by (unfold small_n; lia).
  assert (Hi1 : 0 <= INR i / 10 <= 1) by (apply (le_INR i 10) in Hi as Hi'; cbn [INR] in Hi'; pose proof (pos_INR i); lra).
  assert (Hi6 : INR i / 10 = 0 \/ / 16 <= INR i / 10) by (destruct i as [|i']; [left; cbn; lra|right; rewrite S_INR; pose proof (pos_INR i'); lra]).
  pose proof (within_mul_nat 1 _ _ n (dec1_within i Hi) Hi1 Hi6 ltac:(lia) Sn) as W1.
  assert (W9 : within 1 (sf_dec 9 1) (9 / 10)) by (pose proof (dec1_within 9 ltac:(lia)) as W9; replace (INR 9) with 9 in W9 by (cbn; lra); exact W9).
  assert (Bn : INR n <= 2 ^ 45) by (rewrite INR_IZR_INZ, (pow_IZR 2 45); apply IZR_le; exact Hn).
  assert (B45 : 1 <= 2 ^ 45) by (apply pow_R1_Rle; lra). assert (B8 : 2 ^ 53 = 2 ^ 45 * 256) by (replace 53%nat with (45 + 8)%nat by reflexivity; rewrite pow_add; lra).
  pose proof (pos_INR n) as Pn.
  assert (NTin : forall s, s = 0 \/ / 16 <= s -> not_tiny s).
  { intros s [ -> |H]; [now left|right]. eapply Rle_trans; [|exact H]. replace (/ 16) with (bpow radix2 (-4)) by (cbn; lra). apply bpow_le. lia. }
  assert (W : within 3 (sf_add (sf_mul (sf_dec (Z.of_nat i) 1) (@fnat N64 n)) (sf_dec 9 1)) (INR i / 10 * INR n + 9 / 10)).
  { apply within_add.
    - exact W1.
    - apply (within_mono 1 2); [lra|lia|exact W9].
    - nra.
    - lra.
    - apply NTin. destruct n as [|n']; [left; cbn; ring|]. assert (1 <= INR (S n')) by (rewrite S_INR; pose proof (pos_INR n'); lra). destruct Hi6 as [ -> |H6]; [left; ring|right; nra].
    - apply NTin. right. lra.
    - lia.
    - rewrite B8. nra. }
  unfold ip_cutoff. change (@ftrunc N64) with sf_trunc. change (@fadd N64) with sf_add. change (@fmul N64) with sf_mul. change (@fdec N64) with sf_dec.
  destruct W as (v & Fv & Nv).
  assert (He : INR i / 10 * INR n + 9 / 10 = INR (i * n + 9) / 10) by (rewrite plus_INR, mult_INR; cbn [INR]; lra). rewrite He in Nv.
  set (a := (i * n + 9)%nat) in *. destruct cube_small as (C1 & C2).
  assert (Ba : INR a <= 2 ^ 45 * 10 + 9).
  { unfold a. rewrite plus_INR, mult_INR. apply (le_INR i 10) in Hi as Hi'. cbn [INR] in *. pose proof (pos_INR i). nra. }
  pose proof (pos_INR a) as Pa.
  assert (Herr : INR a / 10 - / 20 < v < INR a / 10 + / 20).
  { destruct Nv as [N1 N2]. assert (H51 : (2 ^ 45 * 10 + 9) * / 2 ^ 51 < / 2).
    { apply (Rmult_lt_reg_r (2 ^ 51)); [apply pow_lt; lra|]. rewrite Rmult_assoc, Rinv_l by (apply pow_nonzero; lra). replace (2 ^ 51) with (2 ^ 45 * 64) by (replace 51%nat with (45 + 6)%nat by reflexivity; rewrite pow_add; lra). lra. }
    assert (H52 : INR a * / 2 ^ 51 < / 2) by (eapply Rle_lt_trans; [|exact H51]; apply Rmult_le_compat_r; [left; apply Rinv_0_lt_compat, pow_lt; lra|exact Ba]).
    unfold Rdiv in *. set (d := / 2 ^ 51) in *. set (k3 := / (1 + ulp64) ^ 3) in *. set (p3 := (1 + ulp64) ^ 3) in *. split; nra. }
  assert (V0 : 0 <= v). { assert (INR 9 <= INR a) by (apply le_INR; unfold a; lia). cbn [INR] in H. lra. }
  rewrite (trunc64 _ _ Fv V0).
  unfold float_cutoff, recall_cutoff. fold a. pose proof (Nat.div_mod a 10 ltac:(lia)) as Hdm. pose proof (Nat.mod_upper_bound a 10 ltac:(lia)) as Hmb.
  set (q := (a / 10)%nat) in *. set (m := (a mod 10)%nat) in *.
  assert (Ha : INR a = 10 * INR q + INR m) by (rewrite Hdm, plus_INR, mult_INR; cbn [INR]; lra).
  assert (Hm9 : INR m <= 9) by (apply (le_INR m 9) in Hmb || (assert (H9 : (m <= 9)%nat) by lia; apply le_INR in H9; cbn [INR] in H9; lra)).
  assert (Hfl : Zfloor v = Z.of_nat q \/ m = 0%nat /\ (1 <= q)%nat /\ Zfloor v = (Z.of_nat q - 1)%Z).
  { destruct (Nat.eq_dec m 0) as [H0|H0].
    - destruct (Rle_or_lt (INR q) v) as [Hq|Hq].
      + left. apply Zfloor_imp. rewrite plus_IZR, <- INR_IZR_INZ. rewrite H0 in Ha. cbn [INR] in Ha. lra.
      + right. split; [exact H0|]. assert (1 <= q)%nat by (unfold a in Hdm; lia). split; [assumption|]. apply Zfloor_imp. rewrite plus_IZR, minus_IZR, <- INR_IZR_INZ. rewrite H0 in Ha. cbn [INR] in Ha. lra.
    - left. apply Zfloor_imp. rewrite plus_IZR, <- INR_IZR_INZ. assert (1 <= INR m) by (apply (le_INR 1); lia). lra. }
  destruct Hfl as [ -> |(H0 & H1 & -> )]; [left; apply Nat2Z.id|right]. split; [|lia].
  assert (Hin : (i * n = 10 * (q - 1) + 1)%nat) by (unfold a in Hdm; lia). symmetry. eapply Nat.mod_unique with (q := (q - 1)%nat); [lia|exact Hin].
Qed.
End C.

Lemma F2len {A B} (P : A -> B -> Prop) l l' : Forall2 P l l' -> length l = length l'.
Proof. induction 1; cbn; auto. Qed.
Lemma F2skip {A B} (P : A -> B -> Prop) c : forall l l', Forall2 P l l' -> Forall2 P (skipn c l) (skipn c l').
Proof. induction c as [|c IH]; intros l l' H; [exact H|]. destruct H; cbn; [constructor|now apply IH]. Qed.
Definition rn64 (x : sf) (r : R) : Prop := is64 x (rnd64 r) /\ 0 <= r.
Lemma rnd_max a b : rnd64 (Rmax a b) = Rmax (rnd64 a) (rnd64 b).
Proof.
  destruct (Rle_or_lt a b) as [H|H].
  - rewrite (Rmax_right a b) by lra. rewrite Rmax_right by (now apply rnd_le). reflexivity.
  - rewrite (Rmax_left a b) by lra. rewrite Rmax_left by (apply rnd_le; lra). reflexivity.
Qed.
Lemma Rmax0_nonneg l : 0 <= fold_right Rmax 0 l.
Proof. induction l as [|a l IH]; cbn; [lra|]. eapply Rle_trans; [exact IH|apply Rmax_r]. Qed.
Lemma Rmax0_in l : fold_right Rmax 0 l = 0 \/ In (fold_right Rmax 0 l) l.
Proof.
  induction l as [|a l IH]; cbn; [now left|]. destruct (Rle_or_lt a (fold_right Rmax 0 l)) as [H|H]; [rewrite Rmax_right by lra; destruct IH; auto|]. rewrite Rmax_left by lra. right. now left.
Qed.

Section V.
Variables (l1 l2 : sf -> sf) (pw : sf -> sf -> sf).
Notation N64 := (NumSF_with l1 l2 pw).
Lemma max_64 (l : list sf) : forall rs x r, rn64 x r -> Forall2 rn64 l rs -> is64 (@fmaxl N64 x l) (rnd64 (Rmax r (fold_right Rmax 0 rs))).
Proof.
  unfold fmaxl. induction l as [|y l IH]; intros rs x r [Hx Hr] H; inversion H as [|? ry ? rs' [Hy Hry] H']; subst.
  - cbn. rewrite Rmax_left by lra. exact Hx.
  - cbn [fold_left fold_right]. rewrite Rmax_assoc. apply IH; [|exact H']. split; [rewrite rnd_max; now apply fin_max2|]. eapply Rle_trans; [exact Hr|apply Rmax_l].
Qed.
Lemma list_max_64 (l : list sf) rs : l <> [] -> Forall2 rn64 l rs -> is64 (@list_max N64 l) (rnd64 (fold_right Rmax 0 rs)).
Proof. intros Hl H. inversion H as [|x r l' rs' Hx H']; subst; [congruence|]. cbn [list_max fold_right]. now apply max_64. Qed.

Variables (E : @env N64) (lvl : Z) (j : dict Z) (r : dict sf).
Hypothesis (Q : query64 E lvl j r).
Notation qr := (@to_rows N64 E Z (@q_tof N64) j).
Notation rr := (@to_rows N64 E sf (@r_tof N64) r).
Notation ds := (dkeys r).
Notation rel := (relevant j lvl).
Notation fxi := (fx l1 l2 pw lvl j r 0).

Lemma small_ds : small_n (length ds).
Proof. exact (small_nr _ _ _ _ _ _ _ Q). Qed.
Lemma prec_pos i : (i < length ds)%nat -> rel (nth i ds EmptyString) = true -> 0 < prec_at rel ds (S i) /\ 0 < rnd64 (prec_at rel ds (S i)).
Proof.
  intros Hi Hr. unfold prec_at. rewrite count_firstn_S, Hr by exact Hi.
  assert (Hle : (count rel (firstn i ds) + 1 <= S i)%nat) by (pose proof (count_le_length rel (firstn i ds)) as H; rewrite firstn_length in H; lia).
  split; [apply Rdiv_lt_0_compat; apply lt_0_INR; lia|].
  destruct (frac_01 (count rel (firstn i ds) + 1) (S i) Hle) as (H01 & H0 & _); [eapply small_n_le; [|exact small_ds]; lia|lia|].
  destruct (Req_dec (rnd64 (INR (count rel (firstn i ds) + 1) / INR (S i))) 0) as [Hz|Hz]; [apply H0 in Hz; lia|lra].
Qed.
Lemma fx_r64 i : (i < length ds)%nat -> rn64 (fxi i) (if rel (nth i ds EmptyString) then prec_at rel ds (S i) else 0).
Proof.
  intros Hi. pose proof (fx_64 l1 l2 pw E lvl j r Q 0 i Hi) as Hf. unfold sx in Hf. destruct (rel (nth i ds EmptyString)) eqn:Hr.
  - replace (i + 1)%nat with (S i) in Hf by lia. split; [exact Hf|]. pose proof (prec_pos i Hi Hr). lra.
  - split; [rewrite rnd_0; exact Hf|lra].
Qed.
Lemma eqb0 x v : is64 x v -> @feqb N64 x (@fzero N64) = Req_bool v 0.
Proof. intros H. apply (eqb64 x _ v 0 H). apply (fin_zero l1 l2 pw). Qed.
Lemma filter_64 l : (forall i, In i l -> (i < length ds)%nat) ->
  Forall2 rn64 (filter (fun x => negb (@feqb N64 x (@fzero N64))) (map fxi l)) (map (prec_at rel ds) (filter (fun i => rel (nth (i - 1) ds EmptyString)) (map S l))).
Proof.
  induction l as [|i l IH]; intros Hl; [constructor|]. cbn [map filter]. cbn [Nat.sub]. rewrite Nat.sub_0_r. pose proof (fx_r64 i (Hl i (or_introl eq_refl))) as [Hf _].
  specialize (IH (fun k Hk => Hl k (or_intror Hk))). rewrite (eqb0 _ _ Hf). destruct (rel (nth i ds EmptyString)) eqn:Hr.
  - pose proof (prec_pos i (Hl i (or_introl eq_refl)) Hr). rewrite Req_bool_false by lra. cbn [negb map]. constructor; [|exact IH]. split; [exact Hf|lra].
  - rewrite rnd_0, Req_bool_true by reflexivity. exact IH.
Qed.
Lemma raw_max l : (forall i, In i l -> (i < length ds)%nat) ->
  fold_right Rmax 0 (map (fun i => if rel (nth i ds EmptyString) then prec_at rel ds (S i) else 0) l) =
  fold_right Rmax 0 (map (prec_at rel ds) (filter (fun i => rel (nth (i - 1) ds EmptyString)) (map S l))).
Proof.
  induction l as [|i l IH]; intros Hl; [reflexivity|]. cbn [map fold_right filter]. cbn [Nat.sub]. rewrite Nat.sub_0_r, (IH (fun k Hk => Hl k (or_intror Hk))).
  destruct (rel (nth i ds EmptyString)); [reflexivity|]. apply Rmax_right, Rmax0_nonneg.
Qed.
(** the value at a cut-off *)
Definition ip_at (c : nat) : sf :=
  let ps := @fzero N64 :: map fxi (seq 0 (length ds)) in
  let ps := filter (fun x => negb (@feqb N64 x (@fzero N64))) (@list_max N64 ps :: tl ps) in
  if (c <? length ps)%nat then @list_max N64 (skipn c ps) else @fzero N64.
Lemma interpolated_f : n_relevant j lvl <> 0%nat -> @_interpolated_precision N64 qr rr lvl = map (fun i => ip_at (@ip_cutoff N64 i (n_relevant j lvl))) (seq 0 11).
Proof.
  intros Hn. unfold _interpolated_precision. rewrite (clean_length_g E j lvl (Hle _ _ _ _ _ _ _ Q)). destruct (Nat.eqb_spec (n_relevant j lvl) 0) as [|_]; [congruence|].
  pose proof (hit_list_g E j lvl (Hle _ _ _ _ _ _ _ Q) r (q64_j _ _ _ _ Q) (q64_ids _ _ _ _ Q) 0) as Hh.
  change (@to_rows N64 E (@F N64) (@r_tof N64) r) with rr in Hh. change (fix_k 0 rr) with (length rr) in Hh. rewrite Hh. unfold rkg. change (@dkeys (@F N64) r) with (@dkeys sf r).
  rewrite (scores_seq l1 l2 pw lvl j r 0). rewrite map_map. reflexivity.
Qed.
Lemma ip_at_64 c : is64 (ip_at c) (rnd64 (S_interpolated j lvl ds c)).
Proof.
  unfold ip_at. cbv zeta. cbn [tl]. set (L := seq 0 (length ds)). assert (HL : forall i, In i L -> (i < length ds)%nat) by (intros i Hi; apply in_seq in Hi; lia).
  pose proof (filter_64 L HL) as HF. assert (HR : filter (fun i => rel (nth (i - 1) ds EmptyString)) (map S L) = rel_ranks rel ds) by (unfold rel_ranks, L; rewrite seq_shift; reflexivity). rewrite HR in HF.
  assert (HM : is64 (@list_max N64 (@fzero N64 :: map fxi L)) (rnd64 (fold_right Rmax 0 (map (prec_at rel ds) (rel_ranks rel ds))))).
  { rewrite <- HR, <- raw_max by exact HL. rewrite <- (Rmax_right 0 (fold_right Rmax 0 _)) by apply Rmax0_nonneg.
    apply max_64; [split; [rewrite rnd_0; apply (fin_zero l1 l2 pw)|lra]|]. apply Forall2_map_same. intros i Hi. apply fx_r64, HL, Hi. }
  set (M := @list_max N64 (@fzero N64 :: map fxi L)) in *. set (mx := fold_right Rmax 0 (map (prec_at rel ds) (rel_ranks rel ds))) in *.
  cbn [filter]. rewrite (eqb0 _ _ HM). set (P := filter (fun x : sf => negb (@feqb N64 x (@fzero N64))) (map fxi L)) in *.
  change (is64 (if (c <? @length sf (if negb (Req_bool (rnd64 mx) 0) then M :: P else P))%nat then @list_max N64 (@skipn sf c (if negb (Req_bool (rnd64 mx) 0) then M :: P else P)) else @fzero N64) (rnd64 (S_interpolated j lvl ds c))).
  assert (HP : length P = length (rel_ranks rel ds)). { rewrite <- (map_length (prec_at rel ds)). eapply F2len; exact HF. }
  unfold S_interpolated. change (precision_at j lvl ds) with (prec_at rel ds).
  destruct (rel_ranks rel ds) as [|i0 l] eqn:Hr.
  - assert (Hmx : mx = 0) by reflexivity. rewrite Hmx, rnd_0, Req_bool_true by reflexivity. cbn [negb]. rewrite HP. cbn [length]. replace (c <? 0)%nat with false by (symmetry; apply Nat.ltb_ge; lia).
    assert (Hz : fold_right Rmax 0 (map (prec_at rel ds) (filter (fun i : nat => (c <=? count rel (firstn i ds))%nat) (seq 1 (length ds)))) = 0).
    { destruct c as [|c']; [rewrite <- interp_vec_0, Hr; reflexivity|]. rewrite <- interp_vec by lia. rewrite Hr, skipn_nil. reflexivity. }
    rewrite Hz, rnd_0. apply (fin_zero l1 l2 pw).
  - assert (Hpos : 0 < rnd64 mx).
    { assert (Hi0 : In i0 (rel_ranks rel ds)) by (rewrite Hr; now left). unfold rel_ranks in Hi0. apply filter_In in Hi0 as [Hs Hp]. apply in_seq in Hs. destruct i0 as [|i0]; [lia|].
      cbn [Nat.sub] in Hp. rewrite Nat.sub_0_r in Hp. destruct (prec_pos i0 ltac:(lia) Hp) as [_ H1]. eapply Rlt_le_trans; [exact H1|]. apply rnd_le. unfold mx. cbn [map fold_right]. apply Rmax_l. }
    rewrite Req_bool_false by lra. cbn [negb length]. rewrite HP.
    destruct c as [|c'].
    + cbn [Nat.ltb Nat.leb skipn]. rewrite <- interp_vec_0, Hr. fold mx. rewrite <- (Rmax_left mx (fold_right Rmax 0 (map (prec_at rel ds) (i0 :: l)))) by (right; reflexivity).
      cbn [list_max]. apply max_64; [split; [exact HM|apply Rmax0_nonneg]|exact HF].
    + rewrite <- interp_vec by lia. replace (S c' - 1)%nat with c' by lia. cbn [skipn]. rewrite Hr.
      destruct (Nat.ltb_spec (S c') (S (length (i0 :: l)))) as [Hlt|Hge].
      * apply list_max_64; [intros He; apply (f_equal (@length sf)) in He; rewrite skipn_length in He; cbn [length] in *; lia|].
        rewrite <- skipn_map. apply F2skip. exact HF.
      * rewrite skipn_all2 by lia. cbn. rewrite rnd_0. apply (fin_zero l1 l2 pw).
Qed.
Lemma interp_rounded c x : is64 x (rnd64 (S_interpolated j lvl ds c)) -> rounded_score x (S_interpolated j lvl ds c).
Proof.
  intros Hx. split; [exact Hx|]. unfold S_interpolated. destruct (Rmax0_in (map (precision_at j lvl ds) (filter (fun i => (c <=? count rel (firstn i ds))%nat) (seq 1 (length ds))))) as [H0|Hin].
  - rewrite H0, rnd_0. repeat split; lra.
  - set (m := fold_right Rmax 0 _) in *. apply in_map_iff in Hin as (i & <- & Hi). apply filter_In in Hi as [Hi _]. apply in_seq in Hi. unfold precision_at.
    assert (Hc : (count rel (firstn i ds) <= i)%nat) by (pose proof (count_le_length rel (firstn i ds)) as H; rewrite firstn_length in H; lia).
    destruct (frac_01 (count rel (firstn i ds)) i Hc) as (H01 & H0 & H1); [eapply small_n_le; [|exact small_ds]; lia|lia|].
    assert (Hp : INR i <> 0) by (apply not_0_INR; lia). split; [exact H01|]. rewrite H0, H1. split; split.
    + intros ->. cbn. unfold Rdiv. ring.
    + intros Hz. apply INR_eq. cbn [INR]. apply (Rmult_eq_reg_r (/ INR i)); [unfold Rdiv in Hz; lra|now apply Rinv_neq_0_compat].
    + intros ->. unfold Rdiv. now apply Rinv_r.
    + intros Hz. apply INR_eq. apply (Rmult_eq_reg_r (/ INR i)); [unfold Rdiv in Hz; rewrite Rinv_r by exact Hp; exact Hz|now apply Rinv_neq_0_compat].
Qed.
Lemma norel_interp c : n_relevant j lvl = 0%nat -> S_interpolated j lvl ds c = 0.
Proof.
  intros Hn. unfold S_interpolated. destruct (Rmax0_in (map (precision_at j lvl ds) (filter (fun i => (c <=? count rel (firstn i ds))%nat) (seq 1 (length ds))))) as [H0|Hin]; [exact H0|].
  set (m := fold_right Rmax 0 _) in *. apply in_map_iff in Hin as (i & <- & _). unfold precision_at. rewrite count_false by (intros; now apply no_relevant_top). cbn. unfold Rdiv. ring.
Qed.
Lemma cutoffs_le n i i' c c' : (n <> 0)%nat -> (i <= i')%nat -> float_cutoff i n c -> float_cutoff i' n c' -> (i = i' -> c = c') -> (c <= c')%nat.
Proof.
  intros Hn Hi H H' He. destruct (Nat.eq_dec i i') as [Hii|Hne]; [now rewrite He|].
  unfold float_cutoff, recall_cutoff in *. assert (Hm : (i * n + n <= i' * n)%nat) by nia.
  assert (Hd : ((i * n + 9) / 10 <= (i' * n + 9) / 10)%nat) by (apply Nat.div_le_mono; lia).
  destruct H' as [ -> |[Hm1 H']]; [destruct H as [ -> |[_ H]]; lia|].
  assert (Hlt : ((i * n + 9) / 10 < (i' * n + 9) / 10)%nat).
  { pose proof (Nat.div_mod (i' * n) 10 ltac:(lia)) as D. rewrite Hm1 in D. set (q := (i' * n / 10)%nat) in *. apply Nat.lt_le_trans with (S q); [|apply Nat.div_le_lower_bound; lia].
    apply Nat.div_lt_upper_bound; lia. }
  destruct H as [ -> |[_ H]]; lia.
Qed.
Lemma curve_64 : (Z.of_nat (length j) <= 2 ^ 45)%Z -> curve64 j lvl ds (@_interpolated_precision N64 qr rr lvl).
Proof.
  intros Hj. assert (Hn45 : (Z.of_nat (n_relevant j lvl) <= 2 ^ 45)%Z) by (pose proof (count_le_length (fun dv : string * Z => (lvl <=? snd dv)%Z) j); unfold n_relevant; lia).
  destruct (Nat.eq_dec (n_relevant j lvl) 0) as [Hn|Hn].
  - unfold _interpolated_precision. rewrite (clean_length_g E j lvl (Hle _ _ _ _ _ _ _ Q)), Hn. cbn [Nat.eqb].
    assert (HI : forall i x, nth_error (repeat (@fzero N64) 11) i = Some x -> x = @fzero N64).
    { intros i x Hx. apply nth_error_In, repeat_spec in Hx. exact Hx. }
    split; [apply repeat_length|]. split.
    + intros i x Hx. apply HI in Hx. subst x. exists (recall_cutoff i 0). split; [rewrite Hn; now left|]. apply interp_rounded. rewrite norel_interp, rnd_0 by exact Hn. apply (fin_zero l1 l2 pw).
    + intros i i' x x' v v' _ Hx Hx' Fv Fv'. apply HI in Hx, Hx'. subst. right. eapply is64_fun; eassumption.
  - rewrite interpolated_f by exact Hn. set (f := fun i => ip_at (@ip_cutoff N64 i (n_relevant j lvl))).
    assert (HI : forall i x, nth_error (map f (seq 0 11)) i = Some x -> (i <= 10)%nat /\ x = f i).
    { intros i x Hx. assert (Hi : (i < 11)%nat) by (rewrite <- (seq_length 11 0), <- (map_length f); apply nth_error_Some; congruence). split; [lia|].
      rewrite (map_nth_error f i (seq 0 11) (d := i)) in Hx; [congruence|]. rewrite (nth_error_nth' _ 0%nat) by (rewrite seq_length; exact Hi). now rewrite seq_nth. }
    split; [now rewrite map_length, seq_length|]. split.
    + intros i x Hx. apply HI in Hx as (Hi & ->). exists (@ip_cutoff N64 i (n_relevant j lvl)). split; [now apply cutoff_64|]. apply interp_rounded, ip_at_64.
    + intros i i' x x' v v' Hii Hx Hx' Fv Fv'. apply HI in Hx as (Hi & ->). apply HI in Hx' as (Hi' & ->). unfold f in *. rewrite (is64_fun _ _ _ Fv (ip_at_64 _)), (is64_fun _ _ _ Fv' (ip_at_64 _)).
      apply rnd_le, interpolated_mono. eapply (cutoffs_le _ i i'); [exact Hn|exact Hii|now apply cutoff_64|now apply cutoff_64|]. now intros ->.
Qed.
End V.
