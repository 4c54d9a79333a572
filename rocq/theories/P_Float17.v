(** P_Float17.v: dcg and bpref of one query in binary64 *)
From Coq Require Import Reals ZArith Lra Lia SpecFloat Psatz List.
From Flocq Require Import Core.Core IEEE754.BinarySingleNaN.
From Verif Require Import Base Dict Num Env M_Common M_Qrels M_Run M_Metrics Spec_Metrics Spec_Float Spec_Float5 P_Base P_Dict P_Metrics P_Metrics2 P_Metrics3 P_Metrics4 P_Metrics5 P_Metrics7 P_Float P_MetricsG P_MetricsG2 P_Float2 P_Float3 P_Float4 P_Float5 P_Float6 P_Float7.
Import ListNotations.
Open Scope R_scope.

Section D.
Variables (l1 l2 : sf -> sf) (pw : sf -> sf -> sf).
Notation N64 := (NumSF_with l1 l2 pw).
Variable (c : nat).
Hypothesis (Hlog : log2_accurate c l2) (Hc : (c <= 1000)%nat).
Variable (jv : bool).
Hypothesis Hpow : jv = false -> pow2_exact pw.
Variables (E : @env N64) (lvl : Z) (j : dict Z) (r : dict sf).
Hypothesis (Q : query64 E lvl j r) (Hlvl : (1 <= lvl)%Z).
Hypothesis Hgr : jv = false -> Forall (fun dv => (snd dv <= 53)%Z) j.
Notation ds := (dkeys r).

Lemma dcg_64 k : near_gain (S c + length (top ds k)) (@_dcg N64 (@to_rows N64 E Z (@q_tof N64) j) (@to_rows N64 E sf (@r_tof N64) r) k lvl jv) (S_dcg_with ds (gR jv lvl j) k).
Proof.
  refine (eq_ind_r (fun x => near_gain _ x _) _ (dcg_g E j lvl (Hle _ _ _ _ _ _ _ Q) r (q64_j _ _ _ _ Q) (q64_ids _ _ _ _ Q) k jv)).
  destruct (n_relevant j lvl) as [|n] eqn:Hn.
  - rewrite (norel_dcg pw c Hc jv Hpow lvl j Hlvl Hgr) by assumption. split.
    + exists 0. split; [apply (fin_zero l1 l2 pw)|unfold Rdiv; lra].
    + exists 0. split; [apply (fin_zero l1 l2 pw)|]. split; [lra|tauto].
  - unfold rkg. change (@dkeys (@F N64) r) with (@dkeys sf r).
    refine (eq_ind_r (fun x => near_gain _ x _) _ (dcg_f l1 l2 pw jv lvl j ds k)).
    destruct (sumf_within l1 l2 pw c Hlog Hc jv Hpow (map (gainZ j lvl) (top ds k))) as (W & B & _ & _).
    + exact (gz_oks l1 l2 pw c Hc jv Hpow E lvl j r Q Hlvl Hgr (top ds k)).
    + exact (len_r l1 l2 pw c Hc E lvl j r Q k).
    + rewrite (Sx_dcg pw c Hc jv Hpow lvl j Hlvl Hgr) in W, B. rewrite map_length in W. split; [exact W|].
      destruct W as (v & Fv & Nv). exists v. split; [exact Fv|]. split; [eapply near_nonneg; [apply B|apply one_u|exact Nv]|].
      eapply near_zero; [apply B|apply one_u|exact Nv].
Qed.
End D.

(** a number between 0 and 1 is rounded by at most 2^-54 *)
Lemma rnd_err x : 0 <= x <= 1 -> Rabs (rnd64 x - x) <= ulp64 / 2.
Proof.
  intros Hx. pose proof u_pos as Hu. destruct (Req_dec x 0) as [ -> |H0]; [rewrite rnd_0, Rminus_0_r, Rabs_R0; lra|].
  destruct (Req_dec x 1) as [ -> |H1]; [rewrite (rnd_fmt 1 fmt_1), Rminus_diag_eq, Rabs_R0 by reflexivity; lra|].
  unfold rnd64. eapply Rle_trans; [apply error_le_half_ulp; apply FLT_exp_valid; reflexivity|].
  rewrite ulp_neq_0 by exact H0. assert (bpow radix2 (cexp radix2 (FLT_exp (-1074) 53) x) <= ulp64); [|lra].
  rewrite ulp64_bpow. apply bpow_le. unfold cexp, FLT_exp. assert (mag radix2 x <= 0)%Z; [|lia].
  apply mag_le_bpow; [exact H0|]. rewrite Rabs_pos_eq by lra. cbn. lra.
Qed.

Section B.
Variables (l1 l2 : sf -> sf) (pw : sf -> sf -> sf).
Notation N64 := (NumSF_with l1 l2 pw).
(** one term of bpref *)
Definition tv (a b : nat) : R := rnd64 (1 - rnd64 (INR a / INR b)).
Definition tx (a b : nat) : sf := @fsub N64 (@fone N64) (@fdiv N64 (@fnat N64 a) (@fnat N64 b)).
Lemma term_64 a b : (a <= b)%nat -> small_n b -> b <> 0%nat ->
  is64 (tx a b) (tv a b) /\ 0 <= tv a b <= 1 /\ (tv a b = 0 <-> a = b) /\ (a = 0%nat -> tv a b = 1) /\ (a <> b -> ulp64 <= tv a b) /\
  Rabs (tv a b - (1 - INR a / INR b)) <= ulp64.
Proof.
  intros Hab Hb H0. destruct (frac_01 a b Hab Hb H0) as (F01 & F0 & F1). set (q := rnd64 (INR a / INR b)) in *.
  assert (Hq01 : 0 <= INR a / INR b <= 1) by (apply ratio_01; exact Hab).
  assert (Hq : is64 (@fdiv N64 (@fnat N64 a) (@fnat N64 b)) q).
  { apply fin_div; [apply fin_nat; eapply small_n_le; eauto|now apply fin_nat|now apply not_0_INR|]. apply rnd_bounded. pose proof pow53_ge_1. pose proof pow53_le_200. lra. }
  assert (Hlt : a <> b -> q <= 1 - ulp64).
  { intros Hne. apply rnd_le_fmt; [apply fmt_pred1|]. assert (Hs : INR a + 1 <= INR b) by (rewrite <- S_INR; apply le_INR; lia).
    pose proof (small_n_R b Hb) as Rb. assert (1 <= INR b) by (apply (le_INR 1); lia). apply (Rmult_le_reg_r (INR b)); [lra|]. unfold Rdiv. rewrite Rmult_assoc, Rinv_l, Rmult_1_r by lra.
    assert (ulp64 * INR b <= 1); [|lra]. unfold ulp64. apply (Rmult_le_reg_l (2 ^ 53)); [pose proof pow53_ge_1; lra|]. rewrite <- Rmult_assoc, Rinv_r by (pose proof pow53_ge_1; lra). lra. }
  unfold tv. fold q. assert (T01 : 0 <= rnd64 (1 - q) <= 1).
  { split; [apply rnd_ge_fmt; [apply fmt_0|lra]|apply rnd_le_fmt; [apply fmt_1|lra]]. }
  assert (Tu : a <> b -> ulp64 <= rnd64 (1 - q)) by (intros Hne; specialize (Hlt Hne); apply rnd_ge_fmt; [apply fmt_u|lra]).
  split; [|split; [exact T01|split; [split|split; [|split; [exact Tu|]]]]].
  - unfold tx. apply fin_sub; [apply (fin_one l1 l2 pw)|exact Hq|]. apply rnd_bounded. pose proof pow53_ge_1. pose proof pow53_le_200. lra.
  - intros Hz. destruct (Nat.eq_dec a b) as [|Hne]; [assumption|]. specialize (Tu Hne). pose proof u_pos. lra.
  - intros Heq. apply F1 in Heq. rewrite Heq. replace (1 - 1) with 0 by lra. apply rnd_0.
  - intros Ha. apply F0 in Ha. rewrite Ha, Rminus_0_r. apply rnd_fmt, fmt_1.
  - replace (rnd64 (1 - q) - (1 - INR a / INR b)) with ((rnd64 (1 - q) - (1 - q)) + - (q - INR a / INR b)) by ring.
    eapply Rle_trans; [apply Rabs_triang|]. rewrite Rabs_Ropp. pose proof (rnd_err (1 - q) ltac:(lra)). pose proof (rnd_err (INR a / INR b) Hq01). fold q in H1. lra.
Qed.

Variables (E : @env N64) (lvl : Z) (j : dict Z) (r : dict sf).
Hypothesis (Q : query64 E lvl j r).
Notation qr := (@to_rows N64 E Z (@q_tof N64) j).
Notation rr := (@to_rows N64 E sf (@r_tof N64) r).
Notation ds := (dkeys r).
Notation rel := (relevant j lvl).
Notation nR := (n_relevant j lvl).
Notation nN := (n_judged_nonrelevant j lvl).

Lemma Hlt64 : forall v, In v (map snd j) -> @fltb N64 (@fofZ N64 v) (@fofZ N64 lvl) = (v <? lvl)%Z.
Proof.
  intros v Hv. apply in_map_iff in Hv as ((d & v') & <- & Hin). pose proof (q64_vals _ _ _ _ Q) as Hs. rewrite Forall_forall in Hs. specialize (Hs _ Hin). cbn [snd] in *.
  cbn [fltb fofZ NumSF_with]. rewrite (ltb64 _ _ (IZR v') (IZR lvl)); [|now apply fin_ofZ|apply fin_ofZ; apply (q64_lvl _ _ _ _ Q)].
  destruct (Z.ltb_spec v' lvl); [apply Rlt_bool_true; now apply IZR_lt|apply Rlt_bool_false; now apply IZR_le].
Qed.
Lemma Rsum_filter (p : nat -> bool) (f : nat -> R) l : Rsum (map (fun i => if p i then f i else 0) l) = Rsum (map f (filter p l)).
Proof. induction l as [|i l IH]; [reflexivity|]. cbn [map Rsum filter]. destruct (p i); cbn [map Rsum]; rewrite IH; lra. Qed.
Lemma S_bpref_aboves : S_bpref j lvl ds = Rsum (map (fun c => 1 - INR (Nat.min c nR) / INR (Nat.min nR nN)) (aboves j lvl ds)) / INR nR.
Proof. unfold S_bpref, aboves, Rsum_n. rewrite map_map, Rsum_filter. reflexivity. Qed.
Lemma aboves_length : length (aboves j lvl ds) = count rel ds.
Proof.
  unfold aboves. rewrite map_length. clear. induction (ds) as [|d l IH]; [reflexivity|]. cbn [length]. rewrite <- cons_seq, <- seq_shift. cbn [filter nth count]. rewrite filter_map_g.
  assert (Hs : filter (fun x => rel (nth (S x) (d :: l) EmptyString)) (seq 0 (length l)) = filter (fun i => rel (nth i l EmptyString)) (seq 0 (length l))) by reflexivity.
  destruct (rel d); cbn [length Nat.add]; rewrite map_length; [apply f_equal|]; exact IH.
Qed.
Lemma aboves_le a : In a (aboves j lvl ds) -> (a <= nN)%nat.
Proof.
  unfold aboves. intros Ha. apply in_map_iff in Ha as (i & <- & _). rewrite (n_nonrel_count j lvl (q64_j _ _ _ _ Q)). unfold nonrel_above.
  apply count_NoDup_le; [apply NoDup_firstn, (q64_r _ _ _ _ Q)|]. intros x _ Hx. apply andb_true_iff in Hx as [Hx _]. now apply judged_in.
Qed.
Lemma hits_le : (count rel ds <= nR)%nat.
Proof. apply count_rel_le; [apply (q64_j _ _ _ _ Q)|apply (q64_r _ _ _ _ Q)]. Qed.

Lemma bpref_64 : nR <> 0%nat -> nN <> 0%nat -> exists x, @_bpref N64 qr rr lvl = Ok x /\ close_score (S (count rel ds)) x (S_bpref j lvl ds).
Proof.
  intros HR HN.
  pose proof (bpref_g E j lvl (Hle _ _ _ _ _ _ _ Q) Hlt64 eq_refl eq_refl eq_refl eq_refl r (q64_j _ _ _ _ Q) (q64_ids _ _ _ _ Q)) as Hg.
  change (@to_rows N64 E (@F N64) (@r_tof N64) r) with rr in Hg. change (@dkeys (@F N64) r) with (@dkeys sf r) in Hg.
  destruct (Nat.eqb_spec nR 0) as [|_]; [congruence|]. eexists. split; [exact Hg|]. clear Hg.
  set (A := aboves j lvl ds). set (b := Nat.min nR nN). assert (Hb0 : b <> 0%nat) by (unfold b; lia).
  pose proof hits_le as Hh. pose proof aboves_length as HA. fold A in HA. pose proof (small_rel _ _ _ _ _ _ _ Q) as SR.
  assert (Sb : small_n b) by (eapply small_n_le; [|exact SR]; unfold b; lia).
  assert (Sh : small_n (length A)) by (eapply small_n_le; [|exact SR]; lia).
  assert (Hab : forall a, In a A -> (Nat.min a nR <= b)%nat) by (intros a Ha; apply aboves_le in Ha; unfold b; lia).
  assert (HT : forall a, In a A -> _) by (intros a Ha; exact (term_64 (Nat.min a nR) b (Hab a Ha) Sb Hb0)).
  assert (R1 : 1 <= INR nR) by (apply (le_INR 1); lia). pose proof (small_n_R nR SR) as RB. pose proof u_pos as Hu.
  rewrite S_bpref_aboves. fold A b. set (S := Rsum (map (fun c => 1 - INR (Nat.min c nR) / INR b) A)). set (S' := Rsum (map (fun c => tv (Nat.min c nR) b) A)).
  change (map (fun c : nat => fsub fone (fdiv (fnat (Nat.min c nR)) (fnat b))) A) with (map (fun c => tx (Nat.min c nR) b) A).
  set (xs := map (fun c => tx (Nat.min c nR) b) A).
  (* the exact sums *)
  assert (HS' : 0 <= S' <= INR (length A) /\ (S' = 0 \/ ulp64 <= S') /\ Rabs (S' - S) <= INR (length A) * ulp64 /\ (S' = 0 <-> S = 0) /\ 0 <= S).
  { unfold S', S. clear - HT Hb0 Hab Hu. clearbody A. induction A as [|a A IH]; [cbn [map Rsum length INR]; rewrite Rminus_0_r, Rabs_R0; split; [lra|split; [left; lra|split; [lra|split; [tauto|lra]]]]|].
    destruct IH as (I1 & I2 & I3 & I4 & I5); [intros; apply Hab; now right|intros; apply HT; now right|]. destruct (HT a (or_introl eq_refl)) as (_ & T1 & T2 & _ & T3 & T4).
    pose proof (ratio_01 _ _ (Hab a (or_introl eq_refl))) as Hr. cbn [map Rsum length]. rewrite S_INR. set (s' := Rsum (map (fun c => tv (Nat.min c nR) b) A)) in *. set (s := Rsum (map (fun c => 1 - INR (Nat.min c nR) / INR b) A)) in *.
    set (t := INR (Nat.min a nR) / INR b) in *.
    assert (Ht : tv (Nat.min a nR) b = 0 <-> 1 - t = 0).
    { rewrite T2. unfold t. split; [intros ->; unfold Rdiv; rewrite Rinv_r by (now apply not_0_INR); lra|]. intros H1. apply INR_eq. apply (Rmult_eq_reg_r (/ INR b)); [|apply Rinv_neq_0_compat; now apply not_0_INR].
      rewrite Rinv_r by (now apply not_0_INR). unfold Rdiv in H1. lra. }
    split; [lra|]. split; [|split; [|split; [|lra]]].
    - destruct (Nat.eq_dec (Nat.min a nR) b) as [He|Hne]; [apply T2 in He; rewrite He; destruct I2; [left|right]; lra|]. specialize (T3 Hne). right. lra.
    - replace (tv (Nat.min a nR) b + s' - (1 - t + s)) with ((tv (Nat.min a nR) b - (1 - t)) + (s' - s)) by ring. eapply Rle_trans; [apply Rabs_triang|]. lra.
    - split; intros Hz.
      + assert (H1 : tv (Nat.min a nR) b = 0) by lra. assert (H2 : s' = 0) by lra. apply Ht in H1. apply I4 in H2. lra.
      + assert (H1 : 1 - t = 0) by lra. assert (H2 : s = 0) by lra. apply Ht in H1. apply I4 in H2. lra. }
  destruct HS' as (B1 & B2 & B3 & B4 & B5).
  (* the computed sum *)
  assert (W : within (length A) (@fsum N64 xs) S' /\ 0 <= S' /\ not_tiny S').
  { pose proof (fsum_within l1 l2 pw 0 xs (map (fun c => tv (Nat.min c nR) b) A)) as W. replace (length xs) with (length A) in W by (unfold xs; now rewrite map_length). apply W.
    - unfold xs. apply Forall2_map_same. intros a Ha. destruct (HT a Ha) as (T0 & T1 & T2 & _ & T3 & _). split; [now apply within_is64|]. split; [lra|].
      destruct (Nat.eq_dec (Nat.min a nR) b) as [He|Hne]; [left; now apply T2|right]. eapply Rle_trans; [|exact (T3 Hne)]. rewrite ulp64_bpow. apply bpow_le. lia.
    - unfold small_n in Sh. lia.
    - fold S'. pose proof (small_n_R _ Sh). pose proof pow53_ge_1. assert (2 ^ 53 * 1 <= 2 ^ 53 * 2 ^ 53) by (apply Rmult_le_compat_l; lra). lra. }
  destruct W as (W & _ & NT).
  assert (Bd : exists v, is64 (@fsum N64 xs) v /\ 0 <= v <= INR (length A)).
  { destruct (fsum_bound l1 l2 pw xs (map (fun _ => 1%nat) A)) as (v & Fv & Bv).
    - unfold xs. apply Forall2_map_same. intros a Ha. destruct (HT a Ha) as (T0 & T1 & _). exists (tv (Nat.min a nR) b). split; [exact T0|]. cbn [INR]. exact T1.
    - replace (list_sum (map (fun _ => 1%nat) A)) with (length A) by (clear; induction A; cbn; auto). exact Sh.
    - exists v. split; [exact Fv|]. replace (list_sum (map (fun _ => 1%nat) A)) with (length A) in Bv by (clear; induction A; cbn; auto). exact Bv. }
  destruct Bd as (v & Fv & Bv).
  assert (LE : INR (length A) <= INR nR) by (apply le_INR; lia).
  assert (Hq : 0 <= v / INR nR <= 1).
  { split; [apply Rmult_le_pos; [lra|left; apply Rinv_0_lt_compat; lra]|]. apply (Rmult_le_reg_r (INR nR)); [lra|]. unfold Rdiv. rewrite Rmult_assoc, Rinv_l by lra. lra. }
  assert (Fq : is64 (@fdiv N64 (@fsum N64 xs) (@fnat N64 nR)) (rnd64 (v / INR nR))).
  { apply fin_div; [exact Fv|now apply fin_nat|lra|]. apply rnd_bounded. pose proof pow53_ge_1. pose proof pow53_le_200. lra. }
  assert (WD : within (Datatypes.S (length A + 0)) (@fdiv N64 (@fsum N64 xs) (@fnat N64 nR)) (S' / INR nR)).
  { apply within_div.
    - exact W.
    - apply within_is64. now apply fin_nat.
    - pose proof (small_n_R _ Sh). pose proof pow53_ge_1. assert (2 ^ 53 * 1 <= 2 ^ 53 * 2 ^ 53) by (apply Rmult_le_compat_l; lra). lra.
    - exact R1.
    - exact NT.
    - eapply Rle_trans; [apply RB|]. rewrite <- bpow_53. apply bpow_le. lia.
    - destruct B2 as [B2|B2]; [now right|left]. eapply Rle_trans; [|exact B2]. rewrite ulp64_bpow. apply bpow_le. lia.
    - unfold small_n in Sh. lia. }
  rewrite Nat.add_0_r, HA in WD.
  assert (DZ : forall s, s / INR nR = 0 <-> s = 0).
  { intros s. split; [|intros ->; unfold Rdiv; ring]. intros Hz. apply (Rmult_eq_reg_r (/ INR nR)); [|apply Rinv_neq_0_compat; lra]. unfold Rdiv in Hz. lra. }
  split.
  - exists (S' / INR nR). split; [|exact WD]. replace (S' / INR nR - S / INR nR) with ((S' - S) * / INR nR) by (unfold Rdiv; ring).
    rewrite Rabs_mult. rewrite (Rabs_pos_eq (/ INR nR)) by (left; apply Rinv_0_lt_compat; lra). apply (Rmult_le_reg_r (INR nR)); [lra|]. rewrite Rmult_assoc, Rinv_l by lra. nra.
  - exists (rnd64 (v / INR nR)). split; [exact Fq|]. split; [|split].
    + split; [apply rnd_ge_fmt; [apply fmt_0|lra]|apply rnd_le_fmt; [apply fmt_1|lra]].
    + destruct WD as (w & Fw & Nw). rewrite (is64_fun _ _ _ Fq Fw). assert (Hp : 0 <= S' / INR nR) by (apply Rmult_le_pos; [lra|left; apply Rinv_0_lt_compat; lra]).
      rewrite (near_zero _ _ _ Hp (one_u _) Nw), !DZ. exact B4.
    + intros H1. assert (HS : S = INR nR) by (apply (Rmult_eq_reg_r (/ INR nR)); [|apply Rinv_neq_0_compat; lra]; rewrite Rinv_r by lra; exact H1).
      assert (Hone : (forall a, In a A -> Nat.min a nR = 0%nat) /\ length A = nR).
      { assert (HSle : S <= INR (length A) /\ (S = INR (length A) -> forall a, In a A -> Nat.min a nR = 0%nat)).
        { unfold S. clear - Hab Hb0. clearbody A. induction A as [|a A IH]; [cbn; split; [lra|easy]|]. destruct IH as (I1 & I2); [intros; apply Hab; now right|].
          pose proof (ratio_01 _ _ (Hab a (or_introl eq_refl))) as Hr. cbn [map Rsum length]. rewrite S_INR. set (s := Rsum (map (fun c => 1 - INR (Nat.min c nR) / INR b) A)) in *. set (t := INR (Nat.min a nR) / INR b) in *. split; [lra|].
          intros Hs a' [ <- |Ha']; [|apply I2; [lra|exact Ha']]. assert (Ht : t = 0) by lra. unfold t in Ht. apply INR_eq. cbn [INR]. apply (Rmult_eq_reg_r (/ INR b)); [|apply Rinv_neq_0_compat; now apply not_0_INR].
          unfold Rdiv in Ht. lra. }
        destruct HSle as (L1 & L2). assert (He : length A = nR) by (apply INR_eq; lra). split; [apply L2; rewrite He; exact HS|exact He]. }
      destruct Hone as (O1 & O2).
      assert (Fe : is64 (@fsum N64 xs) (INR (list_sum (map (fun _ => 1%nat) A)))).
      { apply fsum_exact.
        - unfold xs. apply Forall2_map_same. intros a Ha. destruct (HT a Ha) as (T0 & _ & _ & T1 & _). rewrite T1 in T0 by (now apply O1). exact T0.
        - replace (list_sum (map (fun _ => 1%nat) A)) with (length A) by (clear; induction A; cbn; auto). exact Sh. }
      replace (list_sum (map (fun _ => 1%nat) A)) with (length A) in Fe by (clear; induction A; cbn; auto).
      rewrite (is64_fun _ _ _ Fv Fe), O2. unfold Rdiv. rewrite Rinv_r by lra. apply rnd_fmt, fmt_1.
Qed.
End B.
