(** P_Float4.v: the metrics of one query in binary64 *)
From Coq Require Import Reals ZArith Lra Lia SpecFloat Psatz List.
From Flocq Require Import Core.Core IEEE754.BinarySingleNaN Mult_error.
From Verif Require Import Base Dict Num Env M_Common M_Qrels M_Run M_Metrics Spec_Metrics Spec_Float P_Base P_Dict P_Metrics P_Metrics2 P_Metrics4 P_Float P_MetricsG P_Float2 P_Float3.
Import ListNotations.
Open Scope R_scope.

Lemma near_zero c s r : 0 <= s -> 1 <= c -> near c s r -> (r = 0 <-> s = 0).
Proof.
  intros Hs Hc [H1 H2]. split.
  - intros ->. assert (Hi : 0 < / c) by (apply Rinv_0_lt_compat; lra). unfold Rdiv in H1. nra.
  - intros ->. unfold Rdiv in *. rewrite Rmult_0_l in *. lra.
Qed.
Lemma fmt_twice a : fmt a -> fmt (2 * a).
Proof. intros H. rewrite Rmult_comm. change 2 with (bpow radix2 1). apply mult_bpow_pos_exact_FLT; [exact H|lia]. Qed.
Lemma fmt_half : fmt (1 / 2).
Proof. replace (1 / 2) with (bpow radix2 (-1)) by (cbn; lra). apply generic_format_bpow. cbn. lia. Qed.
Lemma quot_pos h n : (h <> 0)%nat -> (n <> 0)%nat -> small_n n -> ulp64 <= INR h / INR n.
Proof.
  intros Hh Hn Hs. pose proof (small_n_R n Hs). assert (1 <= INR h) by (apply (le_INR 1); lia). assert (1 <= INR n) by (apply (le_INR 1); lia).
  unfold ulp64. apply Rle_trans with (/ INR n); [apply Rinv_le; lra|]. unfold Rdiv. rewrite <- (Rmult_1_l (/ INR n)) at 1. apply Rmult_le_compat_r; [left; apply Rinv_0_lt_compat; lra|lra].
Qed.
Lemma quot_normal h n : (h <> 0)%nat -> (n <> 0)%nat -> small_n n -> bpow radix2 (-1022) <= INR h / INR n.
Proof.
  intros Hh Hn Hs. apply Rle_trans with ulp64; [|now apply quot_pos]. rewrite ulp64_bpow. apply bpow_le. lia.
Qed.
Lemma quot_not_tiny h n : (n <> 0)%nat -> small_n n -> not_tiny (INR h / INR n).
Proof.
  intros Hn Hs. destruct h as [|h]; [left; cbn [INR]; unfold Rdiv; lra|right]. apply Rle_trans with ulp64; [|now apply quot_pos]. rewrite ulp64_bpow. apply bpow_le. lia.
Qed.
Lemma ratio_pos h n : 0 <= INR h / INR n.
Proof.
  destruct n as [|n]; [unfold Rdiv; cbn [INR]; rewrite Rinv_0; lra|]. apply Rmult_le_pos; [apply pos_INR|]. left. apply Rinv_0_lt_compat. apply lt_0_INR. lia.
Qed.

Section S.
Variables (l1 l2 : sf -> sf) (pw : sf -> sf -> sf).
Notation N64 := (NumSF_with l1 l2 pw).

Lemma quot_within h n : small_n h -> small_n n -> (n <> 0)%nat -> within 1 (@fdiv N64 (@count_f N64 h) (@fnat N64 n)) (INR h / INR n).
Proof.
  intros Hh Hn H0. exists (rnd64 (INR h / INR n)). split; [now apply fin_quot|]. rewrite pow_1. destruct h as [|h].
  - cbn [INR]. unfold Rdiv. rewrite !Rmult_0_l, rnd_0. lra.
  - apply rnd_rel. now apply quot_normal.
Qed.

Variables (E : @env N64) (lvl : Z) (j : dict Z) (r : dict sf).
Hypothesis (Q : query64 E lvl j r).
Notation qr := (@to_rows N64 E Z (@q_tof N64) j).
Notation rr := (@to_rows N64 E sf (@r_tof N64) r).
Notation ds := (dkeys r).
Notation rel := (relevant j lvl).

Lemma Hle : forall v, In v (map snd j) -> @fleb N64 (@fofZ N64 lvl) (@fofZ N64 v) = (lvl <=? v)%Z.
Proof.
  intros v Hv. apply in_map_iff in Hv as ((d & v') & <- & Hin). pose proof (q64_vals _ _ _ _ Q) as Hs. rewrite Forall_forall in Hs. specialize (Hs _ Hin). cbn [snd] in *.
  cbn [fleb fofZ NumSF_with]. rewrite (leb64 _ _ (IZR lvl) (IZR v')); [|apply fin_ofZ; apply (q64_lvl _ _ _ _ Q)|now apply fin_ofZ].
  destruct (Z.leb_spec lvl v'); [apply Rle_bool_true; now apply IZR_le|apply Rle_bool_false; now apply IZR_lt].
Qed.
Lemma small_nj : small_n (length j).
Proof. pose proof (q64_nj _ _ _ _ Q) as H. unfold small_n in *. lia. Qed.
Lemma small_nr : small_n (length ds).
Proof. pose proof (q64_nr _ _ _ _ Q) as H. unfold small_n, dkeys in *. rewrite map_length. unfold sf in *. eapply Z.le_trans; [exact H|]. lia. Qed.
Lemma nodup_r : NoDup ds.
Proof. exact (q64_r _ _ _ _ Q). Qed.
Lemma small_rel : small_n (n_relevant j lvl).
Proof. eapply small_n_le; [|exact small_nj]. unfold n_relevant. apply count_le_length. Qed.
Lemma hits_rel k : (S_hits j lvl ds k <= n_relevant j lvl)%nat.
Proof. apply hits_le_rel; [exact (q64_j _ _ _ _ Q)|exact nodup_r]. Qed.
Lemma small_hits k : small_n (S_hits j lvl ds k).
Proof. eapply small_n_le; [apply hits_rel|apply small_rel]. Qed.
Variable k : nat.
Hypothesis Hk : small_n k.
Lemma small_depth : small_n (depth ds k).
Proof. unfold depth. destruct k; [exact small_nr|exact Hk]. Qed.

Lemma hits_64 : is64 (@_hits N64 qr rr k lvl) (INR (S_hits j lvl ds k)).
Proof.
  rewrite (hits_g E j lvl Hle r (q64_j _ _ _ _ Q) (q64_ids _ _ _ _ Q)). apply fin_count. apply small_hits.
Qed.
Lemma hit_rate_64 : is64 (@_hit_rate N64 qr rr k lvl) (S_hit_rate j lvl ds k).
Proof.
  rewrite (hit_rate_g E j lvl Hle r (q64_j _ _ _ _ Q) (q64_ids _ _ _ _ Q)). unfold S_hit_rate, rkg. change (@dkeys (@F N64) r) with (@dkeys sf r). destruct existsb; [apply fin_one|apply fin_zero].
Qed.
Lemma rounded_zero : rounded_score (@fzero N64) 0.
Proof. unfold rounded_score. rewrite rnd_0. split; [apply (fin_zero l1 l2 pw)|]. repeat split; intros; lra. Qed.
Lemma rounded_quot h n : (h <= n)%nat -> small_n n -> (n <> 0)%nat -> rounded_score (@fdiv N64 (@count_f N64 h) (@fnat N64 n)) (INR h / INR n).
Proof.
  intros Hh Hn H0. destruct (frac_01 h n Hh Hn H0) as (H1 & H2 & H3). assert (Hn1 : 1 <= INR n) by (apply (le_INR 1); lia). split; [apply fin_quot; auto; eapply small_n_le; eauto|]. split; [exact H1|]. split.
  - rewrite H2. split; [intros ->; cbn [INR]; unfold Rdiv; lra|]. intros H. destruct h; [reflexivity|exfalso]. assert (0 < INR (S h) / INR n); [|lra].
    apply Rmult_lt_0_compat; [apply lt_0_INR; lia|apply Rinv_0_lt_compat; lra].
  - rewrite H3. split; [intros ->; field; lra|]. intros H. apply INR_eq. apply (Rmult_eq_compat_r (INR n)) in H. unfold Rdiv in H. rewrite Rmult_assoc, Rinv_l in H by lra. lra.
Qed.
Lemma precision_64 : rounded_score (@_precision N64 qr rr k lvl) (S_precision j lvl ds k).
Proof.
  rewrite (precision_g E j lvl Hle r (q64_j _ _ _ _ Q) (q64_ids _ _ _ _ Q)). unfold S_precision, rkg. change (@dkeys (@F N64) r) with (@dkeys sf r). pose proof (hits_le_depth j lvl ds k) as Hd. pose proof small_depth as Hs.
  destruct (depth ds k) as [|n]; [exact rounded_zero|]. apply rounded_quot; auto.
Qed.
Lemma recall_64 : rounded_score (@_recall N64 qr rr k lvl) (S_recall j lvl ds k).
Proof.
  rewrite (recall_g E j lvl Hle r (q64_j _ _ _ _ Q) (q64_ids _ _ _ _ Q)). unfold S_recall, rkg. change (@dkeys (@F N64) r) with (@dkeys sf r). pose proof (hits_rel k) as Hd. pose proof small_rel as Hs. pose proof (hits_le_depth j lvl ds k) as Hd0.
  destruct (n_relevant j lvl) as [|n]; [exact rounded_zero|]. destruct (depth ds k) as [|m] eqn:Hm; [|apply rounded_quot; auto].
  replace (S_hits j lvl ds k) with 0%nat by lia. cbn [INR]. replace (0 / _) with 0 by (unfold Rdiv; ring). exact rounded_zero.
Qed.
Lemma r_precision_64 : rounded_score (@_r_precision N64 qr rr lvl) (S_r_precision j lvl ds).
Proof.
  refine (eq_ind_r (fun x => rounded_score x _) _ (r_precision_g E j lvl Hle r (q64_j _ _ _ _ Q) (q64_ids _ _ _ _ Q))). unfold S_r_precision, S_precision, rkg. change (@dkeys (@F N64) r) with (@dkeys sf r). pose proof (hits_rel (n_relevant j lvl)) as Hd. pose proof small_rel as Hs.
  destruct (n_relevant j lvl) as [|n]; [exact rounded_zero|]. unfold depth. apply rounded_quot; auto.
Qed.
Lemma first_pos_lt p (l : list string) n : first_pos p l = Some n -> (n < length l)%nat.
Proof.
  revert n. induction l as [|d l IH]; intros n; cbn; [discriminate|]. destruct (p d); [intros [= <-]; lia|]. destruct (first_pos p l) as [m|]; cbn; [|discriminate]. intros [= <-]. specialize (IH m eq_refl). lia.
Qed.
Lemma mrr_64 : rounded_score (@_reciprocal_rank N64 qr rr k lvl) (S_mrr j lvl ds k).
Proof.
  rewrite (mrr_g E j lvl Hle r (q64_j _ _ _ _ Q) (q64_ids _ _ _ _ Q)). unfold S_mrr, rkg. change (@dkeys (@F N64) r) with (@dkeys sf r). destruct (first_pos rel (top ds k)) as [n|] eqn:Hf; [|exact rounded_zero].
  assert (Hs : small_n (n + 1)). { apply first_pos_lt in Hf. eapply small_n_le; [|exact small_nr]. pose proof (top_length_le ds k). lia. }
  destruct (frac_01 1 (n + 1) ltac:(lia) Hs ltac:(lia)) as (H1 & H2 & H3). change (INR 1) with 1 in *. assert (Hn1 : 1 <= INR (n + 1)) by (apply (le_INR 1); lia).
  split; [|split; [exact H1|split]].
  - apply fin_div; [apply (fin_one l1 l2 pw)|apply (fin_nat l1 l2 pw); exact Hs|lra|]. apply rnd_bounded. apply (quot_bounds 1); [unfold small_n; cbn; lia|lia].
  - rewrite H2. split; [discriminate|]. intros H. exfalso. assert (0 < 1 / INR (n + 1)); [|lra]. apply Rmult_lt_0_compat; [lra|apply Rinv_0_lt_compat; lra].
  - rewrite H3. split; [intros H; rewrite <- H; cbn; field|]. intros H. apply INR_eq. change (INR 1) with 1. apply (Rmult_eq_compat_r (INR (n + 1))) in H. unfold Rdiv in H. rewrite Rmult_assoc, Rinv_l in H by lra. lra.
Qed.

(** *** f1 *)
Lemma near_score_zero n : near_score n (@fzero N64) 0.
Proof. split; [exists 0; split; [apply (fin_zero l1 l2 pw)|unfold Rdiv; lra]|]. exists 0. split; [apply (fin_zero l1 l2 pw)|]. repeat split; intros; lra. Qed.
Lemma f1_num h m n : (h <= m)%nat -> (h <= n)%nat -> small_n m -> small_n n -> (m <> 0)%nat -> (n <> 0)%nat -> (h <> 0)%nat ->
  let p := @fdiv N64 (@count_f N64 h) (@fnat N64 m) in let rc := @fdiv N64 (@count_f N64 h) (@fnat N64 n) in
  let P := INR h / INR m in let Rc := INR h / INR n in
  sf_eqb (sf_add p rc) (sf_of_Z 0) = false /\ near_score 6 (sf_mul (sf_of_Z 2) (sf_div (sf_mul p rc) (sf_add p rc))) (2 * P * Rc / (P + Rc)).
Proof.
  intros Hm Hn Sm Sn Zm Zn Zh p rc P Rc. assert (Sh : small_n h) by (eapply small_n_le; eauto). pose proof u_pos as Hu.
  destruct (rounded_quot h m Hm Sm Zm) as (Fp & Bp & Ep0 & Ep1). destruct (rounded_quot h n Hn Sn Zn) as (Fr & Br & Er0 & Er1). fold P in Fp, Bp, Ep0, Ep1. fold Rc in Fr, Br, Er0, Er1. fold p in Fp. fold rc in Fr.
  pose proof (quot_pos h m Zh Zm Sm) as Pp. pose proof (quot_pos h n Zh Zn Sn) as Pr. fold P in Pp. fold Rc in Pr.
  assert (Hul : ulp64 <= rnd64 P) by (apply rnd_ge_fmt; [apply fmt_u|exact Pp]). assert (Hur : ulp64 <= rnd64 Rc) by (apply rnd_ge_fmt; [apply fmt_u|exact Pr]).
  assert (NP : near (1 + ulp64) P (rnd64 P)) by (apply rnd_rel; now apply quot_normal). assert (NR : near (1 + ulp64) Rc (rnd64 Rc)) by (apply rnd_rel; now apply quot_normal).
  set (a := rnd64 P) in *. set (b := rnd64 Rc) in *. pose proof (fmt_rnd P) as fP. pose proof (fmt_rnd Rc) as fR. fold a in fP. fold b in fR.
  assert (HP1 : P <= 1 /\ Rc <= 1). { split; [apply (ratio_01 h m Hm)|apply (ratio_01 h n Hn)]. } destruct HP1 as [HP1 HR1].
  assert (Hbig : 4 <= 2 ^ 200). { replace 4 with (2 ^ 2) by (cbn; lra). apply Rle_pow; [lra|lia]. }
  assert (Fadd : is64 (sf_add p rc) (rnd64 (a + b))) by (apply fin_add; auto; apply rnd_bounded; lra).
  assert (Fmul : is64 (sf_mul p rc) (rnd64 (a * b))) by (apply fin_mul; auto; apply rnd_bounded; nra).
  (* the smaller of the two *)
  assert (Hmin : exists c, fmt c /\ ulp64 <= c <= 1 /\ a * b <= c /\ 2 * c <= a + b).
  { destruct (Rle_dec a b); [exists a|exists b]; (split; [assumption|]); (split; [lra|]); split; nra. }
  destruct Hmin as (c & fc & Bc & Hcm & Hca). assert (Hmul : rnd64 (a * b) <= c) by (apply rnd_le_fmt; auto). assert (Hadd : 2 * c <= rnd64 (a + b)) by (apply rnd_ge_fmt; [now apply fmt_twice|exact Hca]).
  assert (Hmul0 : 0 <= rnd64 (a * b)) by (apply rnd_ge_fmt; [apply fmt_0|nra]).
  assert (Hq : 0 <= rnd64 (a * b) / rnd64 (a + b) <= 1 / 2).
  { split; [apply Rmult_le_pos; [exact Hmul0|left; apply Rinv_0_lt_compat; lra]|]. apply (Rmult_le_reg_r (rnd64 (a + b))); [lra|]. unfold Rdiv at 1. rewrite Rmult_assoc, Rinv_l by lra. lra. }
  assert (Fdiv : is64 (sf_div (sf_mul p rc) (sf_add p rc)) (rnd64 (rnd64 (a * b) / rnd64 (a + b)))) by (apply fin_div; auto; [lra|apply rnd_bounded; lra]).
  set (q := rnd64 (rnd64 (a * b) / rnd64 (a + b))) in *. assert (Hq2 : 0 <= q <= 1 / 2) by (split; [apply rnd_ge_fmt; [apply fmt_0|tauto]|apply rnd_le_fmt; [apply fmt_half|tauto]]).
  assert (fq : fmt (2 * q)) by (apply fmt_twice; apply fmt_rnd).
  assert (Ffin : is64 (sf_mul (sf_of_Z 2) (sf_div (sf_mul p rc) (sf_add p rc))) (2 * q)).
  { rewrite <- (rnd_fmt _ fq). apply fin_mul; [apply (fin_two l1 l2 pw)|exact Fdiv|]. rewrite (rnd_fmt _ fq). rewrite <- (rnd_fmt _ fq). apply rnd_bounded. lra. }
  split.
  { rewrite (eqb64 _ _ (rnd64 (a + b)) 0); [|exact Fadd|apply (fin_zero l1 l2 pw)]. apply Req_bool_false. lra. }
  assert (HS : 0 < P + Rc) by lra. assert (HPR : ulp64 * ulp64 <= P * Rc) by nra.
  assert (Hsm : forall e1 e2, bpow radix2 (-53) * bpow radix2 (-53) = bpow radix2 (-106) -> e1 = e2 :> nat -> True) by auto. clear Hsm.
  pose proof (pow_le_16 6 ltac:(cbn; lia)) as H6. 
  assert (G : forall n, (n <= 6)%nat -> 1 <= (1 + ulp64) ^ n <= 16) by (intros n0 Hn0; apply pow_le_16; cbn; lia).
  assert (Ntm : not_tiny (P * Rc)). { right. apply Rle_trans with (ulp64 * ulp64); [|exact HPR]. rewrite ulp64_bpow, <- bpow_plus. apply bpow_le. lia. }
  assert (Nta : not_tiny (P + Rc)). { right. apply Rle_trans with ulp64; [|lra]. rewrite ulp64_bpow. apply bpow_le. lia. }
  assert (N1 : near ((1 + ulp64) ^ 3) (P * Rc) (rnd64 (a * b))).
  { replace ((1 + ulp64) ^ 3) with ((1 + ulp64) * (1 + ulp64) * (1 + ulp64)) by (cbn; ring). apply near_rnd; [nra|nra| |apply near_mul; lra || assumption].
    apply tiny_guard; [nra|specialize (G 2%nat ltac:(lia)); cbn in G; lra|exact Ntm]. }
  assert (N2 : near ((1 + ulp64) ^ 2) (P + Rc) (rnd64 (a + b))).
  { replace ((1 + ulp64) ^ 2) with ((1 + ulp64) * (1 + ulp64)) by (cbn; ring). apply near_rnd; [lra|lra| |apply near_add; assumption].
    apply tiny_guard; [lra|specialize (G 1%nat ltac:(lia)); cbn in G; lra|exact Nta]. }
  assert (N3 : near ((1 + ulp64) ^ 5) (P * Rc / (P + Rc)) (rnd64 (a * b) / rnd64 (a + b))).
  { replace ((1 + ulp64) ^ 5) with ((1 + ulp64) ^ 3 * (1 + ulp64) ^ 2) by (cbn; ring). unfold Rdiv. pose proof (G 3%nat ltac:(lia)). pose proof (G 2%nat ltac:(lia)). apply near_mul; try lra; [nra|left; apply Rinv_0_lt_compat; lra|exact N1|]. apply near_inv; [lra|lra|exact N2]. }
  assert (Hs0 : ulp64 * ulp64 / 2 <= P * Rc / (P + Rc)).
  { apply (Rmult_le_reg_r (P + Rc)); [lra|]. unfold Rdiv at 2. rewrite (Rmult_assoc (P * Rc)), Rinv_l by lra. nra. }
  assert (N4 : near ((1 + ulp64) ^ 6) (P * Rc / (P + Rc)) q).
  { replace ((1 + ulp64) ^ 6) with ((1 + ulp64) ^ 5 * (1 + ulp64)) by (cbn; ring). apply near_rnd; [nra|apply G; lia| |exact N3]. apply tiny_guard; [nra|apply G; lia|]. right. apply Rle_trans with (ulp64 * ulp64 / 2); [|exact Hs0].
    rewrite ulp64_bpow. replace (/ 2) with (bpow radix2 (-1)) by (cbn; lra). unfold Rdiv. replace (/ 2) with (bpow radix2 (-1)) by (cbn; lra). rewrite <- !bpow_plus. apply bpow_le. lia. }
  assert (N5 : near ((1 + ulp64) ^ 6) (2 * P * Rc / (P + Rc)) (2 * q)).
  { destruct N4 as [A B]. split; [replace (2 * P * Rc / (P + Rc) / (1 + ulp64) ^ 6) with (2 * (P * Rc / (P + Rc) / (1 + ulp64) ^ 6)) by (field; split; lra); lra|].
    replace (2 * P * Rc / (P + Rc)) with (2 * (P * Rc / (P + Rc))) by (field; lra). lra. }
  assert (Hs : 0 <= 2 * P * Rc / (P + Rc)). { replace (2 * P * Rc / (P + Rc)) with (2 * (P * Rc / (P + Rc))) by (field; lra). nra. }
  split; [exists (2 * q); split; [exact Ffin|exact N5]|]. exists (2 * q). split; [exact Ffin|]. split; [lra|]. split; [apply (near_zero _ _ _ Hs (proj1 H6) N5)|].
  intros H1. assert (H2 : 2 * P * Rc = P + Rc). { apply (Rmult_eq_compat_r (P + Rc)) in H1. unfold Rdiv in H1. rewrite Rmult_assoc, Rinv_l in H1 by lra. lra. }
  assert (P = 1 /\ Rc = 1) as [P1 R1]. { assert (P * (1 - Rc) = 0) by nra. assert (Rc * (1 - P) = 0) by nra. nra. }
  assert (a = 1) by (apply Ep1; exact P1). assert (b = 1) by (apply Er1; exact R1). unfold q. rewrite H, H0. replace (1 * 1) with 1 by ring. replace (1 + 1) with 2 by ring. rewrite (rnd_fmt 1 fmt_1), (rnd_fmt 2), (rnd_fmt (1 / 2) fmt_half); [lra|].
  replace 2 with (2 * 1) by ring. apply fmt_twice, fmt_1.
Qed.
Lemma f1_64 : near_score 6 (@_f1 N64 qr rr k lvl) (S_f1 j lvl ds k).
Proof.
  rewrite (f1_g E j lvl Hle r (q64_j _ _ _ _ Q) (q64_ids _ _ _ _ Q)). unfold S_f1, S_precision, S_recall, rkg. change (@dkeys (@F N64) r) with (@dkeys sf r).
  pose proof (hits_rel k) as Hn. pose proof small_rel as Sn. pose proof (hits_le_depth j lvl ds k) as Hm. pose proof small_depth as Sm.
  destruct (n_relevant j lvl) as [|n]; [|destruct (depth ds k) as [|m]].
  - replace (S_hits j lvl ds k) with 0%nat by lia. destruct (Req_EM_T _ 0); [apply near_score_zero|]. replace (2 * _ * 0 / _) with 0 by (unfold Rdiv; ring). apply near_score_zero.
  - destruct (Req_EM_T _ 0); [apply near_score_zero|]. replace (2 * 0 * _ / _) with 0 by (unfold Rdiv; ring). apply near_score_zero.
  - destruct (S_hits j lvl ds k) as [|h] eqn:Hh.
    + assert (Z : forall x : R, INR 0 / x = 0) by (intros; cbn; unfold Rdiv; ring). rewrite !Z. destruct (Req_EM_T _ 0); [|exfalso; lra]. cbn [count_f].
      assert (F0 : forall x, small_n (S x) -> is64 (@fdiv N64 (@fzero N64) (@fnat N64 (S x))) 0).
      { intros x Hx. pose proof (fin_quot l1 l2 pw 0 (S x) ltac:(unfold small_n; cbn; lia) Hx ltac:(lia)) as H. cbn [count_f] in H. now rewrite Z, rnd_0 in H. }
      cbv zeta. pose proof (F0 m Sm) as A. pose proof (F0 n Sn) as B.
      assert (C : is64 (@fadd N64 (@fdiv N64 (@fzero N64) (@fnat N64 (S m))) (@fdiv N64 (@fzero N64) (@fnat N64 (S n)))) 0).
      { pose proof (fin_add _ _ _ _ A B) as H. rewrite Rplus_0_l, rnd_0, Rabs_R0 in H. apply H. apply bpow_gt_0. }
      assert (D : @feqb N64 (@fadd N64 (@fdiv N64 (@fzero N64) (@fnat N64 (S m))) (@fdiv N64 (@fzero N64) (@fnat N64 (S n)))) (@fzero N64) = true).
      { cbn [feqb NumSF_with]. etransitivity; [exact (eqb64 _ _ 0 0 C (fin_zero l1 l2 pw))|]. apply Req_bool_true. reflexivity. }
      rewrite D. apply near_score_zero.
    + destruct (f1_num (S h) (S m) (S n) Hm Hn Sm Sn ltac:(lia) ltac:(lia) ltac:(lia)) as [A B]. cbv zeta in *.
      assert (Hpos : forall n', 0 < INR (S h) / INR (S n')) by (intros n'; apply Rmult_lt_0_compat; [apply lt_0_INR; lia|apply Rinv_0_lt_compat, lt_0_INR; lia]).
      destruct (Req_EM_T _ 0) as [e|_]; [pose proof (Hpos m); pose proof (Hpos n); exfalso; lra|].
      change (@feqb N64) with sf_eqb. change (@fadd N64) with sf_add. change (@fzero N64) with (sf_of_Z 0). rewrite A. exact B.
Qed.
End S.
