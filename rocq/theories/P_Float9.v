(** P_Float9.v: the scores of the metrics as [score64]s, and evaluate's means *)
From Coq Require Import Reals ZArith Lra Lia SpecFloat Psatz List Permutation String Sorted.
From Flocq Require Import Core.Core IEEE754.BinarySingleNaN.
From Verif Require Import Base Dict Num NumLaws Env M_Common M_Qrels M_Run M_Metrics M_Strings M_Evaluate Spec_Strings Spec_DS Spec_Hist Spec_Metrics Spec_Float Spec_Eval Spec_Float2
  P_Base P_Dict P_Metrics P_Metrics4 P_Float P_MetricsG P_Float2 P_Float3 P_Float4 P_Float5 P_Float8 P_Eval P_Eval3 P_EvalG T_Float.
Import ListNotations.
Open Scope R_scope.

Definition sep (s : R) : Prop := s = 0 \/ ulp64 <= s.
Definition sep2 (s : R) : Prop := s = 0 \/ ulp64 * ulp64 <= s.
Lemma ulp_lt_1 : ulp64 <= 1.
Proof. rewrite ulp64_bpow. change 1 with (bpow radix2 0). apply bpow_le. lia. Qed.
Lemma sep_sep2 s : sep s -> sep2 s.
Proof. pose proof u_pos. pose proof ulp_lt_1. intros [ -> |Hs]; [now left|right]. nra. Qed.
Lemma sep2_200 s : sep2 s -> s = 0 \/ / 2 ^ 200 <= s.
Proof.
  intros [ -> |Hs]; [now left|right]. eapply Rle_trans; [|exact Hs]. rewrite bpow_inv_200, !ulp64_bpow, <- bpow_plus. apply bpow_le. lia.
Qed.
Lemma quot_sep h n : (n <> 0)%nat -> small_n n -> sep (INR h / INR n).
Proof. intros Hn Hs. destruct h as [|h]; [left; cbn [INR]; unfold Rdiv; ring|right]. now apply quot_pos. Qed.
Lemma quot_le1 h n : (h <= n)%nat -> (n <> 0)%nat -> INR h / INR n <= 1.
Proof.
  intros Hh Hn. assert (1 <= INR n) by (apply (le_INR 1); lia). apply le_INR in Hh. apply (Rmult_le_reg_r (INR n)); [lra|]. unfold Rdiv. rewrite Rmult_assoc, Rinv_l by lra. lra.
Qed.
Lemma rounded_near x s : rounded_score x s -> 0 <= s -> s <= 1 -> sep s -> score64 1 x s.
Proof.
  intros (Hx & H01 & H0 & H1) Hs Hle Hsep. split; [|split; [exact Hs|apply sep2_200, sep_sep2, Hsep]]. split.
  - exists (rnd64 s). split; [exact Hx|]. rewrite pow_1. destruct Hsep as [ -> |Hsep]; [rewrite rnd_0; unfold Rdiv; lra|]. apply rnd_rel. eapply Rle_trans; [|exact Hsep]. rewrite ulp64_bpow. apply bpow_le. lia.
  - exists (rnd64 s). split; [exact Hx|]. split; [exact H01|]. split; [exact H0|apply H1].
Qed.
Lemma score64_mono c c' x s : (c <= c')%nat -> score64 c x s -> score64 c' x s.
Proof. intros Hc ((Hw & Hr) & Hs & Ht). split; [|split; [exact Hs|exact Ht]]. split; [|exact Hr]. eapply within_mono; eauto. Qed.

Section S.
Variables (l1 l2 : sf -> sf) (pw : sf -> sf -> sf).
Notation N64 := (NumSF_with l1 l2 pw).
Variables (E : @env N64) (lvl : Z) (j : dict Z) (r : dict sf).
Hypothesis (Q : query64 E lvl j r).
Variable k : nat.
Hypothesis Hk : small_n k.
Notation qr := (@to_rows N64 E Z (@q_tof N64) j).
Notation rr := (@to_rows N64 E sf (@r_tof N64) r).
Notation ds := (dkeys r).

Lemma precision_sep : sep (S_precision j lvl ds k) /\ 0 <= S_precision j lvl ds k <= 1.
Proof.
  unfold S_precision. pose proof (hits_le_depth j lvl ds k) as Hd. pose proof (small_depth _ _ _ _ _ _ _ Q k Hk) as Hs. destruct (depth ds k) as [|n]; [split; [now left|lra]|].
  split; [now apply quot_sep|]. split; [apply ratio_pos|]. now apply quot_le1.
Qed.
Lemma recall_sep : sep (S_recall j lvl ds k) /\ 0 <= S_recall j lvl ds k <= 1.
Proof.
  unfold S_recall. pose proof (hits_rel _ _ _ _ _ _ _ Q k) as Hd. pose proof (small_rel _ _ _ _ _ _ _ Q) as Hs. destruct (n_relevant j lvl) as [|n]; [split; [now left|lra]|].
  split; [now apply quot_sep|]. split; [apply ratio_pos|]. now apply quot_le1.
Qed.
Lemma r_precision_sep : sep (S_r_precision j lvl ds) /\ 0 <= S_r_precision j lvl ds <= 1.
Proof.
  unfold S_r_precision, S_precision. pose proof (hits_rel _ _ _ _ _ _ _ Q (n_relevant j lvl)) as Hd. pose proof (small_rel _ _ _ _ _ _ _ Q) as Hs. destruct (n_relevant j lvl) as [|n]; [split; [now left|lra]|].
  unfold depth. split; [now apply quot_sep|]. split; [apply ratio_pos|]. now apply quot_le1.
Qed.
Lemma mrr_sep : sep (S_mrr j lvl ds k) /\ 0 <= S_mrr j lvl ds k <= 1.
Proof.
  unfold S_mrr. destruct (first_pos _ _) as [n|] eqn:Hf; [|split; [now left|lra]].
  assert (Hs : small_n (n + 1)). { apply first_pos_lt in Hf. eapply small_n_le; [|exact (small_nr _ _ _ _ _ _ _ Q)]. pose proof (top_length_le ds k). lia. }
  change 1 with (INR 1) at 1 2. split; [apply quot_sep; [lia|exact Hs]|]. change 1 with (INR 1) at 1. split; [apply ratio_pos|]. apply quot_le1; lia.
Qed.
Lemma hit_rate_score : score64 0 (@_hit_rate N64 qr rr k lvl) (S_hit_rate j lvl ds k).
Proof.
  pose proof (hit_rate_64 _ _ _ _ _ _ _ Q k) as H. split.
  - split; [now apply within_is64|]. exists (S_hit_rate j lvl ds k). split; [exact H|]. unfold S_hit_rate. destruct existsb; repeat split; intros; lra.
  - unfold S_hit_rate. destruct existsb; [split; [lra|right]|split; [lra|now left]]. rewrite bpow_inv_200. change 1 with (bpow radix2 0). apply bpow_le. lia.
Qed.
Lemma precision_score : score64 1 (@_precision N64 qr rr k lvl) (S_precision j lvl ds k).
Proof. destruct precision_sep as (H1 & H2 & H3). apply rounded_near; auto. now apply precision_64. Qed.
Lemma recall_score : score64 1 (@_recall N64 qr rr k lvl) (S_recall j lvl ds k).
Proof. destruct recall_sep as (H1 & H2 & H3). apply rounded_near; auto. now apply recall_64. Qed.
Lemma r_precision_score : score64 1 (@_r_precision N64 qr rr lvl) (S_r_precision j lvl ds).
Proof. destruct r_precision_sep as (H1 & H2 & H3). apply rounded_near; auto. now apply r_precision_64. Qed.
Lemma mrr_score : score64 1 (@_reciprocal_rank N64 qr rr k lvl) (S_mrr j lvl ds k).
Proof. destruct mrr_sep as (H1 & H2 & H3). apply rounded_near; auto. now apply mrr_64. Qed.
Lemma f1_score : score64 6 (@_f1 N64 qr rr k lvl) (S_f1 j lvl ds k).
Proof.
  assert (H : sep2 (S_f1 j lvl ds k) /\ 0 <= S_f1 j lvl ds k).
  { unfold S_f1. destruct precision_sep as (H1 & H2 & H3). destruct recall_sep as (G1 & G2 & G3). set (p := S_precision j lvl ds k) in *. set (c := S_recall j lvl ds k) in *. pose proof u_pos as Hu.
    destruct (Req_EM_T (p + c) 0); [split; [now left|lra]|]. destruct H1 as [H1|H1]; [rewrite H1; split; [left; field; lra|]|destruct G1 as [G1|G1]; [rewrite G1; split; [left; field; lra|]|]].
    - replace (2 * 0 * c / (0 + c)) with 0 by (field; lra). lra.
    - replace (2 * p * 0 / (p + 0)) with 0 by (field; lra). lra.
    - assert (Hi : 1 / 2 <= / (p + c)). { replace (1 / 2) with (/ 2) by lra. apply Rinv_le; lra. }
      assert (Hm : ulp64 * ulp64 <= p * c) by (apply Rmult_le_compat; lra). split; [right|]; unfold Rdiv; nra. }
  split; [now apply f1_64|]. split; [apply H|]. apply sep2_200, H.
Qed.
Lemma map_score : score64 (length (top ds k) + 2) (@_average_precision N64 qr rr k lvl) (S_map j lvl ds k).
Proof.
  assert (H : sep2 (S_map j lvl ds k) /\ 0 <= S_map j lvl ds k).
  { unfold S_map. pose proof (small_rel _ _ _ _ _ _ _ Q) as Sn. destruct (n_relevant j lvl) as [|n]; [split; [now left|lra]|]. pose proof u_pos as Hu. pose proof (small_n_R _ Sn) as HnR.
    assert (Hn1 : 1 <= INR (S n)) by (apply (le_INR 1); lia).
    match goal with |- sep2 (?t / _) /\ _ => set (sm := t) end.
    assert (Hs : sep sm).
    { unfold sm, Rsum_n. apply Rsum_sep; [exact Hu|]. intros x Hx. apply in_map_iff in Hx as (i & <- & Hi). apply in_seq in Hi.
      exact (sx_sep l1 l2 pw E lvl j r Q k i ltac:(lia)). }
    assert (Hi : ulp64 <= / INR (S n)) by (unfold ulp64; apply Rinv_le; lra).
    destruct Hs as [Hs|Hs]; [rewrite Hs; unfold Rdiv; rewrite Rmult_0_l; split; [now left|lra]|]. unfold Rdiv. split; [right; apply Rmult_le_compat; lra|]. apply Rmult_le_pos; lra. }
  split; [now apply map_64|]. split; [apply H|]. apply sep2_200, H.
Qed.
End S.

Section A.
Context {l1 l2 : sf -> sf} {pw : sf -> sf -> sf}.
Notation N64 := (NumSF_with l1 l2 pw).
Variables (E : @env N64).
Hypothesis (HE : env_ok E).
(** the score array of a unit metric *)
Lemma unit_array name k lvl js rs L : In name unit_metrics -> (0 <= k)%Z -> small k -> Forall2 (query64 E lvl) js rs -> Forall (fun r => length r <= L)%nat rs ->
  exists f xs, metric_switch E name = Ok f /\ f (qrels_arg64 E js) (run_arg64 E rs) (KInt k) lvl = Ok xs /\
    Forall2 (fun jr x => exists s, metric_value name (fst jr) lvl (dkeys (snd jr)) (KInt k) s /\ score64 (L + 6) x s) (combine js rs) xs.
Proof.
  intros Hn Hk Hs Hq HL.
  assert (Hgo : forall m (P : dict Z -> Z -> list string -> nat -> sf -> Prop), metric_switch E name = Ok (int_k m) -> computes64 E m P ->
    (forall (j : dict Z) (r : dict sf) (x : sf), (length r <= L)%nat -> P j lvl (dkeys r) (Z.to_nat k) x -> exists s, metric_value name j lvl (dkeys r) (KInt k) s /\ score64 (L + 6) x s) ->
    exists f xs, metric_switch E name = Ok f /\ f (qrels_arg64 E js) (run_arg64 E rs) (KInt k) lvl = Ok xs /\
    Forall2 (fun jr x => exists s, metric_value name (fst jr) lvl (dkeys (snd jr)) (KInt k) s /\ score64 (L + 6) x s) (combine js rs) xs).
  { intros m P Hsw Hc HP. destruct (Hc js rs k lvl Hq Hk Hs) as (xs & Hx & HF). exists (int_k m), xs. split; [exact Hsw|]. split; [exact Hx|].
    assert (HL' : Forall (fun jr => (length (snd jr) <= L)%nat) (combine js rs)).
    { apply Forall_forall. intros [j r] Hin. apply in_combine_r in Hin. rewrite Forall_forall in HL. now apply HL. }
    clear - HF HP HL'. induction HF as [|jr x l xs Hx HF IH]; [constructor|]. inversion HL'; subst. constructor; auto. }
  assert (Hmono : forall c x s, score64 c x s -> (c <= L + 6)%nat -> score64 (L + 6) x s) by (intros; eapply score64_mono; eauto).
  cbn in Hn. repeat (destruct Hn as [<-|Hn]); [..|easy].
  - refine (Hgo _ (fun j lvl ds k x => score64 0 x (S_hit_rate j lvl ds k)) eq_refl _ _); [apply lift64; [exact HE|]; intros; now apply hit_rate_score|].
    intros j r x Hl HP. eexists. split; [constructor|]. eapply Hmono; [exact HP|lia].
  - refine (Hgo _ (fun j lvl ds k x => score64 1 x (S_precision j lvl ds k)) eq_refl _ _); [apply lift64; [exact HE|]; intros; now apply precision_score|].
    intros j r x Hl HP. eexists. split; [constructor|]. eapply Hmono; [exact HP|lia].
  - refine (Hgo _ (fun j lvl ds k x => score64 1 x (S_recall j lvl ds k)) eq_refl _ _); [apply lift64; [exact HE|]; intros; now apply recall_score|].
    intros j r x Hl HP. eexists. split; [constructor|]. eapply Hmono; [exact HP|lia].
  - refine (Hgo _ (fun j lvl ds k x => score64 6 x (S_f1 j lvl ds k)) eq_refl _ _); [apply lift64; [exact HE|]; intros; now apply f1_score|].
    intros j r x Hl HP. eexists. split; [constructor|]. eapply Hmono; [exact HP|lia].
  - refine (Hgo _ (fun j lvl ds k x => score64 1 x (S_r_precision j lvl ds)) eq_refl _ _); [apply par64; [exact HE|]; intros; now apply r_precision_score|].
    intros j r x Hl HP. eexists. split; [constructor|]. eapply Hmono; [exact HP|lia].
  - refine (Hgo _ (fun j lvl ds k x => score64 1 x (S_mrr j lvl ds k)) eq_refl _ _); [apply lift64; [exact HE|]; intros; now apply mrr_score|].
    intros j r x Hl HP. eexists. split; [constructor|]. eapply Hmono; [exact HP|lia].
  - refine (Hgo _ (fun j lvl ds k x => score64 (length (top ds k) + 2) x (S_map j lvl ds k)) eq_refl _ _); [apply lift64; [exact HE|]; intros; now apply map_score|].
    intros j r x Hl HP. eexists. split; [constructor|]. eapply Hmono; [exact HP|]. pose proof (top_length_le (dkeys r) (Z.to_nat k)) as Ht. unfold dkeys in Ht at 2. rewrite map_length in Ht. unfold sf in *. lia.
Qed.
End A.
