(** T_Float.v: theorems C76-C78: the metric functions in binary64 arithmetic *)
From Coq Require Import Reals ZArith Lra Lia SpecFloat Psatz List String Sorted Permutation.
From Flocq Require Import Core.Core IEEE754.BinarySingleNaN.
From Verif Require Import Base Dict Num NumLaws Env M_Common M_Qrels M_Run M_Metrics Spec_Metrics Spec_MetricsAPI Spec_Float
  P_Base P_Dict P_Metrics P_Metrics2 P_Metrics3 P_Metrics4 P_Metrics5 P_Metrics7 T_Metrics T_Metrics2 EnvEx
  P_Float P_MetricsG P_Float2 P_Float3 P_Float4 P_Float5 P_Float6 P_Float7.
Import ListNotations.
Open Scope list_scope.
Open Scope R_scope.

Section Lift.
Context {l1 l2 : sf -> sf} {pw : sf -> sf -> sf}.
Notation N64 := (NumSF_with l1 l2 pw).
Lemma small_to_n k : (0 <= k)%Z -> small k -> small_n (Z.to_nat k).
Proof. unfold small, small_n. lia. Qed.
Lemma Forall2_len {A B} (P : A -> B -> Prop) l l' : Forall2 P l l' -> length l = length l'.
Proof. induction 1; cbn; auto. Qed.
Lemma lift64 (E : env N64) (HE : env_ok E) (f : @rows N64 -> @rows N64 -> nat -> Z -> sf) tag (P : dict Z -> Z -> list string -> nat -> sf -> Prop) :
  (forall j r lvl k, query64 E lvl j r -> small_n k -> P j lvl (dkeys r) k (f (@to_rows N64 E Z (@q_tof N64) j) (@to_rows N64 E sf (@r_tof N64) r) k lvl)) ->
  computes64 E (@lift4 N64 E f tag) P.
Proof.
  intros H js rs k lvl Hq Hk Hs. eexists. split; [apply (lift4_g E HE f tag js rs k lvl Hk); eapply Forall2_len; exact Hq|].
  revert Hq. clear - H Hk Hs. induction 1 as [|j r js rs Hjr Hq IH]; cbn; constructor; auto. cbn. apply H; [exact Hjr|now apply small_to_n].
Qed.
Lemma par64 (E : env N64) (HE : env_ok E) (f : @rows N64 -> @rows N64 -> Z -> sf) tag (P : dict Z -> Z -> list string -> nat -> sf -> Prop) :
  (forall j r lvl k, query64 E lvl j r -> P j lvl (dkeys r) k (f (@to_rows N64 E Z (@q_tof N64) j) (@to_rows N64 E sf (@r_tof N64) r) lvl)) ->
  computes64 E (fun qs rs _ lvl => @parallel N64 sf E tag (@fzero N64) qs rs (fun q r => Ok (f q r lvl))) P.
Proof.
  intros H js rs k lvl Hq Hk Hs. unfold qrels_arg64, run_arg64. eexists. split; [apply (P_Metrics6.parallel_map E tag (@fzero N64) _ _ _ (fun q r => f q r lvl) HE)|].
  - clear - Hq. induction Hq; cbn; constructor; auto.
  - clear - H Hq. induction Hq as [|j r js rs Hjr Hq IH]; cbn; constructor; auto.
Qed.
End Lift.

(** ** C76 hits and hit rate are exact; precision, recall, r-precision and reciprocal rank are the exact value rounded once *)
Theorem C76_hits_exact : forall l1 l2 pw (E : @env (NumSF_with l1 l2 pw)), env_ok E ->
  computes64 E (@hits (NumSF_with l1 l2 pw) E) (fun j lvl ds k x => is64 x (INR (S_hits j lvl ds k))).
Proof. intros l1 l2 pw E HE. apply lift64; [exact HE|]. intros j r lvl k Q Hk. now apply hits_64. Qed.
Theorem C76_hit_rate_exact : forall l1 l2 pw (E : @env (NumSF_with l1 l2 pw)), env_ok E ->
  computes64 E (@hit_rate (NumSF_with l1 l2 pw) E) (fun j lvl ds k x => is64 x (S_hit_rate j lvl ds k)).
Proof. intros l1 l2 pw E HE. apply lift64; [exact HE|]. intros j r lvl k Q Hk. now apply hit_rate_64. Qed.
Theorem C76_precision_rounded : forall l1 l2 pw (E : @env (NumSF_with l1 l2 pw)), env_ok E ->
  computes64 E (@precision (NumSF_with l1 l2 pw) E) (fun j lvl ds k x => rounded_score x (S_precision j lvl ds k)).
Proof. intros l1 l2 pw E HE. apply lift64; [exact HE|]. intros j r lvl k Q Hk. now apply precision_64. Qed.
Theorem C76_recall_rounded : forall l1 l2 pw (E : @env (NumSF_with l1 l2 pw)), env_ok E ->
  computes64 E (@recall (NumSF_with l1 l2 pw) E) (fun j lvl ds k x => rounded_score x (S_recall j lvl ds k)).
Proof. intros l1 l2 pw E HE. apply lift64; [exact HE|]. intros j r lvl k Q Hk. now apply recall_64. Qed.
Theorem C76_r_precision_rounded : forall l1 l2 pw (E : @env (NumSF_with l1 l2 pw)), env_ok E ->
  computes64 E (@r_precision (NumSF_with l1 l2 pw) E) (fun j lvl ds k x => rounded_score x (S_r_precision j lvl ds)).
Proof. intros l1 l2 pw E HE. apply par64; [exact HE|]. intros j r lvl k Q. now apply r_precision_64. Qed.
Theorem C76_mrr_rounded : forall l1 l2 pw (E : @env (NumSF_with l1 l2 pw)), env_ok E ->
  computes64 E (@reciprocal_rank (NumSF_with l1 l2 pw) E) (fun j lvl ds k x => rounded_score x (S_mrr j lvl ds k)).
Proof. intros l1 l2 pw E HE. apply lift64; [exact HE|]. intros j r lvl k Q Hk. now apply mrr_64. Qed.
Print Assumptions C76_hits_exact.
Print Assumptions C76_hit_rate_exact.
Print Assumptions C76_precision_rounded.
Print Assumptions C76_recall_rounded.
Print Assumptions C76_r_precision_rounded.
Print Assumptions C76_mrr_rounded.

(** ** C77 f1 and average precision: between 0 and 1, exact for 0 and 1, and accurate *)
Theorem C77_f1_accurate : forall l1 l2 pw (E : @env (NumSF_with l1 l2 pw)), env_ok E ->
  computes64 E (@f1 (NumSF_with l1 l2 pw) E) (fun j lvl ds k x => near_score 6 x (S_f1 j lvl ds k)).
Proof. intros l1 l2 pw E HE. apply lift64; [exact HE|]. intros j r lvl k Q Hk. now apply f1_64. Qed.
Theorem C77_map_accurate : forall l1 l2 pw (E : @env (NumSF_with l1 l2 pw)), env_ok E ->
  computes64 E (@average_precision (NumSF_with l1 l2 pw) E)
    (fun j lvl ds k x => near_score (length (top ds k) + 2) x (S_map j lvl ds k)).
Proof. intros l1 l2 pw E HE. apply lift64; [exact HE|]. intros j r lvl k Q Hk. now apply map_64. Qed.
Print Assumptions C77_f1_accurate.
Print Assumptions C77_map_accurate.

(** ** C78 ndcg *)
Lemma ndcg_val_is l1 l2 pw (E : @env (NumSF_with l1 l2 pw)) c jv lvl j r k : log2_accurate c l2 -> (c <= 1000)%nat -> (jv = false -> pow2_exact pw) -> query64 E lvl j r -> (1 <= lvl)%Z -> judgments_desc j ->
  (jv = false -> Forall (fun dv => (snd dv <= 53)%Z) j) -> is_ndcg (gR jv lvl j) (dkeys r) k (ndcg_val jv lvl j r k).
Proof.
  intros Hlog Hc Hp Q Hl Hd Hg. exists (S_dcg_with (dkeys j) (gR jv lvl j) k). split; [eapply is_ideal_gR; eauto|reflexivity].
Qed.
(** the score agrees with the exact dcg / ideal dcg up to (2c + 3 + lengths) roundings, is never negative, and is 0 only if the exact score is *)
Theorem C78_ndcg_accurate : forall l1 l2 pw (E : @env (NumSF_with l1 l2 pw)) c, env_ok E -> log2_accurate c l2 -> (c <= 1000)%nat ->
  computes64 E (@ndcg (NumSF_with l1 l2 pw) E) (fun j lvl ds k x => (1 <= lvl)%Z -> judgments_desc j ->
    exists s v, is_ndcg (gain j lvl) ds k s /\ within (2 * c + length (top ds k) + length (top (dkeys j) k) + 3) x s /\
      is64 x v /\ 0 <= v /\ (v = 0 <-> s = 0)).
Proof.
  intros l1 l2 pw E c HE Hlog Hc. apply lift64; [exact HE|]. intros j r lvl k Q Hk Hl Hd. assert (Hp : true = false -> pow2_exact pw) by discriminate. assert (Hg : true = false -> Forall (fun dv => (snd dv <= 53)%Z) j) by discriminate.
  destruct (ndcg_within l1 l2 pw c Hlog Hc true Hp E lvl j r Q Hl Hd Hg k) as (W & Hs). pose proof W as (v & Fv & Nv). exists (ndcg_val true lvl j r k), v.
  split; [exact (ndcg_val_is l1 l2 pw E c true lvl j r k Hlog Hc Hp Q Hl Hd Hg)|]. split; [exact W|]. split; [exact Fv|].
  split; [eapply near_nonneg; [exact Hs|apply one_u|exact Nv]|]. exact (near_zero _ _ _ Hs (one_u _) Nv).
Qed.
Theorem C78_ndcg_burges_accurate : forall l1 l2 pw (E : @env (NumSF_with l1 l2 pw)) c, env_ok E -> log2_accurate c l2 -> (c <= 1000)%nat -> pow2_exact pw ->
  computes64 E (@ndcg_burges (NumSF_with l1 l2 pw) E) (fun j lvl ds k x => (1 <= lvl)%Z -> judgments_desc j -> Forall (fun dv => (snd dv <= 53)%Z) j ->
    exists s v, is_ndcg (burges_gain j lvl) ds k s /\ within (2 * c + length (top ds k) + length (top (dkeys j) k) + 3) x s /\
      is64 x v /\ 0 <= v /\ (v = 0 <-> s = 0)).
Proof.
  intros l1 l2 pw E c HE Hlog Hc Hpw. apply lift64; [exact HE|]. intros j r lvl k Q Hk Hl Hd Hg0. assert (Hp : false = false -> pow2_exact pw) by auto. assert (Hg : false = false -> Forall (fun dv => (snd dv <= 53)%Z) j) by auto.
  destruct (ndcg_within l1 l2 pw c Hlog Hc false Hp E lvl j r Q Hl Hd Hg k) as (W & Hs). pose proof W as (v & Fv & Nv). exists (ndcg_val false lvl j r k), v.
  split; [exact (ndcg_val_is l1 l2 pw E c false lvl j r k Hlog Hc Hp Q Hl Hd Hg)|]. split; [exact W|]. split; [exact Fv|].
  split; [eapply near_nonneg; [exact Hs|apply one_u|exact Nv]|]. exact (near_zero _ _ _ Hs (one_u _) Nv).
Qed.
Print Assumptions C78_ndcg_accurate.
Print Assumptions C78_ndcg_burges_accurate.

(** a ranking that lists the relevant documents first, best judgment first, scores exactly 1.0 *)
Definition exactly_one (x : sf) : Prop := is64 x 1.
Theorem C78_ideal_is_exactly_one : forall l1 l2 pw (E : @env (NumSF_with l1 l2 pw)) c, env_ok E -> log2_accurate c l2 -> (c <= 1000)%nat ->
  let ideal j lvl ds := (1 <= lvl)%Z /\ (0 < n_relevant j lvl)%nat /\ ideal_ranking j lvl ds in
  let deep j lvl k := k = 0%nat \/ (n_relevant j lvl <= k)%nat in
  computes64 E (@ndcg (NumSF_with l1 l2 pw) E) (fun j lvl ds k x => ideal j lvl ds -> judgments_desc j -> exactly_one x) /\
  (pow2_exact pw -> computes64 E (@ndcg_burges (NumSF_with l1 l2 pw) E) (fun j lvl ds k x => ideal j lvl ds -> judgments_desc j -> Forall (fun dv => (snd dv <= 53)%Z) j -> exactly_one x)) /\
  computes64 E (@reciprocal_rank (NumSF_with l1 l2 pw) E) (fun j lvl ds k x => ideal j lvl ds -> exactly_one x) /\
  computes64 E (@r_precision (NumSF_with l1 l2 pw) E) (fun j lvl ds k x => ideal j lvl ds -> exactly_one x) /\
  computes64 E (@recall (NumSF_with l1 l2 pw) E) (fun j lvl ds k x => ideal j lvl ds -> deep j lvl k -> exactly_one x) /\
  computes64 E (@average_precision (NumSF_with l1 l2 pw) E) (fun j lvl ds k x => ideal j lvl ds -> deep j lvl k -> exactly_one x).
Proof.
  intros l1 l2 pw E c HE Hlog Hc ideal deep.
  assert (Hsplit : forall j lvl ds, dict_ok j -> NoDup ds -> ideal_ranking j lvl ds -> exists rels rest, ds = rels ++ rest /\ Permutation rels (filter (relevant j lvl) (dkeys j)) /\ (forall d, In d rest -> relevant j lvl d = false) /\ StronglySorted (fun a b => gain j lvl b <= gain j lvl a) rels).
  { intros j lvl ds Hj Hn (rels & rest & -> & Hrel & Hs). exists rels, rest. split; [reflexivity|].
    assert (Hnd : NoDup rels) by (clear - Hn; induction rels; cbn in *; constructor; inversion Hn; subst; auto; rewrite in_app_iff in *; tauto).
    split; [|split; [|exact Hs]].
    - apply NoDup_Permutation; [exact Hnd|apply NoDup_filter, Hj|]. intros d. rewrite Hrel, filter_In. split; [|tauto]. intros H. split; [|exact H]. eapply rel_judged; eauto.
    - intros d Hd. destruct (relevant j lvl d) eqn:He; [|reflexivity]. apply Hrel in He. exfalso. clear - Hn Hd He. induction rels as [|x l IH]; [easy|]. cbn in Hn. inversion Hn; subst.
      destruct He as [ -> |He]; [|auto]. apply H1. apply in_or_app. now right. }
  assert (Hone : forall (j : dict Z) (lvl : Z) x s, rounded_score x s -> s = 1 -> exactly_one x). { intros _ _ x s (Hx & _ & _ & H1) Hs. apply H1 in Hs. red. now rewrite <- Hs. }
  split; [|split; [|split; [|split; [|split]]]].
  - apply lift64; [exact HE|]. intros j r lvl k Q Hk (Hl & Hp & Hi) Hd. destruct (Hsplit j lvl (dkeys r)) as (rels & rest & A & B & C & D); [apply Q|apply (q64_r _ _ _ _ Q)|exact Hi|].
    eapply (ndcg_one l1 l2 pw c Hlog Hc true); eauto; discriminate.
  - intros Hpw. apply lift64; [exact HE|]. intros j r lvl k Q Hk (Hl & Hp & Hi) Hd Hg. destruct (Hsplit j lvl (dkeys r)) as (rels & rest & A & B & C & D); [apply Q|apply (q64_r _ _ _ _ Q)|exact Hi|].
    eapply (ndcg_one l1 l2 pw c Hlog Hc false); eauto.
  - apply lift64; [exact HE|]. intros j r lvl k Q Hk (Hl & Hp & Hi). destruct (Hsplit j lvl (dkeys r)) as (rels & rest & A & B & C & D); [apply Q|apply (q64_r _ _ _ _ Q)|exact Hi|].
    eapply (Hone j lvl); [now apply mrr_64|]. etransitivity; [exact (f_equal (fun l => S_mrr j lvl l k) A)|]. apply ideal_mrr; auto. apply Q.
  - apply par64; [exact HE|]. intros j r lvl k Q (Hl & Hp & Hi). destruct (Hsplit j lvl (dkeys r)) as (rels & rest & A & B & C & D); [apply Q|apply (q64_r _ _ _ _ Q)|exact Hi|].
    eapply (Hone j lvl); [now apply r_precision_64|]. etransitivity; [exact (f_equal (fun l => S_r_precision j lvl l) A)|]. apply ideal_r_precision; auto. apply Q.
  - apply lift64; [exact HE|]. intros j r lvl k Q Hk (Hl & Hp & Hi) Hd. destruct (Hsplit j lvl (dkeys r)) as (rels & rest & A & B & C & D); [apply Q|apply (q64_r _ _ _ _ Q)|exact Hi|].
    eapply (Hone j lvl); [now apply recall_64|]. etransitivity; [exact (f_equal (fun l => S_recall j lvl l k) A)|]. apply ideal_recall; auto. apply Q.
  - apply lift64; [exact HE|]. intros j r lvl k Q Hk (Hl & Hp & Hi) Hd. destruct (Hsplit j lvl (dkeys r)) as (rels & rest & A & B & C & D); [apply Q|apply (q64_r _ _ _ _ Q)|exact Hi|].
    destruct (map_64 l1 l2 pw E lvl j r Q k) as (_ & v & Fv & _ & _ & H1). red. rewrite <- H1; [exact Fv|]. etransitivity; [exact (f_equal (fun l => S_map j lvl l k) A)|]. apply ideal_map; auto. apply Q.
Qed.
Print Assumptions C78_ideal_is_exactly_one.

(** if all relevant judgments are equal (binary relevance), the score is at most 1 *)
Theorem C78_ndcg_binary_01 : forall l1 l2 pw (E : @env (NumSF_with l1 l2 pw)) c, env_ok E -> log2_accurate c l2 -> (c <= 1000)%nat -> log2_monotone l2 ->
  computes64 E (@ndcg (NumSF_with l1 l2 pw) E) (fun j lvl ds k x => (1 <= lvl)%Z -> judgments_desc j ->
    (exists g, forall d v, In (d, v) j -> (lvl <= v)%Z -> v = g) -> exists v, is64 x v /\ 0 <= v <= 1).
Proof.
  intros l1 l2 pw E c HE Hlog Hc Hm. apply lift64; [exact HE|]. intros j r lvl k Q Hk Hl Hd (g & Hg). eapply (ndcg_le1 l1 l2 pw c Hlog Hc true); eauto; discriminate.
Qed.
Print Assumptions C78_ndcg_binary_01.
