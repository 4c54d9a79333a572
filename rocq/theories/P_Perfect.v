(** P_Perfect.v: when the textbook scores are 1 or 0 *)
From Coq Require Import Reals Lra Psatz.
From Verif Require Import Base Dict Spec_Metrics Spec_Perfect P_Base P_Dict P_Metrics P_Metrics2 P_Metrics3 P_Metrics4 P_Metrics5 P_Metrics7.
Open Scope list_scope.
Open Scope nat_scope.

(** ** counting *)
Lemma count_all {A} (p : A -> bool) l : count p l = length l <-> forall a, In a l -> p a = true.
Proof.
  induction l as [|a l IH]; cbn; [tauto|]. pose proof (count_le_length p l) as H. destruct (p a) eqn:Hp.
  - split.
    + intros He b [<-|Hb]; [exact Hp|]. apply IH; [lia|exact Hb].
    + intros Ha. rewrite (proj2 IH); [reflexivity|]. intros b Hb. apply Ha. now right.
  - split; [lia|]. intros Ha. now rewrite Ha in Hp by now left.
Qed.
Lemma count_pos {A} (p : A -> bool) l : 0 < count p l <-> exists a, In a l /\ p a = true.
Proof.
  induction l as [|a l IH]; cbn; [split; [lia|intros (a & [] & _)]|]. destruct (p a) eqn:Hp.
  - split; [|lia]. intros _. exists a. auto.
  - cbn [Nat.add]. rewrite IH. split; intros (b & Hb & Hr); exists b; split; auto. destruct Hb as [<-|Hb]; congruence.
Qed.
Lemma ratio_one a n : 0 < n -> (INR a / INR n = 1)%R <-> a = n.
Proof.
  intros Hn. assert (H : (0 < INR n)%R) by now apply lt_0_INR. split.
  - intros He. apply INR_eq. apply (f_equal (fun x => x * INR n)%R) in He. unfold Rdiv in He. rewrite Rmult_assoc, Rinv_l in He by lra. lra.
  - intros ->. now apply INR_self.
Qed.
Lemma ratio_zero a n : 0 < n -> (INR a / INR n = 0)%R <-> a = 0.
Proof.
  intros Hn. assert (H : (0 < INR n)%R) by now apply lt_0_INR. split.
  - intros He. apply INR_eq. apply (f_equal (fun x => x * INR n)%R) in He. unfold Rdiv in He. rewrite Rmult_assoc, Rinv_l in He by lra. cbn. lra.
  - intros ->. cbn. unfold Rdiv. lra.
Qed.

Section J.
Context (j : dict Z) (lvl : Z) (Hj : dict_ok j).
Notation rel := (relevant j lvl).
Notation g := (gain j lvl).
Notation bg := (burges_gain j lvl).

Lemma n_relevant_pos d : rel d = true -> 0 < n_relevant j lvl.
Proof.
  intros H. rewrite (n_relevant_count j lvl Hj). apply count_pos. exists d. split; [now apply (rel_judged j lvl)|exact H].
Qed.
Lemma top_prefix_len ds n : n <= length ds -> count rel (firstn n ds) = n <-> starts_with j lvl ds n.
Proof.
  intros Hn. unfold starts_with. assert (Hl : length (firstn n ds) = n) by (rewrite firstn_length; lia). rewrite <- Hl at 2. rewrite count_all. tauto.
Qed.
Lemma precision_one ds k : S_precision j lvl ds k = 1%R <-> 0 < depth ds k /\ starts_with j lvl ds (depth ds k).
Proof.
  unfold S_precision. destruct (depth ds k) as [|n] eqn:Hd; [split; [lra|lia]|].
  rewrite ratio_one by lia. unfold S_hits.
  assert (Ht : top ds k = firstn (S n) ds).
  { unfold top, depth in *. destruct k; [rewrite <- Hd; now rewrite firstn_all|now rewrite Hd]. }
  rewrite Ht. split.
  - intros H. split; [lia|]. assert (S n <= length ds) by (pose proof (count_le_length rel (firstn (S n) ds)); rewrite firstn_length in *; lia). now apply top_prefix_len.
  - intros (_ & H). apply top_prefix_len; [apply H|exact H].
Qed.
Lemma hits_all ds k : NoDup ds -> S_hits j lvl ds k = n_relevant j lvl <-> finds_all j lvl ds k.
Proof.
  intros Hn. unfold S_hits, finds_all. rewrite (n_relevant_count j lvl Hj), !count_filter.
  assert (Hnt : NoDup (filter rel (top ds k))) by now apply NoDup_filter, NoDup_top.
  split.
  - intros He d Hd.
    assert (Hi : incl (filter rel (dkeys j)) (filter rel (top ds k))).
    { apply NoDup_length_incl; [exact Hnt|lia|]. intros x Hx. apply filter_In in Hx as [_ Hx]. apply filter_In. split; [now apply (rel_judged j lvl)|exact Hx]. }
    assert (H : In d (filter rel (top ds k))) by (apply Hi, filter_In; split; [now apply (rel_judged j lvl)|exact Hd]).
    now apply filter_In in H.
  - intros H. apply Nat.le_antisymm.
    + apply NoDup_incl_length; [exact Hnt|]. intros x Hx. apply filter_In in Hx as [_ Hx]. apply filter_In. split; [now apply (rel_judged j lvl)|exact Hx].
    + apply NoDup_incl_length; [apply NoDup_filter, Hj|]. intros x Hx. apply filter_In in Hx as [_ Hx]. apply filter_In. auto.
Qed.
Lemma recall_one ds k : NoDup ds -> S_recall j lvl ds k = 1%R <-> 0 < n_relevant j lvl /\ finds_all j lvl ds k.
Proof.
  intros Hn. rewrite <- hits_all by exact Hn. unfold S_recall. destruct (n_relevant j lvl) as [|n]; [split; [lra|lia]|].
  rewrite ratio_one by lia. split; [intros H; split; [lia|exact H]|tauto].
Qed.
Lemma f1_one ds k : NoDup ds -> S_f1 j lvl ds k = 1%R <-> S_precision j lvl ds k = 1%R /\ S_recall j lvl ds k = 1%R.
Proof.
  intros Hn. unfold S_f1. pose proof (precision_01 j lvl ds k) as HP. pose proof (recall_01 j lvl Hj ds k Hn) as HR.
  set (P := S_precision j lvl ds k) in *. set (Q := S_recall j lvl ds k) in *. destruct (Req_EM_T (P + Q) 0) as [H0|H0].
  - split; [lra|]. intros [-> ->]. lra.
  - split.
    + intros H. apply (f_equal (fun x => x * (P + Q))%R) in H. unfold Rdiv in H. rewrite Rmult_assoc, Rinv_l in H by exact H0.
      assert (P * (1 - Q) + Q * (1 - P) = 0)%R by nra.
      assert (0 <= P * (1 - Q))%R by (apply Rmult_le_pos; lra). assert (0 <= Q * (1 - P))%R by (apply Rmult_le_pos; lra).
      assert (HP0 : (P * (1 - Q) = 0)%R) by lra. assert (HQ0 : (Q * (1 - P) = 0)%R) by lra.
      apply Rmult_integral in HP0. apply Rmult_integral in HQ0. lra.
    + intros [-> ->]. field.
Qed.
Lemma r_precision_one_iff ds : S_r_precision j lvl ds = 1%R <-> 0 < n_relevant j lvl /\ starts_with j lvl ds (n_relevant j lvl).
Proof.
  unfold S_r_precision. destruct (n_relevant j lvl) as [|n] eqn:Hn; [split; [lra|lia]|]. rewrite precision_one. cbn [depth]. tauto.
Qed.
Lemma hit_rate_one ds k : S_hit_rate j lvl ds k = 1%R <-> finds_one j lvl ds k.
Proof.
  unfold S_hit_rate, finds_one. destruct (existsb rel (top ds k)) eqn:He.
  - apply existsb_exists in He. tauto.
  - split; [lra|]. intros H. apply existsb_exists in H. congruence.
Qed.
Lemma hit_rate_zero ds k : S_hit_rate j lvl ds k = 0%R <-> ~ finds_one j lvl ds k.
Proof. rewrite <- hit_rate_one. unfold S_hit_rate. destruct existsb; split; lra. Qed.
Lemma first_pos_zero p l : first_pos p l = Some 0 <-> exists d, hd_error l = Some d /\ p d = true.
Proof.
  destruct l as [|d l]; cbn; [split; [discriminate|intros (d & H & _); discriminate]|].
  destruct (p d) eqn:Hp; [split; [intros _; eauto|reflexivity]|]. split.
  - destruct (first_pos p l); discriminate.
  - intros (x & H & Hx). congruence.
Qed.
Lemma mrr_one ds k : S_mrr j lvl ds k = 1%R <-> exists d, hd_error ds = Some d /\ rel d = true.
Proof.
  assert (Hh : hd_error (top ds k) = hd_error ds) by (destruct k, ds; reflexivity). rewrite <- Hh, <- first_pos_zero.
  unfold S_mrr. destruct (first_pos rel (top ds k)) as [i|]; [|split; [lra|discriminate]]. split.
  - intros H. f_equal. apply (f_equal (fun x => x * INR (i + 1))%R) in H. unfold Rdiv in H.
    rewrite Rmult_assoc, Rinv_l in H by (apply not_0_INR; lia). rewrite plus_INR in H. cbn in H. apply INR_eq. cbn. lra.
  - intros H. injection H as ->. cbn. lra.
Qed.

(** average precision *)
Lemma ap_loop_le l : forall c i, c <= i -> (ap_loop c i l <= INR (count (fun b => b) l))%R.
Proof.
  induction l as [|b l IH]; intros c i Hc; cbn [ap_loop count]; [cbn; lra|]. destruct b.
  - rewrite (plus_INR 1). apply Rplus_le_compat; [|apply IH; lia]. change (INR 1) with 1%R.
    apply (ratio_01 (c + 1) (i + 1)). lia.
  - rewrite Nat.add_0_l. apply IH. lia.
Qed.
Lemma ap_loop_lt l : forall c i, c < i -> 0 < count (fun b => b) l -> (ap_loop c i l < INR (count (fun b => b) l))%R.
Proof.
  induction l as [|b l IH]; intros c i Hc Hp; cbn [ap_loop count] in *; [lia|]. destruct b.
  - rewrite (plus_INR 1). change (INR 1) with 1%R. apply Rplus_lt_le_compat; [|apply ap_loop_le; lia].
    assert (0 < INR (i + 1))%R by (apply lt_0_INR; lia). apply Rmult_lt_reg_r with (INR (i + 1)); [assumption|].
    unfold Rdiv. rewrite Rmult_assoc, Rinv_l by lra. assert (INR (c + 1) < INR (i + 1))%R by (apply lt_INR; lia). lra.
  - rewrite Nat.add_0_l in *. apply IH; lia.
Qed.
Lemma ap_loop_full l : forall c, ap_loop c c l = INR (count (fun b => b) l) -> forall b, In b (firstn (count (fun b => b) l) l) -> b = true.
Proof.
  induction l as [|b l IH]; intros c He; [now intros b H|]. cbn [ap_loop count] in He |- *. destruct b.
  - cbn [Nat.add firstn]. intros x [<-|Hx]; [reflexivity|]. apply (IH (c + 1)); [|exact Hx].
    rewrite (plus_INR 1) in He. unfold Rdiv in He. rewrite Rinv_r in He by (apply not_0_INR; lia). change (INR 1) with 1%R in He. lra.
  - rewrite Nat.add_0_l in *. destruct (Nat.eq_dec (count (fun b => b) l) 0) as [H0|H0]; [rewrite H0; now intros x H|].
    pose proof (ap_loop_lt l c (c + 1) ltac:(lia) ltac:(lia)). lra.
Qed.
Lemma starts_ideal ds : NoDup ds -> starts_with j lvl ds (n_relevant j lvl) ->
  Permutation (firstn (n_relevant j lvl) ds) (filter rel (dkeys j)) /\ forall d, In d (skipn (n_relevant j lvl) ds) -> rel d = false.
Proof.
  intros Hn (Hl & Hs). set (n := n_relevant j lvl) in *.
  assert (Hperm : Permutation (firstn n ds) (filter rel (dkeys j))).
  { apply NoDup_Permutation_bis; [now apply NoDup_firstn| |].
    - rewrite <- count_filter. rewrite firstn_length. unfold n in *. rewrite <- (n_relevant_count j lvl Hj). lia.
    - intros x Hx. apply filter_In. split; [apply (rel_judged j lvl), Hs, Hx|now apply Hs]. }
  split; [exact Hperm|]. intros d Hd. destruct (rel d) eqn:He; [exfalso|reflexivity].
  assert (Hi : In d (firstn n ds)) by (apply (Permutation_in _ (Permutation_sym Hperm)), filter_In; split; [now apply (rel_judged j lvl)|exact He]).
  rewrite <- (firstn_skipn n ds) in Hn. clear - Hn Hd Hi. induction (firstn n ds) as [|x l IH]; [easy|]. cbn in Hn. inversion Hn; subst.
  destruct Hi as [->|Hi]; [apply H1, in_or_app; now right|auto].
Qed.
Lemma map_one ds k : NoDup ds -> S_map j lvl ds k = 1%R <->
  0 < n_relevant j lvl /\ (k = 0 \/ n_relevant j lvl <= k) /\ starts_with j lvl ds (n_relevant j lvl).
Proof.
  intros Hn. split.
  - rewrite S_map_ap. destruct (n_relevant j lvl) as [|n] eqn:Hr; [lra|]. intros H.
    assert (Hap : ap_loop 0 0 (map rel (top ds k)) = INR (S n)).
    { apply (f_equal (fun x => x * INR (S n))%R) in H. unfold Rdiv in H. rewrite Rmult_assoc, Rinv_l in H by (apply not_0_INR; lia). lra. }
    pose proof (ap_loop_le (map rel (top ds k)) 0 0 (le_n 0)) as Hle.
    assert (Hc : count (fun b => b) (map rel (top ds k)) = count rel (top ds k)) by exact (count_map rel (fun b => b) (top ds k)).
    assert (Hh : count rel (top ds k) <= S n) by (rewrite <- Hr; apply (hits_le_rel j lvl Hj ds k Hn)).
    assert (Hge : (INR (S n) <= INR (count rel (top ds k)))%R) by (rewrite <- Hc, <- Hap; exact Hle). apply INR_le in Hge.
    assert (Heq : count rel (top ds k) = S n) by lia.
    pose proof (ap_loop_full (map rel (top ds k)) 0) as Hf. rewrite Hc, Heq in Hf. specialize (Hf Hap).
    pose proof (count_le_length rel (top ds k)) as Hlen. rewrite Heq in Hlen.
    split; [lia|]. split.
    + destruct k as [|k]; [now left|right]. cbn [top] in Hlen. rewrite firstn_length in Hlen. lia.
    + split; [pose proof (top_length_le ds k); lia|]. intros d Hd. apply Hf. rewrite firstn_map. apply in_map. rewrite top_firstn, firstn_firstn, Nat.min_l by lia. exact Hd.
  - intros (Hp & Hk & Hs). destruct (starts_ideal ds Hn Hs) as (Hperm & Hrest). rewrite <- (firstn_skipn (n_relevant j lvl) ds).
    apply ideal_map; auto.
Qed.
End J.
