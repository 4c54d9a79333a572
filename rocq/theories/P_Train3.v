(** P_Train3.v: SegFuse and BayesFuse training *)
From Coq Require Import Reals Lra Lia.
From Verif Require Import Base Dict Num NumLaws Env M_Common M_Qrels M_Run M_Metrics M_Norm M_Fusion M_Train
  Spec_Metrics Spec_MetricsAPI Spec_Eval Spec_Norm Spec_Fusion Spec_Train
  P_Base P_Dict P_Metrics T_Metrics2 P_Train P_Train2.
Open Scope string_scope.
Open Scope list_scope.
Open Scope nat_scope.

Lemma lt10 k (P : nat -> Prop) : P 0 -> P 1 -> P 2 -> P 3 -> P 4 -> P 5 -> P 6 -> P 7 -> P 8 -> P 9 -> k < 10 -> P k.
Proof.
  intros H0 H1 H2 H3 H4 H5 H6 H7 H8 H9 Hk. do 10 (destruct k as [|k]; [assumption|]). lia.
Qed.
Lemma sizes_start k : k < 10 -> nth_error segment_sizes k = Some (Z.of_nat (seg_start k)).
Proof. apply (lt10 k (fun k => nth_error segment_sizes k = Some (Z.of_nat (seg_start k)))); vm_compute; reflexivity. Qed.
Lemma sizes_end k : k < 10 -> nth_error segment_sizes (k + 1) = Some (Z.of_nat (seg_end k)).
Proof. apply (lt10 k (fun k => nth_error segment_sizes (k + 1) = Some (Z.of_nat (seg_end k)))); vm_compute; reflexivity. Qed.
Lemma seg_pos k : seg_start k < seg_end k.
Proof.
  unfold seg_start, seg_end. destruct k as [|k]; [cbn; lia|].
  assert (Hp : 1 <= 2 ^ k) by (induction k; cbn [Nat.pow]; lia). cbn [Nat.pow]. lia.
Qed.

Lemma segfuse_segments_spec (hs : list (list R)) : exists p : list R, @segfuse_segments NumR hs = Ok p /\
  length p = 10 /\ forall k v, nth_error p k = Some v ->
    v = (Rsum (map (fun h => Rsum (slice h (Z.of_nat (seg_start k)) (Z.of_nat (seg_end k))) / INR (seg_end k - seg_start k)) hs) / INR (length hs))%R.
Proof.
  set (v := fun (h : list R) k => (Rsum (slice h (Z.of_nat (seg_start k)) (Z.of_nat (seg_end k))) / INR (seg_end k - seg_start k))%R).
  set (skip := fun (_ : list R) (_ : nat) => false).
  destruct (fold_all_segments 10 v skip hs (repeat 0%R 10) (repeat_length _ _)) as [F1 F2].
  change (length (seg_sums 10 v skip hs) = 10) in F1.
  assert (F2' : forall k, k < 10 -> nth k (seg_sums 10 v skip hs) 0%R = (nth k (repeat 0%R 10) 0 + Rsum (map (fun h => v h k) hs))%R) by exact F2.
  clear F2. rename F2' into F2.
  exists (map (fun p => (p / INR (length hs))%R) (seg_sums 10 v skip hs)). split; [|split].
  - unfold segfuse_segments. change (length segment_sizes - 1) with 10.
    assert (Hf : foldr_m (fun (sp : list R) hit_list => foldr_m (fun sp k =>
        do s <- nth_r segment_sizes k; do e <- nth_r segment_sizes (k + 1);
        Ok (add_at (N := NumR) sp k (@fdiv NumR (@fsum NumR (slice hit_list s e)) (@fofZ NumR (e - s)))))
        (seq 0 10) sp) hs (repeat 0%R 10) = Ok (seg_sums 10 v skip hs)).
    { unfold seg_sums. erewrite foldr_m_ok; [reflexivity|]. intros s h _.
      erewrite foldr_m_ok; [reflexivity|]. intros s' k Hk. apply in_seq in Hk. unfold nth_r.
      rewrite sizes_start, sizes_end by lia. cbn [bindr]. unfold skip. apply f_equal.
      refine (f_equal (add_at (N := NumR) s' k) _). unfold v. rewrite fsum_R.
      refine (f_equal (Rdiv _) _). rewrite INR_IZR_INZ. refine (f_equal IZR _). pose proof (seg_pos k). lia. }
    etransitivity; [exact (f_equal (fun r : result (list R) => do sums <- r; Ok (map (fun p => @fdiv NumR p (@fnat NumR (length hs))) sums)) Hf)|].
    cbn [bindr]. f_equal. apply map_ext. intros a. rewrite fnat_INR. reflexivity.
  - now rewrite map_length.
  - intros k w Hw. rewrite nth_error_map in Hw. destruct (nth_error (seg_sums 10 v skip hs) k) as [u|] eqn:Hu; [|discriminate]. cbn in Hw. inversion Hw; subst w.
    assert (Hk : k < 10) by (rewrite <- F1; apply nth_error_Some; congruence).
    apply nth_error_nth with (d := 0%R) in Hu. rewrite <- Hu, F2 by exact Hk. rewrite nth_repeat0, Rplus_0_l. reflexivity.
Qed.
Lemma between_le jm rk q a b : rel_between jm rk q a b <= b - a.
Proof.
  unfold rel_between. etransitivity; [apply count_le_length|]. rewrite firstn_length. lia.
Qed.
Lemma seg_probs_ok jm rk : exists p, @segfuse_segments NumR (hl jm rk) = Ok p /\ seg_probs jm rk p.
Proof.
  destruct (segfuse_segments_spec (hl jm rk)) as (p & H1 & H2 & H3). exists p. split; [exact H1|].
  split; [exact H2|]. intros k v Hv. apply H3 in Hv. rewrite hl_sum, hl_length in Hv.
  assert (Hm : v = mean_over jm (fun q => INR (rel_between jm rk q (seg_start k) (seg_end k)) / INR (seg_end k - seg_start k))%R).
  { rewrite Hv. unfold mean_over, mean_of. rewrite map_length. f_equal. apply Rsum_map_ext. intros q _.
    rewrite between_hits, indicator_sum. reflexivity. }
  split; [exact Hm|]. rewrite Hm. apply mean_range. intros q _. apply ratio_range, between_le.
Qed.

(** ** BayesFuse *)
Lemma fold_avg (f : list R -> R) (n : R) hs : forall a : R, fold_left (fun a h => (a + f h / n)%R) hs a = (a + Rsum (map f hs) / n)%R.
Proof.
  induction hs as [|h hs IH]; intros a; cbn [fold_left map Rsum].
  - unfold Rdiv. lra.
  - rewrite IH. unfold Rdiv. lra.
Qed.
Lemma bayes_interval_ok jm rk a b : a < b -> @bayes_interval NumR (hl jm rk) (Z.of_nat a) (Z.of_nat b) = interval_odds jm rk a b.
Proof.
  intros Hab. unfold bayes_interval.
  assert (Havg : fold_left (fun (avg : R) (hit_list : list R) => @fadd NumR avg (@fdiv NumR (@fdiv NumR (@fsum NumR (slice hit_list (Z.of_nat a) (Z.of_nat b)))
      (@fofZ NumR (Z.of_nat b - Z.of_nat a))) (@fnat NumR (length (hl jm rk))))) (hl jm rk) (@fzero NumR)
    = mean_over jm (fun q => INR (rel_between jm rk q a b) / INR (b - a))%R).
  { change (fold_left (fun (avg : R) (h : list R) => (avg + (@fsum NumR (slice h (Z.of_nat a) (Z.of_nat b)) / IZR (Z.of_nat b - Z.of_nat a)) / @fnat NumR (length (hl jm rk)))%R)
       (hl jm rk) 0%R = mean_over jm (fun q => INR (rel_between jm rk q a b) / INR (b - a))%R).
    rewrite fnat_INR.
    rewrite (fold_avg (fun h => (@fsum NumR (slice h (Z.of_nat a) (Z.of_nat b)) / IZR (Z.of_nat b - Z.of_nat a))%R)).
    rewrite hl_sum, hl_length, Rplus_0_l. unfold mean_over, mean_of. rewrite map_length. f_equal. apply Rsum_map_ext. intros q _.
    rewrite between_hits. rewrite fsum_R, indicator_sum. f_equal. rewrite INR_IZR_INZ. f_equal. lia. }
  cbv zeta.
  set (m := mean_over jm (fun q => (INR (rel_between jm rk q a b) / INR (b - a))%R)) in *.
  etransitivity; [exact (f_equal (fun x : R =>
    let avg := if Reqb x 0 then (x + 1 / 10 ^ 3)%R else x in let neg := (1 - avg)%R in
    let neg := if Reqb neg 0 then (neg + 1 / 10 ^ 3)%R else neg in ln (avg / neg)) Havg)|].
  unfold interval_odds. fold m. cbv zeta.
  assert (Hfix : forall x, (if Reqb x 0 then (x + 1 / 10 ^ 3)%R else x) = (if Req_EM_T x 0 then (1 / 1000)%R else x)).
  { intros x. unfold Reqb. destruct (Req_EM_T x 0) as [->|]; [|reflexivity]. replace (10 ^ 3)%R with 1000%R by (cbn; lra). lra. }
  now rewrite !Hfix.
Qed.
Lemma fill_nth_Z {A} (l : list A) a b v i : nth_error (fill l a b v) i =
  option_map (fun x => if (a <=? Z.of_nat i)%Z && (Z.of_nat i <? b)%Z then v else x) (nth_error l i).
Proof. unfold fill, enumerate. rewrite nth_error_map, nth_error_enumerate. now destruct (nth_error l i). Qed.
Lemma nth_error_repeat {A} (v : A) n i : i < n -> nth_error (repeat v n) i = Some v.
Proof. revert i. induction n; intros [|i] H; cbn; auto; try lia. apply IHn. lia. Qed.
Lemma log_odds_ok jm rk : exists p, @_estimate_log_odds NumR bayes_cut_offs (hl jm rk) = Ok p /\ bayes_odds jm rk p.
Proof.
  set (v := @bayes_interval NumR (hl jm rk)).
  set (p := fold_left (fun (l : list R) ab => fill l (fst ab) (snd ab) (v (fst ab) (snd ab)))
     [(0, 5); (5, 10); (10, 15); (15, 20); (20, 30); (30, 100); (100, 200); (200, 500); (500, 1000)]%Z (repeat 0%R (Z.to_nat 1000))).
  exists p. split; [reflexivity|]. split.
  - unfold p. cbn [fold_left fst snd]. rewrite !fill_length, repeat_length. rewrite Z2Nat.id; lia.
  - intros a b i Hin Hi.
    assert (Hlt : a < b) by lia. rewrite <- bayes_interval_ok by exact Hlt. fold v.
    assert (Hb : (Z.of_nat i < 1000)%Z).
    { cbn in Hin. repeat (destruct Hin as [Hin|Hin]; [injection Hin as <- <-; apply Nat2Z.inj_lt in Hlt; lia|]). easy. }
    unfold p. cbn [fold_left fst snd]. rewrite !fill_nth_Z.
    rewrite (nth_error_repeat 0%R (Z.to_nat 1000) i) by lia. cbn [option_map].
    assert (Hz : (Z.of_nat a <= Z.of_nat i < Z.of_nat b)%Z) by lia. clear Hi Hlt p.
    assert (Hab : In (Z.of_nat a, Z.of_nat b) [(0, 5); (5, 10); (10, 15); (15, 20); (20, 30); (30, 100); (100, 200); (200, 500); (500, 1000)]%Z).
    { apply (in_map (fun ab => (Z.of_nat (fst ab), Z.of_nat (snd ab)))) in Hin. exact Hin. }
    clear Hin. set (za := Z.of_nat a) in *. set (zb := Z.of_nat b) in *. set (zi := Z.of_nat i) in *. clearbody za zb zi.
    cbn [In] in Hab.
    repeat (destruct Hab as [Hab|Hab]; [injection Hab as <- <-; f_equal;
      repeat match goal with
      | |- context [(?x <=? ?y)%Z] =>
          first [replace (x <=? y)%Z with true by (symmetry; apply Z.leb_le; lia) | replace (x <=? y)%Z with false by (symmetry; apply Z.leb_gt; lia)]
      | |- context [(?x <? ?y)%Z] =>
          first [replace (x <? y)%Z with true by (symmetry; apply Z.ltb_lt; lia) | replace (x <? y)%Z with false by (symmetry; apply Z.ltb_ge; lia)]
      end; reflexivity|]).
    contradiction.
Qed.
