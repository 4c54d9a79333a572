(** T_Train3.v: segments (C55) and BayesFuse (C56), over the reals *)
From Coq Require Import Reals Lra Lia.
From Verif Require Import Base Dict Num NumLaws Env M_Common M_Qrels M_Run M_Norm M_Fusion M_Train
  Spec_DS Spec_Metrics Spec_Eval Spec_Norm Spec_Fusion Spec_Train
  P_Base P_Dict P_Common P_DS P_Metrics P_Norm T_Norm T_Norm2 P_Fusion P_Fusion2 P_Fusion3 T_Fusion T_Fusion5 T_Fusion6 P_Train2 P_Train3 T_Train2.
Open Scope string_scope.
Open Scope list_scope.
Open Scope nat_scope.

(** ** C55: ProbFuse's segments partition the ranking *)
Theorem C55_probfuse_partition : forall n m i, 0 < m -> i < n ->
  let size := ceil_div (Z.of_nat n) (Z.of_nat m) in
  exists k, k < m /\ (Z.of_nat k * size <= Z.of_nat i < (Z.of_nat k + 1) * size)%Z /\
    forall k', (Z.of_nat k' * size <= Z.of_nat i < (Z.of_nat k' + 1) * size)%Z -> k' = k.
Proof.
  intros n m i Hm Hi. cbv zeta. rewrite (ceil_div_nat n m Hm). set (s := segment_size n m).
  assert (Hs : 0 < s) by (apply segment_size_pos; lia). assert (Hn : n <= m * s) by now apply segment_size_bound.
  exists (i / s). assert (H1 : s * (i / s) <= i) by (apply Nat.mul_div_le; lia).
  assert (H2 : i < s * S (i / s)) by (apply Nat.mul_succ_div_gt; lia).
  split; [apply Nat.div_lt_upper_bound; lia|]. split; [nia|].
  intros k' [K1 K2]. assert (k' * s <= i < (k' + 1) * s) by nia.
  apply (Nat.div_unique i s k' (i - k' * s)); lia.
Qed.
(** ** C55: SegFuse's segments partition the first 5115 positions *)
Theorem C55_segfuse_partition : forall i, (Z.of_nat i < 5115)%Z ->
  exists k a b, k < 10 /\ nth_error segment_sizes k = Some a /\ nth_error segment_sizes (k + 1) = Some b /\ (a <= Z.of_nat i < b)%Z /\
    forall k' a' b', nth_error segment_sizes k' = Some a' -> nth_error segment_sizes (k' + 1) = Some b' -> (a' <= Z.of_nat i < b')%Z -> k' = k.
Proof.
  intros i Hi.
  assert (Hs : segment_sizes = [0; 5; 15; 35; 75; 155; 315; 635; 1275; 2555; 5115]%Z) by reflexivity.
  assert (Huniq : forall k a b k' a' b', nth_error segment_sizes k = Some a -> nth_error segment_sizes (k + 1) = Some b -> (a <= Z.of_nat i < b)%Z ->
     nth_error segment_sizes k' = Some a' -> nth_error segment_sizes (k' + 1) = Some b' -> (a' <= Z.of_nat i < b')%Z -> k' = k).
  { assert (Hmono : forall j j' a b, j <= j' -> nth_error segment_sizes j = Some a -> nth_error segment_sizes j' = Some b -> (a <= b)%Z).
    { intros j j' a b Hj Ha Hb. rewrite Hs in *. 
      assert (Hj' : j' < 11) by (change 11 with (length [0; 5; 15; 35; 75; 155; 315; 635; 1275; 2555; 5115]%Z); apply nth_error_Some; congruence).
      do 11 (destruct j' as [|j']; [do 11 (destruct j as [|j]; [cbn in Ha, Hb; injection Ha as <-; injection Hb as <-; lia|]); lia|]). lia. }
    intros k a b k' a' b' H1 H2 H3 H4 H5 H6. destruct (Nat.lt_trichotomy k k') as [H|[H|H]]; auto.
    - assert (b <= a')%Z by (apply (Hmono (k + 1) k'); auto; lia). lia.
    - assert (b' <= a)%Z by (apply (Hmono (k' + 1) k); auto; lia). lia. }
  assert (Hex : exists k, k < 10 /\ exists a b, nth_error segment_sizes k = Some a /\ nth_error segment_sizes (k + 1) = Some b /\ (a <= Z.of_nat i < b)%Z).
  { rewrite Hs.
    destruct (Z.lt_ge_cases (Z.of_nat i) 5); [exists 0; split; [lia|]; do 2 eexists; split; [reflexivity|]; split; [reflexivity|lia]|].
    destruct (Z.lt_ge_cases (Z.of_nat i) 15); [exists 1; split; [lia|]; do 2 eexists; split; [reflexivity|]; split; [reflexivity|lia]|].
    destruct (Z.lt_ge_cases (Z.of_nat i) 35); [exists 2; split; [lia|]; do 2 eexists; split; [reflexivity|]; split; [reflexivity|lia]|].
    destruct (Z.lt_ge_cases (Z.of_nat i) 75); [exists 3; split; [lia|]; do 2 eexists; split; [reflexivity|]; split; [reflexivity|lia]|].
    destruct (Z.lt_ge_cases (Z.of_nat i) 155); [exists 4; split; [lia|]; do 2 eexists; split; [reflexivity|]; split; [reflexivity|lia]|].
    destruct (Z.lt_ge_cases (Z.of_nat i) 315); [exists 5; split; [lia|]; do 2 eexists; split; [reflexivity|]; split; [reflexivity|lia]|].
    destruct (Z.lt_ge_cases (Z.of_nat i) 635); [exists 6; split; [lia|]; do 2 eexists; split; [reflexivity|]; split; [reflexivity|lia]|].
    destruct (Z.lt_ge_cases (Z.of_nat i) 1275); [exists 7; split; [lia|]; do 2 eexists; split; [reflexivity|]; split; [reflexivity|lia]|].
    destruct (Z.lt_ge_cases (Z.of_nat i) 2555); [exists 8; split; [lia|]; do 2 eexists; split; [reflexivity|]; split; [reflexivity|lia]|].
    exists 9; split; [lia|]; do 2 eexists; split; [reflexivity|]; split; [reflexivity|lia]. }
  destruct Hex as (k & Hk & a & b & H1 & H2 & H3). exists k, a, b. repeat split; auto; try apply H3.
  intros k' a' b' H4 H5 H6. exact (Huniq k a b k' a' b' H1 H2 H3 H4 H5 H6).
Qed.

(** ** C55: ProbFuse's score *)
Lemma prob_fill (s : nat) (g : nat * R -> R) : 0 < s -> forall (ps : list R) j l i v, nth_error l i = Some v ->
  nth_error (fold_left (fun probs kp => fill probs (Z.of_nat (fst kp) * Z.of_nat s) ((Z.of_nat (fst kp) + 1) * Z.of_nat s) (g kp)) (enum_from j ps) l) i =
  Some (if i / s <? j then v else match nth_error ps (i / s - j) with Some p => g (i / s, p) | None => v end).
Proof.
  intros Hs. induction ps as [|p ps IH]; intros j l i v Hv; cbn [enum_from fold_left].
  - rewrite Hv. f_equal. destruct (i / s <? j); auto. now destruct (i / s - j).
  - cbn [fst]. 
    replace (Z.of_nat j * Z.of_nat s)%Z with (Z.of_nat (j * s)) by lia. replace ((Z.of_nat j + 1) * Z.of_nat s)%Z with (Z.of_nat ((j + 1) * s)) by lia.
    rewrite (IH (S j) _ i (if (j * s <=? i) && (i <? (j + 1) * s) then g (j, p) else v)) by (rewrite fill_nth, Hv; reflexivity).
    f_equal. assert (Hj : (j * s <=? i) && (i <? (j + 1) * s) = (i / s =? j)).
    { destruct (Nat.eqb_spec (i / s) j) as [He|He].
      - assert (s * (i / s) <= i) by (apply Nat.mul_div_le; lia). assert (i < s * S (i / s)) by (apply Nat.mul_succ_div_gt; lia).
        apply andb_true_iff. split; [apply Nat.leb_le|apply Nat.ltb_lt]; subst j; nia.
      - destruct (Nat.leb_spec (j * s) i), (Nat.ltb_spec i ((j + 1) * s)); auto. exfalso. apply He.
        symmetry. apply (Nat.div_unique i s j (i - j * s)); lia. }
    rewrite Hj. destruct (Nat.eqb_spec (i / s) j) as [He|He], (Nat.ltb_spec (i / s) (S j)), (Nat.ltb_spec (i / s) j); try lia; auto.
    + rewrite He, Nat.sub_diag. reflexivity.
    + replace (i / s - j) with (S (i / s - S j)) by lia. reflexivity.
Qed.
Lemma if_false {A} (b : bool) (x z : A) : b = false -> (if b then x else z) = z.
Proof. now intros ->. Qed.
Theorem C55_probfuse : forall (E : env NumR), env_ok E -> forall xs probs name, fusable xs -> length xs <= length probs ->
  (forall p, In p probs -> p <> []) ->
  exists y, probfuse E xs probs name = Ok y /\ r_name y = Some name /\
    fusion_of xs y (fun q d s => s = Rsum (values_at probs xs (fun p n r _ => segment_value p n (r - 1)) q d)).
Proof.
  intros E HE xs ps name Hxs Hl Hne. unfold probfuse.
  apply (trained_fusion E HE "_prob_score" (@_prob_score NumR) (fun (p : list R) r i => segment_value p (length r) i)
    ps xs name (fun p n r _ => segment_value p n (r - 1)) Hxs Hl).
  - intros p r Hp Hr. unfold _prob_score. cbv zeta.
    assert (Hm : 0 < @length R p) by (specialize (Hne p Hp); destruct p; [easy|cbn; lia]).
    assert (H0 : (Z.of_nat (@length (@F NumR) p) =? 0)%Z = false) by (apply Z.eqb_neq; change (@length (@F NumR) p) with (@length R p); lia).
    refine (eq_trans (if_false _ _ _ H0) _).
    apply (pos_scores_ok (N := NumR)); auto. intros i Hi. change (i < @length (string * R) r) in Hi.
    change (@length (string * @F NumR) r) with (@length (string * R) r).
    rewrite (ceil_div_nat _ _ Hm).
    set (s := segment_size (length r) (length p)).
    assert (Hs : 0 < s) by (apply segment_size_pos; lia). assert (Hn : length r <= length p * s) by now apply segment_size_bound.
    pose proof (prob_fill s (fun kp => (snd kp / IZR (Z.of_nat (fst kp) + 1))%R) Hs p 0 (repeat 0%R (length r)) i 0%R (nth_error_repeat 0%R _ i Hi)) as Hf.
    unfold nth_r. etransitivity; [exact (f_equal (fun o : option R => match o with Some a => Ok a | None => Err IndexError end) Hf)|].
    apply f_equal. unfold segment_value. fold s. cbn [Nat.ltb Nat.leb]. rewrite Nat.sub_0_r.
    assert (Hk : i / s < length p) by (apply Nat.div_lt_upper_bound; lia).
    unfold prob_at. cbn [fst snd].
    assert (Hgen : forall (o : option R) n, match o with Some q => (q / IZR (Z.of_nat n + 1))%R | None => 0%R end =
                     (match o with Some v => v | None => 0%R end / INR (n + 1))%R).
    { intros o n. assert (Hz : IZR (Z.of_nat n + 1) = INR (n + 1)) by (rewrite INR_IZR_INZ; f_equal; lia).
      rewrite Hz. destruct o; [reflexivity|]. unfold Rdiv. now rewrite Rmult_0_l. }
    exact (Hgen _ _).
  - intros p r i s _ _ _. f_equal. lia.
Qed.

(** ** C55: SegFuse's score *)
Lemma seg_end_lt j k : j < k -> seg_end j < seg_end k.
Proof.
  intros H. unfold seg_end. assert (Hp : forall n, 1 <= 2 ^ n) by (induction n; cbn [Nat.pow]; lia).
  assert (2 ^ j < 2 ^ k) by (apply Nat.pow_lt_mono_r; lia). specialize (Hp j). lia.
Qed.
Lemma seg_fill (ps : list R) : forall j (l : list R) i v, nth_error l i = Some v -> j + length ps <= 10 ->
  exists l', foldr_m (fun probs kp => do s <- nth_r segment_sizes (fst kp); do e <- nth_r segment_sizes (fst kp + 1);
                Ok (fill probs s e (snd kp))) (enum_from j ps) l = Ok l' /\ length l' = length l /\
  nth_error l' i = Some (match find (fun k => (seg_start k <=? i) && (i <? seg_end k)) (seq j (length ps)) with
                         | Some k => match nth_error ps (k - j) with Some p => p | None => v end | None => v end).
Proof.
  induction ps as [|p ps IH]; intros j l i v Hv Hj; cbn [enum_from foldr_m length].
  - exists l. auto.
  - cbn [length] in Hj. cbn [fst snd]. unfold nth_r at 1 2. rewrite sizes_start, sizes_end by lia. cbn [bindr].
    set (v' := if (seg_start j <=? i) && (i <? seg_end j) then p else v).
    destruct (IH (S j) (fill l (Z.of_nat (seg_start j)) (Z.of_nat (seg_end j)) p) i v') as (l' & I1 & I2 & I3); [|lia|].
    { rewrite fill_nth, Hv. reflexivity. }
    exists l'. split; [exact I1|]. split; [now rewrite I2, fill_length|]. rewrite I3. f_equal. cbn [seq find].
    unfold v'. destruct ((seg_start j <=? i) && (i <? seg_end j)) eqn:Hb.
    + rewrite Nat.sub_diag. cbn [nth_error].
      destruct (find _ (seq (S j) (length ps))) as [k|] eqn:Hfi; [|reflexivity]. exfalso.
      apply find_some in Hfi as [Hk Hk2]. apply in_seq in Hk. apply andb_true_iff in Hb as [_ Hb], Hk2 as [Hk2 _].
      apply Nat.ltb_lt in Hb. apply Nat.leb_le in Hk2. destruct k as [|k]; [lia|]. cbn [seg_start] in Hk2.
      destruct (Nat.eq_dec j k) as [->|Hne]; [lia|]. pose proof (seg_end_lt j k ltac:(lia)). lia.
    + destruct (find _ (seq (S j) (length ps))) as [k|] eqn:Hfi; [|reflexivity].
      apply find_some in Hfi as [Hk _]. apply in_seq in Hk. replace (k - j) with (S (k - S j)) by lia. reflexivity.
Qed.
(** the first segment ending after [i] is the one containing it *)
Lemma seg_find i n : find (fun k => (seg_start k <=? i) && (i <? seg_end k)) (seq 0 n) = find (fun k => i <? seg_end k) (seq 0 n).
Proof.
  assert (H : forall n j, seg_start j <= i -> find (fun k => (seg_start k <=? i) && (i <? seg_end k)) (seq j n) = find (fun k => i <? seg_end k) (seq j n)).
  { clear n. induction n as [|n IH]; intros j Hj; [reflexivity|]. cbn [seq find].
    rewrite (proj2 (Nat.leb_le _ _) Hj). cbn [andb]. destruct (Nat.ltb_spec i (seg_end j)); auto. }
  apply H. cbn. lia.
Qed.
Lemma seg_value_find (p : list R) i : length p <= 10 ->
  match find (fun k => (seg_start k <=? i) && (i <? seg_end k)) (seq 0 (length p)) with
  | Some k => match nth_error p (k - 0) with Some v => v | None => 0%R end | None => 0%R end = seg_value p i.
Proof.
  intros Hp. rewrite seg_find. unfold seg_value. replace 10 with (length p + (10 - length p)) by lia. rewrite seq_app.
  assert (Happ : forall (f : nat -> bool) l l', find f (l ++ l') = match find f l with Some k => Some k | None => find f l' end).
  { intros f l l'. induction l as [|a l IH]; cbn; auto. destruct (f a); auto. }
  rewrite Happ. destruct (find (fun k => i <? seg_end k) (seq 0 (length p))) as [k|] eqn:Hf; [rewrite Nat.sub_0_r; reflexivity|].
  destruct (find _ (seq (0 + length p) _)) as [k|] eqn:Hf2; [|reflexivity].
  apply find_some in Hf2 as [Hk _]. apply in_seq in Hk. unfold prob_at.
  destruct (nth_error p k) eqn:Hn; [|reflexivity]. assert (k < length p) by (apply nth_error_Some; congruence). lia.
Qed.
Theorem C55_segfuse : forall (E : env NumR), env_ok E -> forall xs probs name, fusable xs -> length xs <= length probs ->
  (forall p, In p probs -> length p <= 10) ->
  exists y, segfuse E xs probs name = Ok y /\ r_name y = Some name /\
    fusion_of xs y (fun q d s => s = Rsum (values_at probs xs (fun p _ r sc => seg_value p (r - 1) * (sc + 1))%R q d)).
Proof.
  intros E HE xs ps name Hxs Hl Hlen. unfold segfuse.
  apply (trained_fusion E HE "_seg_score" (@_seg_score NumR) (fun (p : list R) r i => (seg_value p i * (nth i (dvals r) 0 + 1))%R)
    ps xs name (fun p _ r sc => seg_value p (r - 1) * (sc + 1))%R Hxs Hl).
  - intros p r Hp Hr. specialize (Hlen p Hp). change (@length R p <= 10) in Hlen. unfold _seg_score.
    assert (Hprobs : exists probs : list R, foldr_m (fun (probs : list R) kp => do s <- nth_r segment_sizes (fst kp); do e <- nth_r segment_sizes (fst kp + 1);
                Ok (fill probs s e (snd kp))) (enumerate p) (repeat 0%R (length r)) = Ok probs /\
              forall i, i < length r -> nth_error probs i = Some (seg_value p i)).
    { destruct r as [|kv r'] eqn:Er.
      - (* no results: the loop still runs over the segments *)
        assert (Hgo : forall (p : list R) j l, j + length p <= 10 -> exists l', foldr_m (fun (probs : list R) kp => do s <- nth_r segment_sizes (fst kp); do e <- nth_r segment_sizes (fst kp + 1);
                Ok (fill probs s e (snd kp))) (enum_from j p) l = Ok l').
        { clear. induction p as [|a p IH]; intros j l Hj; cbn [enum_from foldr_m]; [eauto|]. cbn [length] in Hj. cbn [fst snd].
          unfold nth_r at 1 2. rewrite sizes_start, sizes_end by lia. cbn [bindr]. apply IH. lia. }
        destruct (Hgo p 0 (repeat 0%R (length (@nil (string * R)))) ltac:(lia)) as [l' Hl']. exists l'. split; [exact Hl'|]. intros i Hi. cbn in Hi. lia.
      - rewrite <- Er in *. destruct (seg_fill p 0 (repeat 0%R (length r)) 0 0%R) as (l' & S1 & S2 & _);
          [apply nth_error_repeat; rewrite Er; cbn; lia|lia|].
        exists l'. split; [exact S1|]. intros i Hi.
        destruct (seg_fill p 0 (repeat 0%R (length r)) i 0%R (nth_error_repeat 0%R _ i Hi) ltac:(lia)) as (l2 & T1 & _ & T3).
        assert (l2 = l') as -> by congruence. rewrite T3. f_equal. now apply seg_value_find. }
    destruct Hprobs as (probs & P1 & P2).
    etransitivity; [exact (f_equal (fun rp : result (list R) => do probs <- rp; foldr_m (fun acc id => do p <- nth_r probs (fst id); do s <- dget_r r (snd id);
                         Ok (dset acc (snd id) (p * (s + 1))%R)) (enumerate (dkeys r)) []) P1)|].
    cbn [bindr].
    (* only positions of the list itself are visited *)
    assert (Hloop : forall (r0 : dict R) f, dict_ok r0 ->
      (forall acc i d, nth_error (dkeys r0) i = Some d -> f acc (i, d) = Ok (dset acc d (seg_value p i * (nth i (dvals r0) 0 + 1))%R)) ->
      foldr_m f (enumerate (dkeys r0)) [] = Ok (@by_pos NumR (fun i => (seg_value p i * (nth i (dvals r0) 0 + 1))%R) r0)).
    { intros r0 f Hr0 Hf.
      rewrite <- (pos_loop_ok (N := NumR) (fun i => (seg_value p i * (nth i (dvals r0) 0 + 1))%R) r0
         (fun acc id => Ok (dset acc (snd id) (seg_value p (fst id) * (nth (fst id) (dvals r0) 0 + 1))%R)) Hr0 (fun _ _ _ => eq_refl)).
      assert (Hext : forall (l : list (nat * string)) acc, (forall id, In id l -> nth_error (dkeys r0) (fst id) = Some (snd id)) ->
        foldr_m f l acc = foldr_m (fun acc id => Ok (dset acc (snd id) (seg_value p (fst id) * (nth (fst id) (dvals r0) 0 + 1))%R)) l acc).
      { induction l as [|[i d] l IH]; intros acc Hin; [reflexivity|]. cbn [foldr_m]. rewrite (Hf acc i d (Hin (i, d) (or_introl eq_refl))). cbn [bindr fst snd].
        apply IH. intros; apply Hin; now right. }
      apply Hext. intros [i d] Hid. apply enumerate_in in Hid. exact Hid. }
    apply Hloop; [exact Hr|]. intros acc i d Hd. cbn [fst snd].
    assert (Hi : i < length r). { rewrite <- (map_length fst r). apply nth_error_Some. unfold dkeys in Hd. congruence. }
    unfold nth_r. rewrite (P2 i Hi). cbn [bindr].
    unfold dkeys in Hd. rewrite nth_error_map in Hd. destruct (nth_error r i) as [[d' s]|] eqn:Hn; [|discriminate]. cbn in Hd. injection Hd as ->.
    unfold dget_r. rewrite (in_dget r d s Hr) by (eapply nth_error_In; eauto). cbn [bindr]. do 4 f_equal.
    unfold dvals. rewrite nth_nth_error, nth_error_map, Hn. reflexivity.
  - intros p r i s _ _ Hs. rewrite (nth_error_nth _ _ 0%R Hs). replace (i + 1 - 1) with i by lia. reflexivity.
Qed.

(** ** C56: BayesFuse: the log-odds of the ranks, summed over all runs; a run that did not retrieve
    the document counts log(0.001 / 0.999) *)
Definition bayes_missing : R := ln (1 / 1000 / (999 / 1000)).
Theorem C56_bayesfuse : forall (E : env NumR), env_ok E -> forall xs log_odds name, fusable xs -> length xs <= length log_odds ->
  (forall p x q, In (p, x) (combine log_odds xs) -> length (results_of x q) <= length p) ->
  exists y, bayesfuse E xs log_odds name = Ok y /\ r_name y = Some name /\
    fusion_of xs y (fun q d s => s = Rsum (map (fun px => match rank_of (snd px) q d with
                                                     | Some r => prob_at (fst px) (r - 1)
                                                     | None => bayes_missing
                                                     end) (combine log_odds xs))).
Proof.
  intros E HE xs ps name Hxs Hl Hlen. unfold bayesfuse. assert (Ha : Forall a_run xs) by apply Hxs.
  rewrite (rescore_with_ok2 E HE "_bayes_score" (@_bayes_score NumR) (fun (p : list R) _ i => prob_at p i) ps xs Ha Hl).
  2:{ intros p x q r Hpx Hq Hr. apply (pos_scores_ok (N := NumR)); auto. intros i Hi. change (i < @length (string * R) r) in Hi.
      specialize (Hlen p x q Hpx). unfold results_of, of_query in Hlen.
      assert (Hle : length r <= length p).
      { assert (Hgen : forall o : option (dict R), o = Some r -> length match o with Some r => r | None => [] end <= length p -> length r <= length p) by (intros o ->; auto).
        exact (Hgen _ Hq Hlen). }
      unfold nth_r, prob_at. assert (Hip : i < @length R p) by (change (@length R r <= @length R p) in Hle || idtac; exact (Nat.lt_le_trans _ _ _ Hi Hle)). apply nth_error_Some in Hip.
      assert (Hgen : forall o : option R, o <> None -> match o with Some a => Ok a | None => Err IndexError end = Ok match o with Some v => v | None => 0%R end) by (intros [|] ?; easy).
      exact (Hgen _ Hip). }
  cbn [bindr]. apply (pos_comb E HE "_sum_odds" (@odds_formula NumR) name (fun (p : list R) _ i => prob_at p i) ps xs _ Hxs Hl).
  intros q d _. unfold odds_formula. f_equal. rewrite fsum_R. f_equal. unfold get_all. rewrite map_map. apply map_ext. intros [p x]. cbn [fst snd].
  assert (Hg := @by_pos_get NumR (fun i => prob_at p i) (results_of x q) d). unfold rank_of. rewrite rank_in_index.
  assert (Hmin : @min_odd NumR = bayes_missing).
  { unfold min_odd, bayes_missing. change (ln (1 / 10 ^ 3 / (999 / 10 ^ 3)) = ln (1 / 1000 / (999 / 1000)))%R. f_equal. replace (10 ^ 3)%R with 1000%R by (cbn; lra). reflexivity. }
  assert (Hgen : forall (o : option R) o', o = option_map (fun i => prob_at p i) o' ->
    match o with Some v => v | None => @min_odd NumR end = match option_map S o' with Some r => prob_at p (r - 1) | None => bayes_missing end).
  { intros o [i|] ->; cbn; [now rewrite Nat.sub_0_r|exact Hmin]. }
  exact (Hgen _ _ Hg).
Qed.
(** results longer than the learned log-odds (1000 after training) are read past the end of the array *)
Theorem C56_bayesfuse_out_of_range : forall (E : env NumR), env_ok E -> forall xs log_odds name p x q, fusable xs -> length xs <= length log_odds ->
  In (p, x) (combine log_odds xs) -> length p < length (results_of x q) ->
  bayesfuse E xs log_odds name = Err IndexError.
Proof.
  intros E HE xs ps name p x q Hxs Hl Hpx Hlong. unfold bayesfuse. assert (Ha : Forall a_run xs) by apply Hxs.
  assert (Hsc : forall (p : list R) (r : dict R), dict_ok r -> (length p < length r -> @_bayes_score NumR p r = Err IndexError) /\
      (length r <= length p -> exists r', @_bayes_score NumR p r = Ok r')).
  { intros p' r Hr. split; intros H.
    - apply (pos_scores_err (N := NumR) _ IndexError r (length p') H).
      + unfold nth_r. assert (Hn : nth_error p' (length p') = None) by now apply nth_error_None.
        exact (f_equal (fun o : option R => match o with Some a => Ok a | None => Err IndexError end) Hn).
      + intros i Hi. unfold nth_r. apply nth_error_Some in Hi. 
        assert (Hgen : forall o : option R, o <> None -> exists v, match o with Some a => Ok a | None => Err IndexError end = Ok v) by (intros [|] ?; eauto; easy).
        exact (Hgen _ Hi).
    - exists (@by_pos NumR (fun i => prob_at p' i) r). apply (pos_scores_ok (N := NumR)); auto. intros i Hi. change (i < @length (string * R) r) in Hi.
      unfold nth_r, prob_at. assert (Hip : i < length p') by lia. apply nth_error_Some in Hip.
      assert (Hgen : forall o : option R, o <> None -> match o with Some a => Ok a | None => Err IndexError end = Ok match o with Some v => v | None => 0%R end) by (intros [|] ?; easy).
      exact (Hgen _ Hip). }
  rewrite Forall_forall in Ha.
  (* one run, one parameter *)
  assert (Hrun : forall p x, a_run x ->
     ((exists q, length p < length (results_of x q)) -> M_Norm.per_query E "_bayes_score" (fun _ => @_bayes_score NumR p) (r_map x) = Err IndexError) /\
     (M_Norm.per_query E "_bayes_score" (fun _ => @_bayes_score NumR p) (r_map x) = Err IndexError \/
      exists m, M_Norm.per_query E "_bayes_score" (fun _ => @_bayes_score NumR p) (r_map x) = Ok m)).
  { intros p' x' Hx'. 
    assert (Hstep : forall i, i < length (dkeys (r_map x')) -> exists q', nth_error (dkeys (r_map x')) i = Some q' /\
        bindr (nth_r (dkeys (r_map x')) i) (fun q => do r <- dget_r (r_map x') q; @_bayes_score NumR p' r) = @_bayes_score NumR p' (results_of x' q')).
    { intros i Hi. apply nth_error_Some in Hi. unfold nth_r. destruct (nth_error (dkeys (r_map x')) i) as [q'|] eqn:Hq'; [|easy]. exists q'. split; auto.
      cbn [bindr]. assert (Hin : In q' (dkeys (r_map x'))) by (eapply nth_error_In; eauto). apply key_dget in Hin as [r Hr].
      unfold dget_r. rewrite Hr. cbn [bindr]. f_equal. unfold results_of, of_query.
      assert (Hgen : forall o : option (dict R), o = Some r -> r = match o with Some r => r | None => [] end) by (intros o ->; auto). exact (Hgen _ Hr). }
    assert (Hcase : forall q', @_bayes_score NumR p' (results_of x' q') = Err IndexError \/ exists r', @_bayes_score NumR p' (results_of x' q') = Ok r').
    { intros q'. destruct (Hsc p' (results_of x' q') (results_ok x' q' Hx')) as [S1 S2]. destruct (Nat.le_gt_cases (length (results_of x' q')) (length p')); auto. }
    split.
    - intros (q0 & Hq0). unfold M_Norm.per_query.
      rewrite (prange_r_err _ _ _ _ IndexError); [reflexivity|apply (sched_perm _ HE)| |].
      + intros i Hi. destruct (Hstep i Hi) as (q' & _ & ->). destruct (Hcase q') as [H|H]; auto.
      + assert (Hin : In q0 (dkeys (r_map x'))).
        { destruct (in_dec string_dec q0 (dkeys (r_map x'))) as [H|H]; auto. exfalso. unfold results_of, of_query in Hq0.
          apply dget_None in H. assert (Hgen : forall o : option (dict R), o = None -> length p' < length match o with Some r => r | None => [] end -> False) by (intros o ->; cbn; lia).
          exact (Hgen _ H Hq0). }
        apply In_nth_error in Hin as [i Hi]. exists i. assert (Hlt : i < length (dkeys (r_map x'))) by (apply nth_error_Some; congruence). split; [exact Hlt|].
        destruct (Hstep i Hlt) as (q' & Hq' & ->). assert (q' = q0) as -> by congruence. now apply Hsc; [apply results_ok|].
    - destruct (existsb (fun q' => length p' <? length (results_of x' q')) (dkeys (r_map x'))) eqn:Hex.
      + left. apply existsb_exists in Hex as (q0 & Hin & Hq0). apply Nat.ltb_lt in Hq0. unfold M_Norm.per_query.
        rewrite (prange_r_err _ _ _ _ IndexError); [reflexivity|apply (sched_perm _ HE)| |].
        * intros i Hi. destruct (Hstep i Hi) as (q' & _ & ->). destruct (Hcase q') as [H|H]; auto.
        * apply In_nth_error in Hin as [i Hi]. exists i. assert (Hlt : i < length (dkeys (r_map x'))) by (apply nth_error_Some; congruence). split; [exact Hlt|].
          destruct (Hstep i Hlt) as (q' & Hq' & ->). assert (q' = q0) as -> by congruence. now apply Hsc; [apply results_ok|].
      + right. assert (Hall : forall i q0 r, nth_error (r_map x') i = Some (q0, r) -> @_bayes_score NumR p' r = Ok (@by_pos NumR (fun i => prob_at p' i) r)).
        { intros i q0 r Hi. assert (Hin : In (q0, r) (r_map x')) by (eapply nth_error_In; eauto).
          assert (Hd : dget (r_map x') q0 = Some r) by (apply in_dget; [apply Hx'|exact Hin]).
          assert (Hk : In q0 (dkeys (r_map x'))) by (unfold dkeys; apply in_map_iff; exists (q0, r); auto).
          assert (Hle : ~ length p' < length (results_of x' q0)).
          { intros Hc. assert (existsb (fun q' => length p' <? length (results_of x' q')) (dkeys (r_map x')) = true); [|congruence].
            apply existsb_exists. exists q0. split; auto. now apply Nat.ltb_lt. }
          assert (Hres : results_of x' q0 = r).
          { unfold results_of, of_query. assert (Hgen : forall o : option (dict R), o = Some r -> match o with Some r => r | None => [] end = r) by (intros o ->; auto). exact (Hgen _ Hd). }
          rewrite Hres in Hle. apply (pos_scores_ok (N := NumR)); [now apply (proj2 Hx' q0)|]. intros j Hj. change (j < @length (string * R) r) in Hj.
          unfold nth_r, prob_at. assert (Hip : j < length p') by lia. apply nth_error_Some in Hip.
          assert (Hgen : forall o : option R, o <> None -> match o with Some a => Ok a | None => Err IndexError end = Ok match o with Some v => v | None => 0%R end) by (intros [|] ?; easy).
          exact (Hgen _ Hip). }
        eexists. apply (per_query_i_ok (N := NumR) E HE "_bayes_score" (fun _ => @_bayes_score NumR p') (fun _ r => @by_pos NumR (fun i => prob_at p' i) r)); [apply Hx'|].
        intros i q0 r Hi. eapply Hall; eauto. }
  assert (Hres : @rescore_with NumR E (list R) "_bayes_score" (@_bayes_score NumR) ps xs = Err IndexError).
  { unfold rescore_with. apply map_m_err.
    - apply In_nth_error in Hpx as [i Hi]. 
      assert (Hi2 : nth_error ps i = Some p /\ nth_error xs i = Some x).
      { clear - Hi. revert ps xs Hi. induction i; intros [|a ps] [|b xs] H; cbn in *; try discriminate; [injection H as -> ->; auto|auto]. }
      destruct Hi2 as [I1 I2]. exists (i, x). split; [now apply enumerate_in|]. cbn [fst snd]. unfold nth_r.
      assert (Hgen : forall (o : option (list R)) (k : list R -> result (dict (dict R))), o = Some p -> k p = Err IndexError ->
        bindr match o with Some a => Ok a | None => Err IndexError end k = Err IndexError) by (intros o k -> Hk; exact Hk).
      apply (Hgen _ _ I1). apply Hrun; [apply Ha; eapply nth_error_In; eauto|]. eauto.
    - intros [i x'] Hi. apply enumerate_in in Hi. cbn [fst snd]. unfold nth_r.
      assert (i < length xs) by (apply nth_error_Some; congruence).
      assert (Hgen : forall (o : option (list R)) (k : list R -> result (dict (dict R))),
        (forall p', o = Some p' -> k p' = Err IndexError \/ exists m, k p' = Ok m) ->
        bindr match o with Some a => Ok a | None => Err IndexError end k = Err IndexError \/
        exists m, bindr match o with Some a => Ok a | None => Err IndexError end k = Ok m) by (intros [p'|] k Hk; [exact (Hk p' eq_refl)|left; reflexivity]).
      apply Hgen. intros p' _. apply Hrun. apply Ha. eapply nth_error_In; eauto. }
  etransitivity; [exact (f_equal (fun r => bindr r (fun ms => @comb NumR E "_sum_odds" odds_formula name ms)) Hres)|]. reflexivity.
Qed.
