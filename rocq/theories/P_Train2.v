(** P_Train2.v: what the training loops compute *)
From Coq Require Import Reals Lra Lia.
From Verif Require Import Base Dict Num NumLaws Env M_Common M_Qrels M_Run M_Metrics M_Norm M_Fusion M_Train
  Spec_Metrics Spec_MetricsAPI Spec_Eval Spec_Norm Spec_Fusion Spec_Train
  P_Base P_Dict P_Metrics T_Metrics2 P_Train.
Open Scope string_scope.
Open Scope list_scope.
Open Scope nat_scope.

(** ** lists *)
Lemma slice_nat {A} (l : list A) a b : slice l (Z.of_nat a) (Z.of_nat b) = firstn (b - a) (skipn a l).
Proof.
  unfold slice, slice_bound. destruct (Z.ltb_spec (Z.of_nat a) 0); [lia|]. destruct (Z.ltb_spec (Z.of_nat b) 0); [lia|].
  destruct (Nat.le_gt_cases (length l) a) as [Ha|Ha].
  - rewrite (skipn_all2 l) by lia. rewrite (skipn_all2 l) by exact Ha. now rewrite !firstn_nil.
  - replace (Z.to_nat (Z.min (Z.of_nat a) (Z.of_nat (length l)))) with a by lia.
    replace (Z.min (Z.of_nat a) (Z.of_nat (length l))) with (Z.of_nat a) by lia.
    destruct (Nat.le_gt_cases (length l) b) as [Hb|Hb].
    + rewrite (firstn_all2 (skipn a l)) by (rewrite skipn_length; lia).
      rewrite (firstn_all2 (skipn a l)) by (rewrite skipn_length; lia). reflexivity.
    + f_equal. lia.
Qed.
Lemma skipn_map {A B} (f : A -> B) n l : skipn n (map f l) = map f (skipn n l).
Proof. revert l. induction n; intros [|a l]; cbn; auto. Qed.
Lemma fill_length {A} (l : list A) a b v : length (fill l a b v) = length l.
Proof. unfold fill. rewrite map_length. apply enum_from_length. Qed.
Lemma nth_error_enumerate {A} (l : list A) : forall s i, nth_error (enum_from s l) i = option_map (fun v => (s + i, v)) (nth_error l i).
Proof.
  induction l as [|a l IH]; intros s [|i]; cbn; auto; [now rewrite Nat.add_0_r|].
  rewrite IH. destruct (nth_error l i); cbn; auto. do 2 f_equal. lia.
Qed.
Lemma fill_nth {A} (l : list A) a b v i : nth_error (fill l (Z.of_nat a) (Z.of_nat b) v) i =
  option_map (fun x => if (a <=? i) && (i <? b) then v else x) (nth_error l i).
Proof.
  unfold fill, enumerate. rewrite nth_error_map, nth_error_enumerate. destruct (nth_error l i); cbn; auto. f_equal.
  replace (Z.of_nat a <=? Z.of_nat i)%Z with (a <=? i); [replace (Z.of_nat i <? Z.of_nat b)%Z with (i <? b); [reflexivity|]|].
  - destruct (Nat.ltb_spec i b), (Z.ltb_spec (Z.of_nat i) (Z.of_nat b)); lia.
  - destruct (Nat.leb_spec a i), (Z.leb_spec (Z.of_nat a) (Z.of_nat i)); lia.
Qed.
Lemma ceil_div_nat n m : 0 < m -> ceil_div (Z.of_nat n) (Z.of_nat m) = Z.of_nat (segment_size n m).
Proof. intros Hm. unfold ceil_div, segment_size. rewrite Nat2Z.inj_div. f_equal. lia. Qed.
Lemma segment_size_bound n m : 0 < m -> n <= m * segment_size n m.
Proof.
  intros Hm. unfold segment_size. pose proof (Nat.div_mod (n + m - 1) m ltac:(lia)) as H.
  pose proof (Nat.mod_upper_bound (n + m - 1) m ltac:(lia)). lia.
Qed.
Lemma segment_size_pos n m : 0 < m -> 0 < n -> 0 < segment_size n m.
Proof. intros Hm Hn. pose proof (segment_size_bound n m Hm). destruct (segment_size n m); [lia|lia]. Qed.

(** ** accumulating in an array *)
Lemma add_at_length (a : list R) i v : length (add_at (N := NumR) a i v) = length a.
Proof. apply set_nth_length. Qed.
Lemma nth_nth_error {A} (l : list A) i d : nth i l d = match nth_error l i with Some v => v | None => d end.
Proof. revert i. induction l; intros [|i]; cbn; auto. Qed.
Lemma add_at_nth (a : list R) j v i : j < length a ->
  nth i (add_at (N := NumR) a j v) 0%R = (nth i a 0 + (if i =? j then v else 0))%R.
Proof.
  intros Hj. change (nth i (@set_nth R a j (nth j a 0 + v)) 0 = nth i a 0 + (if (i =? j)%nat then v else 0))%R.
  destruct (Nat.eqb_spec i j) as [->|Hij].
  - rewrite nth_nth_error. assert (H := nth_error_set_nth_eq a j (nth j a 0 + v)%R). rewrite H; auto.
  - rewrite !nth_nth_error. rewrite nth_error_set_nth_neq by auto. lra.
Qed.

Definition pos_step (dn : list R * list R) (ih : nat * R) : list R * list R :=
  (add_at (N := NumR) (fst dn) (fst ih) (@fone NumR), add_at (N := NumR) (snd dn) (fst ih) (snd ih)).
Lemma fold_positions (h : list R) : forall k dn, k + length h <= length (fst dn) -> length (snd dn) = length (fst dn) ->
  let out := fold_left pos_step (enum_from k h) dn in
  length (fst out) = length (fst dn) /\ length (snd out) = length (fst dn) /\
  forall i, (nth i (fst out) 0 = nth i (fst dn) 0 + (if (k <=? i) && (i <? k + length h) then 1 else 0))%R /\
            (nth i (snd out) 0 = nth i (snd dn) 0 + (if k <=? i then nth (i - k) h 0 else 0))%R.
Proof.
  induction h as [|v h IH]; intros k dn Hk Hl out.
  - cbn in out. subst out. split; [auto|]. split; [auto|]. intros i. split.
    + replace ((k <=? i) && (i <? k + length (@nil R))) with false; [symmetry; apply Rplus_0_r|]. cbn [length]. symmetry.
      destruct (Nat.leb_spec k i), (Nat.ltb_spec i (k + 0)); try reflexivity; lia.
    + destruct (k <=? i); [|lra]. destruct (i - k); cbn; lra.
  - cbn [length] in Hk. set (dn1 := pos_step dn (k, v)).
    destruct (IH (S k) dn1) as (I1 & I2 & I3).
    + unfold dn1, pos_step. cbn [fst]. rewrite add_at_length. lia.
    + unfold dn1, pos_step. cbn [fst snd]. now rewrite !add_at_length.
    + assert (Hout : out = fold_left pos_step (enum_from (S k) h) dn1) by reflexivity.
      rewrite Hout. assert (L1 : length (fst dn1) = length (fst dn)) by (unfold dn1, pos_step; cbn [fst]; apply add_at_length).
      rewrite L1 in *. split; [exact I1|]. split; [exact I2|]. intros i. destruct (I3 i) as [J1 J2]. rewrite J1, J2.
      unfold dn1, pos_step. cbn [fst snd]. rewrite !add_at_nth by lia. cbn [length]. change (@fone NumR) with 1%R.
      split.
      * destruct (Nat.eqb_spec i k), (Nat.leb_spec (S k) i), (Nat.ltb_spec i (S k + length h)), (Nat.leb_spec k i), (Nat.ltb_spec i (k + S (length h)));
          cbn [andb]; try lra; lia.
      * destruct (Nat.eqb_spec i k), (Nat.leb_spec (S k) i), (Nat.leb_spec k i); try lra; try lia.
        -- subst. rewrite Nat.sub_diag. cbn. lra.
        -- replace (i - k) with (S (i - S k)) by lia. cbn [nth]. lra.
Qed.
Lemma fold_hits (hs : list (list R)) : forall dn, (forall h, In h hs -> length h <= length (fst dn)) -> length (snd dn) = length (fst dn) ->
  let out := fold_left (fun dn h => fold_left pos_step (enumerate h) dn) hs dn in
  length (fst out) = length (fst dn) /\ length (snd out) = length (fst dn) /\
  forall i, (nth i (fst out) 0 = nth i (fst dn) 0 + INR (count (fun h : list R => i <? length h)%nat hs))%R /\
            (nth i (snd out) 0 = nth i (snd dn) 0 + Rsum (map (fun h => nth i h 0%R) hs))%R.
Proof.
  induction hs as [|h hs IH]; intros dn Hk Hl out.
  - cbn in *. subst out. repeat split; auto; lra.
  - destruct (fold_positions h 0 dn) as (P1 & P2 & P3); [apply Hk; now left|exact Hl|].
    cbv zeta in P1, P2, P3. fold (@enumerate R h) in P1, P2, P3.
    set (dn1 := fold_left pos_step (enumerate h) dn) in *.
    destruct (IH dn1) as (I1 & I2 & I3).
    + intros h' Hh'. rewrite P1. apply Hk. now right.
    + congruence.
    + assert (Hout : out = fold_left (fun dn h => fold_left pos_step (enumerate h) dn) hs dn1) by reflexivity.
      rewrite Hout. rewrite P1 in *. split; [exact I1|]. split; [exact I2|]. intros i.
      destruct (I3 i) as [J1 J2]. destruct (P3 i) as [K1 K2]. rewrite J1, J2, K1, K2. cbn [count map Rsum].
      cbn [Nat.leb andb Nat.add]. rewrite Nat.sub_0_r. split; [|lra].
      destruct (i <? length h); [rewrite S_INR|]; cbn [Nat.add]; try lra.
Qed.
Lemma fold_max_ge (l : list nat) : forall n, n <= fold_left Nat.max l n /\ forall m, In m l -> m <= fold_left Nat.max l n.
Proof.
  induction l as [|a l IH]; intros n; cbn; [split; [lia|easy]|]. destruct (IH (Nat.max n a)) as [H1 H2].
  split; [lia|]. intros m [->|Hm]; [lia|auto].
Qed.
Lemma fold_max_in (l : list nat) : forall n, In (fold_left Nat.max l n) (n :: l).
Proof.
  induction l as [|a l IH]; intros n; cbn; [auto|]. destruct (IH (Nat.max n a)) as [H|H]; [|auto].
  rewrite <- H. destruct (Nat.max_spec n a) as [[_ ->]|[_ ->]]; auto.
Qed.
Lemma nth_repeat0 i n : nth i (repeat 0%R n) 0%R = 0%R.
Proof. revert i. induction n; intros [|i]; cbn; auto. Qed.
Lemma estimate_probs_spec (hs : list (list R)) : hs <> [] -> exists p : list R, @_estimate_probs NumR hs = Ok p /\
  (forall i, i < length p <-> exists h, In h hs /\ i < length h) /\
  forall i v, nth_error p i = Some v -> v = (Rsum (map (fun h => nth i h 0%R) hs) / INR (count (fun h => i <? length h) hs))%R.
Proof.
  intros Hne. unfold _estimate_probs. destruct hs as [|h0 hs]; [easy|]. cbn [map].
  set (size := fold_left Nat.max (map (@length R) hs) (length h0)).
  assert (Hge : forall h, In h (h0 :: hs) -> length h <= size).
  { intros h [<-|Hh]; [apply (proj1 (fold_max_ge _ _))|]. apply (proj2 (fold_max_ge _ _)). now apply in_map. }
  assert (Hin : exists h, In h (h0 :: hs) /\ length h = size).
  { destruct (fold_max_in (map (@length R) hs) (length h0)) as [H|H]; [exists h0; split; [now left|exact H]|].
    apply in_map_iff in H as (h & H1 & H2). exists h. split; [now right|exact H1]. }
  destruct (fold_hits (h0 :: hs) (repeat 0%R size, repeat 0%R size)) as (F1 & F2 & F3).
  { intros h Hh. cbn [fst]. rewrite repeat_length. auto. }
  { reflexivity. }
  set (out := fold_left (fun dn h => fold_left pos_step (enumerate h) dn) (h0 :: hs) (repeat 0%R size, repeat 0%R size)) in *.
  cbn [fst] in F1, F2. rewrite repeat_length in F1, F2.
  exists (map (fun nd => (fst nd / snd nd)%R) (combine (snd out) (fst out))).
  split; [|split].
  - transitivity (Ok (let '(den, num) := out in map (fun nd : R * R => (fst nd / snd nd)%R) (combine num den)));
      [|now destruct out].
    etransitivity; [|apply f_equal; reflexivity].
    change (fold_left _ (h0 :: hs) _) with out. destruct out as [den num]. reflexivity.
  - intros i. rewrite map_length, combine_length. rewrite F1, F2, Nat.min_id. split.
    + intros Hi. destruct Hin as (h & H1 & H2). exists h. split; [exact H1|lia].
    + intros (h & H1 & H2). specialize (Hge h H1). lia.
  - intros i v Hv. rewrite nth_error_map in Hv. destruct (nth_error (combine (snd out) (fst out)) i) as [[n d]|] eqn:Hc; [|discriminate].
    cbn in Hv. inversion Hv; subst. clear Hv.
    assert (Hi : i < length (combine (snd out) (fst out))) by (apply nth_error_Some; congruence).
    apply nth_error_nth with (d := (0%R, 0%R)) in Hc. rewrite combine_nth in Hc by congruence. inversion Hc; subst.
    destruct (F3 i) as [G1 G2]. rewrite G1, G2. cbn [fst snd]. rewrite !nth_repeat0, !Rplus_0_l. reflexivity.
Qed.

(** ** on the hit lists of a run *)
Lemma indicator_sum (p : string -> bool) l : Rsum (indicator p l) = INR (count p l).
Proof. apply Rsum_indicator. Qed.
Lemma nth_indicator p l i : nth i (indicator p l) 0%R = if match nth_error l i with Some d => p d | None => false end then 1%R else 0%R.
Proof. unfold indicator. rewrite nth_nth_error, nth_error_map. destruct (nth_error l i); cbn; auto. Qed.
Lemma hl_sum jm rk (f : list R -> R) : Rsum (map f (hl jm rk)) = Rsum (map (fun q => f (indicator (rel jm q) (rk q))) (dkeys jm)).
Proof. unfold hl. rewrite map_map. apply Rsum_perm, Permutation_map, Permutation_sym, str_sort_perm. Qed.
Lemma hl_count jm rk (f : list R -> bool) : count f (hl jm rk) = count (fun q => f (indicator (rel jm q) (rk q))) (dkeys jm).
Proof. unfold hl. rewrite count_map. apply count_perm, Permutation_sym, str_sort_perm. Qed.
Lemma hl_in jm rk h : In h (hl jm rk) <-> exists q, In q (dkeys jm) /\ h = indicator (rel jm q) (rk q).
Proof.
  unfold hl. rewrite in_map_iff. split; intros (q & H1 & H2); exists q; split; auto.
  - eapply Permutation_in; [|exact H2]. apply Permutation_sym, str_sort_perm.
  - eapply Permutation_in; [|exact H1]. apply str_sort_perm.
Qed.
Lemma hl_length jm rk : length (hl jm rk) = length (dkeys jm).
Proof. unfold hl. rewrite map_length. apply Permutation_length, Permutation_sym, str_sort_perm. Qed.
Lemma hl_nonempty jm rk : jm <> [] -> hl jm rk <> [].
Proof. intros H H'. apply (f_equal (@length _)) in H'. rewrite hl_length in H'. unfold dkeys in H'. rewrite map_length in H'. destruct jm; easy. Qed.
Lemma ratio_range a b : a <= b -> (0 <= INR a / INR b <= 1)%R.
Proof.
  intros H. destruct b as [|b].
  - replace a with 0 by lia. cbn [INR]. unfold Rdiv. rewrite Rmult_0_l. lra.
  - assert (Hb : (0 < INR (S b))%R) by (apply lt_0_INR; lia).
    assert (Ha : (0 <= INR a)%R) by apply pos_INR. apply le_INR in H. split.
    + apply Rmult_le_pos; auto. left. now apply Rinv_0_lt_compat.
    + apply (Rmult_le_reg_r (INR (S b))); auto. unfold Rdiv. rewrite Rmult_assoc, Rinv_l; lra.
Qed.
Lemma count_mono {A} (p q : A -> bool) l : (forall a, In a l -> p a = true -> q a = true) -> count p l <= count q l.
Proof.
  induction l as [|a l IH]; intros H; cbn; auto.
  assert (IH' : count p l <= count q l) by (apply IH; intros; apply H; auto; now right).
  specialize (H a (or_introl eq_refl)). destruct (p a), (q a); try lia; now discriminate H.
Qed.

Lemma position_probs_ok jm rk : jm <> [] -> exists p, @_estimate_probs NumR (hl jm rk) = Ok p /\ position_probs jm rk p.
Proof.
  intros Hne. destruct (estimate_probs_spec (hl jm rk) (hl_nonempty jm rk Hne)) as (p & H1 & H2 & H3).
  exists p. split; [exact H1|]. split.
  - intros i. rewrite H2. split.
    + intros (h & Hh & Hi). apply hl_in in Hh as (q & Hq & ->). exists q. split; auto. unfold indicator in Hi. now rewrite map_length in Hi.
    + intros (q & Hq & Hi). exists (indicator (rel jm q) (rk q)). split; [apply hl_in; eauto|]. unfold indicator. now rewrite map_length.
  - intros i v Hv. apply H3 in Hv. rewrite hl_sum, hl_count in Hv.
    assert (Hn : Rsum (map (fun q => nth i (indicator (rel jm q) (rk q)) 0%R) (dkeys jm)) = INR (with_relevant jm rk i)).
    { unfold with_relevant. rewrite <- Rsum_indicator. apply Rsum_map_ext. intros q _. apply nth_indicator. }
    assert (Hd : count (fun q => i <? length (indicator (rel jm q) (rk q))) (dkeys jm) = with_result jm rk i).
    { unfold with_result. apply count_ext. intros q _. unfold indicator. now rewrite map_length. }
    rewrite Hn, Hd in Hv. split; [exact Hv|]. rewrite Hv. apply ratio_range.
    unfold with_relevant, with_result. apply count_mono. intros q _ H. apply Nat.ltb_lt, nth_error_Some.
    destruct (nth_error (rk q) i); [discriminate|congruence].
Qed.

(** ** sums per segment *)
Lemma fold_segments (m : nat) (v : nat -> R) (skip : nat -> bool) : forall ks sp, length sp = m -> (forall k, In k ks -> k < m) -> NoDup ks ->
  let out := fold_left (fun sp k => if skip k then sp else add_at (N := NumR) sp k (v k)) ks sp in
  length out = m /\ forall k, nth k out 0%R = (nth k sp 0 + (if in_dec Nat.eq_dec k ks then if skip k then 0 else v k else 0))%R.
Proof.
  induction ks as [|k ks IH]; intros sp Hl Hk Hn out.
  - cbn in out. subst out. split; auto. intros k. cbn. lra.
  - inversion Hn; subst. set (sp1 := if skip k then sp else add_at (N := NumR) sp k (v k)).
    destruct (IH sp1) as [I1 I2]; auto.
    { unfold sp1. destruct (skip k); auto. apply add_at_length. }
    { intros k' Hk'. apply Hk. now right. }
    change out with (fold_left (fun sp k => if skip k then sp else add_at (N := NumR) sp k (v k)) ks sp1).
    split; [exact I1|]. intros k'. rewrite I2.
    assert (Hsp1 : nth k' sp1 0%R = (nth k' sp 0 + (if k' =? k then if skip k then 0 else v k else 0))%R).
    { unfold sp1. destruct (skip k); [destruct (k' =? k); lra|]. apply add_at_nth. apply Hk. now left. }
    rewrite Hsp1. clear Hsp1 I2 IH. clearbody sp1. clear out I1. destruct (Nat.eqb_spec k' k) as [He|Hne].
    + subst k'. destruct (in_dec Nat.eq_dec k ks); [contradiction|]. destruct (in_dec Nat.eq_dec k (k :: ks)) as [_|Hx]; [lra|]. now destruct Hx; left.
    + destruct (in_dec Nat.eq_dec k' ks) as [Hi|Hi], (in_dec Nat.eq_dec k' (k :: ks)) as [Hj|Hj]; try lra.
      * destruct Hj. now right.
      * destruct Hj; [congruence|contradiction].
Qed.
Lemma fold_all_segments (m : nat) (v : list R -> nat -> R) (skip : list R -> nat -> bool) hs : forall sp, length sp = m ->
  let out := fold_left (fun sp h => fold_left (fun sp k => if skip h k then sp else add_at (N := NumR) sp k (v h k)) (seq 0 m) sp) hs sp in
  length out = m /\ forall k, k < m -> nth k out 0%R = (nth k sp 0 + Rsum (map (fun h => if skip h k then 0%R else v h k) hs))%R.
Proof.
  induction hs as [|h hs IH]; intros sp Hl out.
  - cbn in *. subst out. split; auto. intros; lra.
  - destruct (fold_segments m (v h) (skip h) (seq 0 m) sp Hl) as [F1 F2]; [intros k Hk; apply in_seq in Hk; lia|apply seq_NoDup|].
    set (sp1 := fold_left _ (seq 0 m) sp) in *. destruct (IH sp1 F1) as [I1 I2].
    split; [exact I1|]. intros k Hk.
    transitivity (nth k sp1 0 + Rsum (map (fun h => if skip h k then 0%R else v h k) hs))%R; [exact (I2 k Hk)|].
    rewrite F2. destruct (in_dec Nat.eq_dec k (seq 0 m)) as [_|Hx]; [|destruct Hx; apply in_seq; lia]. cbn [map Rsum]. lra.
Qed.
Lemma mean_range {A} (f : A -> R) l : (forall a, In a l -> 0 <= f a <= 1)%R -> (0 <= mean_of (map f l) <= 1)%R.
Proof.
  intros H. unfold mean_of. rewrite map_length.
  assert (H0 : (0 <= Rsum (map f l))%R). { apply Rsum_nonneg. intros x Hx. apply in_map_iff in Hx as (a & <- & Ha). now apply H. }
  assert (H1 : (Rsum (map f l) <= INR (length l))%R).
  { replace (INR (length l)) with (Rsum (map (fun _ => 1%R) l)) by (rewrite Rsum_map_const; lra). apply Rsum_map_le. intros a Ha. now apply H. }
  destruct l as [|a l]; [cbn; unfold Rdiv; rewrite Rmult_0_l; lra|].
  assert (Hp : (0 < INR (length (a :: l)))%R) by (apply lt_0_INR; cbn; lia).
  split; [apply Rmult_le_pos; auto; left; now apply Rinv_0_lt_compat|].
  apply (Rmult_le_reg_r (INR (length (a :: l)))); auto. unfold Rdiv. rewrite Rmult_assoc, Rinv_l; lra.
Qed.
Lemma between_hits jm rk q a b : slice (indicator (rel jm q) (rk q)) (Z.of_nat a) (Z.of_nat b) = indicator (rel jm q) (firstn (b - a) (skipn a (rk q))).
Proof. rewrite slice_nat. unfold indicator. now rewrite skipn_map, firstn_map. Qed.

Definition seg_sums (m : nat) (v : list R -> nat -> R) (skip : list R -> nat -> bool) (hs : list (list R)) : list R :=
  fold_left (fun sp h => fold_left (fun sp k => if skip h k then sp else add_at (N := NumR) sp k (v h k)) (seq 0 m) sp) hs (repeat 0%R m).
Lemma probfuse_segments_spec m (hs : list (list R)) : 0 < m -> exists p : list R, @probfuse_segments NumR (Z.of_nat m) hs = Ok p /\
  length p = m /\ forall k v, nth_error p k = Some v ->
    v = (Rsum (map (fun h => let s := segment_size (length h) m in
                        let seg := slice h (Z.of_nat (k * s)) (Z.of_nat ((k + 1) * s)) in
                        if length seg =? 0 then 0 else Rsum seg / INR (length seg)) hs) / INR (length hs))%R.
Proof.
  intros Hm. unfold probfuse_segments. destruct (Z.ltb_spec (Z.of_nat m) 0); [lia|]. destruct (Z.eqb_spec (Z.of_nat m) 0); [lia|].
  cbn [andb].
  set (seg := fun (h : list R) k => slice h (Z.of_nat k * ceil_div (Z.of_nat (length h)) (Z.of_nat m)) ((Z.of_nat k + 1) * ceil_div (Z.of_nat (length h)) (Z.of_nat m))).
  set (skip := fun h k => length (seg h k) =? 0).
  set (v := fun h k => (@fdiv NumR (@fsum NumR (seg h k)) (@fnat NumR (length (seg h k))))).
  destruct (fold_all_segments m v skip hs (repeat 0%R m) (repeat_length _ _)) as [F1 F2].
  change (length (seg_sums m v skip hs) = m) in F1.
  assert (F2' : forall k, k < m -> nth k (seg_sums m v skip hs) 0%R = (nth k (repeat 0%R m) 0 + Rsum (map (fun h => if skip h k then 0%R else v h k) hs))%R) by exact F2.
  clear F2. rename F2' into F2.
  assert (Hd : fold_left (fun sp h => fold_left (fun sp k => if skip h k then sp else add_at (N := NumR) sp k (v h k)) (seq 0 m) sp) hs (repeat 0%R m) = seg_sums m v skip hs) by reflexivity.
  set (out := seg_sums m v skip hs) in *.
  exists (map (fun p => (p / INR (length hs))%R) out). split; [|split].
  - rewrite Nat2Z.id. transitivity (Ok (map (fun p => @fdiv NumR p (@fnat NumR (length hs))) out)); [reflexivity|].
    f_equal. apply map_ext. intros a. rewrite fnat_INR. reflexivity.
  - now rewrite map_length.
  - intros k w Hw. rewrite nth_error_map in Hw. destruct (nth_error out k) as [u|] eqn:Hu; [|discriminate]. cbn in Hw. inversion Hw; subst w.
    assert (Hk : k < m) by (rewrite <- F1; apply nth_error_Some; congruence).
    apply nth_error_nth with (d := 0%R) in Hu. rewrite <- Hu, F2 by exact Hk. rewrite nth_repeat0, Rplus_0_l. f_equal.
    apply Rsum_map_ext. intros h _. unfold skip, v. cbv zeta.
    assert (Hseg : seg h k = slice h (Z.of_nat (k * segment_size (length h) m)) (Z.of_nat ((k + 1) * segment_size (length h) m))).
    { unfold seg. rewrite ceil_div_nat by exact Hm. f_equal; lia. }
    rewrite Hseg. destruct (length _ =? 0); [reflexivity|]. rewrite fsum_R, fnat_INR. reflexivity.
Qed.
Lemma segment_probs_ok jm rk m : 0 < m -> exists p, @probfuse_segments NumR (Z.of_nat m) (hl jm rk) = Ok p /\ segment_probs jm rk m p.
Proof.
  intros Hm. destruct (probfuse_segments_spec m (hl jm rk) Hm) as (p & H1 & H2 & H3). exists p. split; [exact H1|].
  split; [exact H2|]. intros k v Hv. apply H3 in Hv. rewrite hl_sum, hl_length in Hv.
  assert (Hm2 : v = mean_over jm (fun q => let s := segment_size (length (rk q)) m in
                            if n_between rk q (k * s) ((k + 1) * s) =? 0 then 0%R else
                            (INR (rel_between jm rk q (k * s) ((k + 1) * s)) / INR (n_between rk q (k * s) ((k + 1) * s)))%R)).
  { rewrite Hv. unfold mean_over, mean_of. rewrite map_length. f_equal. apply Rsum_map_ext. intros q _. cbv zeta.
    assert (Hl : length (indicator (rel jm q) (rk q)) = length (rk q)) by (unfold indicator; apply map_length).
    rewrite Hl, between_hits. unfold n_between, rel_between. rewrite indicator_sum. unfold indicator. rewrite map_length. reflexivity. }
  split; [exact Hm2|]. rewrite Hm2. apply mean_range. intros q _. cbv zeta. destruct (_ =? 0); [lra|].
  apply ratio_range. unfold rel_between, n_between. apply count_le_length.
Qed.
