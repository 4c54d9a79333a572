(** P_Float15.v: weights, ranks, unanimity and accuracy of fusion in binary64 *)
From Coq Require Import Reals ZArith Lra Lia SpecFloat Psatz List String Permutation Sorting.Sorted.
From Flocq Require Import Core.Core IEEE754.BinarySingleNaN.
From Verif Require Import Base Dict Num NumLaws Env EnvEx M_Common M_Qrels M_Run M_Norm M_Fusion Spec_DS Spec_Hist Spec_Metrics Spec_Eval Spec_Norm Spec_Fusion Spec_Float Spec_Float3 Spec_Float4
  P_Base P_Dict P_Common P_History P_Norm P_Fusion P_Fusion2 P_Float P_Float2 P_Float3 P_Float10 P_Float11 P_Float12 P_Float13 P_Float14.
Import ListNotations.
Open Scope R_scope.
Open Scope list_scope.

Lemma big_rnd a : Rabs a <= big -> Rabs (rnd64 a) <= big.
Proof.
  intros H. assert (Hf : fmt big) by (apply generic_format_bpow; cbn; lia). apply Rabs_le_inv in H. apply Rabs_le.
  split; [apply rnd_ge_fmt; [now apply generic_format_opp|lra]|apply rnd_le_fmt; [exact Hf|lra]].
Qed.
Lemma fold_zero l : fold_left radd (0 :: l) 0 = fold_left radd l 0.
Proof. cbn [fold_left]. unfold radd at 2. now rewrite Rplus_0_r, rnd_0. Qed.
Lemma rsum_head r l : fmt r -> rsum64 (r :: l) = fold_left radd l r.
Proof. intros H. unfold rsum64. cbn [fold_left]. rewrite Rplus_0_l, (rnd_fmt r H). reflexivity. Qed.
Lemma rsum_error l : Forall fmt l -> Rabs (rsum64 l - Rsum l) <= ((1 + ulp64) ^ (length l - 1) - 1) * Rsum (map Rabs l).
Proof.
  intros H. destruct l as [|r l]; [cbn; rewrite Rminus_0_r, Rabs_R0; lra|]. inversion_clear H as [|? ? Hr Hl]. rewrite (rsum_head r l Hr).
  cbn [length map]. replace (S (length l) - 1)%nat with (length l) by lia. exact (fold_error l r Hr Hl).
Qed.
Lemma rsum_mono l l' : Forall2 Rle l l' -> rsum64 l <= rsum64 l'.
Proof. intros H. apply fold_mono; [exact H|lra]. Qed.
Lemma rsum_nonneg l : Forall (Rle 0) l -> 0 <= rsum64 l.
Proof.
  intros H. assert (Hz : rsum64 (map (fun _ => 0) l) = 0). { clear. induction l as [|r l IH]; [reflexivity|]. cbn [map]. unfold rsum64 in *. cbn [fold_left]. now rewrite Rplus_0_r, rnd_0. }
  rewrite <- Hz. apply rsum_mono. clear Hz. induction H; cbn; constructor; auto.
Qed.
Lemma med64_median l : l <> [] -> median64 l (med64 l).
Proof.
  intros Hne. assert (Hp : Permutation (@fsort NumR l) l).
  { clear. induction l as [|x l IH]; [constructor|]. change (@fsort NumR (x :: l)) with (@finsert NumR x (@fsort NumR l)).
    assert (Hi : forall t (y : R), Permutation (@finsert NumR y t) (y :: t)) by (induction t as [|z t IHt]; intros y; cbn; [constructor; constructor|]; destruct (Rleb y z); [constructor; reflexivity|]; rewrite IHt; constructor).
    rewrite Hi. now constructor. }
  assert (Hs : StronglySorted Rle (@fsort NumR l)).
  { clear. induction l as [|x l IH]; [constructor|]. change (@fsort NumR (x :: l)) with (@finsert NumR x (@fsort NumR l)).
    assert (Hi : forall t (y : R), StronglySorted Rle t -> StronglySorted Rle (@finsert NumR y t)).
    { induction t as [|z t IHt]; intros y Ht; cbn; [constructor; constructor|]. inversion_clear Ht as [|? ? Ht' Hz]. change (@fleb NumR y z) with (Rleb y z). unfold Rleb. destruct (Rle_dec y z) as [Hle|Hgt].
      - constructor; [constructor; auto|]. constructor; [exact Hle|]. rewrite Forall_forall in *. intros w Hw. specialize (Hz w Hw). lra.
      - constructor; [now apply IHt|]. assert (Hf : forall t, Forall (Rle z) t -> Forall (Rle z) (@finsert NumR y t)).
        { clear - Hgt. induction t as [|w t IH]; intros H; cbn; [constructor; [lra|constructor]|]. inversion_clear H. destruct (Rleb y w); constructor; auto; lra. }
        now apply Hf. }
    now apply Hi. }
  exists (@fsort NumR l). split; [exact Hp|]. split; [exact Hs|]. pose proof (fsort_len l) as Hl. unfold med64.
  assert (Hpos : (0 < length l)%nat) by (destruct l; [easy|cbn; lia]).
  destruct (Nat.even (length l)) eqn:He.
  - right. apply Nat.even_spec in He as [h Hh]. rewrite Hh. replace (2 * h / 2)%nat with h by (rewrite Nat.mul_comm, Nat.div_mul; lia).
    exists (h - 1)%nat, (nth (h - 1) (@fsort NumR l) 0), (nth h (@fsort NumR l) 0). split; [|reflexivity]. split; [lia|]. split; [apply nth_error_nth'; lia|].
    replace (h - 1 + 1)%nat with h by lia. apply nth_error_nth'; lia.
  - left. assert (Ho : Nat.odd (length l) = true) by (unfold Nat.odd; now rewrite He). apply Nat.odd_spec in Ho as [h Hh]. rewrite Hh.
    replace ((2 * h + 1) / 2)%nat with h by (rewrite Nat.mul_comm, Nat.div_add_l by lia; cbn; lia).
    exists h, (nth h (@fsort NumR l) 0). split; [lia|]. split; [apply nth_error_nth'; lia|reflexivity].
Qed.
Lemma F2_app {A B} (P : A -> B -> Prop) l1 l2 m1 m2 : Forall2 P l1 m1 -> Forall2 P l2 m2 -> Forall2 P (l1 ++ l2) (m1 ++ m2).
Proof. induction 1; cbn; auto. Qed.
Lemma F2_length {A B} (P : A -> B -> Prop) l m : Forall2 P l m -> length l = length m.
Proof. induction 1; cbn; auto. Qed.
Lemma with_default_mono v n l l' : Forall2 Rle l l' -> Forall2 Rle (with_default v n l) (with_default v n l').
Proof. intros H. unfold with_default. rewrite (F2_length _ _ _ H). apply F2_app; [exact H|]. destruct (length l' <? n)%nat; constructor; [lra|constructor]. Qed.
Lemma F2_nth_le l l' : Forall2 Rle l l' -> forall i, nth i l 0 <= nth i l' 0.
Proof. induction 1 as [|a b l l' Hab H IH]; intros [|i]; cbn; auto; lra. Qed.

Section N.
Variables (l1 l2 : sf -> sf) (pw : sf -> sf -> sf).
Notation N64 := (NumSF_with l1 l2 pw).
Variable E : @env N64.
Hypothesis HE : env_ok E.
Notation rs xs q := (map (fun m : dict (dict sf) => @ofq sf m q) (@maps N64 xs)).

Lemma given_fmt q d (xs : list (Run N64)) l : given64 q d xs l -> Forall fmt l.
Proof. induction 1 as [|x xs r l (s & _ & Hr) H IH|]; auto. constructor; auto. exact (is64_fmt _ _ Hr). Qed.
Lemma not_below_intro64 xs (r : result (Run N64)) (P : list R -> R -> Prop) q a b : Forall run64 xs -> fused64 xs r P ->
  (forall x, In x xs -> holds64 x q b -> exists x', In x' xs /\ holds64 x' q a) ->
  (forall la lb va vb, given64 q a xs la -> given64 q b xs lb -> lb <> [] -> P la va -> P lb vb -> vb <= va) -> not_below64 r q a b.
Proof.
  intros Hr (y & Hy & Hu & Hv) Hab Hle. exists y. split; [exact Hy|]. intros vb Hvb. destruct Hu as (_ & Hh & Hval & _).
  assert (Hb : exists x, In x xs /\ holds64 x q b). { apply Hh. destruct Hvb as (s & Hs & _). now exists s. }
  assert (Ha : holds64 y q a). { apply Hh. destruct Hb as (x & Hx & Hb). exact (Hab x Hx Hb). }
  destruct (Hval q a Ha) as [va Hva]. exists va. split; [exact Hva|].
  destruct (given_exists _ _ _ q a xs Hr) as [la Hla], (given_exists _ _ _ q b xs Hr) as [lb Hlb].
  apply (Hle la lb va vb Hla Hlb); [now apply (given_ne l1 l2 pw q b xs)|now apply (Hv q a)|now apply (Hv q b)].
Qed.

(** ** weights *)
Fixpoint wvals (ws : list sf) (rr : list (dict sf)) (d : string) : list sf :=
  match ws, rr with
  | w :: ws, r :: rr => sf_mul w (match @dget sf r d with Some v => v | None => @fzero N64 end) :: wvals ws rr d
  | _, _ => []
  end.
Lemma wvals_eq d : forall ws rr, map (fun wr => @fmul N64 (fst wr) match @dget sf (snd wr) d with Some v => v | None => @fzero N64 end) (combine ws rr) = wvals ws rr d.
Proof. induction ws as [|w ws IH]; intros [|r rr]; cbn; auto. now rewrite IH. Qed.
Lemma weighted_exists q d wr (xs : list (Run N64)) : Forall run64 xs -> (length xs <= length wr)%nat -> exists l, weighted64 q d wr xs l.
Proof.
  intros H. revert wr. induction H as [|x xs Hx H IH]; intros wr Hl; [exists []; constructor|]. destruct wr as [|w wr]; [cbn in Hl; lia|]. cbn in Hl.
  destruct (IH wr) as [l Hlw]; [lia|]. destruct (@dget2 sf (r_map x) q d) as [s|] eqn:Hs.
  - destruct (proj2 Hx q d s Hs) as (r & Hr & _). exists ((w, r) :: l). constructor; auto. exists s. auto.
  - exists l. apply weighted_not; auto. now apply none_not.
Qed.
Lemma weighted_ne q d wr (xs : list (Run N64)) l : (exists x, In x xs /\ holds64 x q d) -> weighted64 q d wr xs l -> l <> [].
Proof.
  intros (x & Hx & Hd) H Hl. revert Hx. induction H as [|w wr z xs r l Hv H IH|w wr z xs l Hn H IH]; intros Hx; [easy|discriminate|].
  destruct Hx as [ -> |Hx]; [now apply Hn|]. now apply IH.
Qed.
Lemma weighted_vals q d wr (xs : list (Run N64)) l : Forall run64 xs -> weighted64 q d wr xs l -> forall ws, weights64 ws wr ->
  exists l0, Forall2 term (wvals ws (rs xs q) d) l0 /\ length l0 = length xs /\ forall a, fmt a -> fold_left radd l0 a = fold_left radd (map (fun wv => rnd64 (fst wv * snd wv)) l) a.
Proof.
  intros Hr H. induction H as [wr|w wr x xs r l Hv H IH|w wr x xs l Hn H IH]; intros ws Hw.
  - exists []. cbn [maps map]. destruct ws; cbn; (split; [constructor|]; split; [reflexivity|]; reflexivity).
  - inversion Hw as [|w0 ? ws0 ? [Hw1 Hw2] Hw']; subst. inversion_clear Hr as [|? ? Hx Hxs]. destruct (IH Hxs ws0 Hw') as (l0 & H1 & H2 & H3).
    pose proof (bounded_val l1 l2 pw x Hx q d r Hv) as HB. apply held_get in Hv as (s & Hs & Hs').
    assert (Hp : Rabs (w * r) <= big). { rewrite Rabs_mult. unfold big. replace (bpow radix2 400) with (2 ^ 200 * 2 ^ 200) by (rewrite pow200_bpow, <- bpow_plus; reflexivity). apply Rmult_le_compat; auto using Rabs_pos. }
    exists (rnd64 (w * r) :: l0). split; [|split; [cbn; lia|]].
    + change (wvals (w0 :: ws0) (rs (x :: xs) q) d) with (sf_mul w0 (match @dget sf (@ofq sf (r_map x) q) d with Some v => v | None => @fzero N64 end) :: wvals ws0 (rs xs q) d). rewrite Hs.
      constructor; [|exact H1]. split; [|now apply big_rnd]. apply fin_mul; auto. apply bounded. eapply Rle_trans; [exact Hp|]. apply bpow_le. lia.
    + intros a Ha. cbn [map fold_left fst snd]. apply H3. apply fmt_rnd.
  - inversion Hw as [|w0 ? ws0 ? [Hw1 Hw2] Hw']; subst. inversion_clear Hr as [|? ? Hx Hxs]. destruct (IH Hxs ws0 Hw') as (l0 & H1 & H2 & H3).
    apply not_get in Hn. exists (rnd64 (w * 0) :: l0). rewrite Rmult_0_r, rnd_0. split; [|split; [cbn; lia|]].
    + change (wvals (w0 :: ws0) (rs (x :: xs) q) d) with (sf_mul w0 (match @dget sf (@ofq sf (r_map x) q) d with Some v => v | None => @fzero N64 end) :: wvals ws0 (rs xs q) d). rewrite Hn.
      constructor; [|exact H1]. split; [|rewrite Rabs_R0; apply Rlt_le, big_pos]. replace 0 with (rnd64 (w * 0)) at 1 by now rewrite Rmult_0_r, rnd_0. apply fin_mul; auto; [apply fin_zero|].
      apply bounded. rewrite Rmult_0_r, Rabs_R0. apply bpow_ge_0.
    + intros a Ha. cbn [fold_left]. unfold radd at 2. rewrite Rplus_0_r, (rnd_fmt a Ha). now apply H3.
Qed.
Lemma wsum_value ws wr xs q d l : fusable64 xs -> weights64 ws wr -> (length xs <= length ws)%nat -> weighted64 q d wr xs l ->
  exists s, @wsum_formula N64 ws (rs xs q) d = Ok s /\ is64 s (rsum64 (map (fun wv => rnd64 (fst wv * snd wv)) l)).
Proof.
  intros (_ & Hr & Hn & _) Hw Hlen Hl. destruct (weighted_vals q d wr xs l Hr Hl ws Hw) as (l0 & H1 & H2 & H3).
  exists (@fsum N64 (wvals ws (rs xs q) d)). split.
  - pose proof (@wsum_formula_ok N64 ws (rs xs q) d) as Hok. etransitivity; [apply Hok|].
    + unfold maps. rewrite !map_length. exact Hlen.
    + rewrite <- wvals_eq. reflexivity.
  - destruct (fin_sum l1 l2 pw _ _ H1) as [Hv _]; [rewrite H2; exact Hn|]. replace (rsum64 (map (fun wv => rnd64 (fst wv * snd wv)) l)) with (rsum64 l0); [exact Hv|].
    exact (H3 0 fmt_0).
Qed.

(** ** ranks *)
Definition rescored (h : nat -> sf) (x : Run N64) : Run N64 := @new_run N64 None (@posmap N64 (fun _ => h) (r_map x)).
Lemma rescored_get h (x : Run N64) q d : @dget2 sf (r_map (rescored h x)) q d = option_map h (index_of (dkeys (@of_query sf (r_map x) q)) d).
Proof. exact (@pos_map_get N64 (fun _ => h) (r_map x) q d). Qed.
Lemma rescored_holds h x q d : holds64 (rescored h x) q d <-> holds64 x q d.
Proof.
  rewrite (holds_key l1 l2 pw x q d). assert (Hk : In d (dkeys (@ofq sf (r_map x) q)) <-> exists i, index_of (dkeys (@of_query sf (r_map x) q)) d = Some i).
  { change (@of_query sf (r_map x) q) with (@ofq sf (r_map x) q). destruct (index_of (dkeys (@ofq sf (r_map x) q)) d) as [i|] eqn:Hi.
    - split; [eauto|]. intros _. destruct (in_dec string_dec d (dkeys (@ofq sf (r_map x) q))) as [Hd|Hd]; [exact Hd|]. apply index_of_None in Hd. congruence.
    - apply index_of_None in Hi. split; [easy|]. intros [i Hc]. discriminate. }
  rewrite Hk. unfold holds64. pose proof (rescored_get h x q d) as Hg. split.
  - intros [s Hs]. pose proof (eq_trans (eq_sym Hg) Hs) as H. destruct (index_of (dkeys (@of_query sf (r_map x) q)) d) as [i|]; [eauto|discriminate H].
  - intros [i Hi]. exists (h i). etransitivity; [exact Hg|]. now rewrite Hi.
Qed.
Lemma rescored_query h x q : query_of64 (rescored h x) q <-> query_of64 x q.
Proof. unfold query_of64. pose proof (@posmap_keys N64 (fun _ => h) (r_map x)) as H. change (dkeys (r_map (rescored h x)) = dkeys (r_map x)) in H. now rewrite H. Qed.
Lemma index_lt d : forall (l : list string) i, index_of l d = Some i -> (i < length l)%nat.
Proof. induction l as [|e l IH]; cbn; intros i H; [discriminate|]. destruct (String.eqb _ _); [inversion H; lia|]. destruct (index_of l d) as [j|]; [|discriminate]. inversion H; subst. specialize (IH j eq_refl). lia. Qed.
Lemma ranks_cons (x : Run N64) zs q d : ranks64 (x :: zs) q d = (match index_of (dkeys (@of_query sf (r_map x) q)) d with Some i => [S i] | None => [] end ++ ranks64 zs q d).
Proof.
  change (ranks64 (x :: zs) q d) with (match rank_in (dkeys (@of_query sf (r_map x) q)) d with Some r => [r] | None => [] end ++ ranks64 zs q d). f_equal.
  rewrite rank_in_index. now destruct (index_of (dkeys (@of_query sf (r_map x) q)) d).
Qed.
Section R.
Variables (h : nat -> sf) (g : nat -> R) (n : Z) (xs : list (Run N64)).
Hypothesis Hh : forall i, (Z.of_nat (S i) <= n)%Z -> is64 (h i) (g (S i)) /\ 0 <= g (S i) <= 1.
Hypothesis Hxs : fusable64 xs.
Hypothesis Hup : lists_upto n xs.
Lemma rank_up x q d i : In x xs -> index_of (dkeys (@of_query sf (r_map x) q)) d = Some i -> (Z.of_nat (S i) <= n)%Z.
Proof. intros Hx H. apply index_lt in H. unfold dkeys in H. rewrite map_length in H. refine (Z.le_trans _ _ _ _ (Hup x q Hx)). apply inj_le. exact H. Qed.
Lemma rescored_run64 x : In x xs -> run64 (rescored h x).
Proof.
  intros Hx. destruct Hxs as (_ & Hr & _). rewrite Forall_forall in Hr. destruct (Hr x Hx) as [Hok _]. split; [exact (@posmap_ok N64 (fun _ => h) (r_map x) Hok)|].
  intros q d s Hs. pose proof (eq_trans (eq_sym (rescored_get h x q d)) Hs) as H. destruct (index_of (dkeys (@of_query sf (r_map x) q)) d) as [i|] eqn:Hi; [|discriminate H].
  injection H as <-. destruct (Hh i (rank_up x q d i Hx Hi)) as [H1 H2]. exists (g (S i)). split; [exact H1|]. rewrite Rabs_pos_eq by lra.
  apply Rle_trans with 1; [lra|]. apply pow_R1_Rle. lra.
Qed.
Lemma rescored_fusable : fusable64 (map (rescored h) xs).
Proof.
  destruct Hxs as (Hne & Hr & Hn & Hq). split; [now destruct xs|]. split; [|split; [now rewrite map_length|]].
  - apply Forall_forall. intros y Hy. apply in_map_iff in Hy as (x & <- & Hx). now apply rescored_run64.
  - intros y y' q Hy Hy'. apply in_map_iff in Hy as (x & <- & Hx). apply in_map_iff in Hy' as (x' & <- & Hx'). rewrite !rescored_query. now apply Hq.
Qed.
Lemma rescored_given q d : forall zs, incl zs xs -> given64 q d (map (rescored h) zs) (map g (ranks64 zs q d)).
Proof.
  induction zs as [|x zs IH]; intros Hi; [constructor|]. assert (Hx : In x xs) by (apply Hi; now left). assert (Hzs : incl zs xs) by (intros z Hz; apply Hi; now right).
  rewrite ranks_cons. destruct (index_of (dkeys (@of_query sf (r_map x) q)) d) as [i|] eqn:Hix.
  - cbn [app map]. apply given_held; [|now apply IH]. exists (h i). split; [|apply Hh; now apply (rank_up x q d)]. etransitivity; [exact (rescored_get h x q d)|]. now rewrite Hix.
  - cbn [app map]. apply given_not; [|now apply IH]. intros [s Hs]. pose proof (eq_trans (eq_sym (rescored_get h x q d)) Hs) as H. rewrite Hix in H. discriminate H.
Qed.
Lemma rescored_union y : union64 (map (rescored h) xs) y -> union64 xs y.
Proof.
  intros (U1 & U2 & U3 & U4). split; [|split; [|split; [exact U3|exact U4]]].
  - intros x q Hx. rewrite <- (rescored_query h x). apply U1. now apply in_map.
  - intros q d. rewrite U2. split.
    + intros (z & Hz & Hd). apply in_map_iff in Hz as (x & <- & Hx). apply (rescored_holds h x q d) in Hd. exists x. now split.
    + intros (x & Hx & Hd). exists (rescored h x). split; [now apply in_map|]. apply (rescored_holds h x q d). exact Hd.
Qed.
Lemma rescored_maps : map (fun x : Run N64 => @posmap N64 (fun _ => h) (r_map x)) xs = @maps N64 (map (rescored h) xs).
Proof. unfold maps. rewrite map_map. reflexivity. Qed.
Lemma fusedr_intro (r : result (Run N64)) (P : list R -> R -> Prop) : fused64 (map (rescored h) xs) r P -> fusedr64 xs r (fun rks v => P (map g rks) v).
Proof.
  intros (y & Hy & Hu & Hv). exists y. split; [exact Hy|]. split; [now apply rescored_union|].
  intros q d v Hval. apply (Hv q d); [|exact Hval]. apply rescored_given. apply incl_refl.
Qed.
(** two documents *)
Hypothesis Hg : forall i j, (1 <= i <= j)%nat -> (Z.of_nat j <= n)%Z -> g j <= g i.
Lemma rescored_more q a b : forall zs, incl zs xs -> (forall x, In x zs -> ranks_more64 x q a b) -> forall la lb,
  default64 l1 l2 pw q a 0 (map (rescored h) zs) la -> default64 l1 l2 pw q b 0 (map (rescored h) zs) lb -> Forall2 Rle lb la.
Proof.
  induction zs as [|x zs IH]; intros Hi Hm la lb Ha Hb; [inversion Ha; inversion Hb; constructor|].
  assert (Hx : In x xs) by (apply Hi; now left). assert (Hzs : incl zs xs) by (intros z Hz; apply Hi; now right).
  assert (Hv : forall d r, value64 (rescored h x) q d r -> exists k, rank_in (dkeys (@of_query sf (r_map x) q)) d = Some k /\ r = g k /\ (1 <= k)%nat /\ (Z.of_nat k <= n)%Z /\ 0 <= r).
  { intros d r (s & Hs & Hr). pose proof (eq_trans (eq_sym (rescored_get h x q d)) Hs) as H. destruct (index_of (dkeys (@of_query sf (r_map x) q)) d) as [i|] eqn:Hix; [|discriminate H].
    injection H as <-. exists (S i). rewrite rank_in_index, Hix. pose proof (rank_up x q d i Hx Hix) as Hle. destruct (Hh i Hle) as [H1 H2]. rewrite (is64_fun _ _ _ Hr H1).
    split; [reflexivity|]. split; [reflexivity|]. split; [lia|]. split; [exact Hle|lra]. }
  inversion Ha as [|? ? ra la' Hva Ha'|? ? la' Hna Ha']; inversion Hb as [|? ? rb lb' Hvb Hb'|? ? lb' Hnb Hb']; subst; (constructor; [|apply IH; auto; intros; apply Hm; now right]).
  - destruct (Hv a ra Hva) as (ka & Hka & -> & Ka1 & Ka2 & _), (Hv b rb Hvb) as (kb & Hkb & -> & _ & Kb2 & _).
    destruct (Hm x (or_introl eq_refl) kb Hkb) as (ka' & Hka' & Hle). assert (ka = ka') as <- by (pose proof (eq_trans (eq_sym Hka) Hka') as Hee; now injection Hee). apply Hg; [lia|exact Kb2].
  - destruct (Hv a ra Hva) as (ka & _ & _ & _ & _ & H). exact H.
  - destruct (Hv b rb Hvb) as (kb & Hkb & _). destruct (Hm x (or_introl eq_refl) kb Hkb) as (ka & Hka & _). exfalso. apply Hna. apply (rescored_holds h x q a). apply (holds_key l1 l2 pw).
    change (@ofq sf (r_map x) q) with (@of_query sf (r_map x) q). change (rank_in (dkeys (@of_query sf (r_map x) q)) a = Some ka) in Hka. rewrite rank_in_index in Hka. destruct (in_dec string_dec a (dkeys (@of_query sf (r_map x) q))) as [Hd|Hd]; [exact Hd|]. apply index_of_None in Hd. rewrite Hd in Hka. discriminate Hka.
  - lra.
Qed.
End R.
End N.
