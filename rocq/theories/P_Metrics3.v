(** P_Metrics3.v: facts about the textbook definitions of Spec_Metrics.v: ideal dcg
    (rearrangement), bounds, cut-off monotonicity, adjacent swaps, appended tails. *)
From Coq Require Import Reals Lra Psatz.
From Verif Require Import Base Dict Spec_Metrics P_Base P_Dict P_Metrics P_Metrics2.
Open Scope list_scope.
Open Scope nat_scope.

(** ** Weighted sums over a list, weights by position *)
Fixpoint wdot (w : nat -> R) (i : nat) (l : list R) : R :=
  match l with [] => 0%R | x :: l' => (x * w i + wdot w (S i) l')%R end.

Lemma wdot_Rsum_n w l : forall i,
  wdot w i l = Rsum_n (length l) (fun n => (nth n l 0 * w (i + n)%nat)%R).
Proof.
  induction l as [|x l IH]; intros i; [reflexivity|].
  cbn [wdot length]. rewrite Rsum_n_S. cbn [nth]. rewrite Nat.add_0_r. f_equal.
  rewrite IH. apply Rsum_n_ext. intros n Hn. do 2 f_equal. lia.
Qed.

Lemma wdot_app w l1 l2 : forall i, wdot w i (l1 ++ l2) = (wdot w i l1 + wdot w (i + length l1) l2)%R.
Proof.
  induction l1 as [|x l1 IH]; intros i; cbn [app wdot length].
  - rewrite Nat.add_0_r. lra.
  - rewrite IH. replace (S i + length l1) with (i + S (length l1)) by lia. lra.
Qed.

Lemma wdot_nonneg w l : forall i, (forall n, (0 <= w n)%R) -> (forall x, In x l -> (0 <= x)%R) ->
  (0 <= wdot w i l)%R.
Proof.
  induction l as [|x l IH]; intros i Hw Hl; cbn; [lra|].
  assert (0 <= x)%R by (apply Hl; now left).
  assert (0 <= wdot w (S i) l)%R by (apply IH; auto; intros; apply Hl; now right).
  specialize (Hw i). nra.
Qed.

(** Abel summation as an induction *)
Lemma wdot_majorized w : (forall n, (0 <= w n)%R) -> (forall n, (w (S n) <= w n)%R) ->
  forall a b i c, (0 <= c)%R -> (forall y, In y b -> (0 <= y)%R) ->
  (forall m, (Rsum (firstn m a) <= Rsum (firstn m b) + c)%R) ->
  (wdot w i a <= wdot w i b + c * w i)%R.
Proof.
  intros Hw Hd. induction a as [|x a IH]; intros b i c Hc Hb H.
  - cbn [wdot]. assert (0 <= wdot w i b)%R by now apply wdot_nonneg. specialize (Hw i). nra.
  - destruct b as [|y b].
    + cbn [wdot]. assert (H1 : (x <= c)%R).
      { specialize (H 1). cbn in H. lra. }
      assert (H2 : (wdot w (S i) a <= wdot w (S i) [] + (c - x) * w (S i))%R).
      { apply IH; [lra|easy|]. intros m. specialize (H (S m)). cbn [firstn Rsum] in H.
        rewrite firstn_nil. cbn [Rsum]. lra. }
      cbn [wdot] in H2. specialize (Hd i). specialize (Hw (S i)). nra.
    + cbn [wdot]. assert (H1 : (0 <= c + y - x)%R).
      { specialize (H 1). cbn in H. lra. }
      assert (H2 : (wdot w (S i) a <= wdot w (S i) b + (c + y - x) * w (S i))%R).
      { apply IH; [lra|intros; apply Hb; now right|]. intros m. specialize (H (S m)). cbn [firstn Rsum] in H. lra. }
      specialize (Hd i). nra.
Qed.

(** Greedy prefixes are the best: a duplicate-free list of at most [m] documents has at
    most the gain of the first [m] of the sorted list. *)
Lemma greedy_prefix (g : string -> R) : (forall d, (0 <= g d)%R) ->
  forall js m ds, StronglySorted (fun a b => (g b <= g a)%R) js ->
  NoDup ds -> length ds <= m -> (forall d, In d ds -> In d js \/ g d = 0%R) ->
  (Rsum (map g ds) <= Rsum (map g (firstn m js)))%R.
Proof.
  intros Hg. induction js as [|a js IH]; intros m ds Hs Hn Hl Hin.
  - rewrite firstn_nil. cbn. rewrite Rsum_zero; [lra|].
    intros x Hx. apply in_map_iff in Hx as (d & <- & Hd). destruct (Hin d Hd); [easy|assumption].
  - inversion Hs as [|? ? Hs' Hf]; subst. destruct m as [|m].
    + destruct ds; [cbn; lra|cbn in Hl; lia].
    + cbn [firstn map Rsum].
      destruct (in_dec string_dec a ds) as [Ha|Ha].
      * apply in_split in Ha as (d1 & d2 & ->).
        assert (Hp : Permutation (d1 ++ a :: d2) (a :: d1 ++ d2))
          by (apply Permutation_sym, Permutation_middle).
        rewrite (Rsum_perm _ _ (Permutation_map g Hp)). cbn [map Rsum].
        apply Rplus_le_compat_l. apply (Permutation_NoDup Hp) in Hn. inversion Hn; subst.
        apply IH; auto.
        -- apply Permutation_length in Hp. cbn [length] in Hp. lia.
        -- intros d Hd. destruct (Hin d) as [[->|Hd'] |Hd']; auto; [|easy].
           apply in_or_app. apply in_app_or in Hd. cbn. tauto.
      * destruct ds as [|x ds].
        -- cbn [map Rsum]. apply Rplus_le_le_0_compat; [apply Hg|]. apply Rsum_nonneg.
           intros y Hy. apply in_map_iff in Hy as (d & <- & _). apply Hg.
        -- cbn [map Rsum]. inversion Hn; subst. apply Rplus_le_compat.
           ++ rewrite Forall_forall in Hf. destruct (Hin x (or_introl eq_refl)) as [[->|Hx]|Hx].
              ** lra.
              ** now apply Hf.
              ** rewrite Hx. apply Hg.
           ++ apply IH; auto; [cbn in Hl; lia|].
              intros d Hd. destruct (Hin d (or_intror Hd)) as [[->|Hx]|Hx]; auto.
              exfalso. apply Ha. now right.
Qed.

(** ** log2 weights *)
Lemma log2_pos i : (0 < log2 (INR (i + 2)))%R.
Proof.
  unfold log2. apply Rdiv_lt_0_compat.
  - rewrite <- ln_1. apply ln_increasing; [lra|]. rewrite plus_INR. cbn. pose proof (pos_INR i). lra.
  - rewrite <- ln_1. apply ln_increasing; lra.
Qed.
Definition dw (i : nat) : R := (/ log2 (INR (i + 2)))%R.
Lemma dw_pos i : (0 < dw i)%R.
Proof. apply Rinv_0_lt_compat, log2_pos. Qed.
Lemma dw_decr i : (dw (S i) <= dw i)%R.
Proof.
  unfold dw. apply Rinv_le_contravar; [apply log2_pos|]. unfold log2, Rdiv.
  apply Rmult_le_compat_r.
  - apply Rlt_le, Rinv_0_lt_compat. rewrite <- ln_1. apply ln_increasing; lra.
  - apply Rlt_le, ln_increasing.
    + rewrite plus_INR. cbn. pose proof (pos_INR i). lra.
    + apply lt_INR. lia.
Qed.

Section Facts.
Context (g : string -> R).
Lemma dcg_wdot ds k : S_dcg_with ds g k = wdot dw 0 (map g (top ds k)).
Proof.
  unfold S_dcg_with. rewrite wdot_Rsum_n, map_length. apply Rsum_n_ext. intros i Hi. cbn [Nat.add].
  rewrite (nth_indep _ 0%R (g EmptyString)) by now rewrite map_length.
  rewrite map_nth. unfold Rdiv. fold (dw i). do 2 f_equal.
  unfold top in *. destruct k; [reflexivity|].
  rewrite firstn_length in Hi. rewrite <- (firstn_skipn (S k) ds) at 1.
  rewrite app_nth1 by (rewrite firstn_length; lia). reflexivity.
Qed.

Lemma NoDup_firstn {A} n (l : list A) : NoDup l -> NoDup (firstn n l).
Proof.
  revert n; induction l as [|a l IH]; intros [|n] H; cbn; try constructor.
  - inversion H; subst. intros Hin. apply H2. rewrite <- (firstn_skipn n l). apply in_or_app. now left.
  - inversion H; subst. auto.
Qed.
Lemma NoDup_top ds k : NoDup ds -> NoDup (top ds k).
Proof. destruct k; [auto|]. apply NoDup_firstn. Qed.

(** the dcg of the sorted judgments is the ideal dcg *)
Lemma sorted_is_ideal js k : (forall d, (0 <= g d)%R) -> NoDup js ->
  StronglySorted (fun a b => (g b <= g a)%R) js -> (forall d, ~ In d js -> g d = 0%R) ->
  is_ideal g k (S_dcg_with js g k).
Proof.
  intros Hg Hn Hs Hz. split; [exists js; auto|].
  intros ds Hd. rewrite !dcg_wdot.
  assert (H : (wdot dw 0 (map g (top ds k)) <= wdot dw 0 (map g (top js k)) + 0 * dw 0)%R); [|lra].
  apply wdot_majorized.
  - intros n. apply Rlt_le, dw_pos.
  - apply dw_decr.
  - lra.
  - intros y Hy. apply in_map_iff in Hy as (d & <- & _). apply Hg.
  - intros m. rewrite Rplus_0_r, !firstn_map.
    set (m' := match k with O => m | _ => Nat.min m k end).
    replace (firstn m (top js k)) with (firstn m' js)
      by (unfold m', top; destruct k; [reflexivity|now rewrite firstn_firstn]).
    apply greedy_prefix; auto.
    + apply NoDup_firstn, NoDup_top, Hd.
    + unfold m', top. destruct k; rewrite ?firstn_length; lia.
    + intros d _. destruct (in_dec string_dec d js); auto.
Qed.

Lemma is_ideal_unique k m m' : is_ideal g k m -> is_ideal g k m' -> m = m'.
Proof.
  intros [(r & Hr & <-) H1] [(r' & Hr' & <-) H2]. apply Rle_antisym; auto.
Qed.
Lemma is_ideal_nonneg k m : is_ideal g k m -> (0 <= m)%R.
Proof.
  intros [_ H]. specialize (H [] (NoDup_nil _)). rewrite dcg_wdot in H. 
  destruct k; cbn in H; exact H.
Qed.
End Facts.
