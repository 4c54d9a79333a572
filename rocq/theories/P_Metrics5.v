(** P_Metrics5.v: cut-offs, adjacent swaps, appended tails and ideal rankings for the
    textbook metrics of Spec_Metrics.v. *)
From Coq Require Import Reals Lra Psatz.
From Verif Require Import Base Dict Spec_Metrics P_Base P_Dict P_Metrics P_Metrics2 P_Metrics3 P_Metrics4.
Open Scope list_scope.
Open Scope nat_scope.

(** cut-off k is at most cut-off k' (0 = no cut-off) *)
Definition cut_le (k k' : nat) : Prop := k' = 0 \/ (0 < k /\ k <= k').

Lemma nth_firstn_lt {A} (l : list A) n i d : i < n -> nth i (firstn n l) d = nth i l d.
Proof.
  revert n i; induction l as [|x l IH]; intros [|n] [|i] H; cbn; auto; try lia. apply IH. lia.
Qed.
Lemma top_prefix ds k k' : cut_le k k' -> exists t, top ds k' = top ds k ++ t.
Proof.
  intros [->|[H1 H2]].
  - destruct k; [exists []; now rewrite app_nil_r|]. exists (skipn (S k) ds). cbn [top].
    now rewrite firstn_skipn.
  - destruct k; [lia|]. destruct k' as [|k']; [lia|]. cbn [top].
    exists (firstn (k' - k) (skipn (S k) ds)).
    rewrite <- (firstn_skipn (S k) (firstn (S k') ds)). f_equal.
    + rewrite firstn_firstn. f_equal. lia.
    + now rewrite firstn_skipn_comm, (Nat.add_comm (S k)), Nat.sub_add || (rewrite skipn_firstn_comm; f_equal).
Qed.
Lemma top_tail ds t k : exists t', top (ds ++ t) k = top ds k ++ t' /\ incl t' t.
Proof.
  destruct k; cbn [top]; [exists t; split; [reflexivity|apply incl_refl]|].
  rewrite firstn_app. eexists. split; [reflexivity|].
  intros x Hx. rewrite <- (firstn_skipn (S k - length ds) t). apply in_or_app. now left.
Qed.

Lemma top_swap {u x y v} k :
  (top (u ++ x :: y :: v) k = top (u ++ y :: x :: v) k) \/
  (top (u ++ x :: y :: v) k = u ++ [x] /\ top (u ++ y :: x :: v) k = u ++ [y]) \/
  (exists v', top (u ++ x :: y :: v) k = u ++ x :: y :: v' /\ top (u ++ y :: x :: v) k = u ++ y :: x :: v').
Proof.
  destruct k as [|k]; cbn [top]; [right; right; exists v; auto|].
  rewrite !firstn_app. destruct (S k - length u) as [|[|n]] eqn:Hn.
  - left. reflexivity.
  - right. left. rewrite (firstn_all2 u) by lia. auto.
  - right. right. exists (firstn n v). rewrite (firstn_all2 u) by lia. auto.
Qed.

Lemma first_pos_app p l1 l2 : first_pos p (l1 ++ l2) =
  match first_pos p l1 with Some i => Some i | None => option_map (fun i => length l1 + i) (first_pos p l2) end.
Proof.
  induction l1 as [|d l IH]; cbn [app first_pos length].
  - destruct (first_pos p l2); reflexivity.
  - destruct (p d); [reflexivity|]. rewrite IH. destruct (first_pos p l); cbn; [reflexivity|].
    destruct (first_pos p l2); reflexivity.
Qed.
Lemma first_pos_none p l : (forall d, In d l -> p d = false) -> first_pos p l = None.
Proof.
  induction l as [|d l IH]; intros H; cbn; [reflexivity|]. rewrite H by now left.
  rewrite IH; [reflexivity|]. intros; apply H; now right.
Qed.

(** precision sums along a relevance vector: [c] relevant documents seen in [i] ranks *)
Fixpoint ap_loop (c i : nat) (l : list bool) : R :=
  match l with
  | [] => 0%R
  | b :: l' => if b then (INR (c + 1) / INR (i + 1) + ap_loop (c + 1) (i + 1) l')%R
               else ap_loop c (i + 1) l'
  end.
Lemma ap_loop_nonneg l : forall c i, (0 <= ap_loop c i l)%R.
Proof.
  induction l as [|[] l IH]; intros c i; cbn [ap_loop]; [lra| |apply IH].
  apply Rplus_le_le_0_compat; [|apply IH]. apply Rmult_le_pos; [apply pos_INR|].
  apply Rlt_le, Rinv_0_lt_compat, lt_0_INR. lia.
Qed.
Lemma ap_loop_app l1 l2 : forall c i, ap_loop c i (l1 ++ l2) =
  (ap_loop c i l1 + ap_loop (c + count (fun b => b) l1) (i + length l1) l2)%R.
Proof.
  induction l1 as [|b l1 IH]; intros c i; cbn [app ap_loop count length].
  - rewrite !Nat.add_0_r. lra.
  - destruct b; rewrite IH.
    + replace (c + 1 + count (fun b => b) l1) with (c + (1 + count (fun b => b) l1)) by lia.
      replace (i + 1 + length l1) with (i + S (length l1)) by lia. lra.
    + replace (i + 1 + length l1) with (i + S (length l1)) by lia. cbn [Nat.add]. lra.
Qed.
Lemma ap_loop_false l : (forall b, In b l -> b = false) -> forall c i, ap_loop c i l = 0%R.
Proof.
  induction l as [|b l IH]; intros H c i; cbn; [reflexivity|].
  rewrite (H b) by now left. apply IH. intros; apply H; now right.
Qed.
Lemma ap_loop_ones n : forall c, ap_loop c c (repeat true n) = INR n.
Proof.
  induction n as [|n IH]; intros c; cbn [repeat ap_loop]; [reflexivity|].
  rewrite IH, S_INR. unfold Rdiv. rewrite Rinv_r; [lra|]. apply not_0_INR. lia.
Qed.

Lemma INR_self n : 0 < n -> (INR n / INR n = 1)%R.
Proof. intros H. apply Rinv_r. apply not_0_INR. lia. Qed.

Section J.
Context (j : dict Z) (lvl : Z) (Hj : dict_ok j).
Notation rel := (relevant j lvl).
Notation g := (gain j lvl).
Notation bg := (burges_gain j lvl).

Lemma ap_vec l : forall c i0,
  Rsum_n (length l) (fun i => if rel (nth i l EmptyString)
     then (INR (c + count rel (firstn (i + 1) l)) / INR (i0 + i + 1))%R else 0%R)
  = ap_loop c i0 (map rel l).
Proof.
  induction l as [|d l IH]; intros c i0; [reflexivity|].
  cbn [length map ap_loop]. rewrite Rsum_n_S. cbn [nth Nat.add firstn count].
  rewrite Nat.add_0_r.
  destruct (rel d) eqn:Hr.
  - apply f_equal2; [f_equal; f_equal; lia|]. rewrite <- IH. apply Rsum_n_ext. intros i _.
    destruct (rel (nth i l EmptyString)); [|reflexivity]. 
    replace (i + 1) with (S i) by lia. f_equal; f_equal; lia.
  - rewrite Rplus_0_l. rewrite <- IH. apply Rsum_n_ext. intros i _.
    destruct (rel (nth i l EmptyString)); [|reflexivity].
    replace (i + 1) with (S i) by lia. f_equal; f_equal; lia.
Qed.
Lemma S_map_ap ds k : S_map j lvl ds k =
  (match n_relevant j lvl with O => 0 | n => ap_loop 0 0 (map rel (top ds k)) / INR n end)%R.
Proof.
  unfold S_map. destruct (n_relevant j lvl) as [|n]; [reflexivity|]. f_equal.
  rewrite <- ap_vec. apply Rsum_n_ext. intros i Hi. unfold precision_at.
  assert (Hn : nth i (top ds k) EmptyString = nth i ds EmptyString).
  { rewrite (top_firstn ds k). apply nth_firstn_lt. exact Hi. }
  assert (Hf : firstn (i + 1) (top ds k) = firstn (i + 1) ds).
  { rewrite top_firstn, firstn_firstn. f_equal. lia. }
  now rewrite Hn, Hf.
Qed.

Lemma rbp_wdot ds p : S_rbp j lvl ds p = ((1 - p) * wdot (fun i => p ^ i)%R 0 (map g ds))%R.
Proof.
  unfold S_rbp. f_equal. rewrite wdot_Rsum_n, map_length. apply Rsum_n_ext. intros i Hi.
  rewrite (nth_indep _ 0%R (g EmptyString)) by now rewrite map_length. now rewrite map_nth.
Qed.

Lemma S_f1_closed ds k : S_f1 j lvl ds k =
  (match depth ds k, n_relevant j lvl with
   | O, _ => 0 | _, O => 0
   | n, m => 2 * INR (S_hits j lvl ds k) / (INR n + INR m) end)%R.
Proof.
  unfold S_f1, S_precision, S_recall.
  pose proof (hits_le_depth j lvl ds k) as Hh.
  destruct (depth ds k) as [|n] eqn:Hn.
  - replace (S_hits j lvl ds k) with 0 by lia. cbn [INR].
    destruct (n_relevant j lvl); destruct Req_EM_T; try reflexivity; unfold Rdiv; rewrite ?Rmult_0_l, ?Rmult_0_r, ?Rmult_0_l; reflexivity.
  - destruct (n_relevant j lvl) as [|m] eqn:Hm.
    + destruct Req_EM_T; [reflexivity|]. unfold Rdiv. rewrite Rmult_0_r. rewrite Rmult_0_l. reflexivity.
    + set (h := INR (S_hits j lvl ds k)).
      assert (Hn0 : (0 < INR (S n))%R) by (apply lt_0_INR; lia).
      assert (Hm0 : (0 < INR (S m))%R) by (apply lt_0_INR; lia).
      assert (Hh0 : (0 <= h)%R) by apply pos_INR.
      destruct (Req_EM_T h 0) as [Hz|Hz].
      * rewrite Hz. destruct Req_EM_T; unfold Rdiv; rewrite ?Rmult_0_l, ?Rmult_0_r, ?Rmult_0_l; reflexivity.
      * assert (0 < h / INR (S n))%R by (apply Rdiv_lt_0_compat; lra).
        assert (0 < h / INR (S m))%R by (apply Rdiv_lt_0_compat; lra).
        destruct Req_EM_T; [lra|]. field. repeat split; nra.
Qed.

(** *** cut-offs *)
Lemma hits_mono ds k k' : cut_le k k' -> S_hits j lvl ds k <= S_hits j lvl ds k'.
Proof. intros H. unfold S_hits. destruct (top_prefix ds k k' H) as [t ->]. rewrite count_app. lia. Qed.
Lemma hit_rate_mono ds k k' : cut_le k k' -> (S_hit_rate j lvl ds k <= S_hit_rate j lvl ds k')%R.
Proof.
  intros H. unfold S_hit_rate. destruct (top_prefix ds k k' H) as [t ->]. rewrite existsb_app.
  destruct (existsb rel (top ds k)); cbn; [lra|]. destruct existsb; lra.
Qed.
Lemma div_nat_mono x y n : (x <= y)%R -> (x / INR n <= y / INR n)%R.
Proof.
  intros H. destruct n.
  - cbn. unfold Rdiv. rewrite Rinv_0. lra.
  - apply Rmult_le_compat_r; [|exact H]. apply Rlt_le, Rinv_0_lt_compat, lt_0_INR. lia.
Qed.
Lemma recall_mono ds k k' : cut_le k k' -> (S_recall j lvl ds k <= S_recall j lvl ds k')%R.
Proof.
  intros H. unfold S_recall. destruct (n_relevant j lvl); [lra|]. apply div_nat_mono, le_INR, hits_mono, H.
Qed.
Lemma mrr_mono ds k k' : cut_le k k' -> (S_mrr j lvl ds k <= S_mrr j lvl ds k')%R.
Proof.
  intros H. pose proof (mrr_01 j lvl ds k') as H0. revert H0. unfold S_mrr.
  destruct (top_prefix ds k k' H) as [t ->]. rewrite first_pos_app.
  destruct (first_pos rel (top ds k)); lra.
Qed.
Lemma map_mono ds k k' : cut_le k k' -> (S_map j lvl ds k <= S_map j lvl ds k')%R.
Proof.
  intros H. rewrite !S_map_ap. destruct (n_relevant j lvl); [lra|]. apply div_nat_mono.
  destruct (top_prefix ds k k' H) as [t ->]. rewrite map_app, ap_loop_app.
  match goal with |- (_ <= _ + ?x)%R => pose proof (ap_loop_nonneg (map rel t) (0 + count (fun b => b) (map rel (top ds k))) (0 + length (map rel (top ds k)))) end.
  lra.
Qed.
Lemma dcg_with_mono (f : string -> R) ds k k' : (forall d, (0 <= f d)%R) -> cut_le k k' ->
  (S_dcg_with ds f k <= S_dcg_with ds f k')%R.
Proof.
  intros Hf H. rewrite !dcg_wdot. destruct (top_prefix ds k k' H) as [t ->]. rewrite map_app, wdot_app.
  pose proof (wdot_nonneg dw (map f t) (0 + length (map f (top ds k))) (fun n => Rlt_le _ _ (dw_pos n))) as H1.
  assert (0 <= wdot dw (0 + length (map f (top ds k))) (map f t))%R.
  { apply H1. intros x Hx. apply in_map_iff in Hx as (d & <- & _). apply Hf. }
  lra.
Qed.
Lemma top_length ds : top ds (length ds) = top ds 0.
Proof. destruct ds; [reflexivity|]. cbn [top]. apply firstn_all. Qed.

(** *** appended tails *)
Section Tail.
Context (ds t : list string) (Ht : forall d, In d t -> rel d = false).
Lemma tail_count t' : incl t' t -> count rel t' = 0.
Proof. intros H. apply count_zero_iff. intros a Ha. now apply Ht, H. Qed.
Lemma tail_gain t' x : incl t' t -> In x (map g t') -> x = 0%R.
Proof.
  intros H Hx. apply in_map_iff in Hx as (d & <- & Hd). apply gain_not_relevant. now apply Ht, H.
Qed.
Lemma tail_bgain t' x : incl t' t -> In x (map bg t') -> x = 0%R.
Proof.
  intros H Hx. apply in_map_iff in Hx as (d & <- & Hd). apply (bgain_zero j lvl).
  apply gain_not_relevant. now apply Ht, H.
Qed.
Lemma wdot_zeros w l : (forall x, In x l -> x = 0%R) -> forall i, wdot w i l = 0%R.
Proof.
  induction l as [|x l IH]; intros H i; cbn; [reflexivity|]. rewrite (H x) by now left.
  rewrite IH; [lra|]. intros; apply H; now right.
Qed.
Lemma hits_tail k : S_hits j lvl (ds ++ t) k = S_hits j lvl ds k.
Proof.
  unfold S_hits. destruct (top_tail ds t k) as (t' & -> & Hi). rewrite count_app, (tail_count t') by exact Hi. lia.
Qed.
Lemma hit_rate_tail k : S_hit_rate j lvl (ds ++ t) k = S_hit_rate j lvl ds k.
Proof.
  unfold S_hit_rate. destruct (top_tail ds t k) as (t' & -> & Hi). rewrite existsb_app.
  replace (existsb rel t') with false; [now rewrite orb_false_r|]. symmetry.
  destruct (existsb rel t') eqn:He; [|reflexivity]. apply existsb_exists in He as (x & Hx & Hr).
  rewrite Ht in Hr by now apply Hi. discriminate.
Qed.
Lemma recall_tail k : S_recall j lvl (ds ++ t) k = S_recall j lvl ds k.
Proof. unfold S_recall. now rewrite hits_tail. Qed.
Lemma precision_tail k : 0 < k -> S_precision j lvl (ds ++ t) k = S_precision j lvl ds k.
Proof. intros H. unfold S_precision. rewrite hits_tail. destruct k; [lia|reflexivity]. Qed.
Lemma f1_tail k : 0 < k -> S_f1 j lvl (ds ++ t) k = S_f1 j lvl ds k.
Proof. intros H. unfold S_f1. now rewrite precision_tail, recall_tail. Qed.
Lemma r_precision_tail : S_r_precision j lvl (ds ++ t) = S_r_precision j lvl ds.
Proof. unfold S_r_precision. destruct (n_relevant j lvl); [reflexivity|]. apply precision_tail. lia. Qed.
Lemma mrr_tail k : S_mrr j lvl (ds ++ t) k = S_mrr j lvl ds k.
Proof.
  unfold S_mrr. destruct (top_tail ds t k) as (t' & -> & Hi). rewrite first_pos_app.
  rewrite (first_pos_none rel t') by (intros; now apply Ht, Hi). now destruct first_pos.
Qed.
Lemma map_tail k : S_map j lvl (ds ++ t) k = S_map j lvl ds k.
Proof.
  rewrite !S_map_ap. destruct (n_relevant j lvl); [reflexivity|]. f_equal.
  destruct (top_tail ds t k) as (t' & -> & Hi). rewrite map_app, ap_loop_app, (ap_loop_false (map rel t')); [lra|].
  intros b Hb. apply in_map_iff in Hb as (d & <- & Hd). now apply Ht, Hi.
Qed.
Lemma dcg_tail k : S_dcg j lvl (ds ++ t) k = S_dcg j lvl ds k.
Proof.
  unfold S_dcg. rewrite !dcg_wdot. destruct (top_tail ds t k) as (t' & -> & Hi).
  rewrite map_app, wdot_app, (wdot_zeros dw (map g t')); [lra|]. intros; now apply (tail_gain t').
Qed.
Lemma dcg_burges_tail k : S_dcg_burges j lvl (ds ++ t) k = S_dcg_burges j lvl ds k.
Proof.
  unfold S_dcg_burges. rewrite !dcg_wdot. destruct (top_tail ds t k) as (t' & -> & Hi).
  rewrite map_app, wdot_app, (wdot_zeros dw (map bg t')); [lra|]. intros; now apply (tail_bgain t').
Qed.
Lemma rbp_tail p : S_rbp j lvl (ds ++ t) p = S_rbp j lvl ds p.
Proof.
  rewrite !rbp_wdot, map_app, wdot_app, (wdot_zeros _ (map g t)); [lra|].
  intros x Hx. now apply (tail_gain t x (incl_refl t)).
Qed.
Lemma bpref_tail : S_bpref j lvl (ds ++ t) = S_bpref j lvl ds.
Proof.
  unfold S_bpref. f_equal. rewrite app_length. unfold Rsum_n. rewrite seq_app, map_app, Rsum_app.
  match goal with |- (?a + ?b = ?c)%R => assert (Ha : a = c); [|assert (Hb : b = 0%R); [|lra]] end.
  - apply Rsum_map_ext. intros i Hi. apply in_seq in Hi. rewrite app_nth1 by lia.
    unfold nonrel_above. rewrite firstn_app. replace (i - length ds) with 0 by lia.
    cbn [firstn]. now rewrite app_nil_r.
  - apply Rsum_zero. intros x Hx. apply in_map_iff in Hx as (i & <- & Hi). apply in_seq in Hi.
    rewrite app_nth2 by lia. rewrite Ht; [reflexivity|]. apply nth_In. lia.
Qed.
End Tail.

(** *** adjacent swaps *)
Section Swap.
Context (u v : list string) (a b : string).
Notation before := (u ++ a :: b :: v).
Notation after := (u ++ b :: a :: v).
Context (Hrel : rel a = true -> rel b = true) (Hg : (g a <= g b)%R).

Lemma swap_length : length before = length after.
Proof. rewrite !app_length. reflexivity. Qed.
Lemma hits_swap k : S_hits j lvl before k <= S_hits j lvl after k.
Proof.
  unfold S_hits. destruct (@top_swap u a b v k) as [->|[[-> ->]|(v' & -> & ->)]]; [lia| |];
    rewrite !count_app; cbn [count]; destruct (rel a), (rel b); try lia; now specialize (Hrel eq_refl).
Qed.
Lemma depth_swap k : depth before k = depth after k.
Proof. unfold depth. now rewrite swap_length. Qed.
Lemma precision_swap k : (S_precision j lvl before k <= S_precision j lvl after k)%R.
Proof.
  unfold S_precision. rewrite depth_swap. destruct (depth after k); [lra|].
  apply div_nat_mono, le_INR, hits_swap.
Qed.
Lemma recall_swap k : (S_recall j lvl before k <= S_recall j lvl after k)%R.
Proof. unfold S_recall. destruct (n_relevant j lvl); [lra|]. apply div_nat_mono, le_INR, hits_swap. Qed.
Lemma hit_rate_swap k : (S_hit_rate j lvl before k <= S_hit_rate j lvl after k)%R.
Proof.
  unfold S_hit_rate. destruct (@top_swap u a b v k) as [->|[[-> ->]|(v' & -> & ->)]]; [lra| |];
    rewrite !existsb_app; cbn [existsb]; destruct (existsb rel u), (rel a), (rel b); cbn;
    try lra; try (now specialize (Hrel eq_refl)); destruct (existsb rel v'); lra.
Qed.
Lemma f1_swap k : (S_f1 j lvl before k <= S_f1 j lvl after k)%R.
Proof.
  rewrite !S_f1_closed, depth_swap. destruct (depth after k) as [|n]; [lra|].
  destruct (n_relevant j lvl) as [|m]; [lra|].
  apply Rmult_le_compat_r.
  - apply Rlt_le, Rinv_0_lt_compat. pose proof (lt_0_INR (S n)). pose proof (lt_0_INR (S m)). 
    assert (0 < INR (S n))%R by (apply lt_0_INR; lia). assert (0 < INR (S m))%R by (apply lt_0_INR; lia). lra.
  - apply Rmult_le_compat_l; [lra|]. apply le_INR, hits_swap.
Qed.
Lemma r_precision_swap : (S_r_precision j lvl before <= S_r_precision j lvl after)%R.
Proof. unfold S_r_precision. destruct (n_relevant j lvl); [lra|]. apply precision_swap. Qed.
Lemma inv_INR_mono n m : 0 < n -> n <= m -> (1 / INR m <= 1 / INR n)%R.
Proof.
  intros H1 H2. unfold Rdiv. apply Rmult_le_compat_l; [lra|]. apply Rinv_le_contravar; [|now apply le_INR].
  apply lt_0_INR. lia.
Qed.
Lemma inv_INR_nonneg n : (0 <= 1 / INR n)%R.
Proof.
  unfold Rdiv. rewrite Rmult_1_l. destruct n; [cbn; rewrite Rinv_0; lra|].
  apply Rlt_le, Rinv_0_lt_compat, lt_0_INR. lia.
Qed.
Lemma mrr_swap k : (S_mrr j lvl before k <= S_mrr j lvl after k)%R.
Proof.
  unfold S_mrr. destruct (@top_swap u a b v k) as [->|[[-> ->]|(v' & -> & ->)]]; [lra| |];
    rewrite !first_pos_app; destruct (first_pos rel u) as [i|]; try lra; cbn [first_pos];
    destruct (rel a), (rel b); cbn [option_map]; try lra; try (now specialize (Hrel eq_refl)).
  - apply inv_INR_nonneg.
  - apply inv_INR_mono; lia.
Qed.
Lemma map_swap k : (S_map j lvl before k <= S_map j lvl after k)%R.
Proof.
  rewrite !S_map_ap. destruct (n_relevant j lvl); [lra|]. apply div_nat_mono.
  destruct (@top_swap u a b v k) as [->|[[-> ->]|(v' & -> & ->)]]; [lra| |];
    rewrite !map_app; cbn [map]; rewrite !ap_loop_app; apply Rplus_le_compat_l; cbn [ap_loop];
    set (c := 0 + count (fun b => b) (map rel u)); set (i := 0 + length (map rel u));
    destruct (rel a), (rel b); try lra; try (now specialize (Hrel eq_refl)).
  - rewrite Rplus_0_r. apply Rmult_le_pos; [apply pos_INR|]. apply Rlt_le, Rinv_0_lt_compat, lt_0_INR. lia.
  - apply Rplus_le_compat_r. apply Rmult_le_compat_l; [apply pos_INR|].
    apply Rinv_le_contravar; [apply lt_0_INR; lia|apply le_INR; lia].
Qed.
Lemma wdot_swap (w : nat -> R) (f : string -> R) k : (forall n, (0 <= w n)%R) -> (forall n, (w (S n) <= w n)%R) ->
  (f a <= f b)%R -> (wdot w 0 (map f (top before k)) <= wdot w 0 (map f (top after k)))%R.
Proof.
  intros Hw Hd Hf. destruct (@top_swap u a b v k) as [->|[[-> ->]|(v' & -> & ->)]]; [lra| |];
    rewrite !map_app; cbn [map]; rewrite !wdot_app; apply Rplus_le_compat_l; cbn [wdot];
    set (i := 0 + length (map f u)); pose proof (Hw i); pose proof (Hd i).
  - nra.
  - nra.
Qed.
Lemma dcg_swap k : (S_dcg j lvl before k <= S_dcg j lvl after k)%R.
Proof.
  unfold S_dcg. rewrite !dcg_wdot. apply wdot_swap; auto using dw_decr. intros; apply Rlt_le, dw_pos.
Qed.
Lemma dcg_burges_swap k : (S_dcg_burges j lvl before k <= S_dcg_burges j lvl after k)%R.
Proof.
  unfold S_dcg_burges. rewrite !dcg_wdot. apply wdot_swap; auto using dw_decr.
  - intros; apply Rlt_le, dw_pos.
  - unfold burges_gain. pose proof (Rpower2_mono _ _ Hg). lra.
Qed.
Lemma rbp_swap p : (0 <= p <= 1)%R -> (S_rbp j lvl before p <= S_rbp j lvl after p)%R.
Proof.
  intros Hp. rewrite !rbp_wdot. apply Rmult_le_compat_l; [lra|]. apply (wdot_swap _ g 0); auto.
  - intros n. apply pow_le. lra.
  - intros n. cbn [pow]. pose proof (pow_le p n (proj1 Hp)). nra.
Qed.
End Swap.

(** *** ideal rankings *)
Section Ideal.
Context (rels rest : list string).
Context (Hperm : Permutation rels (filter rel (dkeys j))) (Hrest : forall d, In d rest -> rel d = false).
Notation ranking := (rels ++ rest).
Notation Rn := (n_relevant j lvl).

Lemma rels_rel d : In d rels <-> rel d = true.
Proof.
  split; intros H.
  - apply (Permutation_in _ Hperm), filter_In in H. tauto.
  - apply (Permutation_in _ (Permutation_sym Hperm)). apply filter_In. split; [|exact H]. eapply rel_judged; eauto.
Qed.
Lemma rels_length : length rels = Rn.
Proof. rewrite n_relevant_count by exact Hj. rewrite count_filter. now apply Permutation_length. Qed.
Lemma rels_NoDup : NoDup rels.
Proof. apply (Permutation_NoDup (Permutation_sym Hperm)), NoDup_filter, Hj. Qed.
Lemma count_rels l : (forall d, In d l -> In d rels) -> count rel l = length l.
Proof.
  induction l as [|d l IH]; intros H; [reflexivity|]. cbn [count length].
  rewrite (proj1 (rels_rel d)) by (apply H; now left). rewrite IH; [reflexivity|]. intros; apply H; now right.
Qed.
Lemma ideal_hits k : k = 0 \/ Rn <= k -> S_hits j lvl ranking k = Rn.
Proof.
  intros Hk. rewrite hits_tail by exact Hrest. unfold S_hits.
  replace (top rels k) with rels.
  - rewrite count_rels by auto. apply rels_length.
  - unfold top. destruct k; [reflexivity|]. symmetry. apply firstn_all2. rewrite rels_length. lia.
Qed.
Context (Hpos : 0 < Rn).
Lemma rels_cons : exists d l, rels = d :: l /\ rel d = true.
Proof.
  pose proof rels_length as Hl. pose proof rels_rel as Hr. clear - Hl Hpos Hr. revert Hl Hr.
  generalize rels. intros [|d l] Hl Hr; cbn in Hl; [lia|]. exists d, l. split; [reflexivity|].
  apply Hr. now left.
Qed.
Lemma ideal_recall k : k = 0 \/ Rn <= k -> S_recall j lvl ranking k = 1%R.
Proof.
  intros Hk. unfold S_recall. rewrite ideal_hits by exact Hk.
  destruct Rn eqn:Hn; [lia|]. apply INR_self. lia.
Qed.
Lemma ideal_r_precision : S_r_precision j lvl ranking = 1%R.
Proof.
  unfold S_r_precision, S_precision. pose proof (ideal_hits Rn (or_intror (le_n _))) as Hh.
  destruct Rn eqn:Hn; [lia|]. cbn [depth]. rewrite Hh. apply INR_self. lia.
Qed.
Lemma ideal_mrr k : S_mrr j lvl ranking k = 1%R.
Proof.
  rewrite mrr_tail by exact Hrest. unfold S_mrr.
  destruct rels_cons as (d & l & He & Hr). rewrite He.
  destruct k; cbn [top firstn first_pos]; rewrite Hr; cbn; lra.
Qed.
Lemma ideal_map k : k = 0 \/ Rn <= k -> S_map j lvl ranking k = 1%R.
Proof.
  intros Hk. rewrite map_tail by exact Hrest. rewrite S_map_ap.
  replace (top rels k) with rels.
  - assert (Hm : map rel rels = repeat true Rn).
    { rewrite <- rels_length. assert (H : forall l, (forall d, In d l -> In d rels) -> map rel l = repeat true (length l)).
      { induction l as [|d l IH]; intros H; [reflexivity|]. cbn. rewrite (proj1 (rels_rel d)) by (apply H; now left).
        rewrite IH; [reflexivity|]. intros; apply H; now right. }
      now apply H. }
    rewrite Hm, ap_loop_ones. destruct Rn; [lia|]. apply INR_self. lia.
  - unfold top. destruct k; [reflexivity|]. symmetry. apply firstn_all2. rewrite rels_length. lia.
Qed.
Context (Hlvl : (1 <= lvl)%Z) (Hs : StronglySorted (fun a b => (g b <= g a)%R) rels).
Lemma not_rels_gain d : ~ In d rels -> g d = 0%R.
Proof. intros H. apply gain_not_relevant. destruct (rel d) eqn:Hr; [|reflexivity]. now apply rels_rel in Hr. Qed.
Lemma ideal_dcg k : is_ideal g k (S_dcg j lvl ranking k).
Proof.
  rewrite dcg_tail by exact Hrest. apply sorted_is_ideal; auto using rels_NoDup, not_rels_gain.
  intros; apply gain_nonneg; lia.
Qed.
Lemma ideal_dcg_burges k : is_ideal bg k (S_dcg_burges j lvl ranking k).
Proof.
  rewrite dcg_burges_tail by exact Hrest. apply sorted_is_ideal; auto using rels_NoDup.
  - intros; apply (bgain_nonneg j lvl); lia.
  - clear - Hs. induction Hs as [|x l H IH Hf]; constructor; auto.
    rewrite Forall_forall in *. intros y Hy. unfold burges_gain. pose proof (Rpower2_mono _ _ (Hf y Hy)). lra.
  - intros d Hd. apply (bgain_zero j lvl). now apply not_rels_gain.
Qed.
Lemma gain_rel_ge1 d : rel d = true -> (1 <= g d)%R.
Proof.
  unfold relevant, gain. destruct (dget j d); [|discriminate]. intros H. rewrite H. apply Z.leb_le in H.
  apply (IZR_le 1). lia.
Qed.
Lemma dcg_with_pos (f : string -> R) k : (forall d, (0 <= f d)%R) -> (forall d, rel d = true -> (0 < f d)%R) ->
  (0 < S_dcg_with rels f k)%R.
Proof.
  intros H0 H1. rewrite dcg_wdot. destruct rels_cons as (d & l & He & Hr). rewrite He.
  assert (exists l', map f (top (d :: l) k) = f d :: map f l') as [l' ->].
  { destruct k; cbn [top firstn map]; eauto. }
  cbn [wdot]. assert (0 <= wdot dw 1 (map f l'))%R.
  { apply wdot_nonneg; [intros; apply Rlt_le, dw_pos|]. intros x Hx. apply in_map_iff in Hx as (y & <- & _). apply H0. }
  pose proof (Rmult_lt_0_compat _ _ (H1 d Hr) (dw_pos 0)). lra.
Qed.
Lemma ideal_dcg_pos k : (0 < S_dcg j lvl ranking k)%R.
Proof.
  rewrite dcg_tail by exact Hrest. apply dcg_with_pos.
  - intros; apply gain_nonneg; lia.
  - intros d Hd. apply gain_rel_ge1 in Hd. lra.
Qed.
Lemma ideal_dcg_burges_pos k : (0 < S_dcg_burges j lvl ranking k)%R.
Proof.
  rewrite dcg_burges_tail by exact Hrest. apply dcg_with_pos.
  - intros; apply (bgain_nonneg j lvl); lia.
  - intros d Hd. apply gain_rel_ge1 in Hd. unfold burges_gain.
    pose proof (Rpower2_mono _ _ Hd). rewrite Rpower_1 in H by lra. lra.
Qed.
End Ideal.

(** *** nothing relevant in the top *)
Section NoRel.
Context (ds : list string) (k : nat) (Hno : forall d, In d (top ds k) -> rel d = false).
Lemma norel_hits : S_hits j lvl ds k = 0.
Proof. unfold S_hits. now apply count_zero_iff. Qed.
Lemma norel_precision : S_precision j lvl ds k = 0%R.
Proof. unfold S_precision. rewrite norel_hits. destruct depth; [reflexivity|]. cbn [INR]. unfold Rdiv. lra. Qed.
Lemma norel_recall : S_recall j lvl ds k = 0%R.
Proof. unfold S_recall. rewrite norel_hits. destruct n_relevant; [reflexivity|]. cbn [INR]. unfold Rdiv. lra. Qed.
Lemma norel_f1 : S_f1 j lvl ds k = 0%R.
Proof. unfold S_f1. rewrite norel_precision. destruct Req_EM_T; unfold Rdiv; [reflexivity|]. lra. Qed.
Lemma norel_hit_rate : S_hit_rate j lvl ds k = 0%R.
Proof.
  unfold S_hit_rate. destruct existsb eqn:He; [|reflexivity]. apply existsb_exists in He as (x & Hx & Hr).
  rewrite Hno in Hr by exact Hx. discriminate.
Qed.
Lemma norel_mrr : S_mrr j lvl ds k = 0%R.
Proof. unfold S_mrr. now rewrite first_pos_none. Qed.
Lemma norel_map : S_map j lvl ds k = 0%R.
Proof.
  rewrite S_map_ap. destruct n_relevant; [reflexivity|]. rewrite ap_loop_false; [unfold Rdiv; lra|].
  intros b Hb. apply in_map_iff in Hb as (d & <- & Hd). now apply Hno.
Qed.
Lemma norel_dcg : S_dcg j lvl ds k = 0%R.
Proof.
  unfold S_dcg. rewrite dcg_wdot. apply wdot_zeros. intros x Hx. apply in_map_iff in Hx as (d & <- & Hd).
  apply gain_not_relevant. now apply Hno.
Qed.
Lemma norel_dcg_burges : S_dcg_burges j lvl ds k = 0%R.
Proof.
  unfold S_dcg_burges. rewrite dcg_wdot. apply wdot_zeros. intros x Hx. apply in_map_iff in Hx as (d & <- & Hd).
  apply (bgain_zero j lvl), gain_not_relevant. now apply Hno.
Qed.
End NoRel.
End J.
