(** P_Perfect2.v: when dcg is ideal *)
From Coq Require Import Reals Lra Psatz.
From Verif Require Import Base Dict Spec_Metrics Spec_Perfect P_Base P_Dict P_Metrics P_Metrics2 P_Metrics3 P_Metrics4 P_Metrics5 P_Metrics7 P_Perfect.
Open Scope list_scope.
Open Scope nat_scope.

Lemma dw_strict i : (dw (S i) < dw i)%R.
Proof.
  unfold dw. assert (Hlt : (log2 (INR (i + 2)) < log2 (INR (S i + 2)))%R).
  { unfold log2, Rdiv. apply Rmult_lt_compat_r.
    - apply Rinv_0_lt_compat. rewrite <- ln_1. apply ln_increasing; lra.
    - apply ln_increasing; [rewrite plus_INR; cbn; pose proof (pos_INR i); lra|apply lt_INR; lia]. }
  apply Rinv_lt_contravar; [|exact Hlt]. apply Rmult_lt_0_compat; apply log2_pos.
Qed.
Lemma dw_lt i n : (dw (i + S n) < dw i)%R.
Proof.
  induction n as [|n IH].
  - rewrite Nat.add_1_r. apply dw_strict.
  - replace (i + S (S n)) with (S (i + S n)) by lia. pose proof (dw_strict (i + S n)). lra.
Qed.
Lemma top_top ds k : top (top ds k) k = top ds k.
Proof. destruct k; [reflexivity|]. cbn [top]. rewrite firstn_firstn. f_equal. lia. Qed.
Lemma top_same_length ds es k : length es = length (top ds k) -> top es k = es.
Proof. destruct k; [reflexivity|]. cbn [top]. intros H. apply firstn_all2. rewrite firstn_length in H. lia. Qed.

Lemma nth_error_firstn {A} (l : list A) n i : i < n -> nth_error (firstn n l) i = nth_error l i.
Proof. revert n i. induction l as [|a l IH]; intros [|n] [|i] H; try lia; cbn; try reflexivity. apply IH. lia. Qed.
Lemma nth_error_top ds k i : i < length (top ds k) -> nth_error (top ds k) i = nth_error ds i.
Proof. intros H. unfold top in *. destruct k; [reflexivity|]. apply nth_error_firstn. rewrite firstn_length in H. lia. Qed.

Section G.
Context (f : string -> R).
(** as [best_first], for an arbitrary gain *)
Definition fat (ds : list string) (i : nat) : R := match nth_error ds i with Some d => f d | None => 0%R end.
Definition fbest (ds : list string) (k : nat) : Prop := forall i d, k = 0 \/ i < k -> (fat ds i < f d)%R -> In d (firstn i ds).

(** exchange argument: an ideal ranking is best first *)
Lemma wdot_replace u a d v : (f a < f d)%R -> (wdot dw 0 (map f (u ++ a :: v)) < wdot dw 0 (map f (u ++ d :: v)))%R.
Proof.
  intros H. rewrite !map_app, !wdot_app. cbn [map wdot]. apply Rplus_lt_compat_l, Rplus_lt_compat_r. apply Rmult_lt_compat_r; [apply dw_pos|exact H].
Qed.
Lemma wdot_exchange u a v1 d v2 : (f a < f d)%R ->
  (wdot dw 0 (map f (u ++ a :: v1 ++ d :: v2)) < wdot dw 0 (map f (u ++ d :: v1 ++ a :: v2)))%R.
Proof.
  intros H. rewrite !map_app, !wdot_app. cbn [map]. cbn [wdot]. rewrite !map_app, !wdot_app. cbn [map wdot]. rewrite !map_length. cbn [Nat.add].
  set (p := length u). set (q := length v1). pose proof (dw_lt p q) as Hd.
  replace (S (p + q)) with (p + S q) by lia.
  set (A := wdot dw 0 (map f u)). set (B := wdot dw (S p) (map f v1)). set (C := wdot dw (S (p + S q)) (map f v2)). nra.
Qed.
Lemma NoDup_swap (u v1 v2 : list string) a d : NoDup (u ++ a :: v1 ++ d :: v2) -> NoDup (u ++ d :: v1 ++ a :: v2).
Proof.
  apply Permutation_NoDup. apply Permutation_app_head.
  transitivity (d :: a :: v1 ++ v2); [transitivity (a :: d :: v1 ++ v2); [constructor; apply Permutation_sym, Permutation_middle|constructor]|].
  constructor. apply Permutation_middle.
Qed.
Lemma ideal_best ds k : NoDup ds -> is_ideal f k (S_dcg_with ds f k) -> fbest ds k.
Proof.
  intros Hn [_ Hmax] i d Hi Hlt. destruct (in_dec string_dec d (firstn i ds)) as [|Hnot]; [assumption|exfalso].
  set (es := top ds k) in *.
  assert (Hes : NoDup es) by now apply NoDup_top.
  assert (Hval : S_dcg_with ds f k = wdot dw 0 (map f es)) by apply dcg_wdot.
  assert (Hno : forall es', NoDup es' -> top es' k = es' -> ~ (wdot dw 0 (map f es) < wdot dw 0 (map f es'))%R).
  { intros es' H1 H2 H3. specialize (Hmax es' H1). rewrite Hval, (dcg_wdot f es'), H2 in Hmax. lra. }
  assert (Hfi : firstn i es = firstn i ds).
  { unfold es, top. destruct k; [reflexivity|]. rewrite firstn_firstn. f_equal. lia. }
  unfold fat in Hlt. destruct (nth_error ds i) as [a|] eqn:Ha.
  - assert (Hlen : i < length es).
    { assert (Hx : i < length ds) by (apply nth_error_Some; congruence). unfold es, top. destruct k; [exact Hx|]. rewrite firstn_length. lia. }
    assert (Hsplit : exists v, es = firstn i ds ++ a :: v).
    { exists (skipn (S i) es). rewrite <- Hfi. rewrite <- (firstn_skipn i es) at 1. f_equal.
      assert (Hnth : nth_error es i = Some a).
      { rewrite <- Ha. now apply nth_error_top. }
      clear - Hnth. revert i Hnth. induction es as [|x l IH]; intros [|i] H; cbn in *; try discriminate; [now injection H as ->|now apply IH]. }
    destruct Hsplit as (v & Hv).
    destruct (in_dec string_dec d v) as [Hdv|Hdv].
    + apply in_split in Hdv as (v1 & v2 & ->). apply (Hno (firstn i ds ++ d :: v1 ++ a :: v2)).
      * apply NoDup_swap. now rewrite <- Hv.
      * apply (top_same_length ds). fold es. rewrite Hv, !app_length. cbn [length]. rewrite !app_length. cbn [length]. lia.
      * rewrite Hv. now apply wdot_exchange.
    + apply (Hno (firstn i ds ++ d :: v)).
      * rewrite Hv in Hes. apply NoDup_remove in Hes as [H1 H2]. apply (Permutation_NoDup (Permutation_middle _ _ d)). constructor; [|exact H1].
        intros H. apply in_app_or in H. tauto.
      * apply (top_same_length ds). fold es. rewrite Hv, !app_length. reflexivity.
      * rewrite Hv. now apply wdot_replace.
  - apply nth_error_None in Ha.
    assert (He : es = ds) by (unfold es, top; destruct k; [reflexivity|]; apply firstn_all2; lia).
    rewrite firstn_all2 in Hnot by exact Ha.
    apply (Hno (ds ++ [d])).
    + apply (Permutation_NoDup (Permutation_cons_append ds d)). now constructor.
    + destruct k; [reflexivity|]. cbn [top]. apply firstn_all2. rewrite app_length. cbn. lia.
    + rewrite He, map_app, wdot_app. cbn [map wdot]. pose proof (Rmult_lt_0_compat _ _ Hlt (dw_pos (0 + length (map f ds)))). lra.
Qed.

(** conversely, with the judged documents sorted *)
Lemma filter_sorted {A} (Rl : A -> A -> Prop) p l : StronglySorted Rl l -> StronglySorted Rl (filter p l).
Proof.
  induction 1 as [|a l H IH Hf]; [constructor|]. cbn. destruct (p a); [constructor|]; auto.
  rewrite Forall_forall in *. intros x Hx. apply filter_In in Hx as [Hx _]. auto.
Qed.
Lemma sorted_app {A} (Rl : A -> A -> Prop) l1 l2 : StronglySorted Rl l1 -> StronglySorted Rl l2 ->
  (forall a b, In a l1 -> In b l2 -> Rl a b) -> StronglySorted Rl (l1 ++ l2).
Proof.
  induction 1 as [|a l H IH Hf]; intros H2 Hx; [exact H2|]. cbn. constructor.
  - apply IH; [exact H2|]. intros; apply Hx; [now right|assumption].
  - apply Forall_app. split; [exact Hf|]. apply Forall_forall. intros b Hb. apply Hx; [now left|exact Hb].
Qed.
Lemma sorted_nth {A} (Rl : A -> A -> Prop) l : (forall i i' a b, i < i' -> nth_error l i = Some a -> nth_error l i' = Some b -> Rl a b) -> StronglySorted Rl l.
Proof.
  induction l as [|a l IH]; intros H; constructor.
  - apply IH. intros i i' x y Hi H1 H2. apply (H (S i) (S i')); auto. lia.
  - apply Forall_forall. intros b Hb. apply In_nth_error in Hb as (n & Hb). apply (H 0 (S n)); auto. lia.
Qed.
Lemma best_ideal js ds k : (forall d, (0 <= f d)%R) -> NoDup js -> StronglySorted (fun a b => (f b <= f a)%R) js ->
  (forall d, ~ In d js -> f d = 0%R) -> NoDup ds -> fbest ds k -> is_ideal f k (S_dcg_with ds f k).
Proof.
  intros H0 Hnj Hsj Hz Hn Hb. set (es := top ds k).
  set (rest := filter (fun d => if in_dec string_dec d es then false else true) js).
  assert (Hpos : forall i d, nth_error es i = Some d -> (k = 0 \/ i < k) /\ nth_error ds i = Some d).
  { intros i d Hd. assert (Hl : i < length es) by (apply nth_error_Some; congruence). split.
    - destruct k as [|k']; [now left|right]. unfold es in Hl. cbn [top] in Hl. rewrite firstn_length in Hl. lia.
    - rewrite <- Hd. symmetry. now apply nth_error_top. }
  assert (Hge : forall i a d, nth_error es i = Some a -> ~ In d (firstn i ds) -> (f d <= f a)%R).
  { intros i a d Ha Hd. destruct (Hpos i a Ha) as [Hi Ha']. apply Rnot_lt_le. intros Hlt. apply Hd. apply (Hb i d Hi). unfold fat. now rewrite Ha'. }
  assert (Hfst : forall i i' b, i < i' -> nth_error es i' = Some b -> ~ In b (firstn i ds)).
  { intros i i' b Hlt Hnb Hin. destruct (Hpos i' b Hnb) as [_ Hb']. apply In_nth_error in Hin as (m & Hm).
    assert (m < i) by (assert (Hx : m < length (firstn i ds)) by (apply nth_error_Some; congruence); rewrite firstn_length in Hx; lia).
    assert (Hm' : nth_error ds m = Some b).
    { rewrite <- (firstn_skipn i ds). rewrite nth_error_app1; [exact Hm|]. apply nth_error_Some. congruence. }
    assert (m = i'); [|lia]. rewrite NoDup_nth_error in Hn. apply Hn; [apply nth_error_Some; congruence|congruence]. }
  assert (Hsub : forall i d, ~ In d es -> (k = 0 \/ i < k) -> ~ In d (firstn i ds)).
  { intros i d Hd Hi Hin. apply Hd. unfold es, top. destruct k as [|k']; [rewrite <- (firstn_skipn i ds); apply in_or_app; now left|].
    replace (S k') with (i + (S k' - i)) by lia. rewrite <- (firstn_skipn i ds) at 1. rewrite firstn_app.
    apply in_or_app. left. rewrite firstn_firstn, Nat.min_r by lia. exact Hin. }
  assert (Hideal : is_ideal f k (S_dcg_with (es ++ rest) f k)).
  { apply sorted_is_ideal; [exact H0| | |].
    - assert (Hes : NoDup es) by now apply NoDup_top. assert (Hnr : NoDup rest) by now apply NoDup_filter.
      assert (Hdis : forall x, In x es -> ~ In x rest).
      { intros x Hx Hr. unfold rest in Hr. apply filter_In in Hr as [_ Hr]. now destruct (in_dec string_dec x es). }
      clearbody rest. clear - Hes Hnr Hdis. induction es as [|x l IH]; [exact Hnr|]. inversion Hes; subst. cbn. constructor.
      + intros H. apply in_app_or in H as [H|H]; [auto|]. apply (Hdis x); [now left|exact H].
      + apply IH; auto. intros y Hy. apply Hdis. now right.
    - apply sorted_app.
      + apply sorted_nth. intros i i' a b Hlt Ha Hnb. apply (Hge i a b Ha). eapply Hfst; eassumption.
      + now apply filter_sorted.
      + intros a b Ha Hr. apply In_nth_error in Ha as (i & Ha). apply (Hge i a b Ha). apply Hsub; [|apply (Hpos i a Ha)].
        unfold rest in Hr. apply filter_In in Hr as [_ Hr]. now destruct (in_dec string_dec b es).
    - intros d Hd. apply Hz. intros Hin. apply Hd. apply in_or_app. destruct (in_dec string_dec d es) as [|Hne]; [now left|right].
      unfold rest. apply filter_In. split; [exact Hin|]. now destruct (in_dec string_dec d es). }
  assert (Heq : S_dcg_with (es ++ rest) f k = S_dcg_with ds f k); [|now rewrite <- Heq].
  rewrite !dcg_wdot. fold es.
  assert (Hcase : top (es ++ rest) k = es \/ (k = 0 \/ length ds < k)).
  { destruct k as [|k']; [right; now left|]. destruct (Nat.lt_ge_cases (length ds) (S k')) as [Hlt|Hle]; [right; now right|left].
    cbn [top]. unfold es. cbn [top]. rewrite firstn_app, firstn_firstn, Nat.min_id, firstn_length, Nat.min_l by lia.
    rewrite Nat.sub_diag. cbn. apply app_nil_r. }
  destruct Hcase as [->|Hk]; [reflexivity|].
  assert (Hzero : forall d, In d rest -> f d = 0%R).
  { intros d Hd. unfold rest in Hd. apply filter_In in Hd as [_ Hd]. destruct (in_dec string_dec d es) as [|Hne]; [discriminate|].
    apply Rle_antisym; [|apply H0]. apply Rnot_lt_le. intros Hlt.
    apply (Hsub (length ds) d Hne); [tauto|]. apply (Hb (length ds) d); [tauto|].
    unfold fat. assert (nth_error ds (length ds) = None) as -> by (apply nth_error_None; lia). exact Hlt. }
  assert (Htop : exists t, top (es ++ rest) k = es ++ t /\ incl t rest).
  { destruct (top_tail es rest k) as (t & Ht & Hi). exists t. split; [|exact Hi]. rewrite Ht. f_equal. unfold es. apply top_top. }
  destruct Htop as (t & -> & Hi). rewrite map_app, wdot_app, (wdot_zeros dw (map f t)); [lra|].
  intros x Hx. apply in_map_iff in Hx as (d & <- & Hd). apply Hzero, Hi, Hd.
Qed.
End G.

Section J.
Context (j : dict Z) (lvl : Z) (Hj : dict_ok j).
Notation rel := (relevant j lvl).
Notation g := (gain j lvl).
Notation bg := (burges_gain j lvl).

Lemma gain_ge1 d : (1 <= lvl)%Z -> rel d = true -> (1 <= g d)%R.
Proof.
  intros Hl. unfold relevant, gain. destruct (dget j d); [|discriminate]. intros H. rewrite H. apply Z.leb_le in H.
  apply (IZR_le 1). lia.
Qed.
Lemma bgain_lt a b : (g a < g b)%R <-> (bg a < bg b)%R.
Proof.
  unfold burges_gain. split; intros H.
  - assert (Rpower 2 (g a) < Rpower 2 (g b))%R by (apply Rpower_lt; lra). lra.
  - apply Rnot_le_lt. intros Hle. apply Rpower2_mono in Hle. lra.
Qed.
Lemma bgain_pos d : (0 < g d)%R <-> (0 < bg d)%R.
Proof.
  unfold burges_gain. split; intros H.
  - assert (Rpower 2 0 < Rpower 2 (g d))%R by (apply Rpower_lt; lra). rewrite Rpower_O in * by lra. lra.
  - apply Rnot_le_lt. intros Hle. apply Rpower2_mono in Hle. rewrite Rpower_O in Hle by lra. lra.
Qed.
Lemma fbest_gain ds k : fbest g ds k <-> best_first j lvl ds k.
Proof. reflexivity. Qed.
Lemma fbest_bgain ds k : fbest bg ds k <-> best_first j lvl ds k.
Proof.
  unfold fbest, best_first, fat, gain_at. split; intros H i d Hi Hlt; apply (H i d Hi); destruct (nth_error ds i).
  - now apply bgain_lt.
  - now apply bgain_pos.
  - now apply bgain_lt.
  - now apply bgain_pos.
Qed.

Lemma ndcg_one_gen (f : string -> R) ds k : (forall d, (0 <= f d)%R) -> (forall d, rel d = true -> (0 < f d)%R) ->
  (forall d, rel d = false -> f d = 0%R) -> StronglySorted (fun a b => (f b <= f a)%R) (dkeys j) -> NoDup ds ->
  S_ndcg_with (fun ds k => S_dcg_with ds f k) j ds k = 1%R <-> 0 < n_relevant j lvl /\ fbest f ds k.
Proof.
  intros H0 Hpos Hz Hs Hn.
  assert (Hout : forall d, ~ In d (dkeys j) -> f d = 0%R).
  { intros d Hd. apply Hz. destruct (rel d) eqn:Hr; [|reflexivity]. now apply (rel_judged j lvl) in Hr. }
  assert (Hi : is_ideal f k (S_dcg_with (dkeys j) f k)) by (apply sorted_is_ideal; auto).
  unfold S_ndcg_with. split.
  - destruct (Req_EM_T (S_dcg_with (dkeys j) f k) 0) as [He|He]; intros H.
    + pose proof (proj2 Hi ds Hn). unfold Rdiv in H. lra.
    + assert (Hd : S_dcg_with ds f k = S_dcg_with (dkeys j) f k).
      { apply (f_equal (fun x => x * S_dcg_with (dkeys j) f k)%R) in H. unfold Rdiv in H. rewrite Rmult_assoc, Rinv_l in H by exact He. lra. }
      split; [|apply ideal_best; [exact Hn|now rewrite Hd]].
      destruct (Nat.eq_dec (n_relevant j lvl) 0) as [Hr0|]; [exfalso|lia]. apply He. rewrite dcg_wdot. apply wdot_zeros.
      intros x Hx. apply in_map_iff in Hx as (d & <- & _). apply Hz. destruct (rel d) eqn:Hr; [|reflexivity].
      apply (n_relevant_pos j lvl Hj) in Hr. lia.
  - intros (Hr & Hb). pose proof (best_ideal f (dkeys j) ds k H0 Hj Hs Hout Hn Hb) as Hds.
    rewrite (is_ideal_unique f k _ _ Hi Hds).
    assert (Hp : (0 < S_dcg_with ds f k)%R).
    { rewrite (n_relevant_count j lvl Hj) in Hr. apply count_pos in Hr as (d & _ & Hd).
      pose proof (proj2 Hds [d] ltac:(repeat constructor; auto)) as Hle. eapply Rlt_le_trans; [|exact Hle].
      rewrite dcg_wdot. assert (Ht : top [d] k = [d]) by (destruct k as [|[|k]]; reflexivity). rewrite Ht. cbn [map wdot].
      pose proof (Rmult_lt_0_compat _ _ (Hpos d Hd) (dw_pos 0)). lra. }
    destruct Req_EM_T; [lra|]. apply Rinv_r. lra.
Qed.
Lemma ndcg_one ds k : (1 <= lvl)%Z -> judgments_desc j -> NoDup ds ->
  (S_ndcg_with (S_dcg j lvl) j ds k = 1%R <-> 0 < n_relevant j lvl /\ best_first j lvl ds k) /\
  (S_ndcg_with (S_dcg_burges j lvl) j ds k = 1%R <-> 0 < n_relevant j lvl /\ best_first j lvl ds k).
Proof.
  intros Hl Hd Hn. split.
  - rewrite <- fbest_gain. apply (ndcg_one_gen g); [| | |apply sorted_gain; auto; lia|exact Hn].
    + intros d. apply gain_nonneg. lia.
    + intros d Hr. pose proof (gain_ge1 d Hl Hr). lra.
    + intros d Hr. now apply gain_not_relevant.
  - rewrite <- fbest_bgain. apply (ndcg_one_gen bg); [| | |apply (sorted_bgain j lvl); auto; lia|exact Hn].
    + intros d. apply (bgain_nonneg j lvl). lia.
    + intros d Hr. apply bgain_pos. pose proof (gain_ge1 d Hl Hr). lra.
    + intros d Hr. apply (bgain_zero j lvl). now apply gain_not_relevant.
Qed.

(** ** zero *)
Lemma ap_loop_pos l : forall c i, 0 < count (fun b => b) l -> (0 < ap_loop c i l)%R.
Proof.
  induction l as [|b l IH]; intros c i Hp; cbn [ap_loop count] in *; [lia|]. destruct b; [|now apply IH].
  pose proof (ap_loop_nonneg l (c + 1) (i + 1)). assert (0 < INR (c + 1) / INR (i + 1))%R; [|lra].
  apply Rdiv_lt_0_compat; apply lt_0_INR; lia.
Qed.
Lemma wdot_pos l : forall i, (forall x, In x l -> (0 <= x)%R) -> (exists x, In x l /\ (0 < x)%R) -> (0 < wdot dw i l)%R.
Proof.
  induction l as [|x l IH]; intros i H0 (y & Hy & Hp); [easy|]. cbn [wdot].
  assert (Hx : (0 <= x * dw i)%R) by (apply Rmult_le_pos; [apply H0; now left|apply Rlt_le, dw_pos]).
  assert (Hl : (0 <= wdot dw (S i) l)%R) by (apply wdot_nonneg; [intros; apply Rlt_le, dw_pos|intros; apply H0; now right]).
  destruct Hy as [->|Hy].
  - pose proof (Rmult_lt_0_compat _ _ Hp (dw_pos i)). lra.
  - assert (0 < wdot dw (S i) l)%R by (apply IH; [intros; apply H0; now right|eauto]). lra.
Qed.
Section One.
Context (ds : list string) (k : nat) (Hone : finds_one j lvl ds k).
Lemma one_hits : 0 < S_hits j lvl ds k.
Proof. apply count_pos. exact Hone. Qed.
Lemma one_depth : 0 < depth ds k.
Proof. pose proof one_hits. pose proof (hits_le_depth j lvl ds k). lia. Qed.
Lemma one_rel : 0 < n_relevant j lvl.
Proof. destruct Hone as (d & _ & Hd). now apply n_relevant_pos in Hd. Qed.
Lemma one_precision : (0 < S_precision j lvl ds k)%R.
Proof. unfold S_precision. pose proof one_depth. destruct depth; [lia|]. apply Rdiv_lt_0_compat; apply lt_0_INR; [apply one_hits|lia]. Qed.
Lemma one_recall : (0 < S_recall j lvl ds k)%R.
Proof. unfold S_recall. pose proof one_rel. destruct n_relevant; [lia|]. apply Rdiv_lt_0_compat; apply lt_0_INR; [apply one_hits|lia]. Qed.
Lemma one_f1 : (0 < S_f1 j lvl ds k)%R.
Proof.
  unfold S_f1. pose proof one_precision. pose proof one_recall. destruct Req_EM_T; [lra|]. apply Rdiv_lt_0_compat; [|lra].
  apply Rmult_lt_0_compat; [|assumption]. lra.
Qed.
Lemma one_mrr : (0 < S_mrr j lvl ds k)%R.
Proof.
  unfold S_mrr. destruct (first_pos rel (top ds k)) as [i|] eqn:He; [apply Rdiv_lt_0_compat; [lra|apply lt_0_INR; lia]|exfalso].
  destruct Hone as (d & Hd & Hr). clear Hone. induction (top ds k) as [|x l IH]; [easy|]. cbn in He. destruct (rel x) eqn:Hx; [discriminate|].
  destruct Hd as [->|Hd]; [congruence|]. destruct (first_pos rel l); [discriminate|auto].
Qed.
Lemma one_map : (0 < S_map j lvl ds k)%R.
Proof.
  rewrite S_map_ap. pose proof one_rel. destruct n_relevant; [lia|]. apply Rdiv_lt_0_compat; [|apply lt_0_INR; lia].
  apply ap_loop_pos. assert (Hc : count (fun b => b) (map rel (top ds k)) = count rel (top ds k)) by exact (count_map rel (fun b => b) (top ds k)).
  rewrite Hc. exact one_hits.
Qed.
Lemma one_dcg_with (f : string -> R) : (forall d, (0 <= f d)%R) -> (forall d, rel d = true -> (0 < f d)%R) -> (0 < S_dcg_with ds f k)%R.
Proof.
  intros H0 Hp. rewrite dcg_wdot. apply wdot_pos.
  - intros x Hx. apply in_map_iff in Hx as (d & <- & _). apply H0.
  - destruct Hone as (d & Hd & Hr). exists (f d). split; [now apply in_map|auto].
Qed.
Lemma one_dcg : (1 <= lvl)%Z -> (0 < S_dcg j lvl ds k)%R.
Proof.
  intros Hl. apply one_dcg_with; [intros; apply gain_nonneg; lia|]. intros d Hr. pose proof (gain_ge1 d Hl Hr). lra.
Qed.
Lemma one_dcg_burges : (1 <= lvl)%Z -> (0 < S_dcg_burges j lvl ds k)%R.
Proof.
  intros Hl. apply one_dcg_with; [intros; apply (bgain_nonneg j lvl); lia|]. intros d Hr. apply bgain_pos. pose proof (gain_ge1 d Hl Hr). lra.
Qed.
Lemma one_ndcg_with (dcg : list string -> nat -> R) : (0 <= dcg (dkeys j) k)%R -> (0 < dcg ds k)%R -> (0 < S_ndcg_with dcg j ds k)%R.
Proof. intros H0 Hp. unfold S_ndcg_with. apply Rdiv_lt_0_compat; [exact Hp|]. destruct Req_EM_T; lra. Qed.
End One.
End J.
