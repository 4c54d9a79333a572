(** P_Metrics2.v: bpref and interpolated precision. *)
From Coq Require Import Reals Lra Psatz.
From Verif Require Import Base Dict Num NumLaws Env M_Common M_Qrels M_Run M_Metrics Spec_Metrics
  P_Base P_Dict P_Common P_Metrics.
Open Scope list_scope.
Open Scope nat_scope.

Lemma Rsum_n_S n f : Rsum_n (S n) f = (f 0%nat + Rsum_n n (fun i => f (S i)))%R.
Proof. unfold Rsum_n. cbn [seq map Rsum]. now rewrite <- seq_shift, map_map. Qed.
Lemma Rsum_n_ext n f g : (forall i, i < n -> f i = g i) -> Rsum_n n f = Rsum_n n g.
Proof. intros H. apply Rsum_map_ext. intros i Hi. apply in_seq in Hi. apply H. lia. Qed.

Lemma mask_filter {A B} (f : A -> B) (p : A -> bool) l :
  mask (map f l) (map p l) = map f (filter p l).
Proof. induction l as [|a l IH]; cbn; [reflexivity|]. destruct (p a); cbn; now rewrite IH. Qed.

Lemma above_sum (rel jd : string -> bool) (f : nat -> R) ds : forall a,
  (forall d, rel d = true -> jd d = true) ->
  Rsum (map f (mask (cumsum_from a (map (fun d => negb (rel d)) (filter jd ds)))
                    (map rel (filter jd ds))))
  = Rsum_n (length ds) (fun i => if rel (nth i ds EmptyString)
       then f (count (fun d => jd d && negb (rel d)) (firstn i ds) + a) else 0%R).
Proof.
  induction ds as [|d ds IH]; intros a H; [reflexivity|].
  cbn [length]. rewrite Rsum_n_S. cbn [nth firstn count].
  cbn [filter]. destruct (jd d) eqn:Hj.
  - cbn [map cumsum_from mask]. destruct (rel d) eqn:Hr; cbn [negb andb].
    + cbn [map Rsum]. rewrite IH by exact H. f_equal.
    + rewrite IH by exact H. rewrite Rplus_0_l. apply Rsum_n_ext. intros i Hi.
      destruct (rel (nth i ds EmptyString)); [|reflexivity]. f_equal. lia.
  - assert (rel d = false) by (destruct (rel d) eqn:Hr; auto; apply H in Hr; congruence).
    rewrite H0, IH by exact H. rewrite Rplus_0_l. apply Rsum_n_ext. intros i Hi.
    destruct (rel (nth i ds EmptyString)); [|reflexivity]. f_equal.
Qed.

Section Bridge.
Context (E : env NumR) (j : dict Z) (lvl : Z) (r : dict R).
Context (Hj : dict_ok j) (Hid : ids_distinct (doc_key E) (dkeys j ++ dkeys r)).
Notation rk := (dkeys r).

Lemma count_qrows (p : Z -> bool) (f : Z * R -> bool) : (forall d v, f (doc_key E d, IZR v) = p v) ->
  count f (qrows E j) = count (fun kv => p (snd kv)) j.
Proof.
  intros H. unfold to_rows. rewrite count_map. apply count_ext. intros [d v] _. cbn. apply H.
Qed.

Lemma bpref_spec :
  @_bpref NumR (qrows E j) (rrows E r) lvl
  = if n_relevant j lvl =? 0 then Err ZeroDivisionError else Ok (S_bpref j lvl rk).
Proof.
  unfold _bpref.
  rewrite (count_qrows (fun v => (lvl <=? v)%Z)) by (intros; apply fleb_ofZ).
  rewrite (count_qrows (fun v => (v <? lvl)%Z)) by (intros; apply fltb_ofZ).
  fold (n_relevant j lvl). fold (n_judged_nonrelevant j lvl).
  destruct (n_relevant j lvl =? 0) eqn:Hn; [reflexivity|]. f_equal.
  rewrite get_hit_list_spec by assumption. rewrite get_unjudged_list_spec by assumption.
  cbn [top]. unfold rk. set (ds := dkeys r).
  rewrite map_map.
  assert (H1 : mask (map (fun d => if relevant j lvl d then 1%R else 0%R) ds)
     (map (fun x => negb (@feqb NumR (if judged j x then 0%R else 1%R) fone)) ds)
     = map (fun d => if relevant j lvl d then 1%R else 0%R) (filter (judged j) ds)).
  { rewrite (map_ext _ (judged j)); [apply mask_filter|].
    intros d. numR. destruct (judged j d).
    - now rewrite (proj2 (Reqb_false 0 1)) by lra.
    - now rewrite (proj2 (Reqb_true 1 1)) by reflexivity. }
  unfold rows, row in *. numR. repeat change (@F NumR) with R in *. change (P_Metrics.rk r) with ds. change (S_bpref j lvl (map fst r)) with (S_bpref j lvl ds). rewrite H1, !map_map.
  rewrite (map_ext (fun x => Reqb (if relevant j lvl x then 1%R else 0%R) 0) (fun d => negb (relevant j lvl d))).
  2:{ intros d. destruct (relevant j lvl d); [now rewrite (proj2 (Reqb_false 1 0)) by lra|
        now rewrite (proj2 (Reqb_true 0 0)) by reflexivity]. }
  rewrite (map_ext (fun x => Reqb (if relevant j lvl x then 1%R else 0%R) 1) (relevant j lvl)).
  2:{ intros d. destruct (relevant j lvl d); [now rewrite (proj2 (Reqb_true 1 1)) by reflexivity|
        now rewrite (proj2 (Reqb_false 0 1)) by lra]. }
  rewrite fsum_R. rewrite <- !INR_IZR_INZ. unfold S_bpref. f_equal.
  rewrite (above_sum (relevant j lvl) (judged j)).
  - apply Rsum_n_ext. intros i Hi. destruct (relevant j lvl (nth i ds EmptyString)); [|reflexivity].
    rewrite Nat.add_0_r, <- !INR_IZR_INZ. reflexivity.
  - intros d. unfold relevant, judged. destruct (dget j d); auto.
Qed.

(** ** interpolated precision *)
Lemma list_max_R (l : list R) : l <> [] -> (forall x, In x l -> (0 <= x)%R) ->
  @list_max NumR l = fold_right Rmax 0%R l.
Proof.
  destruct l as [|x l]; [congruence|]. intros _ Hp. cbn [list_max]. unfold fmaxl.
  assert (H : forall l a, (0 <= a)%R -> (forall x, In x l -> (0 <= x)%R) ->
     fold_left (@fmax2 NumR) l a = Rmax a (fold_right Rmax 0%R l)).
  { clear. induction l as [|y l IH]; intros a Ha Hp; cbn.
    - rewrite Rmax_left; lra.
    - rewrite IH.
      + unfold fmax2. numR. rewrite Rmax_assoc. f_equal. unfold Rltb.
        destruct (Rlt_dec a y); [rewrite Rmax_right; lra|rewrite Rmax_left; lra].
      + unfold fmax2. numR. destruct (Rltb a y); [apply Hp; now left|exact Ha].
      + intros; apply Hp; now right. }
  apply H; [apply Hp; now left|intros; apply Hp; now right].
Qed.

Lemma Rmax_list_ub (l : list R) x : In x l -> (x <= fold_right Rmax 0%R l)%R.
Proof.
  induction l as [|y l IH]; cbn; [easy|]. intros [->|H].
  - apply Rmax_l.
  - eapply Rle_trans; [apply IH, H|apply Rmax_r].
Qed.
Lemma Rmax_list_nonneg (l : list R) : (0 <= fold_right Rmax 0%R l)%R.
Proof. induction l; cbn; [lra|]. eapply Rle_trans; [exact IHl|apply Rmax_r]. Qed.
Lemma Rmax_list_le (l : list R) b : (0 <= b)%R -> (forall x, In x l -> (x <= b)%R) ->
  (fold_right Rmax 0%R l <= b)%R.
Proof.
  intros Hb. induction l as [|y l IH]; cbn; intros H; [exact Hb|].
  apply Rmax_lub; [apply H; now left|apply IH; intros; apply H; now right].
Qed.

(** for each element a of l1 there is b >= a in l2 *)
Lemma Rmax_list_dom (l1 l2 : list R) :
  (forall a, In a l1 -> exists b, In b l2 /\ (a <= b)%R) ->
  (fold_right Rmax 0%R l1 <= fold_right Rmax 0%R l2)%R.
Proof.
  intros H. apply Rmax_list_le; [apply Rmax_list_nonneg|].
  intros x Hx. destruct (H x Hx) as (b & Hb & Hle). pose proof (Rmax_list_ub l2 b Hb). lra.
Qed.

Section Vec.
(** a binary relevance vector *)
Variable p : string -> bool.
Variable ds : list string.
Definition prec_at (i : nat) : R := (INR (count p (firstn i ds)) / INR i)%R.
(** relevant positions (1-based) in order *)
Definition rel_ranks : list nat := filter (fun i => p (nth (i - 1) ds EmptyString)) (seq 1 (length ds)).

Lemma count_firstn_S i : i < length ds ->
  count p (firstn (S i) ds) = count p (firstn i ds) + if p (nth i ds EmptyString) then 1 else 0.
Proof.
  intros H. assert (Hs : firstn (S i) ds = firstn i ds ++ [nth i ds EmptyString]).
  { revert i H. generalize ds. induction ds0 as [|d l IH]; intros i H; cbn in H; [lia|].
    destruct i; [reflexivity|]. cbn [firstn nth]. rewrite <- app_comm_cons. f_equal. apply IH. lia. }
  rewrite Hs, count_app. cbn. lia.
Qed.

(** the number of relevant ranks up to i is the count *)
Lemma rel_ranks_upto n : n <= length ds ->
  filter (fun i => p (nth (i - 1) ds EmptyString)) (seq 1 n) = firstn (count p (firstn n ds)) rel_ranks
  /\ length (filter (fun i => p (nth (i - 1) ds EmptyString)) (seq 1 n)) = count p (firstn n ds).
Proof.
  intros Hn.
  assert (Hlen : forall n, n <= length ds ->
     length (filter (fun i => p (nth (i - 1) ds EmptyString)) (seq 1 n)) = count p (firstn n ds)).
  { clear n Hn. induction n as [|n IH]; intros Hn; [reflexivity|].
    rewrite seq_S, filter_app, app_length, IH, count_firstn_S by lia. f_equal. cbn [filter].
    replace (1 + n - 1) with n by lia. destruct (p (nth n ds EmptyString)); reflexivity. }
  split; [|now apply Hlen].
  unfold rel_ranks. replace (length ds) with (n + (length ds - n)) by lia.
  rewrite seq_app, filter_app, <- (Hlen n Hn) at 1.
  rewrite firstn_app, firstn_all, Nat.sub_diag. cbn. now rewrite app_nil_r.
Qed.
Lemma rel_ranks_length : length rel_ranks = count p ds.
Proof.
  destruct (rel_ranks_upto (length ds) (le_n _)) as [_ H]. unfold rel_ranks. rewrite H.
  now rewrite firstn_all.
Qed.

Lemma seq_nth_filter n : StronglySorted lt (filter (fun i => p (nth (i - 1) ds EmptyString)) (seq 1 n)).
Proof.
  assert (H : forall n a (f : nat -> bool), StronglySorted lt (filter f (seq a n))).
  { clear. induction n as [|n IH]; intros a f; cbn; [constructor|].
    destruct (f a); [|apply IH]. constructor; [apply IH|]. apply Forall_forall. intros x Hx.
    apply filter_In in Hx as [Hx _]. apply in_seq in Hx. lia. }
  apply H.
Qed.

(** count at the c-th relevant rank (0-based c) is c+1 *)
Lemma rel_ranks_count c i : nth_error rel_ranks c = Some i ->
  1 <= i <= length ds /\ p (nth (i - 1) ds EmptyString) = true /\ count p (firstn i ds) = S c.
Proof.
  intros H. assert (Hin := nth_error_In _ _ H). unfold rel_ranks in Hin.
  apply filter_In in Hin as [Hs Hp]. apply in_seq in Hs.
  assert (Hi : 1 <= i <= length ds) by lia. split; [exact Hi|]. split; [exact Hp|].
  (* i is the last element of firstn (count i) rel_ranks *)
  destruct (rel_ranks_upto i) as [Hf Hl]; [lia|].
  assert (Hlast : filter (fun i => p (nth (i - 1) ds EmptyString)) (seq 1 i)
     = filter (fun i => p (nth (i - 1) ds EmptyString)) (seq 1 (i - 1)) ++ [i]).
  { replace i with (S (i - 1)) at 1 by lia. rewrite seq_S, filter_app. f_equal. cbn [filter].
    replace (1 + (i - 1)) with i by lia. now rewrite Hp. }
  set (m := count p (firstn i ds)) in *.
  assert (Hm : nth_error rel_ranks (m - 1) = Some i).
  { assert (Hm1 : length (filter (fun i => p (nth (i - 1) ds EmptyString)) (seq 1 (i - 1))) = m - 1).
    { rewrite Hlast, app_length in Hl. cbn in Hl. lia. }
    assert (nth_error (firstn m rel_ranks) (m - 1) = Some i).
    { rewrite <- Hf, Hlast, nth_error_app2, Hm1, Nat.sub_diag by lia. reflexivity. }
    rewrite <- (firstn_skipn m rel_ranks), nth_error_app1; [exact H0|].
    apply nth_error_Some. congruence. }
  assert (Hm0 : 1 <= m).
  { rewrite Hlast, app_length in Hl. cbn in Hl. lia. }
  assert (Hnd : NoDup rel_ranks).
  { unfold rel_ranks. apply NoDup_filter, seq_NoDup. }
  assert (c = m - 1).
  { apply (proj1 (NoDup_nth_error rel_ranks) Hnd).
    - apply nth_error_Some. congruence.
    - congruence. }
  lia.
Qed.

Lemma prec_at_pos c i : nth_error rel_ranks c = Some i -> (0 < prec_at i)%R.
Proof.
  intros H. apply rel_ranks_count in H as (Hi & _ & Hc). unfold prec_at. rewrite Hc.
  apply Rdiv_lt_0_compat; apply lt_0_INR; lia.
Qed.

(** last relevant rank not after i *)
Lemma last_rel i : 1 <= i <= length ds -> 1 <= count p (firstn i ds) ->
  exists i', nth_error rel_ranks (count p (firstn i ds) - 1) = Some i' /\ i' <= i.
Proof.
  intros Hi Hc. destruct (rel_ranks_upto i) as [Hf Hl]; [lia|].
  set (m := count p (firstn i ds)) in *.
  destruct (nth_error (firstn m rel_ranks) (m - 1)) as [i'|] eqn:He.
  - exists i'. split.
    + rewrite <- (firstn_skipn m rel_ranks), nth_error_app1; [exact He|].
      apply nth_error_Some. congruence.
    + apply nth_error_In in He. rewrite <- Hf in He. apply filter_In in He as [He _].
      apply in_seq in He. lia.
  - apply nth_error_None in He. rewrite <- Hf in He. lia.
Qed.

(** maximum precision over ranks with at least c relevant = over relevant ranks *)
Lemma interp_vec c : 1 <= c ->
  fold_right Rmax 0%R (map prec_at (skipn (c - 1) rel_ranks)) =
  fold_right Rmax 0%R (map prec_at (filter (fun i => c <=? count p (firstn i ds)) (seq 1 (length ds)))).
Proof.
  intros Hc. apply Rle_antisym; apply Rmax_list_dom; intros a Ha; apply in_map_iff in Ha as (i & <- & Hi).
  - apply In_nth_error in Hi as [n Hn].
    assert (Hn' : nth_error rel_ranks (c - 1 + n) = Some i).
    { rewrite <- (firstn_skipn (c - 1) rel_ranks).
      assert (Hl : length (firstn (c - 1) rel_ranks) = c - 1).
      { rewrite firstn_length. assert (n < length (skipn (c - 1) rel_ranks)) by (apply nth_error_Some; congruence).
        rewrite skipn_length in H. lia. }
      rewrite nth_error_app2 by lia. rewrite Hl. replace (c - 1 + n - (c - 1)) with n by lia. exact Hn. }
    destruct (rel_ranks_count _ _ Hn') as (Hi & _ & Hcnt).
    exists (prec_at i). split; [|lra]. apply in_map, filter_In. split; [apply in_seq; lia|].
    apply Nat.leb_le. lia.
  - apply filter_In in Hi as [Hs Hle]. apply in_seq in Hs. apply Nat.leb_le in Hle.
    destruct (last_rel i) as (i' & Hi' & Hle'); [lia|lia|].
    exists (prec_at i'). split.
    + apply in_map. rewrite <- (firstn_skipn (c - 1) rel_ranks) in Hi'.
      rewrite nth_error_app2 in Hi' by (rewrite firstn_length; lia).
      eapply nth_error_In; eauto.
    + destruct (rel_ranks_count _ _ Hi') as (Hi1 & _ & Hcnt). unfold prec_at. rewrite Hcnt.
      replace (S (count p (firstn i ds) - 1)) with (count p (firstn i ds)) by lia.
      unfold Rdiv. apply Rmult_le_compat_l; [apply pos_INR|].
      apply Rinv_le_contravar; [apply lt_0_INR; lia|]. apply le_INR. lia.
Qed.

Lemma interp_vec_0 :
  fold_right Rmax 0%R (map prec_at rel_ranks) =
  fold_right Rmax 0%R (map prec_at (filter (fun i => 0 <=? count p (firstn i ds)) (seq 1 (length ds)))).
Proof.
  pose proof (interp_vec 1 (le_n 1)) as H1. cbn [Nat.sub skipn] in H1. rewrite H1.
  apply Rle_antisym; [apply Rmax_list_dom|apply Rmax_list_le; [apply Rmax_list_nonneg|]].
  - intros a Ha. apply in_map_iff in Ha as (i & <- & Hi). apply filter_In in Hi as [Hi _].
    exists (prec_at i). split; [|lra]. apply in_map, filter_In. auto.
  - intros x Hx. apply in_map_iff in Hx as (i & <- & Hi). apply filter_In in Hi as [Hi _].
    destruct (Nat.leb_spec 1 (count p (firstn i ds))) as [Hc|Hc].
    + apply Rmax_list_ub, in_map, filter_In. split; [exact Hi|]. now apply Nat.leb_le.
    + unfold prec_at. replace (count p (firstn i ds)) with 0 by lia. cbn [INR].
      unfold Rdiv. rewrite Rmult_0_l. apply Rmax_list_nonneg.
Qed.
End Vec.

(** the non-zero precision scores are those at the relevant ranks *)
Lemma nonzero_precisions (p : string -> bool) ds :
  filter (fun x => negb (Reqb x 0))
    (map (fun i => if Reqb (nth i (map (fun d => if p d then 1 else 0)%R ds) 0%R) 0 then 0%R
                   else (Rsum (firstn (i + 1) (map (fun d => if p d then 1 else 0)%R ds)) / INR (i + 1))%R)
         (seq 0 (length (map (fun d => if p d then 1 else 0)%R ds))))
  = map (prec_at p ds) (rel_ranks p ds).
Proof.
  rewrite map_length. unfold rel_ranks. rewrite <- seq_shift.
  assert (H : forall l, (forall i, In i l -> i < length ds) ->
    filter (fun x => negb (Reqb x 0))
    (map (fun i => if Reqb (nth i (map (fun d => if p d then 1 else 0)%R ds) 0%R) 0 then 0%R
                   else (Rsum (firstn (i + 1) (map (fun d => if p d then 1 else 0)%R ds)) / INR (i + 1))%R) l)
    = map (prec_at p ds) (filter (fun i => p (nth (i - 1) ds EmptyString)) (map S l))).
  { induction l as [|i l IH]; intros Hl; [reflexivity|]. cbn [map filter].
    specialize (IH (fun k Hk => Hl k (or_intror Hk))). cbn [Nat.sub]. rewrite Nat.sub_0_r.
    assert (Hi := Hl i (or_introl eq_refl)).
    rewrite (nth_indep _ 0%R (if p EmptyString then 1%R else 0%R)) by (rewrite map_length; lia).
    rewrite (map_nth (fun d => if p d then 1%R else 0%R)).
    rewrite firstn_map, Rsum_indicator.
    destruct (p (nth i ds EmptyString)) eqn:Hp.
    - rewrite (proj2 (Reqb_false 1 0)) by lra.
      replace (i + 1) with (S i) by lia.
      change (INR (count p (firstn (S i) ds)) / INR (S i))%R with (prec_at p ds (S i)).
      assert (Hpos : (0 < prec_at p ds (S i))%R).
      { unfold prec_at. rewrite count_firstn_S, Hp by exact Hi.
        apply Rdiv_lt_0_compat; apply lt_0_INR; lia. }
      rewrite (proj2 (Reqb_false _ _)) by lra. cbn [negb map]. now rewrite IH.
    - rewrite (proj2 (Reqb_true 0 0)) by reflexivity. 
      rewrite (proj2 (Reqb_true 0 0)) by reflexivity. cbn [negb]. exact IH. }
  apply H. intros i Hi. apply in_seq in Hi. lia.
Qed.

Lemma Rtrunc_nonneg_div (a : Z) : (0 <= a)%Z -> Rtrunc (IZR a / 10) = (a / 10)%Z.
Proof.
  intros Ha. unfold Rtrunc.
  assert (H0 : (0 <= IZR a)%R) by now apply IZR_le.
  destruct (Rle_dec 0 (IZR a / 10)) as [_|Hc]; [|exfalso; apply Hc; lra].
  unfold Int_part. symmetry.
  assert (Hup : (a / 10 + 1)%Z = up (IZR a / 10)).
  { apply tech_up.
    - rewrite plus_IZR. assert (a < (a / 10 + 1) * 10)%Z by (pose proof (Z.mul_succ_div_gt a 10); lia).
      apply IZR_lt in H. rewrite mult_IZR, plus_IZR in H. lra.
    - rewrite plus_IZR. assert ((a / 10) * 10 <= a)%Z by (pose proof (Z.mul_div_le a 10); lia).
      apply IZR_le in H. rewrite mult_IZR in H. lra. }
  rewrite <- Hup. lia.
Qed.
Lemma ip_cutoff_R i n : @ip_cutoff NumR i n = (i * n + 9) / 10.
Proof.
  unfold ip_cutoff. rewrite fnat_INR, INR_IZR_INZ. numR.
  replace (IZR (Z.of_nat i) / 10 ^ 1 * IZR (Z.of_nat n) + 9 / 10 ^ 1)%R
    with (IZR (Z.of_nat (i * n + 9)) / 10)%R.
  2:{ rewrite Nat2Z.inj_add, plus_IZR, Nat2Z.inj_mul, mult_IZR. change (Z.of_nat 9) with 9%Z. field. }
  rewrite Rtrunc_nonneg_div by lia.
  change 10%Z with (Z.of_nat 10). rewrite <- Nat2Z.inj_div. apply Nat2Z.id.
Qed.

Lemma interpolated_spec :
  @_interpolated_precision NumR (qrows E j) (rrows E r) lvl
  = if n_relevant j lvl =? 0 then repeat 0%R 11
    else map (fun i => S_interpolated j lvl rk ((i * n_relevant j lvl + 9) / 10)) (seq 0 11).
Proof.
  unfold _interpolated_precision. rewrite clean_length.
  destruct (n_relevant j lvl =? 0) eqn:Hn; [reflexivity|].
  rewrite map_map. apply map_ext. intros i. rewrite ip_cutoff_R.
  set (c := (i * n_relevant j lvl + 9) / 10).
  rewrite <- (fix_k_0 E r), hit_list_spec by assumption. cbn [top].
  change (P_Metrics.rk r) with (dkeys r). set (p := relevant j lvl). set (ds := dkeys r).
  rewrite precision_scores_R. cbn [tl].
  set (ps := map _ (seq 0 _)).
  assert (Hps : filter (fun x => negb (Reqb x 0)) ps = map (prec_at p ds) (rel_ranks p ds))
    by apply nonzero_precisions.
  assert (Hnn : forall x, In x ps -> (0 <= x)%R).
  { intros x Hx. destruct (Req_EM_T x 0) as [->|Hne]; [lra|].
    assert (Hf : In x (filter (fun x => negb (Reqb x 0)) ps)).
    { apply filter_In. split; [exact Hx|]. now rewrite (proj2 (Reqb_false x 0)). }
    rewrite Hps in Hf. apply in_map_iff in Hf as (k & <- & Hk).
    apply In_nth_error in Hk as [m Hm]. apply prec_at_pos in Hm. lra. }
  assert (Hmax : @list_max NumR (fzero :: ps) = fold_right Rmax 0%R (map (prec_at p ds) (rel_ranks p ds))).
  { etransitivity; [apply (list_max_R (0%R :: ps)); [discriminate|intros x [<-|Hx]; [lra|auto]]|].
    rewrite <- Hps. cbn [fold_right]. clear Hps Hnn. clearbody ps.
    rewrite Rmax_right by apply Rmax_list_nonneg.
    induction ps as [|x l IH]; [reflexivity|]. cbn [fold_right filter].
    destruct (Req_EM_T x 0) as [->|Hne].
    - rewrite (proj2 (Reqb_true 0 0)) by reflexivity. cbn [negb]. rewrite Rmax_right by apply Rmax_list_nonneg. exact IH.
    - rewrite (proj2 (Reqb_false x 0)) by exact Hne. cbn [negb fold_right]. now rewrite IH. }
  rewrite Hmax. numR.
  change (@filter F) with (@filter R). change (@length F) with (@length R).
  set (mx := fold_right Rmax 0%R (map (prec_at p ds) (rel_ranks p ds))) in *.
  cbn [filter]. rewrite Hps.
  unfold S_interpolated. fold p. change (precision_at j lvl ds) with (prec_at p ds).
  destruct (Req_EM_T mx 0) as [Hz|Hz].
  - (* no relevant document retrieved *)
    rewrite (proj2 (Reqb_true mx 0)) by exact Hz. cbn [negb].
    assert (Hr : rel_ranks p ds = []).
    { destruct (rel_ranks p ds) as [|i0 l] eqn:Hr; [reflexivity|]. exfalso.
      assert (H0 : nth_error (rel_ranks p ds) 0 = Some i0) by now rewrite Hr.
      apply prec_at_pos in H0. unfold mx in Hz. rewrite ?Hr in Hz. cbn in Hz.
      pose proof (Rmax_l (prec_at p ds i0) (fold_right Rmax 0%R (map (prec_at p ds) l))). lra. }
    rewrite Hr. cbn [map length].
    replace (c <? 0) with false by (symmetry; apply Nat.ltb_ge; lia).
    destruct c as [|c'] eqn:Hc.
    + rewrite <- interp_vec_0, Hr. reflexivity.
    + rewrite <- interp_vec by lia. rewrite Hr, skipn_nil. reflexivity.
  - rewrite (proj2 (Reqb_false mx 0)) by exact Hz. cbn [negb length].
    rewrite map_length.
    assert (Hall : forall x, In x (mx :: map (prec_at p ds) (rel_ranks p ds)) -> (0 <= x)%R).
    { intros x [<-|Hx]; [apply Rmax_list_nonneg|]. apply in_map_iff in Hx as (k & <- & Hk).
      apply In_nth_error in Hk as [m Hm]. apply prec_at_pos in Hm. lra. }
    destruct c as [|c'] eqn:Hc.
    + cbn [skipn]. rewrite (list_max_R (mx :: _)); [|discriminate|exact Hall].
      rewrite <- interp_vec_0. cbn [Nat.ltb Nat.leb fold_right].
      fold mx. rewrite Rmax_left; [reflexivity|lra].
    + rewrite <- interp_vec by lia. replace (S c' - 1) with c' by lia. cbn [skipn].
      destruct (Nat.ltb_spec (S c') (S (length (rel_ranks p ds)))) as [Hlt|Hge].
      * rewrite skipn_map. rewrite (list_max_R (map (prec_at p ds) (skipn c' (rel_ranks p ds)))).
        -- reflexivity.
        -- intros He. apply (f_equal (@length R)) in He. rewrite map_length, skipn_length in He. cbn in He. lia.
        -- intros x Hx. apply Hall. right. apply in_map_iff in Hx as (k & <- & Hk). apply in_map.
           rewrite <- (firstn_skipn c' (rel_ranks p ds)). apply in_or_app. now right.
      * rewrite skipn_all2 by lia. reflexivity.
Qed.
End Bridge.
