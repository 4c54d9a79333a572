(** T_Norm2.v: what each normalisation computes (C38-C41) *)
From Coq Require Import Reals Lra Psatz.
From Verif Require Import Base Dict Num NumLaws Env EnvEx M_Common M_Qrels M_Run M_History M_Norm
  Spec_DS Spec_Hist Spec_Metrics Spec_Eval Spec_Norm
  P_Base P_Dict P_Common P_History P_DS P_Metrics P_Eval P_Eval3 P_Norm T_Norm.
Open Scope string_scope.
Open Scope list_scope.
Open Scope nat_scope.

Lemma den_pos a : (0 < Rmax a tiny)%R.
Proof. eapply Rlt_le_trans; [apply tiny_pos|apply Rmax_r]. Qed.
Lemma div_lt a b c : (0 < c)%R -> (a < b)%R -> (a / c < b / c)%R.
Proof. intros Hc H. apply Rmult_lt_compat_r; auto. now apply Rinv_0_lt_compat. Qed.
Lemma div_le a b c : (0 < c)%R -> (a <= b)%R -> (a / c <= b / c)%R.
Proof. intros Hc H. apply Rmult_le_compat_r; auto. left. now apply Rinv_0_lt_compat. Qed.

(** strictly increasing in the score, for each query: "preserves the order" *)
Definition keeps_order (x y : Run NumR) : Prop :=
  forall q d d' s s' v v', score_of x q d = Some s -> score_of x q d' = Some s' ->
    score_of y q d = Some v -> score_of y q d' = Some v' -> ((s < s')%R <-> (v < v')%R).
Definition reverses_order (x y : Run NumR) : Prop :=
  forall q d d' s s' v v', score_of x q d = Some s -> score_of x q d' = Some s' ->
    score_of y q d = Some v -> score_of y q d' = Some v' -> ((s < s')%R <-> (v' < v)%R).

Lemma keeps_order_g g x nm : (forall r s s', (s < s')%R -> (g r s < g r s')%R) ->
  keeps_order x (@new_run NumR nm (by_score g (r_map x))).
Proof.
  intros Hg q d d' s s' v v' H1 H2 H3 H4.
  assert (E1 := by_score_get2 g _ _ _ _ H1). assert (E2 := by_score_get2 g _ _ _ _ H2).
  assert (v = g (of_query (r_map x) q) s) by (assert (Some v = Some (g (of_query (r_map x) q) s)) by (etransitivity; [symmetry; exact H3|exact E1]); congruence).
  assert (v' = g (of_query (r_map x) q) s') by (assert (Some v' = Some (g (of_query (r_map x) q) s')) by (etransitivity; [symmetry; exact H4|exact E2]); congruence).
  subst. split; [apply Hg|]. intros Hlt. destruct (Rlt_le_dec s s') as [|[Hs|Hs]]; auto.
  - apply (Hg (of_query (r_map x) q)) in Hs. lra.
  - subst. lra.
Qed.

(** ** C38 *)
Theorem C38_min_max : forall (E : env NumR), env_ok E ->
  forall x norm, a_run x -> In norm ["min_max"; "min-max"] ->
  exists y, normalize E x norm = Ok y /\
    (forall q d s lo hi, score_of x q d = Some s -> is_min_of (scores_for x q) lo -> is_max_of (scores_for x q) hi ->
       score_of y q d = Some ((s - lo) / Rmax (hi - lo) tiny)%R) /\
    (forall q d v, score_of y q d = Some v -> (0 <= v <= 1)%R) /\
    (forall q d s lo, score_of x q d = Some s -> is_min_of (scores_for x q) lo ->
       (score_of y q d = Some 0%R <-> s = lo)) /\
    (forall q d s lo hi, score_of x q d = Some s -> is_min_of (scores_for x q) lo -> is_max_of (scores_for x q) hi ->
       (tiny <= hi - lo)%R -> (score_of y q d = Some 1%R <-> s = hi)) /\
    keeps_order x y.
Proof.
  intros E HE x norm Hx Hn. exists (@new_run NumR (r_name x) (by_score g_minmax (r_map x))).
  assert (Hf : forall q d s lo hi, score_of x q d = Some s -> is_min_of (scores_for x q) lo -> is_max_of (scores_for x q) hi ->
       score_of (@new_run NumR (r_name x) (by_score g_minmax (r_map x))) q d = Some ((s - lo) / Rmax (hi - lo) tiny)%R).
  { intros q d s lo hi Hs Hlo Hhi. etransitivity; [exact (by_score_get2 g_minmax _ _ _ _ Hs)|].
    unfold g_minmax. apply safe_min_R in Hlo. apply safe_max_R in Hhi. unfold scores_for, results_of in *. now rewrite Hlo, Hhi. }
  assert (Hall : forall q d s, score_of x q d = Some s -> exists lo hi, is_min_of (scores_for x q) lo /\ is_max_of (scores_for x q) hi /\ (lo <= s <= hi)%R).
  { intros q d s Hs. apply score_in in Hs. assert (scores_for x q <> []) by (intros H0; rewrite H0 in Hs; easy).
    destruct (has_min _ H) as [lo Hlo]. destruct (has_max _ H) as [hi Hhi]. exists lo, hi. split; [exact Hlo|split; [exact Hhi|split; [now apply Hlo|now apply Hhi]]]. }
  split.
  { unfold normalize. cbn in Hn. decompose [or] Hn; subst; try contradiction; cbn [norm_switch String.eqb Ascii.eqb Bool.eqb orb bindr]; now apply minmax_norm_R. }
  split; [exact Hf|]. split; [|split; [|split]].
  - intros q d v Hv. apply by_score_get2_inv in Hv as (s & Hs & ->).
    destruct (Hall _ _ _ Hs) as (lo & hi & Hlo & Hhi & Hb).
    unfold g_minmax. change (@dvals R (of_query (r_map x) q)) with (scores_for x q).
    rewrite (safe_min_R _ _ Hlo), (safe_max_R _ _ Hhi).
    assert (Hd := den_pos (hi - lo)). split.
    + apply Rmult_le_pos; [lra|]. left. now apply Rinv_0_lt_compat.
    + apply Rmult_le_reg_r with (Rmax (hi - lo) tiny); auto. unfold Rdiv. rewrite Rmult_assoc, Rinv_l by lra.
      rewrite Rmult_1_r, Rmult_1_l. eapply Rle_trans; [|apply Rmax_l]. lra.
  - intros q d s lo Hs Hlo. destruct (Hall _ _ _ Hs) as (lo' & hi & Hlo' & Hhi & Hb).
    rewrite (Hf _ _ _ _ _ Hs Hlo Hhi). assert (Hd := den_pos (hi - lo)). split; intros H.
    + inversion H as [H0]. assert (H1 : (s - lo = 0 * Rmax (hi - lo) tiny)%R).
      { rewrite <- H0. unfold Rdiv. rewrite Rmult_assoc, Rinv_l by lra. lra. }
      rewrite Rmult_0_l in H1. lra.
    + subst. f_equal. unfold Rdiv. rewrite Rminus_diag_eq by auto. lra.
  - intros q d s lo hi Hs Hlo Hhi Hsp. rewrite (Hf _ _ _ _ _ Hs Hlo Hhi). rewrite Rmax_left by exact Hsp.
    assert (Ht := tiny_pos). split; intros H.
    + inversion H as [H0]. assert (H1 : (s - lo = 1 * (hi - lo))%R).
      { rewrite <- H0. unfold Rdiv. rewrite Rmult_assoc, Rinv_l by lra. lra. }
      lra.
    + subst. f_equal. unfold Rdiv. apply Rinv_r. lra.
  - apply keeps_order_g. intros r s s' H. apply div_lt; [apply den_pos|]. lra.
Qed.

Theorem C38_min_max_inverted : forall (E : env NumR), env_ok E ->
  forall x norm, a_run x -> In norm ["min_max_inverted"; "min-max-inverted"] ->
  exists y, normalize E x norm = Ok y /\
    (forall q d s lo hi, score_of x q d = Some s -> is_min_of (scores_for x q) lo -> is_max_of (scores_for x q) hi ->
       score_of y q d = Some ((hi - s) / Rmax (hi - lo) tiny)%R) /\
    (forall q d v, score_of y q d = Some v -> (0 <= v <= 1)%R) /\
    reverses_order x y /\ queries_sorted y /\ ranked y.
Proof.
  intros E HE x norm Hx Hn. set (y0 := @new_run NumR (r_name x) (by_score g_inv (r_map x))).
  assert (Hy0 : a_run y0) by now apply by_score_ok.
  exists (Run_sort E y0).
  assert (Hf : forall q d s lo hi, score_of x q d = Some s -> is_min_of (scores_for x q) lo -> is_max_of (scores_for x q) hi ->
       score_of (Run_sort E y0) q d = Some ((hi - s) / Rmax (hi - lo) tiny)%R).
  { intros q d s lo hi Hs Hlo Hhi. rewrite sort_score by assumption. etransitivity; [exact (by_score_get2 g_inv _ _ _ _ Hs)|].
    unfold g_inv. apply safe_min_R in Hlo. apply safe_max_R in Hhi. unfold scores_for, results_of in *. now rewrite Hlo, Hhi. }
  assert (Hall : forall q d s, score_of x q d = Some s -> exists lo hi, is_min_of (scores_for x q) lo /\ is_max_of (scores_for x q) hi /\ (lo <= s <= hi)%R).
  { intros q d s Hs. apply score_in in Hs. assert (scores_for x q <> []) by (intros H0; rewrite H0 in Hs; easy).
    destruct (has_min _ H) as [lo Hlo]. destruct (has_max _ H) as [hi Hhi]. exists lo, hi. split; [exact Hlo|split; [exact Hhi|split; [now apply Hlo|now apply Hhi]]]. }
  split.
  { unfold normalize. cbn in Hn. decompose [or] Hn; subst; try contradiction; cbn [norm_switch String.eqb Ascii.eqb Bool.eqb orb bindr]; now apply inv_norm_R. }
  split; [exact Hf|]. split; [|split; [|split]].
  - intros q d v. rewrite sort_score by assumption. intros Hv. apply by_score_get2_inv in Hv as (s & Hs & ->).
    destruct (Hall _ _ _ Hs) as (lo & hi & Hlo & Hhi & Hb).
    unfold g_inv. change (@dvals R (of_query (r_map x) q)) with (scores_for x q).
    rewrite (safe_min_R _ _ Hlo), (safe_max_R _ _ Hhi).
    assert (Hd := den_pos (hi - lo)). split.
    + apply Rmult_le_pos; [lra|]. left. now apply Rinv_0_lt_compat.
    + apply Rmult_le_reg_r with (Rmax (hi - lo) tiny); auto. unfold Rdiv. rewrite Rmult_assoc, Rinv_l by lra.
      rewrite Rmult_1_r, Rmult_1_l. eapply Rle_trans; [|apply Rmax_l]. lra.
  - intros q d d' s s' v v' H1 H2 H3 H4. destruct (Hall _ _ _ H1) as (lo & hi & Hlo & Hhi & Hb).
    rewrite (Hf _ _ _ _ _ H1 Hlo Hhi) in H3. rewrite (Hf _ _ _ _ _ H2 Hlo Hhi) in H4.
    inversion H3; subst v. inversion H4; subst v'. split; intros H.
    + apply div_lt; [apply den_pos|lra].
    + destruct (Rlt_le_dec s s') as [|Hs]; auto. exfalso.
      assert ((hi - s) / Rmax (hi - lo) tiny <= (hi - s') / Rmax (hi - lo) tiny)%R by (apply div_le; [apply den_pos|lra]). lra.
  - now apply sort_queries_sorted.
  - now apply sort_ranked.
Qed.

(** ** C39 *)
Lemma score_bounds x q d s : score_of x q d = Some s -> exists lo hi,
  is_min_of (scores_for x q) lo /\ is_max_of (scores_for x q) hi /\ (lo <= s <= hi)%R.
Proof.
  intros Hs. apply score_in in Hs. assert (scores_for x q <> []) by (intros H0; rewrite H0 in Hs; easy).
  destruct (has_min _ H) as [lo Hlo]. destruct (has_max _ H) as [hi Hhi]. exists lo, hi.
  split; [exact Hlo|split; [exact Hhi|split; [now apply Hlo|now apply Hhi]]].
Qed.

Theorem C39_max : forall (E : env NumR), env_ok E ->
  forall x, a_run x ->
  exists y, normalize E x "max" = Ok y /\
    (forall q d s hi, score_of x q d = Some s -> is_max_of (scores_for x q) hi ->
       score_of y q d = Some (s / Rmax hi tiny)%R) /\
    (forall q d v, score_of y q d = Some v -> (v <= 1)%R) /\
    keeps_order x y.
Proof.
  intros E HE x Hx. exists (@new_run NumR (r_name x) (by_score g_max (r_map x))).
  assert (Hf : forall q d s hi, score_of x q d = Some s -> is_max_of (scores_for x q) hi ->
       score_of (@new_run NumR (r_name x) (by_score g_max (r_map x))) q d = Some (s / Rmax hi tiny)%R).
  { intros q d s hi Hs Hhi. etransitivity; [exact (by_score_get2 g_max _ _ _ _ Hs)|].
    unfold g_max. change (@dvals R (of_query (r_map x) q)) with (scores_for x q). now rewrite (safe_max_R _ _ Hhi). }
  split; [unfold normalize; cbn [norm_switch String.eqb Ascii.eqb Bool.eqb orb bindr]; now apply max_norm_R|].
  split; [exact Hf|]. split.
  - intros q d v Hv. apply by_score_get2_inv in Hv as (s & Hs & ->).
    destruct (score_bounds _ _ _ _ Hs) as (lo & hi & Hlo & Hhi & Hb).
    unfold g_max. change (@dvals R (of_query (r_map x) q)) with (scores_for x q). rewrite (safe_max_R _ _ Hhi).
    assert (Hd := den_pos hi). apply Rmult_le_reg_r with (Rmax hi tiny); auto. unfold Rdiv. rewrite Rmult_assoc, Rinv_l by lra.
    rewrite Rmult_1_r, Rmult_1_l. eapply Rle_trans; [|apply Rmax_l]. lra.
  - apply keeps_order_g. intros r s s' H. apply div_lt; [apply den_pos|]. exact H.
Qed.

Lemma Rsum_div (l : list R) c g : (forall a, g a = (a / c)%R) -> Rsum (map g l) = (Rsum l / c)%R.
Proof. intros Hg. induction l as [|a l IH]; cbn; [unfold Rdiv; lra|]. rewrite IH, Hg. unfold Rdiv. lra. Qed.
Lemma Rsum_sub (l : list R) c : Rsum (map (fun a => a - c)%R l) = (Rsum l - c * INR (length l))%R.
Proof.
  induction l as [|a l IH]; [cbn; lra|]. cbn [map Rsum length]. rewrite S_INR, IH. lra.
Qed.
Lemma Rsum_ge_member (l : list R) a : (forall v, In v l -> (0 <= v)%R) -> In a l -> (a <= Rsum l)%R.
Proof.
  induction l as [|b l IH]; intros Hp Hi; [easy|]. cbn [Rsum].
  assert (0 <= b)%R by (apply Hp; now left). destruct Hi as [->|Hi].
  - assert (0 <= Rsum l)%R; [|lra]. apply Rsum_nonneg. intros v Hv. apply Hp. now right.
  - assert (a <= Rsum l)%R; [|lra]. apply IH; auto. intros v Hv. apply Hp. now right.
Qed.

Theorem C39_sum : forall (E : env NumR), env_ok E ->
  forall x, a_run x ->
  exists y, normalize E x "sum" = Ok y /\
    (forall q d s lo, score_of x q d = Some s -> is_min_of (scores_for x q) lo ->
       score_of y q d = Some ((s - lo) / Rmax (Rsum (map (fun s => s - lo)%R (scores_for x q))) tiny)%R) /\
    (forall q d v, score_of y q d = Some v -> (0 <= v <= 1)%R) /\
    (forall q lo, is_min_of (scores_for x q) lo ->
       (tiny <= Rsum (map (fun s => s - lo)%R (scores_for x q)))%R -> Rsum (scores_for y q) = 1%R) /\
    keeps_order x y.
Proof.
  intros E HE x Hx. exists (@new_run NumR (r_name x) (by_score g_sum (r_map x))).
  assert (Hg : forall q lo s, is_min_of (scores_for x q) lo -> g_sum (of_query (r_map x) q) s =
    ((s - lo) / Rmax (Rsum (map (fun s => s - lo)%R (scores_for x q))) tiny)%R).
  { intros q lo s Hlo. apply safe_min_R in Hlo.
    assert (Hgen : forall r : dict R, @safe_min NumR (dvals r) = lo ->
      g_sum r s = ((s - lo) / Rmax (Rsum (map (fun s => s - lo)%R (dvals r))) tiny)%R).
    { intros r Hr. unfold g_sum. rewrite Hr, Rsum_sub.
      assert (length (dvals r) = length r) as -> by apply map_length. reflexivity. }
    exact (Hgen _ Hlo). }
  split; [unfold normalize; cbn [norm_switch String.eqb Ascii.eqb Bool.eqb orb bindr]; now apply sum_norm_R|].
  split; [|split; [|split]].
  - intros q d s lo Hs Hlo. etransitivity; [exact (by_score_get2 g_sum _ _ _ _ Hs)|]. now rewrite (Hg q lo).
  - intros q d v Hv. apply by_score_get2_inv in Hv as (s & Hs & ->).
    destruct (score_bounds _ _ _ _ Hs) as (lo & hi & Hlo & Hhi & Hb). rewrite (Hg q lo) by exact Hlo.
    set (S := Rsum _). assert (Hd := den_pos S). split.
    + apply Rmult_le_pos; [lra|]. left. now apply Rinv_0_lt_compat.
    + apply Rmult_le_reg_r with (Rmax S tiny); auto. unfold Rdiv. rewrite Rmult_assoc, Rinv_l by lra.
      rewrite Rmult_1_r, Rmult_1_l. eapply Rle_trans; [|apply Rmax_l]. unfold S.
      apply Rsum_ge_member.
      * intros v Hv. apply in_map_iff in Hv as (a & <- & Ha). destruct Hlo as [_ Hlo]. specialize (Hlo a Ha). lra.
      * apply (in_map (fun s => s - lo)%R). now apply score_in in Hs.
  - intros q lo Hlo Hsp. unfold scores_for at 1, results_of. cbn [new_run r_map]. rewrite by_score_vals.
    change (@dvals R (of_query (r_map x) q)) with (scores_for x q).
    set (S := Rsum (map (fun s : R => (s - lo)%R) (scores_for x q))) in *.
    rewrite (map_ext _ (fun s => (s - lo) / S)%R).
    + rewrite <- (map_map (fun s => s - lo)%R (fun a => a / S)%R).
      rewrite (Rsum_div _ S) by reflexivity. fold S. unfold Rdiv. apply Rinv_r.
      assert (Ht := tiny_pos). lra.
    + intros s. rewrite (Hg q lo) by exact Hlo. fold S. now rewrite Rmax_left.
  - apply keeps_order_g. intros r s s' H. apply div_lt; [apply den_pos|]. lra.
Qed.

Lemma mean_affine (l : list R) m c : l <> [] -> c <> 0%R ->
  mean_of (map (fun s => (s - m) / c)%R l) = ((mean_of l - m) / c)%R.
Proof.
  intros Hl Hc. unfold mean_of. rewrite map_length.
  rewrite <- (map_map (fun s => s - m)%R (fun a => a / c)%R), (Rsum_div _ c) by reflexivity. rewrite Rsum_sub.
  assert (INR (length l) <> 0)%R by (apply not_0_INR; now destruct l). field. auto.
Qed.

Theorem C39_zmuv : forall (E : env NumR), env_ok E ->
  forall x, a_run x -> no_empty_results x ->
  exists y, normalize E x "zmuv" = Ok y /\
    (forall q d s, score_of x q d = Some s ->
       score_of y q d = Some ((s - mean_of (scores_for x q)) / Rmax (std_of (scores_for x q)) tiny)%R) /\
    (forall q, has_query x q -> mean_of (scores_for y q) = 0%R) /\
    (forall q, has_query x q -> (tiny <= std_of (scores_for x q))%R -> std_of (scores_for y q) = 1%R) /\
    keeps_order x y.
Proof.
  intros E HE x Hx Hne. exists (@new_run NumR (r_name x) (by_score g_zmuv (r_map x))).
  split; [unfold normalize; cbn [norm_switch String.eqb Ascii.eqb Bool.eqb orb bindr]; now apply zmuv_norm_R|].
  assert (Hv : forall q, scores_for (@new_run NumR (r_name x) (by_score g_zmuv (r_map x))) q =
    map (fun s => (s - mean_of (scores_for x q)) / Rmax (std_of (scores_for x q)) tiny)%R (scores_for x q)).
  { intros q. unfold scores_for at 1, results_of. cbn [new_run r_map]. now rewrite by_score_vals. }
  assert (Hl : forall q, has_query x q -> scores_for x q <> []).
  { intros q Hq Hz. apply (Hne q Hq). unfold scores_for, dvals in Hz. destruct (results_of x q); auto. discriminate. }
  split; [|split; [|split]].
  - intros q d s Hs. exact (by_score_get2 g_zmuv _ _ _ _ Hs).
  - intros q Hq. rewrite Hv. assert (Hd := den_pos (std_of (scores_for x q))).
    rewrite mean_affine by (auto; lra). unfold Rdiv. rewrite Rminus_diag_eq by auto. lra.
  - intros q Hq Hsp. rewrite Hv. rewrite Rmax_left by exact Hsp.
    set (l := scores_for x q) in *. set (S := std_of l) in *. assert (Ht := tiny_pos).
    assert (Hl' := Hl q Hq). change (l <> []) in Hl'. clearbody l. unfold std_of. rewrite mean_affine by (auto; lra).
    rewrite map_map. rewrite (map_ext _ (fun s => ((s - mean_of l) * (s - mean_of l) - 0) / (S * S))%R).
    + rewrite <- (map_map (fun s => (s - mean_of l) * (s - mean_of l))%R (fun a => (a - 0) / (S * S))%R).
      rewrite mean_affine.
      * replace ((mean_of (map (fun x0 : R => ((x0 - mean_of l) * (x0 - mean_of l))%R) l) - 0) / (S * S))%R with 1%R; [apply sqrt_1|].
        assert (HS : (S * S)%R = mean_of (map (fun x0 : R => ((x0 - mean_of l) * (x0 - mean_of l))%R) l)).
        { unfold S, std_of. apply sqrt_sqrt. unfold mean_of. apply Rmult_le_pos.
          - apply Rsum_nonneg. intros v Hv'. apply in_map_iff in Hv' as (a & <- & _). apply Rle_0_sqr.
          - left. apply Rinv_0_lt_compat, lt_0_INR. rewrite map_length. destruct l; [easy|cbn; lia]. }
        rewrite <- HS. rewrite Rminus_0_r. unfold Rdiv. symmetry. apply Rinv_r. nra.
      * destruct l; [easy|discriminate].
      * nra.
    + intros s. field. lra.
  - apply keeps_order_g. intros r s s' H. apply div_lt; [apply den_pos|]. lra.
Qed.

(** max has no lower bound: a single negative score is divided by 10^-9. *)
Theorem C39_max_unbounded_below : forall (E : env NumR), env_ok E -> forall B : R, exists x y v,
  run_reachable E x /\ normalize E x "max" = Ok y /\ score_of y "q" "d" = Some v /\ (v < B)%R.
Proof.
  intros E HE B. set (x := @run_hist NumR E Run_empty [@RAddScore NumR "q" "d" (- (Rabs B + 1))%R]).
  assert (Hr : run_reachable E x).
  { exists Run_empty, [@RAddScore NumR "q" "d" (- (Rabs B + 1))%R]. split; [now left|]. split; [repeat constructor|auto]. }
  assert (Ha : a_run x) by (apply (run_reachable_inv E HE) in Hr; apply Hr).
  destruct (C39_max E HE x Ha) as (y & Hy & Hf & _). exists x, y. eexists. split; [auto|]. split; [eauto|].
  assert (HB : (- (Rabs B + 1) < 0)%R) by (pose proof (Rabs_pos B); lra).
  split; [apply (Hf "q" "d" (- (Rabs B + 1)) (- (Rabs B + 1)))%R; [reflexivity|]|].
  - split; [now left|]. intros v [<-|[]]. apply Rle_refl.
  - assert (Ht := tiny_pos). rewrite Rmax_right by lra. unfold tiny.
    assert (- (Rabs B + 1) / (1 / 10 ^ 9) < B)%R; [|assumption].
    replace (- (Rabs B + 1) / (1 / 10 ^ 9))%R with (- (Rabs B + 1) * 10 ^ 9)%R by (field; lra).
    pose proof (Rabs_pos B). pose proof (Rle_abs (- B)). rewrite Rabs_Ropp in *. simpl. nra.
Qed.

(** ** C40 *)
Lemma rank_value x q d i : a_run x -> at_position x q d i ->
  score_of (@new_run NumR (r_name x) (map (fun qr => (fst qr, @by_pos NumR (g_rank (snd qr)) (snd qr))) (r_map x))) q d
  = Some (1 - INR i / INR (length (results_of x q)))%R.
Proof.
  intros [Hok Hin] Hp. unfold score_of, dget2, at_position, results_of, of_query in *. cbn [new_run r_map].
  specialize (Hin q).
  assert (Hgen : forall o o' : option (dict R), o = option_map (fun r => @by_pos NumR (g_rank r) r) o' ->
    (forall r, o' = Some r -> dict_ok r) ->
    nth_error (dkeys match o' with Some r => r | None => [] end) i = Some d ->
    match o with Some r => dget r d | None => None end =
    Some (1 - INR i / INR (length match o' with Some r => r | None => [] end))%R).
  { intros o [r|] -> Hr Hi; [|now destruct i]. cbn [option_map].
    etransitivity; [exact (by_pos_get (N := NumR) (g_rank r) r d)|].
    assert (Hx : index_of (dkeys r) d = Some i) by (apply index_of_spec; auto; now apply Hr).
    exact (f_equal (option_map (g_rank r)) Hx). }
  exact (Hgen _ _ (by_pos_map_query g_rank (r_map x) q) Hin Hp).
Qed.
Lemma position_lt x q d i : at_position x q d i -> i < length (results_of x q).
Proof. unfold at_position, dkeys. intros H. rewrite <- (map_length fst). apply nth_error_Some. congruence. Qed.

Theorem C40_rank : forall (E : env NumR), env_ok E ->
  forall x, a_run x ->
  exists y, normalize E x "rank" = Ok y /\
    (forall q d i, at_position x q d i ->
       score_of y q d = Some (1 - INR i / INR (length (results_of x q)))%R) /\
    (forall q d v, score_of y q d = Some v -> (0 < v <= 1)%R) /\
    (forall q d d' i i' v v', at_position x q d i -> at_position x q d' i' ->
       score_of y q d = Some v -> score_of y q d' = Some v' -> (i < i' <-> (v' < v)%R)) /\
    (ranked x -> forall q d d' s s' v v', score_of x q d = Some s -> score_of x q d' = Some s' ->
       score_of y q d = Some v -> score_of y q d' = Some v' -> (s < s')%R -> (v < v')%R).
Proof.
  intros E HE x Hx. eexists. split; [unfold normalize; cbn [norm_switch String.eqb Ascii.eqb Bool.eqb orb bindr]; now apply rank_norm_R|].
  set (y := @new_run NumR _ _).
  assert (Hpos : forall q d s, score_of x q d = Some s -> exists i, at_position x q d i /\ nth_error (results_of x q) i = Some (d, s)).
  { intros q d s Hs. unfold score_of, dget2, at_position, results_of, of_query in *.
    assert (Hgen : forall o : option (dict R), match o with Some r => dget r d | None => None end = Some s ->
      exists i, nth_error (dkeys match o with Some r => r | None => [] end) i = Some d /\ nth_error match o with Some r => r | None => [] end i = Some (d, s)).
    { intros [r|] Hr; [|discriminate]. apply dget_Some_in in Hr. apply In_nth_error in Hr as [i Hi]. exists i.
      split; auto. unfold dkeys. rewrite nth_error_map, Hi. reflexivity. }
    exact (Hgen _ Hs). }
  assert (Hret : forall q d v, score_of y q d = Some v -> exists i, at_position x q d i).
  { intros q d v Hv. assert (Hr : exists s, score_of x q d = Some s).
    { apply (proj1 (by_pos_retrieves g_rank (r_map x) q d)). exists v. exact Hv. }
    destruct Hr as [s Hs]. destruct (Hpos _ _ _ Hs) as (i & Hi & _). eauto. }
  assert (Hord : forall q d d' i i' v v', at_position x q d i -> at_position x q d' i' ->
       score_of y q d = Some v -> score_of y q d' = Some v' -> (i < i' <-> (v' < v)%R)).
  { intros q d d' i i' v v' Hi Hi' Hv Hv'.
    pose proof (eq_trans (eq_sym Hv) (rank_value x q d i Hx Hi)) as E1.
    pose proof (eq_trans (eq_sym Hv') (rank_value x q d' i' Hx Hi')) as E2.
    inversion E1; inversion E2; subst v v'. clear E1 E2.
    assert (Hn : (0 < INR (length (results_of x q)))%R) by (apply lt_0_INR; apply position_lt in Hi; lia).
    split; intros H.
    - apply lt_INR in H. apply (div_lt _ _ _ Hn) in H. lra.
    - destruct (le_lt_dec i' i) as [Hle|]; auto. exfalso. apply le_INR in Hle. apply (div_le _ _ _ Hn) in Hle. lra. }
  split; [|split; [|split]].
  - intros q d i Hi. now apply rank_value.
  - intros q d v Hv. destruct (Hret _ _ _ Hv) as [i Hi].
    pose proof (eq_trans (eq_sym Hv) (rank_value x q d i Hx Hi)) as E1. inversion E1; subst v.
    assert (Hlt := position_lt _ _ _ _ Hi).
    assert (Hn : (0 < INR (length (results_of x q)))%R) by (apply lt_0_INR; lia).
    apply lt_INR in Hlt. apply (div_lt _ _ _ Hn) in Hlt. unfold Rdiv in Hlt at 2. rewrite Rinv_r in Hlt by lra.
    assert (0 <= INR i / INR (length (results_of x q)))%R; [|lra].
    apply Rmult_le_pos; [apply pos_INR|]. left. now apply Rinv_0_lt_compat.
  - exact Hord.
  - intros Hrk q d d' s s' v v' Hs Hs' Hv Hv' Hlt.
    destruct (Hpos _ _ _ Hs) as (i & Hi & Hn). destruct (Hpos _ _ _ Hs') as (i' & Hi' & Hn').
    apply (Hord q d' d i' i); auto. destruct (lt_eq_lt_dec i' i) as [[Hlt'|Heq]|Hgt]; auto; exfalso; try subst i'.
    + rewrite Hn in Hn'. inversion Hn'; subst. lra.
    + specialize (Hrk q).
      assert (Hss : forall (l : dict R) i i' a b, StronglySorted (fun a b : string * R => (snd b <= snd a)%R) l ->
        nth_error l i = Some a -> nth_error l i' = Some b -> i < i' -> (snd b <= snd a)%R).
      { clear. induction l as [|c l IH]; intros i i' a b Hs Ha Hb Hlt; [now destruct i|].
        inversion_clear Hs as [|? ? Hs' Hf]. destruct i' as [|i']; [lia|]. cbn in Hb. destruct i as [|i].
        - cbn in Ha. inversion Ha; subst. rewrite Forall_forall in Hf. apply Hf. eapply nth_error_In; eauto.
        - cbn in Ha. eapply IH; eauto. lia. }
      specialize (Hss _ _ _ _ _ Hrk Hn Hn' Hgt). cbn in Hss. lra.
Qed.

(** Positions are those in which results are stored.  For a run filled with add_score they
    are insertion positions: a document with the lower score gets the higher value. *)
Theorem C40_unsorted_refuted : forall (E : env NumR), env_ok E -> exists x y s s' v v',
  run_reachable E x /\ normalize E x "rank" = Ok y /\
  score_of x "q" "a" = Some s /\ score_of x "q" "b" = Some s' /\
  score_of y "q" "a" = Some v /\ score_of y "q" "b" = Some v' /\ (s < s')%R /\ (v' < v)%R.
Proof.
  intros E HE. set (os := [@RAddScore NumR "q" "a" 1%R; @RAddScore NumR "q" "b" 2%R]).
  set (x := @run_hist NumR E Run_empty os).
  assert (Hr : run_reachable E x).
  { exists Run_empty, os. split; [now left|]. split; [repeat constructor|auto]. }
  assert (Ha : a_run x) by (apply (run_reachable_inv E HE) in Hr; apply Hr).
  destruct (C40_rank E HE x Ha) as (y & Hy & Hf & _).
  exists x, y, 1%R, 2%R, (1 - INR 0 / INR 2)%R, (1 - INR 1 / INR 2)%R.
  split; [exact Hr|]. split; [exact Hy|]. split; [reflexivity|]. split; [reflexivity|].
  split; [apply (Hf "q" "a" 0); reflexivity|]. split; [apply (Hf "q" "b" 1); reflexivity|]. split; [lra|]. cbn. lra.
Qed.
