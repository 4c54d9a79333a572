(** T_Scale.v: normalisation undoes a change of scale (C89) *)
From Coq Require Import Reals Lra Psatz.
From Verif Require Import Base Dict Num NumLaws Env EnvEx M_Common M_Qrels M_Run M_History M_Norm M_Fusion
  Spec_DS Spec_Hist Spec_Metrics Spec_Eval Spec_Norm Spec_Fusion Spec_Local Spec_Scale
  P_Base P_Dict P_Common P_History P_DS P_Metrics P_Eval P_Eval3 Ex_Metrics P_Norm T_Norm T_Norm2 T_Norm3 P_Fusion P_Fusion2 P_Fusion3
  T_Fusion T_Fusion4 T_Fusion6 T_Keywords P_Local P_Local2.
Open Scope string_scope.
Open Scope list_scope.
Open Scope nat_scope.

(** ** the results of a query after normalisation *)
Lemma by_score_results g (x : Run NumR) nm q : results_of (@new_run NumR nm (by_score g (r_map x))) q = @mapv NumR (g (results_of x q)) (results_of x q).
Proof.
  unfold results_of, of_query. cbn [new_run r_map].
  assert (Hgen : forall o o' : option (dict R), o = option_map (fun r => @mapv NumR (g r) r) o' ->
    match o with Some r => r | None => [] end = @mapv NumR (g match o' with Some r => r | None => [] end) match o' with Some r => r | None => [] end).
  { intros o [r|] ->; reflexivity. }
  exact (Hgen _ _ (by_score_query g (r_map x) q)).
Qed.

Definition g_of (norm : string) : dict R -> R -> R :=
  if String.eqb norm "max" then g_max
  else if String.eqb norm "min_max" || String.eqb norm "min-max" then g_minmax
  else if String.eqb norm "min_max_inverted" || String.eqb norm "min-max-inverted" then g_inv
  else if String.eqb norm "sum" then g_sum else g_zmuv.

Definition score_norms : list string := ["max"; "min_max"; "min-max"; "min_max_inverted"; "min-max-inverted"; "sum"; "zmuv"].

Lemma norm_results (E : env NumR) (HE : env_ok E) x norm y q : a_run x -> In norm score_norms -> normalize E x norm = Ok y ->
  results_of y q = let r := @mapv NumR (g_of norm (results_of x q)) (results_of x q) in
                   if inverted norm then @sort_dict_by_value NumR E R r_negf r else r.
Proof.
  intros Hx Hn H. cbn in Hn.
  assert (Hs : forall nm m, @dict_ok (dict R) m -> results_of (Run_sort E (@new_run NumR nm m)) q = @sort_dict_by_value NumR E R r_negf (@of_query R m q)).
  { intros nm m Hm. exact (sort_ofq (N := NumR) E HE nm m q Hm). }
  decompose [or] Hn; subst; try contradiction; unfold normalize in H; cbn [norm_switch String.eqb Ascii.eqb Bool.eqb orb bindr] in H.
  - rewrite (max_norm_R E HE x Hx) in H. injection H as <-. apply by_score_results.
  - rewrite (minmax_norm_R E HE x Hx) in H. injection H as <-. apply by_score_results.
  - rewrite (minmax_norm_R E HE x Hx) in H. injection H as <-. apply by_score_results.
  - rewrite (inv_norm_R E HE x Hx) in H. injection H as <-. rewrite Hs by (apply by_score_ok; exact Hx).
    cbn zeta. change (inverted "min_max_inverted") with true. cbn iota. f_equal. exact (by_score_results g_inv x (r_name x) q).
  - rewrite (inv_norm_R E HE x Hx) in H. injection H as <-. rewrite Hs by (apply by_score_ok; exact Hx).
    cbn zeta. change (inverted "min-max-inverted") with true. cbn iota. f_equal. exact (by_score_results g_inv x (r_name x) q).
  - rewrite (sum_norm_R E HE x Hx) in H. injection H as <-. apply by_score_results.
  - rewrite (zmuv_norm_R E HE x Hx) in H. injection H as <-. apply by_score_results.
Qed.

(** ** change of scale *)
Definition aff (a b : R) (r : dict R) : dict R := map (fun ds => (fst ds, (a * snd ds + b)%R)) r.
Lemma aff_vals a b r : @dvals R (aff a b r) = map (fun s => (a * s + b)%R) (@dvals R r).
Proof. unfold dvals, aff. now rewrite !map_map. Qed.
Lemma aff_mapv a b r g g' : (forall s, In s (@dvals R r) -> g' (a * s + b)%R = g s) -> @mapv NumR g' (aff a b r) = @mapv NumR g r.
Proof.
  intros H. unfold mapv, aff. rewrite map_map. apply map_ext_in. intros [d s] Hin. cbn [fst snd]. f_equal. apply H.
  unfold dvals. apply in_map_iff. exists (d, s). auto.
Qed.
Lemma max_aff a b l hi : (0 < a)%R -> is_max_of l hi -> is_max_of (map (fun s => (a * s + b)%R) l) (a * hi + b)%R.
Proof.
  intros Ha [Hi Hm]. split; [apply in_map_iff; eauto|]. intros v Hv. apply in_map_iff in Hv as (s & <- & Hs). specialize (Hm s Hs). nra.
Qed.
Lemma min_aff a b l lo : (0 < a)%R -> is_min_of l lo -> is_min_of (map (fun s => (a * s + b)%R) l) (a * lo + b)%R.
Proof.
  intros Ha [Hi Hm]. split; [apply in_map_iff; eauto|]. intros v Hv. apply in_map_iff in Hv as (s & <- & Hs). specialize (Hm s Hs). nra.
Qed.
Lemma sum_aff a b l : Rsum (map (fun s => (a * s + b)%R) l) = (a * Rsum l + b * INR (length l))%R.
Proof. induction l as [|s l IH]; cbn [map Rsum length]; [cbn; lra|]. rewrite S_INR, IH. lra. Qed.
Lemma excess_aff a b l lo : Rsum (map (fun s => s - (a * lo + b))%R (map (fun s => (a * s + b)%R) l)) = (a * Rsum (map (fun s => s - lo)%R l))%R.
Proof. induction l as [|s l IH]; cbn [map Rsum]; [cbn; lra|]. rewrite IH. lra. Qed.
Lemma mean_aff a b l : l <> [] -> mean_of (map (fun s => (a * s + b)%R) l) = (a * mean_of l + b)%R.
Proof.
  intros Hl. unfold mean_of. rewrite map_length, sum_aff. assert (INR (length l) <> 0)%R by (apply not_0_INR; now destruct l). field. auto.
Qed.
Lemma std_aff a b l : (0 < a)%R -> l <> [] -> std_of (map (fun s => (a * s + b)%R) l) = (a * std_of l)%R.
Proof.
  intros Ha Hl. unfold std_of. rewrite (mean_aff a b l Hl), map_map.
  set (m := mean_of l). rewrite (map_ext _ (fun s => (a * a) * ((s - m) * (s - m)) + 0)%R) by (intros s; lra).
  rewrite <- (map_map (fun s => (s - m) * (s - m))%R (fun v => (a * a) * v + 0)%R), mean_aff by (now destruct l).
  rewrite Rplus_0_r. rewrite sqrt_mult_alt by nra. rewrite sqrt_square by lra. reflexivity.
Qed.

Lemma ratio_aff a u v : (0 < a)%R -> (0 < v)%R -> (a * u / (a * v) = u / v)%R.
Proof. intros. field. split; lra. Qed.
Lemma aff_max a s hi : (0 < a)%R -> (0 < hi)%R -> ((a * s + 0) / (a * hi + 0) = s / hi)%R.
Proof. intros. rewrite !Rplus_0_r. now apply ratio_aff. Qed.
Lemma aff_mm a b s lo hi : (0 < a)%R -> (0 < hi - lo)%R -> ((a * s + b - (a * lo + b)) / (a * hi + b - (a * lo + b)) = (s - lo) / (hi - lo))%R.
Proof. intros. rewrite <- (ratio_aff a (s - lo) (hi - lo)) by assumption. apply f_equal2; lra. Qed.
Lemma aff_mmi a b s lo hi : (0 < a)%R -> (0 < hi - lo)%R -> ((a * hi + b - (a * s + b)) / (a * hi + b - (a * lo + b)) = (hi - s) / (hi - lo))%R.
Proof. intros. rewrite <- (ratio_aff a (hi - s) (hi - lo)) by assumption. apply f_equal2; lra. Qed.
Lemma aff_den a b s m v : (0 < a)%R -> (0 < v)%R -> ((a * s + b - (a * m + b)) / (a * v) = (s - m) / v)%R.
Proof. intros. rewrite <- (ratio_aff a (s - m) v) by assumption. apply f_equal2; lra. Qed.
Lemma mapv_nil g : @mapv NumR g [] = [].
Proof. reflexivity. Qed.
Lemma g_scale norm a b (r : dict R) : In norm score_norms -> (0 < a)%R -> (norm = "max" -> b = 0%R) ->
  wide norm (@dvals R r) -> wide norm (@dvals R (aff a b r)) ->
  @mapv NumR (g_of norm (aff a b r)) (aff a b r) = @mapv NumR (g_of norm r) r.
Proof.
  intros Hn Ha Hb Hw Hw'. apply aff_mapv. intros s Hs.
  assert (Hl : @dvals R r <> []) by (intros H; rewrite H in Hs; easy).
  assert (Hl' : map (fun s => (a * s + b)%R) (@dvals R r) <> []) by (intros H; apply map_eq_nil in H; easy).
  destruct (has_max _ Hl) as [hi Hhi]. destruct (has_min _ Hl) as [lo Hlo].
  pose proof (max_aff a b _ hi Ha Hhi) as Hhi'. pose proof (min_aff a b _ lo Ha Hlo) as Hlo'.
  rewrite aff_vals in Hw'. specialize (Hw Hl). specialize (Hw' Hl'). destruct Hw as (W1 & W2 & W3 & W4). destruct Hw' as (V1 & V2 & V3 & V4).
  pose proof tiny_pos as Ht.
  assert (Hlen : length (aff a b r) = length r) by apply map_length.
  assert (Hld : length r = length (@dvals R r)) by (unfold dvals; now rewrite map_length).
  assert (Hmm : In norm ["min_max"; "min-max"; "min_max_inverted"; "min-max-inverted"] -> (tiny <= hi - lo)%R /\ (tiny <= (a * hi + b) - (a * lo + b))%R).
  { intros Hin. split; [now apply W2|now apply V2]. }
  assert (Q1 : In norm ["min_max"; "min-max"] -> g_minmax (aff a b r) (a * s + b)%R = g_minmax r s).
  { intros Hin. destruct Hmm as [M1 M2]; [cbn in *; tauto|]. unfold g_minmax. rewrite aff_vals, (safe_max_R _ _ Hhi'), (safe_min_R _ _ Hlo'), (safe_max_R _ _ Hhi), (safe_min_R _ _ Hlo).
    rewrite !Rmax_left by assumption. apply aff_mm; lra. }
  assert (Q2 : In norm ["min_max_inverted"; "min-max-inverted"] -> g_inv (aff a b r) (a * s + b)%R = g_inv r s).
  { intros Hin. destruct Hmm as [M1 M2]; [cbn in *; tauto|]. unfold g_inv. rewrite aff_vals, (safe_max_R _ _ Hhi'), (safe_min_R _ _ Hlo'), (safe_max_R _ _ Hhi), (safe_min_R _ _ Hlo).
    rewrite !Rmax_left by assumption. apply aff_mmi; lra. }
  cbn in Hn. decompose [or] Hn; subst; try contradiction; unfold g_of; cbn [String.eqb Ascii.eqb Bool.eqb orb].
  - specialize (Hb eq_refl). subst b. unfold g_max. rewrite aff_vals, (safe_max_R _ _ Hhi'), (safe_max_R _ _ Hhi).
    specialize (W1 eq_refl hi Hhi). specialize (V1 eq_refl _ Hhi'). rewrite !Rmax_left by assumption. apply aff_max; lra.
  - apply Q1. cbn; tauto.
  - apply Q1. cbn; tauto.
  - apply Q2. cbn; tauto.
  - apply Q2. cbn; tauto.
  - unfold g_sum. specialize (W3 eq_refl lo Hlo). specialize (V3 eq_refl _ Hlo'). rewrite excess_aff in V3. rewrite Rsum_sub in W3, V3.
    rewrite aff_vals, (safe_min_R _ _ Hlo'), (safe_min_R _ _ Hlo), Hlen, Hld, sum_aff.
    set (n := INR (length (@dvals R r))) in *. set (S := Rsum (@dvals R r)) in *.
    replace (a * S + b * n - (a * lo + b) * n)%R with (a * (S - lo * n))%R by lra. rewrite !Rmax_left by (assumption || lra). apply aff_den; lra.
  - unfold g_zmuv. specialize (W4 eq_refl). specialize (V4 eq_refl). rewrite (std_aff a b _ Ha Hl) in V4.
    rewrite aff_vals, (mean_aff a b _ Hl), (std_aff a b _ Ha Hl). rewrite !Rmax_left by (assumption || lra). apply aff_den; lra.
Qed.

Lemma rank_results (E : env NumR) (HE : env_ok E) x y q : a_run x -> normalize E x "rank" = Ok y ->
  results_of y q = @by_pos NumR (g_rank (results_of x q)) (results_of x q).
Proof.
  intros Hx H. unfold normalize in H. cbn [norm_switch String.eqb Ascii.eqb Bool.eqb orb bindr] in H.
  rewrite (rank_norm_R E HE x Hx) in H. injection H as <-. unfold results_of, of_query. cbn [new_run r_map].
  assert (Hgen : forall o o' : option (dict R), o = option_map (fun r => @by_pos NumR (g_rank r) r) o' ->
    match o with Some r => r | None => [] end = @by_pos NumR (g_rank match o' with Some r => r | None => [] end) match o' with Some r => r | None => [] end).
  { intros o [r|] ->; reflexivity. }
  apply Hgen. clear Hgen. induction (r_map x) as [|[k r] m IH]; [reflexivity|]. cbn [map dget fst snd]. destruct (String.eqb q k); [reflexivity|exact IH].
Qed.
Lemma rank_keys (r r' : dict R) : @dkeys R r = @dkeys R r' -> @by_pos NumR (g_rank r) r = @by_pos NumR (g_rank r') r'.
Proof.
  intros H. unfold by_pos, g_rank. assert (Hl : length r = length r') by (rewrite <- (map_length fst r), <- (map_length fst r'); f_equal; exact H).
  change (@dkeys (@F NumR) r) with (@dkeys R r). change (@dkeys (@F NumR) r') with (@dkeys R r'). now rewrite H, Hl.
Qed.

Lemma split_norms norm : In norm single_norms -> norm = "rank" \/ In norm score_norms.
Proof. unfold single_norms, score_norms. cbn. intuition. Qed.

(** the results of a query after normalisation do not depend on the scale of its scores *)
Theorem C89_normalize : forall (E E' : env NumR), env_ok E -> env_ok E' -> same_orders E E' ->
  forall x x' norm y y' q, a_run x -> a_run x' -> In norm single_norms -> same_up_to_scale norm q x x' ->
  normalize E x norm = Ok y -> normalize E' x' norm = Ok y' -> results_of y q = results_of y' q.
Proof.
  intros E E' HE HE' HO x x' norm y y' q Hx Hx' Hn (a & b & Ha & Hb & Hr & Hw & Hw') H H'. unfold rescaled in Hr. fold (aff a b (results_of x q)) in Hr.
  destruct (split_norms norm Hn) as [->|Hs].
  - rewrite (rank_results E HE x y q Hx H), (rank_results E' HE' x' y' q Hx' H'). apply rank_keys. rewrite Hr. unfold dkeys, aff. rewrite map_map. reflexivity.
  - rewrite (norm_results E HE x norm y q Hx Hs H), (norm_results E' HE' x' norm y' q Hx' Hs H'). cbn zeta.
    unfold scores_for in Hw, Hw'. rewrite Hr in Hw'. rewrite Hr, (g_scale norm a b _ Hs Ha Hb Hw Hw').
    destruct (inverted norm); [|reflexivity]. exact (by_value_same (N := NumR) E E' HO _).
Qed.

(** so fusing after normalising does not depend on it either, whatever the method *)
Theorem C89_fuse : forall (E E' : env NumR) pysort, env_ok E -> env_ok E' -> same_orders E E' -> sorter_ok pysort ->
  forall (xs xs' : list (Run NumR)) norm method ps y y' q,
  Forall a_run xs -> Forall a_run xs' -> In norm single_norms -> Forall2 (same_up_to_scale norm q) xs xs' ->
  (borda_call None method -> same_order xs /\ same_order xs') ->
  fuse E pysort xs (Some norm) method ps = Ok y -> fuse E' pysort xs' (Some norm) method ps = Ok y' -> results_of y q = results_of y' q.
Proof.
  intros E E' pysort HE HE' HO Hsort xs xs' norm method ps y y' q Ha Ha' Hn HS Hord H H'. unfold fuse in H, H'.
  apply bindr_ok in H as (u1 & _ & H). apply bindr_ok in H as (u2 & H2 & H). apply bindr_ok in H as (ys & H3 & H). apply bindr_ok in H as (f & Hf & Hy).
  apply bindr_ok in H' as (u1' & _ & H'). apply bindr_ok in H' as (u2' & H2' & H'). apply bindr_ok in H' as (ys' & H3' & H'). apply bindr_ok in H' as (f' & Hf' & Hy').
  assert (Hk : same_keys_check xs = true) by (destruct (same_keys_check xs); [reflexivity|discriminate]).
  assert (Hk' : same_keys_check xs' = true) by (destruct (same_keys_check xs'); [reflexivity|discriminate]).
  assert (Htab : forall l : list (Run NumR), Forall a_run l -> same_keys_check l = true -> tables (maps l)).
  { intros l Hl Hkl. split.
    - intros m Hm. apply in_map_iff in Hm as (x & <- & Hx). rewrite Forall_forall in Hl. now apply Hl.
    - intros m m' p Hm Hm'. apply in_map_iff in Hm as (x & <- & Hx). apply in_map_iff in Hm' as (x' & <- & Hx'). now apply (keys_check l Hkl). }
  assert (Hnb : String.eqb norm "borda" = false) by (apply String.eqb_neq; intros ->; cbn in Hn; intuition discriminate).
  cbn [normalize_runs] in H3, H3'. rewrite Hnb in H3, H3'.
  destruct (norm_tables E HE norm xs ys (Htab xs Ha Hk) H3) as [T1 O1]. destruct (norm_tables E' HE' norm xs' ys' (Htab xs' Ha' Hk') H3') as [T2 O2].
  assert (HA : agree q ys ys').
  { apply map_m_inv in H3. apply map_m_inv in H3'. clear - HE HE' HO Ha Ha' Hn HS H3 H3'. revert ys ys' H3 H3'.
    induction HS as [|x x' xs xs' Hx HS IH]; intros ys ys' H H'.
    - inversion H. inversion H'. constructor.
    - inversion H as [|? y ? ys1 Hy H1]; subst. inversion H' as [|? y' ? ys1' Hy' H1']; subst. inversion_clear Ha. inversion_clear Ha'. constructor.
      + exact (C89_normalize E E' HE HE' HO x x' norm y y' q H0 H3 Hn Hx Hy Hy').
      + now apply IH. }
  refine (switch_same E E' HE HE' HO pysort Hsort method f f' ys ys' ps y y' q T1 T2 HA _ Hf Hf' Hy Hy').
  intros Hm. destruct Hord as [P1 P2]; [now right|]. split; [now apply O1|now apply O2].
Qed.

(** ** normalising a second time *)
Definition den_of (norm : string) (l : list R) (den : R) : Prop :=
  (norm = "max" -> is_max_of l den) /\
  (In norm ["min_max"; "min-max"] -> forall lo hi, is_min_of l lo -> is_max_of l hi -> den = (hi - lo)%R) /\
  (norm = "sum" -> forall lo, is_min_of l lo -> den = Rsum (map (fun s => s - lo)%R l)) /\
  (norm = "zmuv" -> den = std_of l).
Lemma wide_scaled norm a b l den : In norm ["max"; "min_max"; "min-max"; "sum"; "zmuv"] -> (0 < a)%R -> (norm = "max" -> b = 0%R) -> den_of norm l den -> (a * den = 1)%R ->
  wide norm (map (fun s => (a * s + b)%R) l).
Proof.
  intros Hn Ha Hb (D1 & D2 & D3 & D4) H1 Hl. assert (Hl0 : l <> []) by (intros ->; now apply Hl).
  assert (Ht : (tiny <= 1)%R) by (unfold tiny; lra).
  destruct (has_max _ Hl0) as [hi Hhi]. destruct (has_min _ Hl0) as [lo Hlo].
  pose proof (max_aff a b _ hi Ha Hhi) as Hhi'. pose proof (min_aff a b _ lo Ha Hlo) as Hlo'.
  split; [|split; [|split]].
  - intros ->. intros h Hh. rewrite (max_unique _ _ _ Hh Hhi'). rewrite (Hb eq_refl). rewrite <- (max_unique _ _ _ (D1 eq_refl) Hhi). lra.
  - intros Hin. intros l1 h1 Hl1 Hh1. rewrite (max_unique _ _ _ Hh1 Hhi'), (min_unique _ _ _ Hl1 Hlo').
    assert (Hd : den = (hi - lo)%R). { apply D2; auto. cbn in Hn, Hin |- *. intuition (subst; try discriminate; auto). }
    subst den. lra.
  - intros ->. intros l1 Hl1. rewrite (min_unique _ _ _ Hl1 Hlo'), excess_aff, <- (D3 eq_refl lo Hlo). lra.
  - intros ->. rewrite (std_aff a b l Ha Hl0), <- (D4 eq_refl). lra.
Qed.

Lemma mapv_aff (g : R -> R) a b (r : dict R) : (forall s, In s (@dvals R r) -> g s = (a * s + b)%R) -> @mapv NumR g r = aff a b r.
Proof.
  intros H. unfold mapv, aff. apply map_ext_in. intros [d s] Hin. cbn [fst snd]. f_equal. apply H.
  unfold dvals. apply in_map_iff. exists (d, s). auto.
Qed.
Lemma div_aff s lo v : ((s - lo) / v = / v * s + - (lo / v))%R.
Proof. unfold Rdiv. ring. Qed.
Lemma g_is_aff norm (r : dict R) : In norm ["max"; "min_max"; "min-max"; "sum"; "zmuv"] -> wide norm (@dvals R r) ->
  exists a b, (0 < a)%R /\ (norm = "max" -> b = 0%R) /\ @mapv NumR (g_of norm r) r = aff a b r /\ wide norm (@dvals R (aff a b r)).
Proof.
  intros Hn Hw. destruct (@dvals R r) as [|s0 l0] eqn:Hd.
  { assert (r = []) as -> by (destruct r; [reflexivity|discriminate]). exists 1%R, 0%R. split; [lra|]. split; [auto|]. split; [reflexivity|]. intros H. now elim H. }
  rewrite <- Hd in Hw. assert (Hl : @dvals R r <> []) by (rewrite Hd; discriminate). clear Hd s0 l0.
  pose proof tiny_pos as Ht. destruct (has_max _ Hl) as [hi Hhi]. destruct (has_min _ Hl) as [lo Hlo]. destruct (Hw Hl) as (W1 & W2 & W3 & W4).
  assert (Hld : length r = length (@dvals R r)) by (unfold dvals; now rewrite map_length).
  assert (Hgen : forall den c, (0 < den)%R -> (norm = "max" -> c = 0%R) -> den_of norm (@dvals R r) den ->
    (forall s, In s (@dvals R r) -> g_of norm r s = (/ den * s + c)%R) ->
    exists a b, (0 < a)%R /\ (norm = "max" -> b = 0%R) /\ @mapv NumR (g_of norm r) r = aff a b r /\ wide norm (@dvals R (aff a b r))).
  { intros den c Hden Hc Ho Hg. exists (/ den)%R, c. split; [now apply Rinv_0_lt_compat|]. split; [exact Hc|]. split; [now apply mapv_aff|].
    rewrite aff_vals. apply (wide_scaled norm (/ den)%R c _ den); auto; [now apply Rinv_0_lt_compat|]. field. lra. }
  assert (Q1 : In norm ["min_max"; "min-max"] -> exists a b, (0 < a)%R /\ (norm = "max" -> b = 0%R) /\ @mapv NumR (g_of norm r) r = aff a b r /\ wide norm (@dvals R (aff a b r))).
  { intros Hin. assert (Hs : (tiny <= hi - lo)%R) by (apply W2; auto; cbn in Hin |- *; tauto).
    assert (Hg0 : g_of norm r = g_minmax r) by (cbn in Hin; destruct Hin as [<-|[<-|[]]]; reflexivity).
    apply (Hgen (hi - lo)%R (- (lo / (hi - lo)))%R); [lra| | |].
    - intros ->. cbn in Hin. intuition discriminate.
    - split; [|split; [|split]]; try (intros ->; cbn in Hin; intuition discriminate).
      intros _ l1 h1 Hl1 Hh1. now rewrite (max_unique _ _ _ Hh1 Hhi), (min_unique _ _ _ Hl1 Hlo).
    - intros s _. rewrite Hg0. unfold g_minmax. rewrite (safe_max_R _ _ Hhi), (safe_min_R _ _ Hlo), Rmax_left by assumption. apply div_aff. }
  cbn in Hn. decompose [or] Hn; subst; try contradiction; try (apply Q1; cbn; tauto).
  - specialize (W1 eq_refl hi Hhi). apply (Hgen hi 0%R); [lra|auto| |].
    + split; [auto|split; [|split]]; try discriminate. cbn. intuition discriminate.
    + intros s _. unfold g_of. cbn [String.eqb Ascii.eqb Bool.eqb orb]. unfold g_max. rewrite (safe_max_R _ _ Hhi), Rmax_left by assumption.
      unfold Rdiv. change (s * / hi = / hi * s + 0)%R. ring.
  - specialize (W3 eq_refl lo Hlo). set (den := Rsum (map (fun s => s - lo)%R (@dvals R r))) in *.
    apply (Hgen den (- (lo / den))%R); [lra|discriminate| |].
    + split; [discriminate|split; [cbn; intuition discriminate|split; [|discriminate]]]. intros _ l1 Hl1. now rewrite (min_unique _ _ _ Hl1 Hlo).
    + intros s _. unfold g_of. cbn [String.eqb Ascii.eqb Bool.eqb orb]. unfold g_sum. rewrite (safe_min_R _ _ Hlo), Hld, <- Rsum_sub. fold den.
      rewrite Rmax_left by assumption. apply div_aff.
  - specialize (W4 eq_refl). apply (Hgen (std_of (@dvals R r)) (- (mean_of (@dvals R r) / std_of (@dvals R r)))%R); [lra|discriminate| |].
    + split; [discriminate|split; [cbn; intuition discriminate|split; [discriminate|auto]]].
    + intros s _. unfold g_of. cbn [String.eqb Ascii.eqb Bool.eqb orb]. unfold g_zmuv. rewrite Rmax_left by assumption. apply div_aff.
Qed.

(** normalising what was normalised already changes nothing *)
Theorem C89_twice : forall (E : env NumR), env_ok E ->
  forall x norm y z q, a_run x -> In norm ["max"; "min_max"; "min-max"; "sum"; "zmuv"; "rank"] -> wide norm (scores_for x q) ->
  normalize E x norm = Ok y -> normalize E y norm = Ok z -> results_of z q = results_of y q.
Proof.
  intros E HE x norm y z q Hx Hn Hw H H'. assert (HyR : a_run y) by exact (proj1 (norm_one E HE x y norm Hx H)).
  assert (Hcase : norm = "rank" \/ In norm ["max"; "min_max"; "min-max"; "sum"; "zmuv"]) by (cbn in Hn |- *; intuition).
  destruct Hcase as [->|Hs].
  - rewrite (rank_results E HE y z q HyR H'), (rank_results E HE x y q Hx H). apply rank_keys. exact (by_pos_keys (N := NumR) _ _).
  - symmetry. assert (Hs1 : In norm single_norms) by (cbn in Hs |- *; intuition). assert (Hs2 : In norm score_norms) by (cbn in Hs |- *; intuition).
    apply (C89_normalize E E HE HE (conj (fun _ => eq_refl) (fun _ => eq_refl)) x y norm y z q Hx HyR Hs1); auto.
    destruct (g_is_aff norm (results_of x q) Hs Hw) as (a & b & Ha & Hb & Hg & Hw').
    assert (Hi : inverted norm = false) by (cbn in Hs; decompose [or] Hs; subst; try contradiction; reflexivity).
    assert (Hr : results_of y q = aff a b (results_of x q)).
    { rewrite (norm_results E HE x norm y q Hx Hs2 H). cbn zeta. now rewrite Hi. }
    exists a, b. split; [exact Ha|]. split; [exact Hb|]. split; [exact Hr|]. split; [exact Hw|]. unfold scores_for. now rewrite Hr.
Qed.
Print Assumptions C89_normalize.
Print Assumptions C89_fuse.
Print Assumptions C89_twice.

(** ** concrete cases *)
Definition s_x : Run NumR := @run_hist NumR env_ex Run_empty [@RAddScore NumR "q1" "a" 3%R; @RAddScore NumR "q1" "b" 1%R; @RAddScore NumR "q1" "c" 2%R].
Definition s_x' : Run NumR := @run_hist NumR env_ex Run_empty
  [@RAddScore NumR "q1" "a" (10 * 3 + 5)%R; @RAddScore NumR "q1" "b" (10 * 1 + 5)%R; @RAddScore NumR "q1" "c" (10 * 2 + 5)%R; @RAddScore NumR "q2" "c" 7%R].
Lemma s_x_run : a_run s_x.
Proof. apply (run_reachable_inv env_ex env_ok_ex). apply reach_add. repeat constructor. Qed.
Lemma s_x'_run : a_run s_x'.
Proof. apply (run_reachable_inv env_ex env_ok_ex). apply reach_add. repeat constructor. Qed.
Lemma spread_le l lo hi : is_min_of l lo -> is_max_of l hi -> forall lo' hi', is_min_of l lo' -> is_max_of l hi' -> (hi' - lo' = hi - lo)%R.
Proof. intros H1 H2 l' h' H3 H4. now rewrite (max_unique _ _ _ H4 H2), (min_unique _ _ _ H3 H1). Qed.
Ltac extreme := split; [cbn; tauto|]; let v := fresh in let Hv := fresh in intros v Hv; cbn in Hv; decompose [or] Hv; subst; try contradiction; cbn; lra.
Lemma s_min : is_min_of (scores_for s_x "q1") 1%R. Proof. extreme. Qed.
Lemma s_max : is_max_of (scores_for s_x "q1") 3%R. Proof. extreme. Qed.
Lemma s_min' : is_min_of (scores_for s_x' "q1") (10 * 1 + 5)%R. Proof. extreme. Qed.
Lemma s_max' : is_max_of (scores_for s_x' "q1") (10 * 3 + 5)%R. Proof. extreme. Qed.
Lemma tiny_small : (tiny <= 1)%R.
Proof. unfold tiny. simpl. lra. Qed.
Lemma ex_C89_wide : wide "min-max" (scores_for s_x "q1").
Proof.
  intros _. split; [discriminate|]. split; [|split; discriminate]. intros _ lo hi Hlo Hhi. rewrite (spread_le _ _ _ s_min s_max lo hi Hlo Hhi). pose proof tiny_small. lra.
Qed.
Example ex_C89 : same_up_to_scale "min-max" "q1" s_x s_x' /\ exists y y', normalize env_ex s_x "min-max" = Ok y /\ normalize env_ex s_x' "min-max" = Ok y'.
Proof.
  split.
  - exists 10%R, 5%R. split; [lra|]. split; [discriminate|]. split; [reflexivity|]. split; [exact ex_C89_wide|].
    intros _. split; [discriminate|]. split; [|split; discriminate]. intros _ lo hi Hlo Hhi. rewrite (spread_le _ _ _ s_min' s_max' lo hi Hlo Hhi). pose proof tiny_small. lra.
  - destruct (C38_min_max env_ex env_ok_ex s_x "min-max" s_x_run) as (y & Hy & _); [cbn; auto|].
    destruct (C38_min_max env_ex env_ok_ex s_x' "min-max" s_x'_run) as (y' & Hy' & _); [cbn; auto|]. eauto.
Qed.
Lemma env_same : same_orders (@env_ex NumR) (@env_ex NumR).
Proof. split; reflexivity. Qed.

Lemma dup_fusable x : a_run x -> fusable [x; x].
Proof.
  intros Hx. split; [discriminate|]. split; [repeat (constructor; [exact Hx|]); constructor|]. intros a b q Ha Hb. cbn [In] in Ha, Hb.
  assert (a = x) as -> by (destruct Ha as [Ha|[Ha|[]]]; now symmetry). assert (b = x) as -> by (destruct Hb as [Hb|[Hb|[]]]; now symmetry). tauto.
Qed.
Lemma dup_fuse x : a_run x -> exists y, fuse env_ex ins_sort [x; x] (Some "min-max") "sum" [] = Ok y.
Proof.
  intros Hx. destruct (C38_min_max env_ex env_ok_ex x "min-max" Hx) as (y & Hy & _); [cbn; auto|].
  assert (Hyr : a_run y) by exact (proj1 (norm_one env_ex env_ok_ex x y "min-max" Hx Hy)).
  destruct (C43_comb_sum env_ex env_ok_ex [y; y] "comb_sum" (dup_fusable y Hyr)) as (z & Hz & _). exists z.
  assert (Hn : normalize_runs env_ex [x; x] (Some "min-max") = Ok [y; y]).
  { change (normalize_runs env_ex [x; x] (Some "min-max")) with (map_m (fun x => @normalize NumR env_ex x "min-max") [x; x]). cbn [map_m]. rewrite Hy. reflexivity. }
  erewrite (fuse_switch env_ex _ _ (Some "min-max") [y; y] "sum" _ _ (dup_fusable x Hx) ltac:(cbn; lia) Hn eq_refl). exact Hz.
Qed.
Example ex_C89_fuse : Forall2 (same_up_to_scale "min-max" "q1") [s_x; s_x] [s_x'; s_x'] /\
  (exists y, fuse env_ex ins_sort [s_x; s_x] (Some "min-max") "sum" [] = Ok y) /\ (exists y, fuse env_ex ins_sort [s_x'; s_x'] (Some "min-max") "sum" [] = Ok y).
Proof.
  split; [constructor; [|constructor; [|constructor]]; exact (proj1 ex_C89)|]. split; [exact (dup_fuse s_x s_x_run)|exact (dup_fuse s_x' s_x'_run)].
Qed.
Example ex_C89_twice : exists y z, normalize env_ex s_x "min-max" = Ok y /\ normalize env_ex y "min-max" = Ok z.
Proof.
  destruct (C38_min_max env_ex env_ok_ex s_x "min-max" s_x_run) as (y & Hy & _); [cbn; auto|]. exists y.
  assert (Hyr : a_run y) by exact (proj1 (norm_one env_ex env_ok_ex s_x y "min-max" s_x_run Hy)).
  destruct (C38_min_max env_ex env_ok_ex y "min-max" Hyr) as (z & Hz & _); [cbn; auto|]. exists z. now split.
Qed.

(** without [wide] the change of scale shows: scores differing by less than 10^-9 are divided
    by 10^-9 and not by their difference *)
Theorem C89_close_scores_refuted : exists (x x' y y' : Run NumR) a,
  a_run x /\ a_run x' /\ (0 < a)%R /\ rescaled "q" a 0 x x' /\
  normalize env_ex x "min-max" = Ok y /\ normalize env_ex x' "min-max" = Ok y' /\
  score_of y "q" "a" = Some (1 / 10)%R /\ score_of y' "q" "a" = Some 1%R.
Proof.
  set (x := @run_hist NumR env_ex Run_empty [@RAddScore NumR "q" "a" (tiny / 10)%R; @RAddScore NumR "q" "b" 0%R]).
  set (a := (10 / tiny)%R).
  set (x' := @run_hist NumR env_ex Run_empty [@RAddScore NumR "q" "a" (a * (tiny / 10) + 0)%R; @RAddScore NumR "q" "b" (a * 0 + 0)%R]).
  pose proof tiny_pos as Ht. pose proof tiny_small as Ht1.
  assert (Ha1 : (a * (tiny / 10) + 0 = 1)%R) by (unfold a; field; lra).
  assert (Ha0 : (a * 0 + 0 = 0)%R) by ring.
  assert (Hx : a_run x) by (apply (run_reachable_inv env_ex env_ok_ex); apply reach_add; repeat constructor).
  assert (Hx' : a_run x') by (apply (run_reachable_inv env_ex env_ok_ex); apply reach_add; repeat constructor).
  destruct (C38_min_max env_ex env_ok_ex x "min-max" Hx) as (y & Hy & Hf & _); [cbn; auto|].
  destruct (C38_min_max env_ex env_ok_ex x' "min-max" Hx') as (y' & Hy' & Hf' & _); [cbn; auto|].
  exists x, x', y, y', a. split; [exact Hx|]. split; [exact Hx'|]. split; [unfold a; apply Rdiv_lt_0_compat; lra|]. split; [reflexivity|].
  split; [exact Hy|]. split; [exact Hy'|].
  assert (M1 : is_min_of (scores_for x "q") 0%R) by extreme.
  assert (M2 : is_max_of (scores_for x "q") (tiny / 10)%R) by extreme.
  assert (M3 : is_min_of (scores_for x' "q") (a * 0 + 0)%R).
  { split; [cbn; tauto|]. intros v Hv. cbn in Hv. destruct Hv as [<-|[<-|[]]]; [rewrite Ha0; change (0 <= a * (tiny / 10) + 0)%R; rewrite Ha1; lra|apply Rle_refl]. }
  assert (M4 : is_max_of (scores_for x' "q") (a * (tiny / 10) + 0)%R).
  { split; [cbn; tauto|]. intros v Hv. cbn in Hv. destruct Hv as [<-|[<-|[]]]; [apply Rle_refl|change (a * 0 + 0 <= a * (tiny / 10) + 0)%R; rewrite Ha1, Ha0; lra]. }
  split.
  - rewrite (Hf "q" "a" (tiny / 10)%R 0%R (tiny / 10)%R eq_refl M1 M2). rewrite Rmax_right by lra. f_equal. field. lra.
  - rewrite (Hf' "q" "a" (a * (tiny / 10) + 0)%R (a * 0 + 0)%R (a * (tiny / 10) + 0)%R eq_refl M3 M4). rewrite Ha1, Ha0. rewrite Rmax_left by lra. f_equal. field.
Qed.

(** "max" undoes a multiplication but not the addition of a constant *)
Theorem C89_max_shift_refuted : exists (x x' y y' : Run NumR),
  a_run x /\ a_run x' /\ rescaled "q" 1 1 x x' /\
  normalize env_ex x "max" = Ok y /\ normalize env_ex x' "max" = Ok y' /\
  score_of y "q" "b" = Some (1 / 3)%R /\ score_of y' "q" "b" = Some (2 / 4)%R.
Proof.
  set (x := @run_hist NumR env_ex Run_empty [@RAddScore NumR "q" "a" 3%R; @RAddScore NumR "q" "b" 1%R]).
  set (x' := @run_hist NumR env_ex Run_empty [@RAddScore NumR "q" "a" (1 * 3 + 1)%R; @RAddScore NumR "q" "b" (1 * 1 + 1)%R]).
  pose proof tiny_pos as Ht. pose proof tiny_small as Ht1.
  assert (Hx : a_run x) by (apply (run_reachable_inv env_ex env_ok_ex); apply reach_add; repeat constructor).
  assert (Hx' : a_run x') by (apply (run_reachable_inv env_ex env_ok_ex); apply reach_add; repeat constructor).
  destruct (C39_max env_ex env_ok_ex x Hx) as (y & Hy & Hf & _).
  destruct (C39_max env_ex env_ok_ex x' Hx') as (y' & Hy' & Hf' & _).
  exists x, x', y, y'. split; [exact Hx|]. split; [exact Hx'|]. split; [reflexivity|]. split; [exact Hy|]. split; [exact Hy'|].
  assert (M2 : is_max_of (scores_for x "q") 3%R) by extreme.
  assert (M4 : is_max_of (scores_for x' "q") (1 * 3 + 1)%R) by extreme.
  split.
  - rewrite (Hf "q" "b" 1%R 3%R eq_refl M2). rewrite Rmax_left by lra. f_equal.
  - rewrite (Hf' "q" "b" (1 * 1 + 1)%R (1 * 3 + 1)%R eq_refl M4). rewrite Rmax_left by lra. f_equal. field.
Qed.
Print Assumptions C89_close_scores_refuted.
Print Assumptions C89_max_shift_refuted.
