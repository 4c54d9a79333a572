(** T_Train2.v: the scores of the trained fusion methods (C54, C55, C56), over the reals *)
From Coq Require Import Reals Lra Lia.
From Verif Require Import Base Dict Num NumLaws Env M_Common M_Qrels M_Run M_Norm M_Fusion M_Train
  Spec_DS Spec_Metrics Spec_Eval Spec_Norm Spec_Fusion Spec_Train
  P_Base P_Dict P_Common P_DS P_Metrics P_Norm T_Norm T_Norm2 P_Fusion P_Fusion2 P_Fusion3 T_Fusion T_Fusion5 T_Fusion6 P_Train2 P_Train3.
Open Scope string_scope.
Open Scope list_scope.
Open Scope nat_scope.

Lemma rescore_with_ok2 {P} (E : env NumR) (HE : env_ok E) tag (f : P -> dict R -> result (dict R)) (h : P -> dict R -> nat -> R) ps xs :
  Forall a_run xs -> length xs <= length ps ->
  (forall p x q r, In (p, x) (combine ps xs) -> dget (r_map x) q = Some r -> dict_ok r -> f p r = Ok (@by_pos NumR (h p r) r)) ->
  @rescore_with NumR E P tag f ps xs = Ok (prescored h ps xs).
Proof.
  intros Hx Hl Hf. unfold rescore_with, prescored. rewrite Forall_forall in Hx.
  etransitivity; [|exact (map_m_enum ps (fun p (x : Run NumR) => @posmap NumR (h p) (r_map x)) xs Hl)].
  apply map_m_eq. intros [i x] Hi. cbn [fst snd]. unfold nth_r. apply enumerate_in in Hi.
  destruct (nth_error ps i) as [p|] eqn:Hp; [|reflexivity]. cbn [bindr].
  assert (Hok : dict2_ok (r_map x)) by (apply Hx; eapply nth_error_In; eauto).
  assert (Hc : In (p, x) (combine ps xs)).
  { clear - Hi Hp. revert ps xs Hi Hp. induction i; intros [|a ps] [|b xs]; cbn; try discriminate; intros H1 H2; [left; congruence|right; auto]. }
  rewrite (per_query_i_ok (N := NumR) E HE tag _ (fun _ r => @by_pos NumR (h p r) r)); [|apply Hok|].
  - apply f_equal. unfold posmap, enumerate.
    assert (Hg : forall (m : dict (dict R)) k, map (fun iqr : nat * (string * dict R) => (fst (snd iqr), @by_pos NumR (h p (snd (snd iqr))) (snd (snd iqr)))) (enum_from k m)
       = map (fun qr => (fst qr, @by_pos NumR (h p (snd qr)) (snd qr))) m).
    { induction m as [|a m IH]; intros k; cbn [enum_from map]; [reflexivity|]. f_equal. apply IH. }
    apply Hg.
  - intros j q r Hr. assert (Hd : dget (r_map x) q = Some r) by (apply in_dget; [apply Hok|]; eapply nth_error_In; eauto).
    apply (Hf p x q r Hc Hd). now apply (proj2 Hok q).
Qed.

(** the documents' ranks and scores *)
Lemma rank_score x q d r : a_run x -> rank_of x q d = Some r ->
  exists s, score_of x q d = Some s /\ 0 < r <= length (results_of x q) /\ nth_error (dvals (results_of x q)) (r - 1) = Some s.
Proof.
  intros Hx Hr. unfold rank_of in Hr. rewrite rank_in_index in Hr.
  destruct (index_of (dkeys (results_of x q)) d) as [i|] eqn:Hi; [|discriminate]. injection Hr as <-.
  assert (Hok : dict_ok (results_of x q)) by now apply results_ok.
  apply index_of_spec in Hi; [|exact Hok]. unfold dkeys in Hi. rewrite nth_error_map in Hi.
  destruct (nth_error (results_of x q) i) as [[d' s]|] eqn:Hn; [|discriminate]. cbn in Hi. injection Hi as ->.
  exists s. split; [|split].
  - rewrite score_of_results. apply in_dget; auto. eapply nth_error_In; eauto.
  - assert (i < length (results_of x q)) by (apply nth_error_Some; congruence). lia.
  - cbn. rewrite Nat.sub_0_r. unfold dvals. rewrite nth_error_map, Hn. reflexivity.
Qed.
Lemma values_at_eq {P} (ps : list P) xs (v : P -> nat -> nat -> R -> R) (h : P -> dict R -> nat -> R) q d : Forall a_run xs ->
  (forall p x r s, In (p, x) (combine ps xs) -> 0 < r <= length (results_of x q) -> nth_error (dvals (results_of x q)) (r - 1) = Some s ->
     h p (results_of x q) (r - 1) = v p (length (results_of x q)) r s) ->
  values_given ps xs (fun p x r => h p (results_of x q) (r - 1)) q d = values_at ps xs v q d.
Proof.
  intros Ha Hv. unfold values_given, values_at. f_equal. apply map_ext_in. intros [p x] Hpx. cbn [fst snd].
  destruct (rank_of x q d) as [r|] eqn:Hr; [|reflexivity].
  rewrite Forall_forall in Ha. destruct (rank_score x q d r (Ha x (in_combine_r _ _ _ _ Hpx)) Hr) as (s & H1 & H2 & H3).
  rewrite H1. f_equal. now apply Hv.
Qed.
Lemma trained_fusion {P} (E : env NumR) (HE : env_ok E) tag (f : P -> dict R -> result (dict R)) (h : P -> dict R -> nat -> R) ps xs name
  (v : P -> nat -> nat -> R -> R) : fusable xs -> length xs <= length ps ->
  (forall p r, In p ps -> dict_ok r -> f p r = Ok (@by_pos NumR (h p r) r)) ->
  (forall p r i s, In p ps -> i < length r -> nth_error (dvals r) i = Some s -> h p r i = v p (length r) (i + 1) s) ->
  exists y, bindr (@rescore_with NumR E P tag f ps xs) (fun ms => @comb NumR E "_comb_sum" sum_formula name ms) = Ok y /\ r_name y = Some name /\
    fusion_of xs y (fun q d s => s = Rsum (values_at ps xs v q d)).
Proof.
  intros Hxs Hl Hf Hv. assert (Ha : Forall a_run xs) by apply Hxs.
  rewrite (rescore_with_ok2 E HE tag f h ps xs Ha Hl).
  2:{ intros p x q r Hpx _ Hr. apply Hf; auto. eapply in_combine_l; eauto. }
  cbn [bindr]. apply (pos_comb E HE "_comb_sum" (@sum_formula NumR) name h ps xs (fun q d => Rsum (values_at ps xs v q d)) Hxs Hl).
  intros q d _. unfold sum_formula. f_equal. rewrite sum_get_all. f_equal.
  etransitivity; [exact (present_pos h ps xs q d)|]. apply values_at_eq; [exact Ha|].
  intros p x r s Hpx Hr Hs. replace r with (r - 1 + 1) at 2 by lia. apply Hv; auto; [eapply in_combine_l; eauto|lia].
Qed.

(** ** C56: MAPFuse *)
Theorem C56_mapfuse : forall (E : env NumR), env_ok E -> forall xs map_scores name, fusable xs -> length xs <= length map_scores ->
  exists y, mapfuse E xs map_scores name = Ok y /\ r_name y = Some name /\
    fusion_of xs y (fun q d s => s = Rsum (values_at map_scores xs (fun m _ r _ => m / INR r)%R q d)).
Proof.
  intros E HE xs ms name Hxs Hl. unfold mapfuse.
  apply (trained_fusion E HE "_map_score" (@_map_score NumR) (fun (m : R) _ i => (m / INR (i + 1))%R) ms xs name (fun m _ r _ => m / INR r)%R Hxs Hl).
  - intros p r _ Hr. apply (pos_scores_ok (N := NumR)); auto. intros i _. rewrite fnat_INR. reflexivity.
  - reflexivity.
Qed.
(** PosFuse: the probability learned for the position *)
Theorem C54_posfuse : forall (E : env NumR), env_ok E -> forall xs probs name, fusable xs -> length xs <= length probs ->
  exists y, posfuse E xs probs name = Ok y /\ r_name y = Some name /\
    fusion_of xs y (fun q d s => s = Rsum (values_at probs xs (fun p _ r _ => prob_at p (r - 1)) q d)).
Proof.
  intros E HE xs ps name Hxs Hl. unfold posfuse.
  apply (trained_fusion E HE "_pos_score" (@_pos_score NumR) (fun (p : list R) _ i => prob_at p i) ps xs name (fun p _ r _ => prob_at p (r - 1)) Hxs Hl).
  - intros p r _ Hr. apply (pos_scores_ok (N := NumR)); auto.
  - intros p r i s _ _ _. f_equal. lia.
Qed.

(** ** C54: SlideFuse *)
Lemma prob_at_cons a p i : prob_at (a :: p) (S i) = prob_at p i.
Proof. reflexivity. Qed.
Lemma window_sum (p : list R) : forall a m, Rsum (firstn m (skipn a p)) = Rsum (map (prob_at p) (seq a m)).
Proof.
  assert (H0 : forall a m, Rsum (map (prob_at []) (seq a m)) = 0%R).
  { intros a m. revert a. induction m; intros a; cbn [seq map Rsum]; auto. rewrite IHm. unfold prob_at. destruct a; cbn; lra. }
  induction p as [|v p IH]; intros a m.
  - rewrite H0. destruct a, m; reflexivity.
  - assert (Hs : forall a m, map (prob_at (v :: p)) (seq (S a) m) = map (prob_at p) (seq a m)).
    { intros a' m'. rewrite <- seq_shift, map_map. reflexivity. }
    destruct a as [|a].
    + destruct m as [|m]; [reflexivity|]. cbn [skipn firstn Rsum seq map]. rewrite Hs, <- (IH 0 m). reflexivity.
    + cbn [skipn]. now rewrite Hs, IH.
Qed.
Theorem C54_slidefuse : forall (E : env NumR), env_ok E -> forall xs probs w name, fusable xs -> length xs <= length probs -> (0 <= w)%Z ->
  exists y, slidefuse E xs probs w name = Ok y /\ r_name y = Some name /\
    fusion_of xs y (fun q d s => s = Rsum (values_at probs xs (fun p n r _ => window_mean p (Z.to_nat w) n (r - 1)) q d)).
Proof.
  intros E HE xs ps w name Hxs Hl Hw. unfold slidefuse.
  apply (trained_fusion E HE "_slide_score" (fun p => @_slide_score NumR p w) (fun (p : list R) r i => window_mean p (Z.to_nat w) (length r) i)
    ps xs name (fun p n r _ => window_mean p (Z.to_nat w) n (r - 1)) Hxs Hl).
  - intros p r _ Hr. apply (pos_scores_ok (N := NumR)); auto. intros i Hi. cbv zeta. f_equal.
    change (i < @length (string * R) r) in Hi.
    unfold window_mean, mean_of. rewrite map_length, seq_length.
    set (a := i - Z.to_nat w). set (b := Nat.min (i + Z.to_nat w) (length r - 1)).
    assert (Ha : Z.max (Z.of_nat i - w) 0 = Z.of_nat a) by (unfold a; lia).
    assert (Hb : Z.min (Z.of_nat i + w) (Z.of_nat (length r) - 1) = Z.of_nat b) by (unfold b; lia).
    change (@length (string * @F NumR) r) with (@length (string * R) r). rewrite Ha, Hb.
    replace (Z.of_nat b + 1)%Z with (Z.of_nat (b + 1)) by lia. rewrite slice_nat, fsum_R, window_sum.
    assert (Hab : a <= b) by (unfold a, b; lia). replace (b + 1 - a) with (b - a + 1) by lia.
    refine (f_equal (Rdiv _) _). rewrite INR_IZR_INZ. refine (f_equal IZR _). lia.
  - intros p r i s _ _ _. f_equal. lia.
Qed.
(** the window lies inside the ranking, contains the position, and its mean stays within the range of
    the learned probabilities *)
Lemma prob_at_range p i (hi : R) : (forall v, In v p -> 0 <= v <= hi)%R -> (0 <= hi)%R -> (0 <= prob_at p i <= hi)%R.
Proof.
  intros H Hh. unfold prob_at. destruct (nth_error p i) as [v|] eqn:Hv; [|lra]. apply H. eapply nth_error_In; eauto.
Qed.
Lemma mean_bound {A} (f : A -> R) l hi : (forall a, In a l -> 0 <= f a <= hi)%R -> (0 <= hi)%R -> (0 <= mean_of (map f l) <= hi)%R.
Proof.
  intros H Hh. unfold mean_of. rewrite map_length.
  assert (H0 : (0 <= Rsum (map f l))%R). { apply Rsum_nonneg. intros x Hx. apply in_map_iff in Hx as (a & <- & Ha). now apply H. }
  assert (H1 : (Rsum (map f l) <= INR (length l) * hi)%R).
  { rewrite <- (Rsum_map_const hi l). apply Rsum_map_le. intros a Ha. now apply H. }
  destruct l as [|a l]; [cbn; unfold Rdiv; rewrite Rmult_0_l; lra|].
  assert (Hp : (0 < INR (length (a :: l)))%R) by (apply lt_0_INR; cbn; lia).
  split; [apply Rmult_le_pos; auto; left; now apply Rinv_0_lt_compat|].
  apply (Rmult_le_reg_r (INR (length (a :: l)))); auto. unfold Rdiv. rewrite Rmult_assoc, Rinv_l; lra.
Qed.
Theorem C54_window_range : forall p w n i hi, i < n -> (forall v, In v p -> 0 <= v <= hi)%R -> (0 <= hi)%R ->
  (0 <= window_mean p w n i <= hi)%R.
Proof.
  intros p w n i hi Hi Hp Hh. unfold window_mean. apply mean_bound; auto. intros a _. now apply prob_at_range.
Qed.
(** hence no fused score exceeds [hi] times the number of runs *)
Theorem C54_slidefuse_bounds : forall (E : env NumR), env_ok E -> forall xs probs w name hi, fusable xs -> length xs <= length probs -> (0 <= w)%Z ->
  (forall p v, In p probs -> In v p -> 0 <= v <= hi)%R -> (0 <= hi)%R ->
  exists y, slidefuse E xs probs w name = Ok y /\ forall q d s, score_of y q d = Some s -> (0 <= s <= INR (length xs) * hi)%R.
Proof.
  intros E HE xs ps w name hi Hxs Hl Hw Hp Hh. destruct (C54_slidefuse E HE xs ps w name Hxs Hl Hw) as (y & H1 & _ & H2).
  exists y. split; [exact H1|]. intros q d s Hs. destruct H2 as (_ & _ & _ & H2 & _). rewrite (H2 q d s Hs). clear - Hp Hh Hl Hxs.
  assert (Ha : Forall a_run xs) by apply Hxs. clear Hxs. unfold values_at.
  revert ps Hl Hp. induction xs as [|x xs IH]; intros [|p ps] Hl Hp; cbn in Hl; try lia.
  - cbn. lra.
  - cbn. lra.
  - inversion Ha; subst. cbn [combine map concat fst snd]. rewrite Rsum_app.
    assert (IH' := IH H2 ps ltac:(lia) (fun p v Hin => Hp p v (or_intror Hin))). cbn [length]. rewrite S_INR.
    enough (H : (0 <= Rsum match rank_of x q d, score_of x q d with Some r, Some _ => [window_mean p (Z.to_nat w) (length (results_of x q)) (r - 1)] | _, _ => [] end <= hi)%R).
    { destruct IH'. destruct H. split; [lra|]. rewrite Rmult_plus_distr_r. lra. }
    destruct (rank_of x q d) as [r|] eqn:Hr; [|cbn; lra].
    destruct (rank_score x q d r H1 Hr) as (s & Hs & Hb & _). rewrite Hs. cbn [Rsum]. rewrite Rplus_0_r.
    apply C54_window_range; auto; [lia|]. intros v Hv. apply (Hp p v); auto. now left.
Qed.
(** a window of width 0 is PosFuse *)
Theorem C54_zero_window : forall (E : env NumR), env_ok E -> forall xs probs name name', fusable xs -> length xs <= length probs ->
  same_scores (slidefuse E xs probs 0 name) (posfuse E xs probs name').
Proof.
  intros E HE xs ps name name' Hxs Hl.
  destruct (C54_slidefuse E HE xs ps 0 name Hxs Hl ltac:(lia)) as (y & H1 & _ & H2).
  destruct (C54_posfuse E HE xs ps name' Hxs Hl) as (y' & H1' & _ & H2').
  exists y, y'. split; [exact H1|]. split; [exact H1'|].
  refine (fusion_same xs xs y y' _ _ H2 H2' _ _); [tauto|].
  intros q d s s' _ -> ->. f_equal. unfold values_at. f_equal. apply map_ext_in. intros [p x] Hpx. cbn [fst snd].
  destruct (rank_of x q d) as [r|] eqn:Hr; [|reflexivity].
  assert (Hx : a_run x). { destruct Hxs as (_ & Ha & _). rewrite Forall_forall in Ha. apply Ha. eapply in_combine_r; eauto. }
  destruct (rank_score x q d r Hx Hr) as (s & Hs & Hb & _). rewrite Hs. f_equal.
  unfold window_mean. change (Z.to_nat 0) with 0. replace (Nat.min (r - 1 + 0) (length (results_of x q) - 1)) with (r - 1) by lia.
  replace (r - 1 - (r - 1 - 0) + 1) with 1 by lia. rewrite Nat.sub_0_r. unfold mean_of. cbn. lra.
Qed.
