(** T_Float10.v: theorem C103: BordaFuse is exact in binary64 *)
From Coq Require Import Reals ZArith Lra Lia SpecFloat Psatz List String Permutation.
From Flocq Require Import Core.Core IEEE754.BinarySingleNaN.
From Verif Require Import Base Dict Num NumLaws Env EnvEx M_Common M_Qrels M_Run M_Norm M_Fusion Spec_DS Spec_Hist Spec_Metrics Spec_Eval Spec_Norm Spec_Fusion Spec_Float Spec_Float3 Spec_Float4 Spec_Float6
  P_Base P_Dict P_Common P_History P_Metrics P_Norm P_Fusion P_Fusion2 P_Float P_Float2 P_Float3 P_Float10 P_Float11 P_Float12 P_Float13 P_Float14 P_Float15 P_Float16 T_Fusion T_Fusion2 T_Fusion3 T_Fusion4 T_Fusion5 P_Metrics7 T_Float2 T_Float5 T_Float6 T_Float7 T_Float8.
Import ListNotations.
Open Scope R_scope.
Open Scope list_scope.

(** ** half integers *)
Lemma half_fmt z : (Z.abs z <= 2 ^ 53)%Z -> fmt (IZR z / 2).
Proof.
  intros Hz. unfold fmt. destruct (Z_lt_le_dec (Z.abs z) (2 ^ 53)) as [Hlt|Hge].
  - apply generic_format_FLT. exists (Float radix2 z (-1)); [unfold F2R; cbn; lra|exact Hlt|cbn; lia].
  - assert (Hm : exists k, z = (2 * k)%Z /\ small k) by (destruct (Z.abs_eq_or_opp z) as [H|H]; [exists (2 ^ 52)%Z|exists (- 2 ^ 52)%Z]; unfold small; lia).
    destruct Hm as (k & -> & Hk). rewrite mult_IZR. replace (IZR 2 * IZR k / 2) with (IZR k) by lra. now apply small_fmt.
Qed.
Fixpoint zsum (l : list Z) : Z := match l with [] => 0 | z :: l => Z.abs z + zsum l end.
Lemma zsum_ge0 l : (0 <= zsum l)%Z.
Proof. induction l; cbn [zsum]; lia. Qed.
Lemma half_fold l : forall a, (Z.abs a + zsum l <= 2 ^ 53)%Z -> fold_left radd (map (fun z => IZR z / 2) l) (IZR a / 2) = IZR a / 2 + Rsum (map (fun z => IZR z / 2) l).
Proof.
  induction l as [|z l IH]; intros a H; [cbn; lra|]. cbn [map fold_left zsum] in *. pose proof (zsum_ge0 l). unfold radd at 2.
  replace (IZR a / 2 + IZR z / 2) with (IZR (a + z) / 2) by (rewrite plus_IZR; lra). rewrite rnd_fmt by (apply half_fmt; lia).
  rewrite IH by lia. cbn [Rsum fold_right]. change (fold_right Rplus 0) with Rsum. rewrite plus_IZR. lra.
Qed.
Lemma half_sum l : (zsum l <= 2 ^ 53)%Z -> rsum64 (map (fun z => IZR z / 2) l) = Rsum (map (fun z => IZR z / 2) l).
Proof. intros H. unfold rsum64. change (fun acc r => rnd64 (acc + r)) with radd. replace 0 with (IZR 0 / 2) at 1 by lra. rewrite half_fold by (cbn; lia). lra. Qed.
Lemma zsum_bound {A} (f : A -> Z) n l : (forall a, In a l -> (Z.abs (f a) <= n)%Z) -> (zsum (map f l) <= Z.of_nat (length l) * n)%Z.
Proof. induction l as [|a l IH]; intros H; [cbn; lia|]. cbn [map zsum length]. assert (H1 := H a (or_introl eq_refl)). assert (H2 := IH (fun b Hb => H b (or_intror Hb))). lia. Qed.

Lemma ofq_nodup {V} (m : dict (dict V)) q : dict2_ok m -> NoDup (dkeys (of_query m q)).
Proof. intros [_ H]. unfold of_query. destruct (dget m q) as [r|] eqn:Hq; [exact (H q r Hq)|constructor]. Qed.
Lemma dget2_key {V} (m : dict (dict V)) q d s : dget2 m q d = Some s -> In q (dkeys m).
Proof. unfold dget2. destruct (dget m q) as [r|] eqn:Hq; [|discriminate]. intros _. apply P_Dict.dget_Some_in in Hq. apply in_map_iff. exists (q, r). now split. Qed.
Lemma borda_ms_ok {N : Num} (E : env N) (HE : env_ok E) ms (m : dict (dict F)) : dict2_ok m -> dict2_ok (borda_ms E ms m).
Proof.
  intros [H1 H2]. split; [unfold dict_ok; now rewrite borda_ms_keys|]. intros q r Hr. unfold borda_ms in Hr. rewrite (mapk_get (fun q r => borda_res (cands_of E ms q) r) m q) in Hr.
  destruct (dget m q) as [r0|] eqn:Hq; [|discriminate]. injection Hr as <-. apply borda_res_ok; [now apply (H2 q)|now apply cands_of_nodup].
Qed.
Section N.
Variables (l1 l2 : sf -> sf) (pw : sf -> sf -> sf).
Notation N64 := (NumSF_with l1 l2 pw).
Variable E : @env N64.
Hypothesis HE : env_ok E.
Variable xs : list (Run N64).
Hypothesis Hxs : fusable64 xs.
Hypothesis Ho : same_order64 xs.
Hypothesis Hsz : borda_sized xs.
Let Hr : Forall run64 xs := proj1 (proj2 Hxs).
Notation cands q := (@cands_of N64 E (@maps N64 xs) q).

Lemma cands_listing q : listing64 xs q (cands q).
Proof.
  split; [now apply (@cands_of_nodup N64 E HE)|]. intros d. rewrite (@cands_of_in N64 E HE (@maps N64 xs) q d). unfold retrieved_any. split.
  - intros (m & r & Hm & Hmr & Hd). apply in_map_iff in Hm as (x & <- & Hx). exists x. split; [exact Hx|]. apply (holds_key l1 l2 pw). unfold ofq.
    assert (Hgen : forall o : option (dict sf), o = Some r -> In d (dkeys match o with Some r => r | None => [] end)) by (intros o ->; exact Hd). exact (Hgen _ Hmr).
  - intros (x & Hx & Hd). apply (holds_key l1 l2 pw) in Hd. unfold ofq in Hd.
    assert (Hgen : forall o : option (dict sf), In d (dkeys match o with Some r => r | None => [] end) -> exists r, o = Some r /\ In d (dkeys r)) by (intros [r|] H; [eauto|easy]).
    destruct (Hgen _ Hd) as (r & Hmr & Hdr). exists (r_map x), r. split; [now apply in_map|]. split; [exact Hmr|exact Hdr].
Qed.
Definition bx (x : Run N64) : Run N64 := @new_run N64 None (@borda_ms N64 E (@maps N64 xs) (r_map x)).
Definition bxs : list (Run N64) := map bx xs.
(** the points, doubled *)
Definition pts2 (x : Run N64) (q d : string) : Z :=
  match index_of (dkeys (@of_query sf (r_map x) q)) d with
  | Some i => 2 * (Z.of_nat (length (cands q)) - Z.of_nat i)
  | None => Z.of_nat (length (cands q)) - Z.of_nat (length (@of_query sf (r_map x) q)) + 1 end.
Lemma in_cands x q d : In x xs -> In d (dkeys (@of_query sf (r_map x) q)) -> In d (cands q).
Proof. intros Hx Hd. apply (proj2 (cands_listing q)). exists x. split; [exact Hx|]. now apply (holds_key l1 l2 pw). Qed.
Lemma res_le x q : In x xs -> (length (@of_query sf (r_map x) q) <= length (cands q))%nat.
Proof.
  intros Hx. replace (length (@of_query sf (r_map x) q)) with (length (dkeys (@of_query sf (r_map x) q))) by apply map_length.
  apply NoDup_incl_length; [|intros d; now apply in_cands].
  assert (Hrx : run64 x) by (pose proof Hr as H; rewrite Forall_forall in H; now apply H). exact (ofq_nodup (r_map x) q (proj1 Hrx)).
Qed.
Lemma pts2_bound x q d : In x xs -> (1 <= pts2 x q d <= 2 * Z.of_nat (length (cands q)) + 1)%Z /\ (In d (cands q) -> (pts2 x q d <= 2 * Z.of_nat (length (cands q)))%Z).
Proof.
  intros Hx. pose proof (res_le x q Hx) as Hl. unfold pts2. destruct (index_of (dkeys (@of_query sf (r_map x) q)) d) as [i|] eqn:Hi.
  - pose proof (index_lt d _ _ Hi) as Hlt. unfold dkeys in Hlt. rewrite map_length in Hlt. change (i < length (@of_query sf (r_map x) q))%nat in Hlt. lia.
  - split; [lia|]. intros Hd. destruct (cands q); [easy|cbn [length]; lia].
Qed.
Lemma cands_small q : (Z.of_nat (length (cands q)) <= 2 ^ 26)%Z.
Proof. exact (proj2 Hsz q _ (cands_listing q)). Qed.
Lemma bx_keys x q : query_of64 (bx x) q <-> query_of64 x q.
Proof. unfold query_of64. pose proof (@borda_ms_keys N64 E (@maps N64 xs) (r_map x)) as H. change (dkeys (r_map (bx x)) = dkeys (r_map x)) in H. now rewrite H. Qed.
Lemma bx_get x q d : In x xs -> query_of64 x q -> exists s, is64 s (IZR (pts2 x q d) / 2) /\
  @dget2 sf (r_map (bx x)) q d = if in_dec string_dec d (cands q) then Some s else None.
Proof.
  intros Hx Hq. pose proof (cands_small q) as Hc. pose proof (proj1 (pts2_bound x q d Hx)) as Hb.
  assert (Hs : forall e, In e (dkeys (@ofq sf (r_map x) q)) -> In e (cands q)) by (intros e; exact (in_cands x q e Hx)).
  pose proof (@borda_res_get N64 (cands q) (@ofq sf (r_map x) q) d Hs) as Hg.
  assert (Hg2 : @dget2 sf (r_map (bx x)) q d = @dget sf (@borda_res N64 (cands q) (@ofq sf (r_map x) q)) d).
  { etransitivity; [exact (dget2_ofq (V := sf) _ q d)|]. exact (f_equal (fun m => @dget sf m d) (@borda_ms_ofq N64 E (@maps N64 xs) (r_map x) q Hq)). }
  exists (match index_of (dkeys (@ofq sf (r_map x) q)) d with Some i => @fofZ N64 (Z.of_nat (length (cands q)) - Z.of_nat i)
          | None => @fdiv N64 (@fofZ N64 (Z.of_nat (length (cands q)) - Z.of_nat (length (@ofq sf (r_map x) q)) + 1)) (@fofZ N64 2) end).
  split; [|exact (eq_trans Hg2 Hg)]. unfold pts2 in *. change (@ofq sf (r_map x) q) with (@of_query sf (r_map x) q).
  destruct (index_of (dkeys (@of_query sf (r_map x) q)) d) as [i|].
  - rewrite mult_IZR. replace (IZR 2 * IZR (Z.of_nat (length (cands q)) - Z.of_nat i) / 2) with (IZR (Z.of_nat (length (cands q)) - Z.of_nat i)) by lra.
    apply fin_ofZ. unfold small. lia.
  - set (z := (Z.of_nat (length (cands q)) - Z.of_nat (length (@of_query sf (r_map x) q)) + 1)%Z) in *. clearbody z.
    assert (Hf : rnd64 (IZR z / 2) = IZR z / 2) by (apply rnd_fmt, half_fmt; lia). rewrite <- Hf. change (@fdiv N64) with sf_div. change 2 with (IZR 2) at 1.
    apply fin_div; [apply fin_ofZ; unfold small; lia|apply fin_ofZ; unfold small; lia|lra|].
    change (IZR 2) with 2. rewrite Hf. apply bpow_1024_big. rewrite <- (rnd_fmt _ (half_fmt z ltac:(lia))), Hf.
    assert (H1 : 1 <= IZR z) by (apply (IZR_le 1); lia). rewrite Rabs_pos_eq by lra. assert (H2 : IZR z <= IZR (2 ^ 53)) by (apply IZR_le; lia).
    rewrite (pow_IZR 2 53). change (IZR (2 ^ Z.of_nat 53)) with (IZR (2 ^ 53)). lra.
Qed.
Lemma holds_query (x : Run N64) q d : holds64 x q d -> query_of64 x q.
Proof. intros [s Hs]. exact (dget2_key (r_map x) q d s Hs). Qed.
Lemma bx_holds x q d : In x xs -> (holds64 (bx x) q d <-> exists x', In x' xs /\ holds64 x' q d).
Proof.
  intros Hx. rewrite <- (proj2 (cands_listing q) d). split.
  - intros Hh. pose proof (proj1 (bx_keys x q) (holds_query (bx x) q d Hh)) as Hq. destruct (bx_get x q d Hx Hq) as (s & _ & Hs). destruct Hh as [s' Hs'].
    destruct (in_dec string_dec d (cands q)) as [Hd|Hd]; [exact Hd|]. pose proof (eq_trans (eq_sym Hs) Hs') as He. discriminate He.
  - intros Hd. pose proof (proj1 (proj2 (cands_listing q) d) Hd) as (x' & Hx' & Hh). assert (Hq : query_of64 x q) by (apply (proj2 (proj2 (proj2 Hxs)) x' x q Hx' Hx); exact (holds_query x' q d Hh)).
    destruct (bx_get x q d Hx Hq) as (s & _ & Hs). destruct (in_dec string_dec d (cands q)) as [_|Hn]; [now exists s|contradiction].
Qed.
Lemma bx_value x q d v : In x xs -> value64 (bx x) q d v -> v = IZR (pts2 x q d) / 2.
Proof.
  intros Hx (s' & Hs' & Hv). assert (Hq : query_of64 x q) by (apply (proj1 (bx_keys x q)), (holds_query (bx x) q d); now exists s').
  destruct (bx_get x q d Hx Hq) as (s & Hsv & Hs). destruct (in_dec string_dec d (cands q)) as [Hd|Hd]; pose proof (eq_trans (eq_sym Hs) Hs') as He; [|discriminate He].
  injection He as <-. eapply is64_fun; eassumption.
Qed.
Lemma bx_run64 x : In x xs -> run64 (bx x).
Proof.
  intros Hx. pose proof Hr as HR. rewrite Forall_forall in HR. destruct (HR x Hx) as [Hok _]. split.
  - exact (@borda_ms_ok N64 E HE (@maps N64 xs) (r_map x) Hok).
  - intros q d s Hs. assert (Hv : query_of64 x q) by (apply (proj1 (bx_keys x q)), (holds_query (bx x) q d); now exists s).
    destruct (bx_get x q d Hx Hv) as (s' & Hs' & Hg). destruct (in_dec string_dec d (cands q)) as [Hd|Hd]; pose proof (eq_trans (eq_sym Hg) Hs) as He; [|discriminate He].
    injection He as <-. exists (IZR (pts2 x q d) / 2). split; [exact Hs'|]. pose proof (proj1 (pts2_bound x q d Hx)) as Hb. pose proof (cands_small q) as Hc.
    assert (Hle : Rabs (IZR (pts2 x q d)) <= 2 ^ 200) by (apply small_le_200; unfold small; lia).
    assert (H1 : 1 <= IZR (pts2 x q d)) by (apply (IZR_le 1); lia). rewrite Rabs_pos_eq in * by lra. lra.
Qed.
Lemma bxs_fusable : fusable64 bxs.
Proof.
  pose proof Hxs as (Hne & _ & Hn & Hq). split; [unfold bxs; now destruct xs|]. split; [|split; [unfold bxs; now rewrite map_length|]].
  - apply Forall_forall. intros y Hy. apply in_map_iff in Hy as (x & <- & Hx). now apply bx_run64.
  - intros y y' q Hy Hy'. apply in_map_iff in Hy as (x & <- & Hx). apply in_map_iff in Hy' as (x' & <- & Hx'). rewrite !bx_keys. now apply Hq.
Qed.
Lemma bxs_union y : union64 bxs y -> union64 xs y.
Proof.
  intros (U1 & U2 & U3 & U4). split; [|split; [|split; [exact U3|exact U4]]].
  - intros x q Hx. rewrite <- (bx_keys x q). apply U1. now apply in_map.
  - intros q d. rewrite U2. split.
    + intros (z & Hz & Hd). apply in_map_iff in Hz as (x & <- & Hx). now apply (bx_holds x q d Hx).
    + intros Hd. destruct Hd as (x & Hx & Hh). exists (bx x). split; [now apply in_map|]. apply (bx_holds x q d Hx). now exists x.
Qed.
Lemma bx_val_ex q d x : In x xs -> (exists x', In x' xs /\ holds64 x' q d) -> value64 (bx x) q d (IZR (pts2 x q d) / 2).
Proof.
  intros Hx Hc. destruct (proj2 (bx_holds x q d Hx) Hc) as [s Hs]. assert (Hq : query_of64 x q) by (apply (proj1 (bx_keys x q)), (holds_query (bx x) q d); now exists s).
  destruct (bx_get x q d Hx Hq) as (s' & Hsv & Hs'). destruct (in_dec string_dec d (cands q)) as [Hd|Hd]; pose proof (eq_trans (eq_sym Hs') Hs) as He; [|discriminate He].
  injection He as <-. exists s'. split; [exact Hs|exact Hsv].
Qed.
Lemma bxs_given q d : (exists x', In x' xs /\ holds64 x' q d) -> forall zs, incl zs xs -> given64 q d (map bx zs) (map (fun z => IZR z / 2) (map (fun x => pts2 x q d) zs)).
Proof.
  intros Hc. induction zs as [|x zs IH]; intros Hi; [constructor|]. cbn [map]. apply given_held; [|apply IH; intros z Hz; apply Hi; now right].
  apply bx_val_ex; [apply Hi; now left|exact Hc].
Qed.
Lemma bxs_weighted q d : (exists x', In x' xs /\ holds64 x' q d) -> forall zs ws, incl zs xs -> (length zs <= length ws)%nat ->
  weighted64 q d (map IZR ws) (map bx zs) (map (fun wx => (IZR (fst wx), IZR (pts2 (snd wx) q d) / 2)) (combine ws zs)).
Proof.
  intros Hc. induction zs as [|x zs IH]; intros [|w ws] Hi Hl; cbn in Hl; try lia; try constructor. cbn [map combine fst snd].
  - apply bx_val_ex; [apply Hi; now left|exact Hc].
  - apply IH; [intros z Hz; apply Hi; now right|lia].
Qed.
Lemma points_pts x q d cs : In x xs -> listing64 xs q cs -> IZR (pts2 x q d) / 2 = points64 (length cs) x q d.
Proof.
  intros Hx [Hn Hcs]. assert (Hl : length cs = length (cands q)).
  { apply Permutation_length. apply NoDup_Permutation; [exact Hn|exact (proj1 (cands_listing q))|]. intros e. rewrite Hcs. symmetry. apply (proj2 (cands_listing q)). }
  unfold pts2, points64. rewrite Hl. generalize (length (cands q)). intros n.
  assert (Hgen : forall (o : option nat) (m : nat), IZR (match o with Some i => 2 * (Z.of_nat n - Z.of_nat i) | None => Z.of_nat n - Z.of_nat m + 1 end) / 2 =
    match option_map S o with Some r => INR n + 1 - INR r | None => (INR n - INR m + 1) / 2 end).
  { intros [i|] m; cbn [option_map].
    - rewrite S_INR, mult_IZR, minus_IZR, <- !INR_IZR_INZ. lra.
    - rewrite plus_IZR, minus_IZR, <- !INR_IZR_INZ. lra. }
  rewrite rank_in_index. exact (Hgen _ _).
Qed.
Lemma bxs_maps : @borda_scores N64 E xs = Ok (@maps N64 bxs).
Proof.
  etransitivity; [apply (@borda_scores_ok N64 E HE xs (proj1 Hxs)); [|exact Ho]|].
  - pose proof Hr as H. rewrite Forall_forall in *. intros x Hx. exact (proj1 (H x Hx)).
  - unfold bxs, maps. rewrite map_map. reflexivity.
Qed.
Lemma bordafuse_sum name : @bordafuse N64 E xs name = comb_sum E bxs name.
Proof. unfold bordafuse. rewrite bxs_maps. reflexivity. Qed.
Lemma wbordafuse_sum ws name : @weighted_bordafuse N64 E xs ws name = wsum E bxs ws name.
Proof. unfold weighted_bordafuse. rewrite bxs_maps. reflexivity. Qed.
Lemma pts2_26 x q d : In x xs -> In d (cands q) -> (1 <= pts2 x q d <= 2 ^ 27)%Z.
Proof. intros Hx Hd. destruct (pts2_bound x q d Hx) as [H1 H2]. specialize (H2 Hd). pose proof (cands_small q). lia. Qed.
Lemma borda_exact name : exists y, @bordafuse N64 E xs name = Ok y /\ union64 xs y /\
  forall q d v, value64 y q d v -> v = Rsum (map (fun x => IZR (pts2 x q d) / 2) xs).
Proof.
  destruct (sum_exact l1 l2 pw E HE bxs bxs_fusable name) as (y & Hy & Hu & Hv). exists y. split; [exact (eq_trans (bordafuse_sum name) Hy)|].
  pose proof (bxs_union y Hu) as Hux. split; [exact Hux|]. intros q d v Hval. assert (Hc : exists x', In x' xs /\ holds64 x' q d) by (apply Hux; destruct Hval as (s & Hs & _); now exists s).
  rewrite (Hv q d _ v (bxs_given q d Hc xs (incl_refl _)) Hval). rewrite half_sum, map_map; [reflexivity|].
  apply Z.le_trans with (Z.of_nat (length xs) * 2 ^ 27)%Z; [|destruct Hsz; lia]. apply (zsum_bound (fun x => pts2 x q d)). intros x Hx.
  pose proof (pts2_26 x q d Hx (proj2 (proj2 (cands_listing q) d) Hc)). lia.
Qed.
Lemma combine_zsum q d : In d (cands q) -> forall ws zs, incl zs xs -> (zsum (map (fun wx => fst wx * pts2 (snd wx) q d) (combine ws zs)) <= zsum ws * 2 ^ 27)%Z.
Proof.
  intros Hd. induction ws as [|w ws IH]; intros zs Hi; [cbn; lia|]. destruct zs as [|x zs]; cbn [combine map zsum fst snd]; [pose proof (zsum_ge0 ws); lia|].
  assert (IH' := IH zs (fun z Hz => Hi z (or_intror Hz))). pose proof (pts2_26 x q d (Hi x (or_introl eq_refl)) Hd). rewrite Z.abs_mul, (Z.abs_eq (pts2 x q d)) by lia. nia.
Qed.
Lemma wborda_exact ws name : (length xs <= length ws)%nat -> (zsum ws <= 2 ^ 26)%Z -> exists y, @weighted_bordafuse N64 E xs (map sf_of_Z ws) name = Ok y /\ union64 xs y /\
  forall q d v, value64 y q d v -> v = Rsum (map (fun wx => IZR (fst wx) * (IZR (pts2 (snd wx) q d) / 2)) (combine ws xs)).
Proof.
  intros Hl Hz. assert (Hw : weights64 (map sf_of_Z ws) (map IZR ws)).
  { clear Hl. induction ws as [|w ws IH]; [constructor|]. cbn [zsum map] in *. pose proof (zsum_ge0 ws). constructor; [|apply IH; lia]. split; [apply fin_ofZ|apply small_le_200]; unfold small; lia. }
  destruct (C84_wsum l1 l2 pw E HE bxs (map sf_of_Z ws) (map IZR ws) name bxs_fusable Hw) as (y & Hy & Hu & Hv).
  { unfold bxs. rewrite !map_length. exact Hl. }
  exists y. split; [exact (eq_trans (wbordafuse_sum _ name) Hy)|].
  pose proof (bxs_union y Hu) as Hux. split; [exact Hux|]. intros q d v Hval. assert (Hc : exists x', In x' xs /\ holds64 x' q d) by (apply Hux; destruct Hval as (s & Hs & _); now exists s).
  pose proof (proj2 (proj2 (cands_listing q) d) Hc) as Hd. pose proof (combine_zsum q d Hd ws xs (incl_refl _)) as Hzs.
  rewrite (Hv q d _ v (bxs_weighted q d Hc xs ws (incl_refl _) Hl) Hval). rewrite map_map. cbn [fst snd].
  assert (Hterm : forall wx, In wx (combine ws xs) -> rnd64 (IZR (fst wx) * (IZR (pts2 (snd wx) q d) / 2)) = IZR (fst wx * pts2 (snd wx) q d) / 2).
  { intros wx Hin. rewrite mult_IZR. replace (IZR (fst wx) * (IZR (pts2 (snd wx) q d) / 2)) with (IZR (fst wx) * IZR (pts2 (snd wx) q d) / 2) by lra. rewrite <- mult_IZR. apply rnd_fmt, half_fmt.
    assert (Hle : forall l (z : Z), In z l -> (Z.abs z <= zsum l)%Z). { clear. induction l as [|a l IH]; intros z H; [easy|]. cbn [zsum]. destruct H as [ -> |H]; [pose proof (zsum_ge0 l); lia|specialize (IH z H); lia]. }
    pose proof (Hle _ _ (in_map (fun wx : Z * Run N64 => (fst wx * pts2 (snd wx) q d)%Z) _ wx Hin)). cbn beta in *. lia. }
  rewrite (map_ext_in _ _ _ Hterm). rewrite <- (map_map (fun wx : Z * Run N64 => (fst wx * pts2 (snd wx) q d)%Z) (fun z => IZR z / 2)). rewrite half_sum by lia. rewrite map_map. f_equal.
  apply map_ext. intros wx. rewrite mult_IZR. lra.
Qed.
End N.

(** the scores of BordaFuse are the exact sums of the points: no rounding takes place *)
Theorem C103_bordafuse : forall l1 l2 pw (E : @env (NumSF_with l1 l2 pw)), env_ok E -> forall (xs : list (Run (NumSF_with l1 l2 pw))) name,
  fusable64 xs -> same_order64 xs -> borda_sized xs ->
  exists y, bordafuse E xs name = Ok y /\ union64 xs y /\
    forall q d v cs, listing64 xs q cs -> value64 y q d v -> v = Rsum (map (fun x => points64 (length cs) x q d) xs).
Proof.
  intros l1 l2 pw E HE xs name Hxs Ho Hsz. destruct (borda_exact l1 l2 pw E HE xs Hxs Ho Hsz name) as (y & Hy & Hu & Hv). exists y. split; [exact Hy|]. split; [exact Hu|].
  intros q d v cs Hcs Hval. rewrite (Hv q d v Hval). f_equal. apply map_ext_in. intros x Hx. now apply points_pts.
Qed.
Print Assumptions C103_bordafuse.
(** the same for integer weights of absolute sum at most 2^26 *)
Theorem C103_weighted : forall l1 l2 pw (E : @env (NumSF_with l1 l2 pw)), env_ok E -> forall (xs : list (Run (NumSF_with l1 l2 pw))) ws name,
  fusable64 xs -> same_order64 xs -> borda_sized xs -> (length xs <= length ws)%nat -> (fold_right Z.add 0 (map Z.abs ws) <= 2 ^ 26)%Z ->
  exists y, weighted_bordafuse E xs (map sf_of_Z ws) name = Ok y /\ union64 xs y /\
    forall q d v cs, listing64 xs q cs -> value64 y q d v -> v = Rsum (map (fun wx => IZR (fst wx) * points64 (length cs) (snd wx) q d) (combine ws xs)).
Proof.
  intros l1 l2 pw E HE xs ws name Hxs Ho Hsz Hl Hz. assert (Hzs : (zsum ws <= 2 ^ 26)%Z). { replace (zsum ws) with (fold_right Z.add 0 (map Z.abs ws))%Z; [exact Hz|]. clear. induction ws as [|w ws IH]; [reflexivity|]. cbn [map fold_right zsum]. now rewrite IH. }
  destruct (wborda_exact l1 l2 pw E HE xs Hxs Ho Hsz ws name Hl Hzs) as (y & Hy & Hu & Hv). exists y. split; [exact Hy|]. split; [exact Hu|].
  intros q d v cs Hcs Hval. rewrite (Hv q d v Hval). f_equal. apply map_ext_in. intros [w x] Hwx. cbn [fst snd]. f_equal. apply in_combine_r in Hwx. now apply points_pts.
Qed.
Print Assumptions C103_weighted.

Section P.
Variables (l1 l2 : sf -> sf) (pw : sf -> sf -> sf).
Notation N64 := (NumSF_with l1 l2 pw).
Lemma listing_perm (xs xs' : list (Run N64)) q cs : Permutation xs xs' -> listing64 xs q cs -> listing64 xs' q cs.
Proof.
  intros Hp [H1 H2]. split; [exact H1|]. intros d. rewrite H2. split; intros (x & Hx & Hd); exists x; (split; [|exact Hd]); [now apply (Permutation_in x Hp)|now apply (Permutation_in x (Permutation_sym Hp))].
Qed.
Lemma sized_perm (xs xs' : list (Run N64)) : Permutation xs xs' -> borda_sized xs -> borda_sized xs'.
Proof. intros Hp [H1 H2]. split; [now rewrite <- (Permutation_length Hp)|]. intros q cs Hcs. apply (H2 q). exact (listing_perm xs' xs q cs (Permutation_sym Hp) Hcs). Qed.
Lemma order_perm (xs xs' : list (Run N64)) : Permutation xs xs' -> same_order64 xs -> same_order64 xs'.
Proof. intros Hp H x x' Hx Hx'. apply H; [apply (Permutation_in x (Permutation_sym Hp) Hx)|apply (Permutation_in x' (Permutation_sym Hp) Hx')]. Qed.
Lemma res_listing (xs : list (Run N64)) x q cs : Forall run64 xs -> In x xs -> listing64 xs q cs -> (length (@of_query sf (r_map x) q) <= length cs)%nat.
Proof.
  intros Hr Hx [_ Hcs]. replace (length (@of_query sf (r_map x) q)) with (length (dkeys (@of_query sf (r_map x) q))) by apply map_length.
  apply NoDup_incl_length; [|intros d Hd; apply Hcs; exists x; split; [exact Hx|now apply (holds_key l1 l2 pw)]].
  rewrite Forall_forall in Hr. exact (ofq_nodup (r_map x) q (proj1 (Hr x Hx))).
Qed.
Lemma points_more (xs : list (Run N64)) x q cs a b : Forall run64 xs -> In x xs -> listing64 xs q cs -> ranks_more64 x q a b -> points64 (length cs) x q b <= points64 (length cs) x q a.
Proof.
  intros Hr Hx Hcs Hm. pose proof (res_listing xs x q cs Hr Hx Hcs) as Hl. unfold ranks_more64 in Hm. unfold points64.
  destruct (rank_in (dkeys (@of_query spec_float (r_map x) q)) b) as [rb|] eqn:Hb.
  - destruct (Hm rb eq_refl) as (ra & -> & Hle). apply le_INR in Hle. lra.
  - destruct (rank_in (dkeys (@of_query spec_float (r_map x) q)) a) as [ra|] eqn:Ha; [|lra].
    assert (Hra : (ra <= length (@of_query sf (r_map x) q))%nat).
    { pose proof (rank_in_index (dkeys (@of_query sf (r_map x) q)) a) as Hri. assert (He : option_map S (index_of (dkeys (@of_query sf (r_map x) q)) a) = Some ra) by exact (eq_trans (eq_sym Hri) Ha).
      destruct (index_of (dkeys (@of_query sf (r_map x) q)) a) as [i|] eqn:Hi; [|discriminate He]. injection He as <-. apply index_lt in Hi. unfold dkeys in Hi. rewrite map_length in Hi. exact Hi. }
    apply le_INR in Hra. apply le_INR in Hl. change ((INR (length cs) - INR (length (@of_query sf (r_map x) q)) + 1) / 2 <= INR (length cs) + 1 - INR ra). lra.
Qed.
Lemma points_ahead (xs : list (Run N64)) x q cs a b : Forall run64 xs -> In x xs -> listing64 xs q cs -> ahead64 x q a b -> points64 (length cs) x q b < points64 (length cs) x q a.
Proof.
  intros Hr Hx Hcs (ra & Ha & Hm). pose proof (res_listing xs x q cs Hr Hx Hcs) as Hl. unfold points64. rewrite Ha.
  destruct (rank_in (dkeys (@of_query spec_float (r_map x) q)) b) as [rb|] eqn:Hb.
  - specialize (Hm rb eq_refl). apply lt_INR in Hm. lra.
  - assert (Hra : (ra <= length (@of_query sf (r_map x) q))%nat).
    { pose proof (rank_in_index (dkeys (@of_query sf (r_map x) q)) a) as Hri. assert (He : option_map S (index_of (dkeys (@of_query sf (r_map x) q)) a) = Some ra) by exact (eq_trans (eq_sym Hri) Ha).
      destruct (index_of (dkeys (@of_query sf (r_map x) q)) a) as [i|] eqn:Hi; [|discriminate He]. injection He as <-. apply index_lt in Hi. unfold dkeys in Hi. rewrite map_length in Hi. exact Hi. }
    apply le_INR in Hra. apply le_INR in Hl. change ((INR (length cs) - INR (length (@of_query sf (r_map x) q)) + 1) / 2 < INR (length cs) + 1 - INR ra). lra.
Qed.
Lemma Rsum_map_le {A} (f g : A -> R) l : (forall x, In x l -> f x <= g x) -> Rsum (map f l) <= Rsum (map g l).
Proof. induction l as [|a l IH]; intros H; cbn; [lra|]. change (fold_right Rplus 0) with Rsum. pose proof (H a (or_introl eq_refl)). pose proof (IH (fun x Hx => H x (or_intror Hx))). lra. Qed.
Lemma Rsum_map_lt {A} (f g : A -> R) l : (forall x, In x l -> f x <= g x) -> (exists x, In x l /\ f x < g x) -> Rsum (map f l) < Rsum (map g l).
Proof.
  induction l as [|a l IH]; intros H (x & Hx & Hlt); [easy|]. cbn. change (fold_right Rplus 0) with Rsum. pose proof (H a (or_introl eq_refl)). assert (H' : forall x, In x l -> f x <= g x) by (intros y Hy; apply H; now right).
  destruct Hx as [ -> |Hx]; [pose proof (Rsum_map_le f g l H'); lra|]. pose proof (IH H' (ex_intro _ x (conj Hx Hlt))). lra.
Qed.
End P.
(** the order in which the runs are given has no effect on the scores *)
Theorem C103_order : forall l1 l2 pw (E : @env (NumSF_with l1 l2 pw)), env_ok E -> forall (xs xs' : list (Run (NumSF_with l1 l2 pw))) name,
  fusable64 xs -> same_order64 xs -> borda_sized xs -> Permutation xs xs' -> same64 (bordafuse E xs name) (bordafuse E xs' name).
Proof.
  intros l1 l2 pw E HE xs xs' name Hxs Ho Hsz Hp.
  destruct (C103_bordafuse l1 l2 pw E HE xs name Hxs Ho Hsz) as (y & Hy & (_ & Hh & Hval & _) & Hv).
  destruct (C103_bordafuse l1 l2 pw E HE xs' name (fusable_perm l1 l2 pw xs xs' Hp Hxs) (order_perm l1 l2 pw xs xs' Hp Ho) (sized_perm l1 l2 pw xs xs' Hp Hsz)) as (y' & Hy' & (_ & Hh' & Hval' & _) & Hv').
  exists y, y'. split; [exact Hy|]. split; [exact Hy'|].
  assert (Hiff : forall q d, holds64 y q d <-> holds64 y' q d).
  { intros q d. rewrite Hh, Hh'. split; intros (x & Hx & Hd); exists x; (split; [|exact Hd]); [now apply (Permutation_in x Hp)|now apply (Permutation_in x (Permutation_sym Hp))]. }
  assert (He : forall q d v v', value64 y q d v -> value64 y' q d v' -> v = v').
  { intros q d v v' H H'. pose proof (cands_listing l1 l2 pw E HE xs q) as Hcs. rewrite (Hv q d v _ Hcs H), (Hv' q d v' _ (listing_perm l1 l2 pw xs xs' q _ Hp Hcs) H').
    apply P_Metrics.Rsum_perm, Permutation_map. exact Hp. }
  intros q d v. split; intros H.
  - assert (Hd : holds64 y' q d) by (apply Hiff; destruct H as (s & Hs & _); now exists s). destruct (Hval' q d Hd) as [v' H']. now rewrite (He q d v v' H H').
  - assert (Hd : holds64 y q d) by (apply Hiff; destruct H as (s & Hs & _); now exists s). destruct (Hval q d Hd) as [v' H']. now rewrite <- (He q d v' v H' H).
Qed.
Print Assumptions C103_order.
(** a document that every run ranks at least as high as another never scores lower, and scores higher when some run ranks it strictly higher *)
Theorem C103_unanimity : forall l1 l2 pw (E : @env (NumSF_with l1 l2 pw)), env_ok E -> forall (xs : list (Run (NumSF_with l1 l2 pw))) q a b name,
  fusable64 xs -> same_order64 xs -> borda_sized xs -> (forall x, In x xs -> ranks_more64 x q a b) ->
  not_below64 (bordafuse E xs name) q a b /\ ((exists x, In x xs /\ ahead64 x q a b) -> above64 (bordafuse E xs name) q a b).
Proof.
  intros l1 l2 pw E HE xs q a b name Hxs Ho Hsz Hm. pose proof (proj1 (proj2 Hxs)) as Hr. pose proof (cands_listing l1 l2 pw E HE xs q) as Hcs.
  destruct (C103_bordafuse l1 l2 pw E HE xs name Hxs Ho Hsz) as (y & Hy & (_ & Hh & Hval & _) & Hv).
  assert (Hle : forall x, In x xs -> points64 (length (cands_of E (maps xs) q)) x q b <= points64 (length (cands_of E (maps xs) q)) x q a) by (intros x Hx; exact (points_more l1 l2 pw xs x q _ a b Hr Hx Hcs (Hm x Hx))).
  split.
  - exists y. split; [exact Hy|]. intros vb Hb. assert (Ha : holds64 y q a).
    { apply Hh. assert (Hhb : holds64 y q b) by (destruct Hb as (s & Hs & _); now exists s). apply Hh in Hhb as (x & Hx & Hxb). exact (more_holds l1 l2 pw xs q a b Hm x Hx Hxb). }
    destruct (Hval q a Ha) as [va Hva]. exists va. split; [exact Hva|]. rewrite (Hv q a va _ Hcs Hva), (Hv q b vb _ Hcs Hb). now apply Rsum_map_le.
  - intros (x & Hx & Hah). assert (Ha : holds64 y q a).
    { apply Hh. exists x. split; [exact Hx|]. destruct Hah as (ra & Hra & _). apply (holds_key l1 l2 pw). change (@ofq sf (r_map x) q) with (@of_query sf (r_map x) q).
      pose proof (rank_in_index (dkeys (@of_query sf (r_map x) q)) a) as Hri. assert (He : option_map S (index_of (dkeys (@of_query sf (r_map x) q)) a) = Some ra) by exact (eq_trans (eq_sym Hri) Hra).
      destruct (in_dec string_dec a (dkeys (@of_query sf (r_map x) q))) as [Hd|Hd]; [exact Hd|]. apply index_of_None in Hd. rewrite Hd in He. discriminate He. }
    destruct (Hval q a Ha) as [va Hva]. exists y, va. split; [exact Hy|]. split; [exact Hva|]. intros vb Hb. rewrite (Hv q a va _ Hcs Hva), (Hv q b vb _ Hcs Hb).
    apply Rsum_map_lt; [exact Hle|]. exists x. split; [exact Hx|]. exact (points_ahead l1 l2 pw xs x q _ a b Hr Hx Hcs Hah).
Qed.
Print Assumptions C103_unanimity.

(** the hypotheses are met: three candidates, two of which the second run does not hold *)
Open Scope string_scope.
Open Scope list_scope.
Definition borda_xs : list (Run NumSF) := map int_run [[("a", 3); ("b", 2); ("c", 1)]; [("b", 5)]]%Z.
Lemma borda_listing : listing64 (borda_xs : list (Run N0)) "q" ["a"; "b"; "c"].
Proof.
  split; [now apply nodupb_ok|]. intros d. split.
  - intros H. exists (int_run [("a", 3); ("b", 2); ("c", 1)]%Z). split; [now left|]. destruct H as [ <- |[ <- |[ <- |[]]]]; eexists; reflexivity.
  - intros (x & [ <- |[ <- |[]]] & s & Hs); [pose proof (eq_trans (eq_sym (int_run_get [("a", 3); ("b", 2); ("c", 1)]%Z d)) Hs) as H|pose proof (eq_trans (eq_sym (int_run_get [("b", 5)]%Z d)) Hs) as H];
    destruct (@dget Z _ d) as [z|] eqn:Hz in H; try discriminate H; apply dget_In_Z in Hz; cbn in Hz; intuition (try congruence); match goal with H : (_, _) = (_, _) |- _ => injection H as ? ?; subst; cbn; tauto end.
Qed.
Example ex_C103 : fusable64 (borda_xs : list (Run N0)) /\ same_order64 (borda_xs : list (Run N0)) /\ borda_sized (borda_xs : list (Run N0)) /\
  listing64 (borda_xs : list (Run N0)) "q" ["a"; "b"; "c"] /\
  map (fun d => Rsum (map (fun x : Run N0 => points64 3 x "q" d) borda_xs)) ["a"; "b"; "c"] = [9 / 2; 5; 5 / 2] /\
  (forall x, In x (borda_xs : list (Run N0)) -> ranks_more64 x "q" "b" "c") /\ (exists x, In x (borda_xs : list (Run N0)) /\ ahead64 x "q" "b" "c").
Proof.
  split; [apply int_fusable; [discriminate|cbn; lia|]; repeat constructor; unfold small; cbn; lia|].
  split; [intros x x' [ <- |[ <- |[]]] [ <- |[ <- |[]]]; reflexivity|].
  split.
  - split; [cbn; lia|]. intros q cs [Hn Hcs]. assert (Hi : incl cs ["a"; "b"; "c"]).
    { intros d Hd. apply Hcs in Hd as (x & Hx & Hd). destruct (string_dec q "q") as [ -> |Hq]; [apply (proj2 borda_listing); now exists x|].
      destruct Hd as [s Hs]. destruct Hx as [ <- |[ <- |[]]]; [pose proof (eq_trans (eq_sym (int_run_other [("a", 3); ("b", 2); ("c", 1)]%Z q d Hq)) Hs) as H|pose proof (eq_trans (eq_sym (int_run_other [("b", 5)]%Z q d Hq)) Hs) as H]; discriminate H. }
    apply (NoDup_incl_length Hn) in Hi. cbn in Hi. lia.
  - split; [exact borda_listing|]. split; [|split].
    + unfold borda_xs. cbn -[INR Rdiv]. f_equal; [cbn; lra|]. f_equal; [cbn; lra|]. f_equal; cbn; lra.
    + intros x [ <- |[ <- |[]]] rb Hb.
      * exists 2%nat. split; [reflexivity|]. assert (Some rb = Some 3%nat) as He by exact (eq_sym Hb). injection He as ->. lia.
      * assert (Some rb = None) as He by exact (eq_sym Hb). discriminate He.
    + exists (int_run [("a", 3); ("b", 2); ("c", 1)]%Z). split; [now left|]. exists 2%nat. split; [reflexivity|]. intros rb Hb. assert (Some rb = Some 3%nat) as He by exact (eq_sym Hb). injection He as ->. lia.
Qed.
