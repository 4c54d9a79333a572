(** P_Float7.v: ndcg of one query in binary64 *)
From Coq Require Import Reals ZArith Lra Lia SpecFloat Psatz List Sorted Permutation.
From Flocq Require Import Core.Core IEEE754.BinarySingleNaN.
From Verif Require Import Base Dict Num Env M_Common M_Qrels M_Run M_Metrics Spec_Metrics Spec_Float P_Base P_Dict P_Metrics P_Metrics2 P_Metrics3 P_Metrics4 P_Metrics5 P_Metrics7 P_Float P_MetricsG P_Float2 P_Float3 P_Float4 P_Float5 P_Float6.
Import ListNotations.
Open Scope R_scope.

Definition gainZ (j : dict Z) (lvl : Z) (d : string) : Z := match dget j d with Some v => if (lvl <=? v)%Z then v else 0%Z | None => 0%Z end.
Lemma gain_gainZ j lvl d : gain j lvl d = IZR (gainZ j lvl d).
Proof. unfold gain, gainZ. destruct (dget j d); [|reflexivity]. now destruct (lvl <=? z)%Z. Qed.
Lemma map_top {B} (f : string -> B) ds k : map f (top ds k) = match k with O => map f ds | _ => firstn k (map f ds) end.
Proof. unfold top. destruct k; [reflexivity|]. now rewrite firstn_map. Qed.
Definition zdesc : list Z -> Prop := StronglySorted (fun a b => (b <= a)%Z).
Lemma zdesc_perm l l' : zdesc l -> zdesc l' -> Permutation l l' -> l = l'.
Proof.
  unfold zdesc. revert l'. induction l as [|a l IH]; intros l' H H' Hp; [now apply Permutation_nil in Hp|]. destruct l' as [|b l']; [apply Permutation_sym, Permutation_nil in Hp; discriminate|].
  inversion H as [|? ? Hs Hf]; inversion H' as [|? ? Hs' Hf']; subst. rewrite Forall_forall in Hf, Hf'.
  assert (a = b) as ->.
  { assert (Ha : In a (b :: l')) by (eapply Permutation_in; [exact Hp|now left]). assert (Hb : In b (a :: l)) by (eapply Permutation_in; [apply Permutation_sym; exact Hp|now left]).
    destruct Ha as [ -> |Ha]; [reflexivity|]. destruct Hb as [ -> |Hb]; [reflexivity|]. specialize (Hf _ Hb). specialize (Hf' _ Ha). lia. }
  f_equal. apply IH; auto. eapply Permutation_cons_inv; eauto.
Qed.
Lemma zdesc_split l : zdesc l -> (forall z, In z l -> (0 <= z)%Z) -> exists m, l = filter (fun z => negb (z =? 0)%Z) l ++ repeat 0%Z m.
Proof.
  induction l as [|a l IH]; intros Hs Hp; [now exists 0%nat|]. inversion Hs as [|? ? Hs' Hf]; subst. destruct IH as (m & Hm); auto; [intros; apply Hp; now right|]. cbn [filter].
  destruct (Z.eqb_spec a 0) as [ -> |Hn]; cbn [negb]; [|exists m; cbn; now rewrite <- Hm].
  assert (Hz : l = repeat 0%Z (length l)).
  { clear - Hf Hp. assert (H : forall z, In z l -> z = 0%Z) by (intros z Hz; rewrite Forall_forall in Hf; specialize (Hf z Hz); specialize (Hp z (or_intror Hz)); lia). clear Hf Hp.
    induction l as [|x l IH]; [reflexivity|]. cbn. rewrite (H x (or_introl eq_refl)) at 1. f_equal. apply IH. intros; apply H; now right. }
  exists (S (length l)). assert (Hfe : filter (fun z => negb (z =? 0)%Z) l = []) by (rewrite Hz; clear; induction (length l) as [|n IH]; [reflexivity|]; cbn; exact IH). rewrite Hfe. cbn. f_equal. exact Hz.
Qed.
Lemma StronglySorted_filter {A} (R : A -> A -> Prop) p l : StronglySorted R l -> StronglySorted R (filter p l).
Proof.
  induction 1 as [|a l Hs IH Hf]; cbn; [constructor|]. destruct (p a); [|exact IH]. constructor; [exact IH|]. rewrite Forall_forall in *. intros b Hb. apply filter_In in Hb. now apply Hf.
Qed.
Lemma firstn_zeros L a k : exists a', firstn k (L ++ repeat 0%Z a) = firstn k L ++ repeat 0%Z a'.
Proof.
  rewrite firstn_app. exists (Nat.min (k - length L) a). f_equal. generalize (k - length L)%nat. clear. induction a as [|a IH]; intros n; [now rewrite firstn_nil, Nat.min_0_r|]. destruct n as [|n]; [reflexivity|]. cbn. now rewrite IH.
Qed.
Lemma Rpower2_Z z : (0 <= z)%Z -> Rpower 2 (IZR z) = IZR (2 ^ z).
Proof.
  intros Hz. rewrite <- (Z2Nat.id z Hz) at 1. rewrite <- INR_IZR_INZ, Rpower_pow by lra. rewrite (pow_IZR 2 (Z.to_nat z)). now rewrite Z2Nat.id.
Qed.

Section S.
Variables (l1 l2 : sf -> sf) (pw : sf -> sf -> sf).
Notation N64 := (NumSF_with l1 l2 pw).
Variable (c : nat).
Hypothesis (Hlog : log2_accurate c l2) (Hc : (c <= 1000)%nat).
Variable (jv : bool).
Hypothesis Hpow : jv = false -> pow2_exact pw.
Variables (E : @env N64) (lvl : Z) (j : dict Z) (r : dict sf).
Hypothesis (Q : query64 E lvl j r) (Hlvl : (1 <= lvl)%Z) (Hdesc : judgments_desc j).
Hypothesis Hgr : jv = false -> Forall (fun dv => (snd dv <= 53)%Z) j.
Notation qr := (@to_rows N64 E Z (@q_tof N64) j).
Notation rr := (@to_rows N64 E sf (@r_tof N64) r).
Notation ds := (dkeys r).
Notation rel := (relevant j lvl).
Notation gz := (gainZ j lvl).
Notation VV := (V (lv l2) (gi jv)).
(** the gain of the metric *)
Definition gR (d : string) : R := if jv then gain j lvl d else burges_gain j lvl d.

Let Hj : dict_ok j := q64_j _ _ _ _ Q.
Lemma gz_nonneg d : (0 <= gz d)%Z.
Proof. unfold gainZ. destruct (dget j d); [|lia]. destruct (Z.leb_spec lvl z); lia. Qed.
Lemma gz_rel d : negb (gz d =? 0)%Z = rel d.
Proof. unfold gainZ, relevant. destruct (dget j d); [|reflexivity]. destruct (Z.leb_spec lvl z); [|reflexivity]. destruct (Z.eqb_spec z 0); [lia|reflexivity]. Qed.
Lemma gz_ok d : gok jv (gz d).
Proof.
  pose proof (gz_nonneg d) as Hn. unfold gok. unfold gainZ in *. destruct (dget j d) as [v|] eqn:Hd; [|destruct jv; lia]. apply dget_Some_in in Hd.
  pose proof (q64_vals _ _ _ _ Q) as Hv. rewrite Forall_forall in Hv. specialize (Hv _ Hd). cbn in Hv. unfold small in Hv. destruct jv; [destruct (lvl <=? v)%Z; lia|].
  specialize (Hgr eq_refl). rewrite Forall_forall in Hgr. specialize (Hgr _ Hd). cbn in Hgr. destruct (lvl <=? v)%Z; lia.
Qed.
Lemma gz_oks l : Forall (gok jv) (map gz l).
Proof. apply Forall_forall. intros z Hz. apply in_map_iff in Hz as (d & <- & _). apply gz_ok. Qed.
Lemma gR_gi d : gR d = IZR (gi jv (gz d)).
Proof.
  unfold gR, gi, burges_gain. rewrite !gain_gainZ. destruct jv; [reflexivity|]. rewrite minus_IZR, Rpower2_Z by apply gz_nonneg. reflexivity.
Qed.
Lemma gain_g_gz d : @gain_g N64 j lvl d = @fofZ N64 (gz d).
Proof. unfold gain_g, gainZ. destruct (dget j d); [|reflexivity]. now destruct (lvl <=? z)%Z. Qed.
Lemma dcg_f ds0 k : @fsum N64 (@dcg_terms N64 jv (map (@gain_g N64 j lvl) (top ds0 k))) = sumf l1 l2 pw jv (map gz (top ds0 k)).
Proof. rewrite <- dcg_terms_sumf. f_equal. f_equal. rewrite map_map. apply map_ext. apply gain_g_gz. Qed.
Lemma Sx_dcg ds0 k : Sx jv (map gz (top ds0 k)) = S_dcg_with ds0 gR k.
Proof.
  unfold Sx, S_dcg_with, Rsum_n. f_equal.
  rewrite (map_enumerate_seq (fun i z => IZR (gi jv z) / log2 (INR (i + 2))) _ (gz EmptyString)). rewrite map_length. apply map_ext_in. intros i Hi. apply in_seq in Hi.
  rewrite map_nth, <- gR_gi. do 2 f_equal. unfold top in *. destruct k as [|k']; [reflexivity|]. rewrite firstn_length in Hi. rewrite <- (firstn_skipn (S k') ds0) at 2. rewrite app_nth1; [reflexivity|rewrite firstn_length; lia].
Qed.
Lemma is_ideal_gR k : is_ideal gR k (S_dcg_with (dkeys j) gR k).
Proof.
  unfold gR. destruct jv; [apply dcg_ideal; auto; lia|]. apply (dcg_burges_ideal j lvl); auto; lia.
Qed.
Lemma gR_ge1 d : rel d = true -> 1 <= gR d.
Proof.
  intros Hd. rewrite gR_gi. apply (IZR_le 1). rewrite <- gz_rel in Hd. pose proof (gz_nonneg d). destruct (Z.eqb_spec (gz d) 0) as [|Hn]; [discriminate|]. unfold gi. destruct jv; [lia|].
  assert (2 ^ 1 <= 2 ^ gz d)%Z by (apply Z.pow_le_mono_r; lia). lia.
Qed.
Lemma gR_nonneg d : 0 <= gR d.
Proof. rewrite gR_gi. apply (IZR_le 0). apply (gi_bound pw c Hc jv Hpow), gz_ok. Qed.
Lemma log2_2 : log2 2 = 1.
Proof. unfold log2. field. pose proof ln2_pos. lra. Qed.
Lemma ideal_ge1 k : (0 < n_relevant j lvl)%nat -> 1 <= S_dcg_with (dkeys j) gR k.
Proof.
  intros Hp. assert (Hex : exists d, rel d = true).
  { rewrite (n_relevant_count j lvl Hj) in Hp. destruct (existsb rel (dkeys j)) eqn:He; [apply existsb_exists in He as (d & _ & Hd); eauto|].
    exfalso. rewrite (proj2 (count_zero_iff rel (dkeys j))) in Hp; [lia|]. intros a Ha. destruct (rel a) eqn:Hra; [|reflexivity]. assert (existsb rel (dkeys j) = true) by (apply existsb_exists; eauto). congruence. }
  destruct Hex as (d & Hd). pose proof (proj2 (is_ideal_gR k) [d] ltac:(repeat constructor; auto)) as Hi. eapply Rle_trans; [|exact Hi].
  unfold S_dcg_with. replace (top [d] k) with [d] by (destruct k as [|[|k']]; reflexivity). unfold Rsum_n. cbn [length seq map Rsum nth plus]. replace (INR 2) with 2 by (cbn; lra). rewrite log2_2. pose proof (gR_ge1 d Hd). lra.
Qed.
Lemma top_le l k : (length (top l k) <= length l)%nat.
Proof. apply top_length_le. Qed.
Lemma len_r k : (Z.of_nat (length (map gz (top ds k))) <= 2 ^ 52)%Z.
Proof. rewrite map_length. pose proof (top_le ds k). pose proof (q64_nr _ _ _ _ Q) as H1. unfold dkeys in *. rewrite map_length in H. unfold sf in *. lia. Qed.
Lemma len_j k : (Z.of_nat (length (map gz (top (dkeys j) k))) <= 2 ^ 52)%Z.
Proof. rewrite map_length. pose proof (top_le (dkeys j) k). pose proof (q64_nj _ _ _ _ Q) as H1. unfold dkeys in *. rewrite map_length in H. lia. Qed.

Definition ndcg_val (k : nat) : R := if Req_EM_T (S_dcg_with (dkeys j) gR k) 0 then 0 else S_dcg_with ds gR k / S_dcg_with (dkeys j) gR k.
Lemma ids_j : ids_distinct (doc_key E) (dkeys j).
Proof. intros d d' Hd Hd'. apply (q64_ids _ _ _ _ Q); apply in_or_app; now left. Qed.
Lemma ndcg_f k : @_ndcg N64 qr rr k lvl jv = match n_relevant j lvl with O => sf_div (sf_of_Z 0) (sf_of_Z 1)
  | _ => let i := sumf l1 l2 pw jv (map gz (top (dkeys j) k)) in sf_div (sumf l1 l2 pw jv (map gz (top ds k))) (if sf_eqb i (sf_of_Z 0) then sf_of_Z 1 else i) end.
Proof.
  unfold _ndcg. pose proof (dcg_g E j lvl (Hle _ _ _ _ _ _ _ Q) r Hj (q64_ids _ _ _ _ Q) k jv) as H1. pose proof (idcg_g E j lvl k jv (Hle _ _ _ _ _ _ _ Q) Hj ids_j) as H2.
  rewrite H2. change (@_dcg N64 qr rr k lvl jv) with (@_dcg N64 (@to_rows N64 E Z (@q_tof N64) j) (@to_rows N64 E (@F N64) (@r_tof N64) r) k lvl jv). rewrite H1.
  destruct (n_relevant j lvl); [reflexivity|]. rewrite dcg_f. unfold rkg. change (@dkeys (@F N64) r) with (@dkeys sf r). rewrite dcg_f. reflexivity.
Qed.
Lemma norel_gR d : n_relevant j lvl = 0%nat -> gR d = 0.
Proof.
  intros H. rewrite gR_gi. assert (Hz : gz d = 0%Z). { pose proof (gz_rel d) as Hr. rewrite (no_relevant_top j lvl H) in Hr. destruct (Z.eqb_spec (gz d) 0); [assumption|discriminate]. } rewrite Hz, (gi_0 pw jv Hpow). reflexivity.
Qed.
Lemma norel_dcg ds0 k : n_relevant j lvl = 0%nat -> S_dcg_with ds0 gR k = 0.
Proof. intros H. unfold S_dcg_with. apply Rsum_zero. intros x Hx. apply in_map_iff in Hx as (i & <- & _). rewrite norel_gR by exact H. unfold Rdiv. ring. Qed.
Lemma zero_over_one : is64 (sf_div (sf_of_Z 0) (sf_of_Z 1)) 0.
Proof. pose proof (fin_div _ _ 0 1 (fin_zero l1 l2 pw) (fin_one l1 l2 pw) ltac:(lra)) as H. replace (0 / 1) with 0 in H by field. rewrite rnd_0, Rabs_R0 in H. apply H. apply bpow_gt_0. Qed.

Lemma ndcg_within k : within (2 * c + length (top ds k) + length (top (dkeys j) k) + 3) (@_ndcg N64 qr rr k lvl jv) (ndcg_val k) /\ 0 <= ndcg_val k.
Proof.
  rewrite ndcg_f. unfold ndcg_val. destruct (n_relevant j lvl) as [|n] eqn:Hn.
  - rewrite norel_dcg by exact Hn. destruct (Req_EM_T 0 0); [|lra]. split; [|lra]. exists 0. split; [apply zero_over_one|unfold Rdiv; lra].
  - pose proof (ideal_ge1 k ltac:(rewrite Hn; lia)) as Hi. destruct (Req_EM_T _ 0); [lra|].
    destruct (sumf_within l1 l2 pw c Hlog Hc jv Hpow _ (gz_oks (top ds k)) (len_r k)) as (W1 & B1 & T1 & P1). destruct (sumf_within l1 l2 pw c Hlog Hc jv Hpow _ (gz_oks (top (dkeys j) k)) (len_j k)) as (W2 & B2 & T2 & P2).
    rewrite Sx_dcg in *. cbv zeta.
    assert (Hz : sf_eqb (sumf l1 l2 pw jv (map gz (top (dkeys j) k))) (sf_of_Z 0) = false).
    { destruct W2 as (v & Fv & Nv). rewrite (eqb64 _ _ v 0); [|exact Fv|apply (fin_zero l1 l2 pw)]. apply Req_bool_false. intros H0. apply (near_zero _ _ _ (proj1 B2) (one_u _) Nv) in H0. lra. }
    rewrite Hz. pose proof (len_r k) as Lr. pose proof (len_j k) as Lj. rewrite !map_length in *. split.
    + replace (2 * c + length (top ds k) + length (top (dkeys j) k) + 3)%nat with (S ((S c + length (top ds k)) + (S c + length (top (dkeys j) k)))) by lia.
      apply within_div; auto; [| |lia].
      * eapply Rle_trans; [apply B2|]. rewrite <- bpow_53, <- bpow_plus. apply bpow_le. lia.
      * destruct P1 as [P1|P1]; [now right|left]. eapply Rle_trans; [|exact P1]. apply bpow_le. lia.
    + apply Rmult_le_pos; [lra|left; apply Rinv_0_lt_compat; lra].
Qed.

(** the score as one rounded quotient *)
Lemma ndcg_quot k : (0 < n_relevant j lvl)%nat -> 0 < VV (map gz (top (dkeys j) k)) /\
  is64 (@_ndcg N64 qr rr k lvl jv) (rnd64 (VV (map gz (top ds k)) / VV (map gz (top (dkeys j) k)))).
Proof.
  intros Hp. pose proof (ideal_ge1 k Hp) as Hi. rewrite ndcg_f. destruct (n_relevant j lvl) as [|n]; [lia|]. cbv zeta.
  destruct (V_64 l1 l2 pw c Hlog Hc jv Hpow _ (gz_oks (top ds k)) (len_r k)) as (F1 & B1). destruct (V_64 l1 l2 pw c Hlog Hc jv Hpow _ (gz_oks (top (dkeys j) k)) (len_j k)) as (F2 & B2).
  destruct (sumf_within l1 l2 pw c Hlog Hc jv Hpow _ (gz_oks (top (dkeys j) k)) (len_j k)) as (W2 & S2 & _ & _). rewrite Sx_dcg in *.
  assert (Hv : VV (map gz (top (dkeys j) k)) <> 0). { destruct W2 as (v & Fv & Nv). rewrite (is64_fun _ _ _ F2 Fv). intros H0. apply (near_zero _ _ _ (proj1 S2) (one_u _) Nv) in H0. lra. }
  assert (Hv1 : bpow radix2 (-60) <= VV (map gz (top (dkeys j) k))).
  { destruct W2 as (v & Fv & Nv). rewrite (is64_fun _ _ _ F2 Fv). destruct Nv as [Nv _]. eapply Rle_trans; [|exact Nv].
    pose proof (len_j k) as Lj. pose proof (pow_le_16 (S c + length (map gz (top (dkeys j) k))) ltac:(lia)) as H16. 
    apply Rle_trans with (/ 16); [replace (/ 16) with (bpow radix2 (-4)) by (cbn; lra); apply bpow_le; lia|].
    apply (Rmult_le_reg_r ((1 + ulp64) ^ (S c + length (map gz (top (dkeys j) k))))); [lra|]. unfold Rdiv. rewrite Rmult_assoc, Rinv_l by lra. lra. }
  assert (Hz : sf_eqb (sumf l1 l2 pw jv (map gz (top (dkeys j) k))) (sf_of_Z 0) = false).
  { rewrite (eqb64 _ _ _ 0 F2); [|apply (fin_zero l1 l2 pw)]. apply Req_bool_false. exact Hv. }
  rewrite Hz. split; [lra|]. apply fin_div; [exact F1|exact F2|exact Hv|].
  assert (Hq : 0 <= VV (map gz (top ds k)) / VV (map gz (top (dkeys j) k)) <= 2 ^ 200); [|now apply rnd_bounded].
  pose proof (bpow_gt_0 radix2 (-60)) as Hb60. split; [apply Rmult_le_pos; [lra|left; apply Rinv_0_lt_compat; lra]|].
  apply (Rmult_le_reg_r (VV (map gz (top (dkeys j) k)))); [lra|]. unfold Rdiv. rewrite Rmult_assoc, Rinv_l, Rmult_1_r by lra.
  apply Rle_trans with (2 ^ 53 * 2 ^ 53). { eapply Rle_trans; [apply B1|]. apply Rmult_le_compat_r; [pose proof pow53_ge_1; lra|]. rewrite INR_IZR_INZ, pow53. apply IZR_le. pose proof (len_r k). lia. }
  apply Rle_trans with (2 ^ 200 * bpow radix2 (-60)); [|apply Rmult_le_compat_l; [apply pow_le; lra|exact Hv1]].
  replace (2 ^ 200) with (bpow radix2 200) by (rewrite <- (IZR_Zpower radix2 200) by lia; rewrite (pow_IZR 2 200); reflexivity). rewrite <- bpow_53, <- !bpow_plus. apply bpow_le. lia.
Qed.

(** gains of the judged documents: those of the relevant ones, then zeros *)
Lemma gz_desc l : StronglySorted (fun a b => gain j lvl b <= gain j lvl a) l -> zdesc (map gz l).
Proof.
  unfold zdesc. induction 1 as [|a l Hs IH Hf]; cbn; constructor; auto. rewrite Forall_forall in *. intros z Hz. apply in_map_iff in Hz as (d & <- & Hd). specialize (Hf d Hd). rewrite !gain_gainZ in Hf. now apply le_IZR.
Qed.
Lemma filter_map_gz l : filter (fun z => negb (z =? 0)%Z) (map gz l) = map gz (filter rel l).
Proof. induction l as [|d l IH]; [reflexivity|]. cbn. rewrite gz_rel. destruct (rel d); cbn; now rewrite IH. Qed.
Lemma judged_gains : exists m, map gz (dkeys j) = map gz (filter rel (dkeys j)) ++ repeat 0%Z m.
Proof.
  destruct (zdesc_split (map gz (dkeys j))) as (m & Hm).
  - apply gz_desc, sorted_gain; auto. lia.
  - intros z Hz. apply in_map_iff in Hz as (d & <- & _). apply gz_nonneg.
  - exists m. now rewrite <- filter_map_gz.
Qed.
Lemma V_top_zeros L L' a b (k : nat) ds0 ds1 : map gz ds0 = L ++ repeat 0%Z a -> map gz ds1 = L' ++ repeat 0%Z b -> L = L' -> VV (map gz (top ds0 k)) = VV (map gz (top ds1 k)).
Proof.
  intros H0 H1 ->. rewrite !map_top, H0, H1. destruct k as [|k]; [rewrite !V_zeros by apply (gi_0 pw jv Hpow); reflexivity|].
  destruct (firstn_zeros L' a (S k)) as (a' & ->). destruct (firstn_zeros L' b (S k)) as (b' & ->). rewrite !V_zeros by apply (gi_0 pw jv Hpow). reflexivity.
Qed.
Lemma ndcg_one k rels rest : (0 < n_relevant j lvl)%nat -> ds = rels ++ rest -> Permutation rels (filter rel (dkeys j)) -> (forall d, In d rest -> rel d = false) ->
  StronglySorted (fun a b => gain j lvl b <= gain j lvl a) rels -> is64 (@_ndcg N64 qr rr k lvl jv) 1.
Proof.
  intros Hp Hds Hperm Hrest Hs. destruct (ndcg_quot k Hp) as (Hv & Hx). destruct judged_gains as (m & Hm).
  assert (Hr : map gz ds = map gz rels ++ repeat 0%Z (length rest)).
  { rewrite Hds, map_app. f_equal. pose proof gz_rel as G. clear - Hrest G. induction rest as [|d l IH]; [reflexivity|]. cbn. f_equal; [|apply IH; intros; apply Hrest; now right].
    pose proof (G d) as Hg. rewrite (Hrest d) in Hg by now left. destruct (Z.eqb_spec (gz d) 0); [assumption|discriminate]. }
  assert (He : VV (map gz (top ds k)) = VV (map gz (top (dkeys j) k))).
  { apply (V_top_zeros (map gz rels) (map gz (filter rel (dkeys j))) (length rest) m); auto. apply zdesc_perm; [now apply gz_desc| |now apply Permutation_map].
    apply gz_desc. apply StronglySorted_filter. apply sorted_gain; auto. lia. }
  rewrite He in Hx. replace (VV _ / VV _) with 1 in Hx by (field; lra). rewrite (rnd_fmt 1 fmt_1) in Hx. exact Hx.
Qed.

(** equal gains *)
Lemma ndcg_le1 k g : log2_monotone l2 -> (forall d v, In (d, v) j -> (lvl <= v)%Z -> v = g) -> exists x, is64 (@_ndcg N64 qr rr k lvl jv) x /\ 0 <= x <= 1.
Proof.
  intros Hmono Heq. destruct (n_relevant j lvl) as [|n] eqn:Hn.
  { rewrite ndcg_f, Hn. exists 0. split; [apply zero_over_one|lra]. }
  destruct (ndcg_quot k ltac:(rewrite Hn; lia)) as (Hv & Hx). exists (rnd64 (VV (map gz (top ds k)) / VV (map gz (top (dkeys j) k)))). split; [exact Hx|].
  assert (Hg : forall d, gz d = g \/ gz d = 0%Z).
  { intros d. unfold gainZ. destruct (dget j d) as [v|] eqn:Hd; [|now right]. apply dget_Some_in in Hd. destruct (Z.leb_spec lvl v); [left; eapply Heq; eauto|now right]. }
  assert (Hgr' : forall d, rel d = true -> gz d = g). { intros d Hd. rewrite <- gz_rel in Hd. destruct (Hg d) as [|e]; [assumption|rewrite e in Hd; discriminate]. }
  assert (Hgo : gok jv g).
  { assert (Hex : exists d, rel d = true). { rewrite (n_relevant_count j lvl Hj), count_filter in Hn. destruct (filter rel (dkeys j)) as [|d l] eqn:He; [discriminate|]. exists d. assert (Hd : In d (filter rel (dkeys j))) by (rewrite He; now left). apply filter_In in Hd. tauto. }
    destruct Hex as (d & Hd). rewrite <- (Hgr' d Hd). apply gz_ok. }
  assert (Hmono' : forall i i', (i <= i')%nat -> (Z.of_nat i' < 2 ^ 52)%Z -> lv l2 i <= lv l2 i').
  { intros i i' Hi Hi'. destruct (lv_64 l1 l2 pw c Hlog Hc i ltac:(lia)) as (A & _ & _). destruct (lv_64 l1 l2 pw c Hlog Hc i' ltac:(lia)) as (B & _ & _). eapply (Hmono (Z.of_nat (i + 1 + 1)) (Z.of_nat (i' + 1 + 1))); [lia|lia|exact A|exact B]. }
  assert (H1 : VV (map gz (top ds k)) <= VV (repeat g (S_hits j lvl ds k))).
  { eapply Rle_trans; [apply (V_equal l1 l2 pw c Hlog Hc jv Hpow g); [exact Hmono'|exact Hgo| |apply len_r]|].
    - apply Forall_forall. intros z Hz. apply in_map_iff in Hz as (d & <- & _). apply Hg.
    - right. do 2 f_equal. unfold S_hits. pose proof gz_rel as G. generalize (top ds k). clear - G. intros l. induction l as [|d l IH]; [reflexivity|]. cbn. now rewrite G, IH. }
  (* the ideal gains *)
  destruct judged_gains as (m & Hm). set (R' := match k with O => n_relevant j lvl | _ => Nat.min k (n_relevant j lvl) end).
  assert (Hrep : map gz (filter rel (dkeys j)) = repeat g (n_relevant j lvl)).
  { rewrite (n_relevant_count j lvl Hj), count_filter. assert (Hall : forall d, In d (filter rel (dkeys j)) -> gz d = g) by (intros d Hd; apply filter_In in Hd; apply Hgr'; tauto).
    clear - Hall. induction (filter rel (dkeys j)) as [|d l IH]; [reflexivity|]. cbn. rewrite (Hall d) by now left. f_equal. apply IH. intros; apply Hall; now right. }
  assert (Hfr : forall a b, firstn a (repeat g b) = repeat g (Nat.min a b)) by (intros a; induction a as [|a IH]; intros [|b]; cbn; [reflexivity|reflexivity|reflexivity|now rewrite IH]).
  assert (H2 : VV (map gz (top (dkeys j) k)) = VV (repeat g R')).
  { rewrite map_top, Hm, Hrep. unfold R'. destruct k as [|k']; [now rewrite V_zeros by apply (gi_0 pw jv Hpow)|]. destruct (firstn_zeros (repeat g (n_relevant j lvl)) m (S k')) as (a' & ->). rewrite V_zeros by apply (gi_0 pw jv Hpow). now rewrite Hfr. }
  assert (Hh : (S_hits j lvl ds k <= R')%nat).
  { pose proof (hits_rel _ _ _ _ _ _ _ Q k) as A. unfold R'. destruct k as [|k']; [exact A|]. apply Nat.min_glb; [|exact A]. apply hits_le_depth. }
  assert (HR : (R' <= length j)%nat) by (unfold R'; assert (n_relevant j lvl <= length j)%nat by apply count_le_length; destruct k; lia).
  assert (H3 : VV (repeat g (S_hits j lvl ds k)) <= VV (repeat g R')).
  { replace R' with (S_hits j lvl ds k + (R' - S_hits j lvl ds k))%nat by lia. rewrite repeat_app. apply (V_le_app l1 l2 pw c Hlog Hc jv Hpow).
    - apply Forall_forall. intros z Hz. apply repeat_spec in Hz. now subst.
    - rewrite !repeat_length. pose proof (q64_nj _ _ _ _ Q). lia. }
  destruct (V_64 l1 l2 pw c Hlog Hc jv Hpow _ (gz_oks (top ds k)) (len_r k)) as (_ & B1).
  assert (Hq : 0 <= VV (map gz (top ds k)) / VV (map gz (top (dkeys j) k)) <= 1).
  { split; [apply Rmult_le_pos; [lra|left; apply Rinv_0_lt_compat; lra]|]. apply (Rmult_le_reg_r (VV (map gz (top (dkeys j) k)))); [lra|]. unfold Rdiv. rewrite Rmult_assoc, Rinv_l by lra. rewrite H2. lra. }
  split; [apply rnd_ge_fmt; [apply fmt_0|lra]|apply rnd_le_fmt; [apply fmt_1|lra]].
Qed.
End S.
