(** P_Alike.v: from the order of a list of documents to the order of scores and ranks (C99) *)
From Coq Require Import Reals Lra Psatz.
From Verif Require Import Base Dict Num NumLaws Env EnvEx M_Common M_Qrels M_Run M_History M_Norm M_Fusion
  Spec_DS Spec_Hist Spec_Metrics Spec_Eval Spec_Norm Spec_Fusion Spec_Unanimity Spec_Local Spec_Alike
  P_Base P_Dict P_Common P_DS P_Metrics P_Eval P_Norm T_Norm T_Norm2 T_Norm3 P_Fusion P_Fusion2 P_Fusion3
  T_Fusion T_Fusion2 T_Fusion3 T_Fusion4 T_Fusion5 T_Fusion6 Ex_Metrics P_Unanimity T_Unanimity P_Perfect2 T_Scale.
Open Scope string_scope.
Open Scope list_scope.
Open Scope nat_scope.

Definition before (ds : list string) (a b : string) : Prop :=
  exists i j, i < j /\ nth_error ds i = Some a /\ nth_error ds j = Some b.
Definition scores_as (x : Run NumR) (q : string) (ds : list string) : Prop :=
  (forall d, retrieves x q d <-> In d ds) /\
  forall a b, before ds a b -> exists sa sb, score_of x q a = Some sa /\ score_of x q b = Some sb /\ (sb < sa)%R.

Lemma ss_nth {A} (Rl : A -> A -> Prop) l : StronglySorted Rl l -> forall i j a b, i < j -> nth_error l i = Some a -> nth_error l j = Some b -> Rl a b.
Proof.
  induction 1 as [|c l Hs IH Hf]; intros i j a b Hij Hi Hj; [now destruct i|].
  destruct j as [|j]; [lia|]. destruct i as [|i]; cbn in Hi, Hj.
  - injection Hi as ->. rewrite Forall_forall in Hf. apply Hf. eapply nth_error_In; eauto.
  - eapply IH; [|exact Hi|exact Hj]. lia.
Qed.
Lemma before_in ds a b : before ds a b -> In a ds /\ In b ds.
Proof. intros (i & j & _ & Hi & Hj). split; eapply nth_error_In; eauto. Qed.
Lemma in_two ds a b : In a ds -> In b ds -> a = b \/ before ds a b \/ before ds b a.
Proof.
  intros Ha Hb. apply In_nth_error in Ha as [i Hi]. apply In_nth_error in Hb as [j Hj].
  destruct (Nat.lt_trichotomy i j) as [H|[H|H]].
  - right; left. now exists i, j.
  - left. subst. congruence.
  - right; right. now exists j, i.
Qed.
Lemma nth_inj (ds : list string) i j d : NoDup ds -> nth_error ds i = Some d -> nth_error ds j = Some d -> i = j.
Proof. intros Hn Hi Hj. apply (proj1 (NoDup_nth_error ds) Hn); [apply nth_error_Some; congruence|congruence]. Qed.
Lemma before_asym ds a b : NoDup ds -> before ds a b -> before ds b a -> False.
Proof.
  intros Hn (i & j & Hij & Hi & Hj) (j' & i' & Hji & Hj' & Hi'). assert (i = i') by (eapply nth_inj; eauto). assert (j = j') by (eapply nth_inj; eauto). lia.
Qed.
Lemma before_rev ds a b : before (rev ds) a b <-> before ds b a.
Proof.
  assert (H : forall l u v, before l u v -> before (rev l) v u).
  { intros l u v (i & j & Hij & Hi & Hj). assert (i < length l) by (apply nth_error_Some; congruence). assert (j < length l) by (apply nth_error_Some; congruence).
    exists (length l - S j), (length l - S i). split; [lia|].
    assert (Hr : forall k d, nth_error l k = Some d -> k < length l -> nth_error (rev l) (length l - S k) = Some d).
    { intros k d Hk Hlt. rewrite (nth_error_nth' _ ""%string) by (rewrite rev_length; lia). rewrite rev_nth by lia.
      replace (length l - S (length l - S k)) with k by lia. f_equal. now apply nth_error_nth. }
    split; now apply Hr. }
  split; [|apply H]. intros Hb. apply H in Hb. now rewrite rev_involutive in Hb.
Qed.

Lemma ranks_nodup x q ds : a_run x -> ranks_as x q ds -> NoDup ds.
Proof. intros Ha [<- _]. exact (results_ok x q Ha). Qed.
Lemma nth_key (r : dict R) i d : nth_error (dkeys r) i = Some d -> exists s, nth_error r i = Some (d, s).
Proof.
  unfold dkeys. rewrite nth_error_map. destruct (nth_error r i) as [[d' s]|]; cbn; intros H; [|discriminate]. injection H as ->. now exists s.
Qed.
Lemma ranks_scores x q ds : a_run x -> ranks_as x q ds -> scores_as x q ds.
Proof.
  intros Ha [Hk Hs]. split; [intros d; rewrite retrieves_key, Hk; tauto|].
  intros a b (i & j & Hij & Hi & Hj). rewrite <- Hk in Hi, Hj. apply nth_key in Hi as [sa Hi]. apply nth_key in Hj as [sb Hj].
  exists sa, sb. rewrite !score_of_results. split; [apply in_dget; [now apply results_ok|eapply nth_error_In; eauto]|].
  split; [apply in_dget; [now apply results_ok|eapply nth_error_In; eauto]|]. exact (ss_nth _ _ Hs i j _ _ Hij Hi Hj).
Qed.
Lemma scores_ranks y q ds : a_run y -> ranked y -> NoDup ds -> scores_as y q ds -> ranks_as y q ds.
Proof.
  intros Ha Hr Hn [Hd Hb]. pose proof (results_ok y q Ha) as Hok.
  assert (Hrank : forall i j p p', i < j -> nth_error (results_of y q) i = Some p -> nth_error (results_of y q) j = Some p' -> (snd p' <= snd p)%R).
  { intros i j p p' Hij Hi Hj. exact (ss_nth _ _ (Hr q) i j p p' Hij Hi Hj). }
  assert (Hget : forall d i s, nth_error (results_of y q) i = Some (d, s) -> score_of y q d = Some s).
  { intros d i s Hi. rewrite score_of_results. apply in_dget; [exact Hok|eapply nth_error_In; eauto]. }
  assert (Hbef : forall a b, before (dkeys (results_of y q)) a b -> before ds a b).
  { intros a b Hab. pose proof (before_in _ _ _ Hab) as [Ia Ib]. rewrite <- retrieves_key in Ia, Ib. apply Hd in Ia. apply Hd in Ib.
    destruct (in_two ds a b Ia Ib) as [Heq|[H|H]]; [|exact H|].
    - subst. destruct Hab as (i & j & Hij & Hi & Hj). assert (i = j) by (eapply nth_inj; eauto). lia.
    - exfalso. destruct (Hb _ _ H) as (sb & sa & Hsb & Hsa & Hlt). destruct Hab as (i & j & Hij & Hi & Hj).
      apply nth_key in Hi as [va Hi]. apply nth_key in Hj as [vb Hj]. pose proof (Hrank i j _ _ Hij Hi Hj) as Hle. cbn [snd] in Hle.
      apply Hget in Hi. apply Hget in Hj. rewrite Hsa in Hi. rewrite Hsb in Hj. injection Hi as ->. injection Hj as ->. lra. }
  assert (Hkeys : dkeys (results_of y q) = ds).
  { assert (Hs1 : StronglySorted (before ds) (dkeys (results_of y q))).
    { apply sorted_nth. intros i i' a b Hii Hi Hi'. apply Hbef. now exists i, i'. }
    assert (Hs2 : StronglySorted (before ds) ds).
    { apply sorted_nth. intros i i' a b Hii Hi Hi'. now exists i, i'. }
    assert (Hp : Permutation (dkeys (results_of y q)) ds).
    { apply NoDup_Permutation; [exact Hok|exact Hn|]. intros d. rewrite <- retrieves_key. apply Hd. }
    assert (Hu : forall l l' : list string, Permutation l l' -> StronglySorted (before ds) l -> StronglySorted (before ds) l' -> l = l').
    { clear - Hn. induction l as [|a l IH]; intros l' Hp H1 H2.
      - apply Permutation_nil in Hp. now subst.
      - destruct l' as [|b l']; [apply Permutation_sym, Permutation_nil in Hp; discriminate|].
        inversion H1 as [|? ? H1s H1f]; subst. inversion H2 as [|? ? H2s H2f]; subst.
        destruct (string_dec a b) as [->|Hne]; [f_equal; apply IH; auto; eapply Permutation_cons_inv; eauto|]. exfalso.
        rewrite Forall_forall in H1f, H2f.
        assert (In b l). { assert (Hb : In b (a :: l)) by (eapply Permutation_in; [apply Permutation_sym, Hp|now left]). destruct Hb; [contradiction|assumption]. }
        assert (In a l'). { assert (Ha : In a (b :: l')) by (eapply Permutation_in; [apply Hp|now left]). destruct Ha; [congruence|assumption]. }
        eapply before_asym; eauto. }
    now apply Hu. }
  split; [exact Hkeys|].
  apply sorted_nth. intros i j [a va] [b vb] Hij Hi Hj. cbn [snd].
  assert (Hab : before ds a b).
  { exists i, j. split; auto. rewrite <- Hkeys. unfold dkeys. now rewrite !nth_error_map, Hi, Hj. }
  destruct (Hb _ _ Hab) as (sa & sb & Hsa & Hsb & Hlt). apply Hget in Hi. apply Hget in Hj. rewrite Hsa in Hi. rewrite Hsb in Hj. injection Hi as ->. injection Hj as ->. exact Hlt.
Qed.

(** ** ranks *)
Lemma alike_prefers x q ds a b : a_run x -> ranks_as x q ds -> before ds a b ->
  exists ra rb, rank_of x q a = Some ra /\ rank_of x q b = Some rb /\ ra < rb.
Proof.
  intros Ha [Hk _] (i & j & Hij & Hi & Hj). unfold rank_of. rewrite !rank_in_index, Hk.
  assert (Hn : NoDup ds) by (rewrite <- Hk; exact (results_ok x q Ha)).
  apply (index_of_spec ds a i Hn) in Hi. apply (index_of_spec ds b j Hn) in Hj. rewrite Hi, Hj. cbn. exists (S i), (S j). repeat split. lia.
Qed.

(** ** normalisation *)
Lemma mapv_ranks (g : R -> R) (r : dict R) : (forall a b, (a < b)%R -> (g a < g b)%R) ->
  StronglySorted (fun a b : string * R => (snd b < snd a)%R) r -> StronglySorted (fun a b : string * R => (snd b < snd a)%R) (@mapv NumR g r).
Proof.
  intros Hg H. unfold mapv. apply P_Common.StronglySorted_map. eapply P_Common.StronglySorted_impl; [|exact H]. cbn. auto.
Qed.
Lemma g_strict norm r : norm <> "min_max_inverted" -> norm <> "min-max-inverted" -> In norm score_norms ->
  forall a b, (a < b)%R -> (g_of norm r a < g_of norm r b)%R.
Proof.
  intros N1 N2 Hn a b Hab. pose proof tiny_pos as Ht.
  assert (Hd : forall u v c d, (u < v)%R -> (0 < d)%R -> ((u - c) / Rmax d tiny < (v - c) / Rmax d tiny)%R).
  { intros u v c d Huv Hd. apply Rmult_lt_compat_r; [|lra]. apply Rinv_0_lt_compat. eapply Rlt_le_trans; [exact Ht|apply Rmax_r]. }
  assert (Hp : forall d, (0 < / Rmax d tiny)%R).
  { intros d. apply Rinv_0_lt_compat. eapply Rlt_le_trans; [exact Ht|apply Rmax_r]. }
  cbn in Hn. decompose [or] Hn; subst; try contradiction; unfold g_of; cbn [String.eqb Ascii.eqb Bool.eqb orb];
    unfold g_max, g_minmax, g_sum, g_zmuv; (apply Rmult_lt_compat_r; [apply Hp|lra]).
Qed.
Lemma norm_alike (E : env NumR) (HE : env_ok E) x norm y q ds : a_run x -> In norm single_norms -> normalize E x norm = Ok y -> ranks_as x q ds ->
  ranks_as y q (if inverted norm then rev ds else ds).
Proof.
  intros Hx Hn H Hrk. pose proof (ranks_nodup x q ds Hx Hrk) as Hnd. pose proof Hrk as [Hk Hs].
  destruct (split_norms norm Hn) as [->|Hsn].
  - change (inverted "rank") with false. cbn iota. split.
    + rewrite (rank_results E HE x y q Hx H). etransitivity; [exact (by_pos_keys (N := NumR) _ _)|exact Hk].
    + rewrite (rank_results E HE x y q Hx H). unfold by_pos. apply P_Common.StronglySorted_map. apply sorted_nth. intros i j [i' a] [j' b] Hij Hi Hj. cbn [fst snd].
      unfold enumerate in Hi, Hj.
      assert (He : forall (l : list string) k m c, nth_error (enum_from k l) m = Some c -> fst c = k + m /\ m < length l).
      { clear. induction l as [|d l IH]; intros k m c Hm; [now destruct m|]. destruct m as [|m]; cbn in Hm; [injection Hm as <-; cbn; lia|].
        apply IH in Hm. cbn [length]. lia. }
      apply He in Hi. apply He in Hj. cbn [fst] in Hi, Hj. destruct Hi as [-> Hi], Hj as [-> Hj]. unfold g_rank.
      assert (Hl : length (dkeys (results_of x q)) = length (results_of x q)) by (unfold dkeys; apply map_length).
      change (@dkeys (@F NumR) (results_of x q)) with (@dkeys R (results_of x q)) in Hj. rewrite Hl in Hj.
      assert (0 < INR (length (results_of x q)))%R by (apply lt_0_INR; lia).
      assert (INR (0 + i) < INR (0 + j))%R by (apply lt_INR; lia).
      assert (INR (0 + i) / INR (length (results_of x q)) < INR (0 + j) / INR (length (results_of x q)))%R by (apply Rmult_lt_compat_r; [now apply Rinv_0_lt_compat|assumption]).
      lra.
  - destruct (inverted norm) eqn:Hi.
    + assert (Hin : In norm ["min_max_inverted"; "min-max-inverted"]).
      { unfold inverted in Hi. apply orb_true_iff in Hi as [Hi|Hi]; apply String.eqb_eq in Hi; subst; cbn; auto. }
      destruct (C38_min_max_inverted E HE x norm Hx Hin) as (y' & Hy' & Hf & _ & _ & _ & Hrky). rewrite H in Hy'. injection Hy' as <-.
      destruct (C37_norm_keeps E HE x norm Hx Hn) as (y'' & Hy'' & Hay & _ & _ & Hret).
      { intros ->. cbn in Hin. intuition discriminate. }
      rewrite H in Hy''. injection Hy'' as <-.
      apply scores_ranks; auto; [now apply NoDup_rev|].
      destruct (ranks_scores x q ds Hx Hrk) as [Hd Hb]. split; [intros d; rewrite Hret, <- in_rev; apply Hd|].
      intros a b Hab. rewrite before_rev in Hab. destruct (Hb b a Hab) as (sb & sa & Hsb & Hsa & Hlt).
      assert (Hne : scores_for x q <> []).
      { intros H0. rewrite score_of_results in Hsa. unfold scores_for, dvals in H0. apply map_eq_nil in H0. rewrite H0 in Hsa. discriminate. }
      destruct (has_min _ Hne) as [lo Hlo]. destruct (has_max _ Hne) as [hi Hhi].
      eexists. eexists. split; [exact (Hf q a sa lo hi Hsa Hlo Hhi)|]. split; [exact (Hf q b sb lo hi Hsb Hlo Hhi)|].
      apply Rmult_lt_compat_r; [|lra]. apply Rinv_0_lt_compat. eapply Rlt_le_trans; [exact tiny_pos|apply Rmax_r].
    + assert (N1 : norm <> "min_max_inverted") by (intros ->; discriminate). assert (N2 : norm <> "min-max-inverted") by (intros ->; discriminate).
      pose proof (norm_results E HE x norm y q Hx Hsn H) as Hr. cbn zeta in Hr. rewrite Hi in Hr. split.
      * rewrite Hr. unfold mapv, dkeys. rewrite map_map. cbn [fst]. exact Hk.
      * rewrite Hr. apply mapv_ranks; [now apply g_strict|exact Hs].
Qed.

(** ** methods *)
Definition puts (r : result (Run NumR)) (q a b : string) : Prop :=
  exists y sa sb, r = Ok y /\ score_of y q a = Some sa /\ score_of y q b = Some sb /\ (sb < sa)%R.
Lemma above_puts r q a b : above r q a b -> puts r q a b.
Proof. intros (y & sa & sb & H1 & H2 & H3 & H4 & _). now exists y, sa, sb. Qed.

Lemma F2_strict xs q a b : (forall x, In x xs -> scores_strictly x q a b) -> Forall2 Rlt (scores_given xs q b) (scores_given xs q a).
Proof.
  unfold scores_given. intros H. induction xs as [|x xs IH]; cbn; [constructor|].
  destruct (H x (or_introl eq_refl)) as (sa & sb & Ha & Hb & Hlt). rewrite Ha, Hb. cbn. constructor; [exact Hlt|]. apply IH. intros; apply H; now right.
Qed.
Lemma F2_gap (l l' : list R) : Forall2 Rlt l l' -> exists e, (0 < e)%R /\ Forall2 Rle (map (fun v => v + e)%R l) l'.
Proof.
  induction 1 as [|u v l l' Huv HF (e & He & IH)]; [exists 1%R; split; [lra|constructor]|].
  exists (Rmin e (v - u)). split; [apply Rmin_glb_lt; lra|]. cbn. constructor; [pose proof (Rmin_r e (v - u)); lra|].
  clear - IH. revert l' IH. induction l as [|w l IHl]; intros l' HF; cbn in *; inversion HF as [|? ? ? ? H1 H2]; subst; [constructor|].
  constructor; [pose proof (Rmin_l e (v - u)); lra|]. now apply IHl.
Qed.
Lemma median_shift l m e : is_median l m -> is_median (map (fun v => v + e)%R l) (m + e)%R.
Proof.
  intros (s & Hp & Hs & H). exists (map (fun v => v + e)%R s). split; [now apply Permutation_map|]. split.
  { apply P_Common.StronglySorted_map. eapply P_Common.StronglySorted_impl; [|exact Hs]. intros; cbn; lra. }
  rewrite map_length. destruct H as [(h & a & Hl & Ha & ->)|(h & a & b & Hl & Ha & Hb & ->)].
  - left. exists h, (a + e)%R. rewrite nth_error_map, Ha. cbn [option_map]. auto.
  - right. exists h, (a + e)%R, (b + e)%R. rewrite !nth_error_map, Ha, Hb. cbn [option_map]. repeat split; auto. lra.
Qed.
Lemma median_strict l l' m m' : Forall2 Rlt l l' -> is_median l m -> is_median l' m' -> (m < m')%R.
Proof.
  intros HF Hm Hm'. destruct (F2_gap l l' HF) as (e & He & Hle). pose proof (median_mono _ _ _ _ Hle (median_shift l m e Hm) Hm'). lra.
Qed.
Lemma F2_lt_len (l l' : list R) : Forall2 Rlt l l' -> forall v, In v l -> exists v', In v' l' /\ (v < v')%R.
Proof. induction 1 as [|u w l l' H HF IH]; intros v []; [subst; exists w; cbn; auto|]. destruct (IH v H0) as (v' & Hv & Hlt). exists v'. cbn; auto. Qed.
Lemma F2_lt_len' (l l' : list R) : Forall2 Rlt l l' -> forall v', In v' l' -> exists v, In v l /\ (v < v')%R.
Proof. induction 1 as [|u w l l' H HF IH]; intros v' []; [subst; exists u; cbn; auto|]. destruct (IH v' H0) as (v & Hv & Hlt). exists v. cbn; auto. Qed.

Section Methods.
Context (E : env NumR) (HE : env_ok E) (pysort : (nat -> nat -> bool) -> list nat -> list nat) (Hsort : sorter_ok pysort).
Context (xs : list (Run NumR)) (Hxs : fusable xs) (q : string) (ds : list string) (Hds : NoDup ds).

Lemma puts_intro (r : result (Run NumR)) P (n : option string) a b :
  (exists y, r = Ok y /\ r_name y = n /\ fusion_of xs y P) -> candidate xs q a -> candidate xs q b ->
  (forall sa sb, P q a sa -> P q b sb -> (sb < sa)%R) -> puts r q a b.
Proof. intros H Ha Hb HP. apply above_puts. eapply above_intro; eauto. Qed.

Lemma by_scores_puts a b name : (forall x, In x xs -> scores_strictly x q a b) ->
  puts (comb_sum E xs name) q a b /\ puts (comb_max E xs name) q a b /\ puts (comb_min E xs name) q a b /\
  puts (comb_med E xs name) q a b /\ puts (comb_anz E xs name) q a b /\ puts (comb_mnz E xs name) q a b /\
  (forall g, puts (comb_gmnz E xs g name) q a b) /\
  (forall ws, length ws = length xs -> (forall w, In w ws -> 0 < w)%R ->
     puts (wsum E xs ws name) q a b /\ puts (wmnz E xs ws name) q a b /\ puts (mixed E xs ws name) q a b).
Proof.
  intros H.
  assert (Hboth : forall x, In x xs -> scores_both x q a b).
  { intros x Hx. destruct (H x Hx) as (sa & sb & Ha & Hb & Hlt). split; [split; intros _; eexists; eauto|]. intros sa' sb' Ha' Hb'. rewrite Ha in Ha'. rewrite Hb in Hb'. injection Ha' as <-. injection Hb' as <-. lra. }
  assert (Hx0 : exists x, In x xs) by (destruct xs as [|x l]; [now destruct Hxs as [[]]|exists x; now left]). destruct Hx0 as [x0 Hx0].
  assert (Hex : exists x, In x xs /\ scores_strictly x q a b) by (exists x0; auto).
  assert (Hca : candidate xs q a) by (destruct (H x0 Hx0) as (sa & sb & Ha & Hb & _); exists x0; split; auto; eexists; eauto).
  assert (Hcb : candidate xs q b) by (destruct (H x0 Hx0) as (sa & sb & Ha & Hb & _); exists x0; split; auto; eexists; eauto).
  pose proof (F2_strict xs q a b H) as HF.
  assert (Hall : forall d, (d = a \/ d = b) -> forall x, In x xs -> retrieves x q d).
  { intros d Hd x Hx. destruct (H x Hx) as (sa & sb & Ha & Hb & _). destruct Hd; subst; eexists; eauto. }
  destruct (C83_strict_scores E HE xs q a b name Hxs Hboth Hex) as (S1 & S2 & S3 & S4 & S5).
  split; [now apply above_puts|]. split.
  { eapply puts_intro; [exact (C43_comb_max E HE xs name Hxs)|exact Hca|exact Hcb|]. cbn beta. intros sa sb Ma Mb.
    specialize (Ma (or_intror (Hall a (or_introl eq_refl)))). specialize (Mb (or_intror (Hall b (or_intror eq_refl)))).
    destruct (F2_lt_len _ _ HF sb (proj1 Mb)) as (v & Hv & Hlt). pose proof (proj2 Ma v Hv). lra. }
  split.
  { eapply puts_intro; [exact (C43_comb_min E HE xs name Hxs)|exact Hca|exact Hcb|]. cbn beta. intros sa sb Ma Mb.
    specialize (Ma (or_intror (Hall a (or_introl eq_refl)))). specialize (Mb (or_intror (Hall b (or_intror eq_refl)))).
    destruct (F2_lt_len' _ _ HF sa (proj1 Ma)) as (v & Hv & Hlt). pose proof (proj2 Mb v Hv). lra. }
  split.
  { eapply puts_intro; [exact (C43_comb_med E HE xs name Hxs)|exact Hca|exact Hcb|]. cbn beta. intros sa sb Ma Mb. exact (median_strict _ _ _ _ HF Mb Ma). }
  split; [now apply above_puts|]. split; [now apply above_puts|]. split; [intros g; now apply above_puts|].
  intros ws Hl Hw. destruct (S5 ws ltac:(lia) Hw) as (W1 & W2 & W3). repeat split; now apply above_puts.
Qed.

Lemma by_ranks_puts a b name : (2 <= length xs) -> (forall x, In x xs -> exists ra rb, rank_of x q a = Some ra /\ rank_of x q b = Some rb /\ ra < rb) ->
  puts (isr E xs name) q a b /\ puts (log_isr E xs name) q a b /\
  (forall s, (0 <= s <= 1)%R -> puts (logn_isr E xs s name) q a b) /\
  (forall k, (0 <= k)%Z -> puts (rrf E xs k name) q a b) /\
  (forall p, (0 < p < 1)%R -> puts (rbc E xs p name) q a b) /\
  (same_query_order xs -> puts (bordafuse E xs name) q a b) /\
  (same_query_order xs -> forall ws, length ws = length xs -> (forall w, In w ws -> 0 < w)%R -> puts (weighted_bordafuse E xs ws name) q a b).
Proof.
  intros H2 H.
  assert (Hx0 : exists x, In x xs) by (destruct xs as [|x l]; [now destruct Hxs as [[]]|exists x; now left]). destruct Hx0 as [x0 Hx0].
  assert (Hmore : forall x, In x xs -> ranks_more x q a b).
  { intros x Hx rb Hb. destruct (H x Hx) as (ra & rb' & Ha & Hb' & Hlt). rewrite Hb in Hb'. injection Hb' as <-. exists ra. split; auto. lia. }
  assert (Hex : exists x, In x xs /\ prefers x q a b = true).
  { exists x0. split; auto. destruct (H x0 Hx0) as (ra & rb & Ha & Hb & Hlt). unfold prefers. rewrite Ha, Hb. now apply Nat.ltb_lt. }
  assert (Hcb : candidate xs q b).
  { exists x0. split; auto. destruct (H x0 Hx0) as (ra & rb & Ha & Hb & Hlt). apply rank_retrieves. eauto. }
  pose proof (ranks_cand xs q a b Hmore Hcb) as Hca.
  destruct (C83_strict_ranks E HE xs q a b name Hxs Hmore Hex Hcb) as (S1 & S2 & S3 & S4 & S5 & S6).
  assert (Hlen : forall d, d = a \/ d = b -> length (ranks_given xs q d) = length xs).
  { intros d Hd. unfold ranks_given. clear - H Hd. induction xs as [|x l IH]; [reflexivity|]. cbn [map concat length]. rewrite app_length, IH by (intros; apply H; now right).
    destruct (H x (or_introl eq_refl)) as (ra & rb & Ha & Hb & _). destruct Hd; subst; rewrite ?Ha, ?Hb; reflexivity. }
  assert (Hsq : (Rsum (map inv_square (ranks_given xs q b)) < Rsum (map inv_square (ranks_given xs q a)))%R).
  { rewrite !sum_ranks. apply Rsum_map_lt.
    - intros x Hx. apply (rank_point inv_square x q a b square_anti (Hmore x Hx)).
    - exists x0. split; auto. destruct (H x0 Hx0) as (ra & rb & Ha & Hb & Hlt). rewrite Ha, Hb. cbn [hr]. apply square_strict; [|exact Hlt].
      unfold rank_of in Ha. rewrite rank_in_index in Ha. destruct (index_of _ a); cbn in Ha; [injection Ha as <-; lia|discriminate]. }
  assert (Hn2 : (2 <= INR (length xs))%R) by (apply le_INR in H2; cbn [INR] in H2; lra).
  split; [now apply above_puts|]. split.
  { eapply puts_intro; [exact (C44_log_isr E HE xs name Hxs)|exact Hca|exact Hcb|]. cbn beta. intros sa sb -> ->. rewrite (Hlen a), (Hlen b) by auto.
    apply Rmult_lt_compat_l; [|exact Hsq]. rewrite <- ln_1. apply ln_increasing; lra. }
  split.
  { intros s Hs. eapply puts_intro; [exact (C44_logn_isr E HE xs s name Hxs Hs)|exact Hca|exact Hcb|]. cbn beta. intros sa sb -> ->. rewrite (Hlen a), (Hlen b) by auto.
    assert (0 < ln (INR (length xs) + s))%R by (rewrite <- ln_1; apply ln_increasing; lra). nra. }
  split; [intros k Hk; now apply above_puts, S3|]. split; [intros p Hp; now apply above_puts, S4|]. split; [intros Ho; now apply above_puts, S5|].
  intros Ho ws Hl Hw. apply above_puts, S6; auto.
Qed.

Lemma votes_all a b : (forall x, In x xs -> exists ra rb, rank_of x q a = Some ra /\ rank_of x q b = Some rb /\ ra < rb) ->
  votes xs q a b = length xs /\ votes xs q b a = 0 /\
  forall ws, length ws = length xs -> weighted_votes ws xs q a b = Rsum ws /\ weighted_votes ws xs q b a = 0%R.
Proof.
  intros H.
  assert (Hp : forall x, In x xs -> prefers x q a b = true /\ prefers x q b a = false).
  { intros x Hx. destruct (H x Hx) as (ra & rb & Ha & Hb & Hlt). unfold prefers. rewrite Ha, Hb. rewrite Nat.ltb_lt, Nat.ltb_ge. lia. }
  clear - Hp. unfold votes, weighted_votes. induction xs as [|x l IH].
  - cbn. repeat split; auto; destruct ws; [reflexivity|discriminate|reflexivity|discriminate].
  - destruct IH as (I1 & I2 & I3); [intros; apply Hp; now right|]. destruct (Hp x (or_introl eq_refl)) as [P1 P2].
    unfold count in *. cbn [filter length] in *. rewrite P1, P2. cbn [length]. rewrite I1, I2. repeat split; auto.
    + destruct ws as [|w ws]; [discriminate|]. cbn [combine map Rsum fold_right]. destruct (I3 ws) as [J1 J2]; [cbn in H; lia|].
      change (fold_right Rplus 0%R) with Rsum. cbn [fst snd]. rewrite P1. unfold Rsum in *. cbn [fold_right]. try rewrite J1. reflexivity.
    + destruct ws as [|w ws]; [discriminate|]. cbn [combine map Rsum fold_right]. destruct (I3 ws) as [J1 J2]; [cbn in H; lia|].
      cbn [fst snd]. rewrite P2. unfold Rsum in *. cbn [fold_right]. try rewrite J2. lra.
Qed.

(** what remains of a comparison by majorities *)
Lemma condorcet_alike y beats : condorcet_like xs y beats -> (forall x, In x xs -> ranks_as x q ds) -> 
  (forall a b, before ds a b -> beats q a b /\ ~ beats q b a) -> (forall d, ~ beats q d d) -> ranks_as y q ds.
Proof.
  intros (Ha & _ & Hret & Hrk & Hsc & _ & Htr) Hall Hbeats Hirr.
  assert (Hin : forall d, candidate xs q d <-> In d ds).
  { intros d. split.
    - intros (x & Hx & Hd). destruct (Hall x Hx) as [Hk _]. rewrite <- Hk. now apply retrieves_key.
    - intros Hd. destruct xs as [|x l]; [now destruct Hxs as [[]]|]. exists x. split; [now left|]. apply retrieves_key. destruct (Hall x (or_introl eq_refl)) as [Hk _]. now rewrite Hk. }
  apply scores_ranks; auto. split; [intros d; rewrite Hret; apply Hin|].
  intros a b Hab. pose proof (before_in _ _ _ Hab) as [Ia Ib].
  assert (Hpos : forall d, In d ds -> exists i, at_position y q d i /\ i < length (results_of y q)).
  { intros d Hd. apply Hin, Hret, retrieves_key, In_nth_error in Hd as [i Hi]. exists i. split; [exact Hi|].
    rewrite <- (map_length fst (results_of y q)). apply nth_error_Some. unfold dkeys in Hi. congruence. }
  destruct (Hpos a Ia) as (i & Pi & Li), (Hpos b Ib) as (j & Pj & Lj).
  eexists. eexists. split; [exact (Hsc q a i Pi)|]. split; [exact (Hsc q b j Pj)|].
  assert (Hij : i < j).
  { destruct (Nat.lt_trichotomy i j) as [Hl|[Heq|Hl]]; [exact Hl| |]; exfalso.
    - subst. unfold at_position in *. assert (a = b) by congruence. subst. exact (before_asym ds b b Hds Hab Hab).
    - refine (Htr q _ b a j i Pj Pi Hl (proj1 (Hbeats a b Hab))).
      intros u v w Cu Cv Cw T1 T2. apply Hin in Cu, Cv, Cw. intros Hwu.
      destruct (in_two ds w u Cw Cu) as [Heq|[Hb|Hb]]; [subst; exact (Hirr _ Hwu)| |exact (proj2 (Hbeats _ _ Hb) Hwu)].
      destruct (in_two ds u v Cu Cv) as [Heq|[H1|H1]]; [subst; exact (T2 (proj1 (Hbeats _ _ Hb)))| |exact (T1 (proj1 (Hbeats _ _ H1)))].
      destruct (in_two ds v w Cv Cw) as [Heq|[H3|H3]]; [subst; exact (T1 Hwu)| |exact (T2 (proj1 (Hbeats _ _ H3)))].
      destruct Hb as (k1 & k2 & K1 & K2 & K3), H1 as (k3 & k4 & K4 & K5 & K6), H3 as (k5 & k6 & K7 & K8 & K9).
      assert (k2 = k3) by (eapply nth_inj; eauto). assert (k4 = k5) by (eapply nth_inj; eauto). assert (k6 = k1) by (eapply nth_inj; eauto). lia. }
  apply lt_INR in Hij. lra.
Qed.
End Methods.
