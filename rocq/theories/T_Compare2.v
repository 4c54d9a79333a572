(** T_Compare2.v: the statistical comparisons of compare (C61) *)
From Coq Require Import Lia Permutation.
From Verif Require Import Base Dict Num NumLaws NumCmp Env M_Common M_Qrels M_Run M_Metrics M_Text M_Evaluate M_Compare
  Spec_DS Spec_Compare P_Base P_Dict P_Common P_DS P_History P_Optimize P_Compare T_Compare.
Open Scope string_scope.
Open Scope list_scope.
Open Scope nat_scope.

Lemma foldr_m_le {A S} (f g : S -> A -> result S) l : (forall s a s1, f s a = Ok s1 -> g s a = Ok s1) -> forall s s', foldr_m f l s = Ok s' -> foldr_m g l s = Ok s'.
Proof.
  intros Hfg. induction l as [|a l IH]; intros s s' H; cbn [foldr_m] in *; [exact H|]. destruct (f s a) as [s1|] eqn:Hf; cbn [bindr] in H; [|discriminate].
  rewrite (Hfg _ _ _ Hf). cbn [bindr]. auto.
Qed.

Section C.
Context {N : Num} (E : env N) (T : tests N).

Lemma compare_pair_ok i j (c t : dict (list F)) test n max_p e : compare_pair E T i j c t test n max_p = Ok e ->
  (forall m, In m (dkeys c) -> exists lc lt p, dget c m = Some lc /\ dget t m = Some lt /\ dget e m = Some (Some (p, fleb p max_p)) /\
     p_value_of E T test n max_p lc lt p) /\
  (forall m, ~ In m (dkeys c) -> dget e m = None).
Proof.
  unfold compare_pair. intros H.
  apply (foldr_m_inv _ (fun done (e : dict (stat N)) => (forall m, In m done -> exists lc lt p, dget c m = Some lc /\ dget t m = Some lt /\ dget e m = Some (Some (p, fleb p max_p)) /\
     p_value_of E T test n max_p lc lt p) /\ (forall m, ~ In m done -> dget e m = None))) in H; [exact H| |split; [intros m []|reflexivity]].
  intros done a rest s s1 _ (I1 & I2) Hs. unfold dget_r in Hs.
  destruct (dget c a) as [lc|] eqn:Hc; cbn [bindr] in Hs; [|discriminate]. destruct (dget t a) as [lt|] eqn:Ht; cbn [bindr] in Hs; [|discriminate].
  destruct (if String.eqb test "fisher" then _ else _) as [ps|] eqn:Hps in Hs; cbn [bindr] in Hs; [|discriminate]. injection Hs as <-.
  assert (Hp : exists p, ps = (p, fleb p max_p) /\ p_value_of E T test n max_p lc lt p).
  { destruct (String.eqb_spec test "fisher") as [Hf|Hf]; [|destruct (String.eqb_spec test "student") as [Hst|]; [|discriminate]].
    - pose proof Hps as Hps'. unfold fisher_randomization_test in Hps. destruct (length lc =? length lt); [|discriminate]. injection Hps as <-. eexists. split; [reflexivity|].
      right. split; [exact Hf|]. exists i, j, a, (fleb (fmean (prange (e_sched E "fisher" n) n fzero (fun i0 => if fleb (fabs (fsub (fmean lc) (fmean lt))) (fabs (fsub (fmean (map fst (permute (draws T i j a i0) (combine lc lt)))) (fmean (map snd (permute (draws T i j a i0) (combine lc lt)))))) then fone else fzero))) max_p).
      exact Hps'.
    - unfold paired_student_t_test in Hps. destruct (length lc =? length lt); [|discriminate]. injection Hps as <-. eexists. split; [reflexivity|]. now left. }
  destruct Hp as (p & -> & Hp). split.
  - intros m Hm. destruct (String.eqb_spec m a) as [ -> |Hne].
    + exists lc, lt, p. rewrite dget_dset_eq. auto.
    + rewrite dget_dset_neq by congruence. apply I1. apply in_app_or in Hm as [Hm|[ <- |[]]]; [exact Hm|congruence].
  - intros m Hm. rewrite dget_dset_neq by (intros ->; apply Hm; apply in_or_app; right; now left). apply I2. intros Hi. apply Hm. apply in_or_app. now left.
Qed.


Lemma dget_key {V} (d : dict V) m v : dget d m = Some v -> In m (dkeys d).
Proof. intros H. destruct (in_dec string_dec m (dkeys d)) as [Hi|Hi]; [exact Hi|]. apply dget_None in Hi. congruence. Qed.

(** ** fisher and student *)
Definition pair_value (scores : model_scores N) test n max_p (p : (nat * string) * (nat * string)) : result (dict (stat N)) :=
  do control <- dget_r scores (snd (fst p)); do treatment <- dget_r scores (snd (snd p));
  compare_pair E T (fst (fst p)) (fst (snd p)) control treatment test n max_p.
Lemma pairs_fill names (scores : model_scores N) test n max_p c : test = "fisher" \/ test = "student" ->
  compute_statistical_significance E T names scores test n max_p = Ok c ->
  (forall a b, In a names -> In b names -> a <> b -> exists e, fsd_get c [a; b] = Ok e) /\
  (forall a b e, fsd_get c [a; b] = Ok e -> In a names /\ In b names /\ a <> b /\
     exists i j ca tb, (dget scores a = Some ca /\ dget scores b = Some tb \/ dget scores b = Some ca /\ dget scores a = Some tb) /\
       compare_pair E T i j ca tb test n max_p = Ok e).
Proof.
  intros Ht H. unfold compute_statistical_significance in H.
  assert (He : existsb (String.eqb test) ["fisher"; "student"] = true) by (destruct Ht as [ -> | -> ]; reflexivity). rewrite He in H.
  set (pairs := flat_map (fun ic => map (pair ic) (filter (fun jt => negb (String.eqb (snd ic) (snd jt))) (enumerate names))) (enumerate names)).
  assert (Hskip : forall {A S} (f : S -> A -> result S) (skip : A -> bool) l s,
     foldr_m (fun acc a => if skip a then Ok acc else f acc a) l s = foldr_m f (filter (fun a => negb (skip a)) l) s).
  { intros A S f skip. induction l as [|a l IH]; intros s; cbn [foldr_m filter]; [reflexivity|]. destruct (skip a); cbn [negb bindr foldr_m]; [apply IH|].
    destruct (f s a); cbn [bindr]; auto. }
  assert (Hf : foldr_m (fun acc p => do v <- pair_value scores test n max_p p; Ok (kset acc (frozenset [snd (fst p); snd (snd p)]) v)) pairs [] = Ok c).
  { unfold pairs. rewrite <- (foldr_m_nest (fun ic acc jt => do v <- pair_value scores test n max_p (ic, jt); Ok (kset acc (frozenset [snd ic; snd jt]) v))).
    refine (foldr_m_le _ _ _ _ _ _ H). intros acc ic acc1 Hstep. unfold pair_value. cbn [fst snd].
    destruct (dget_r scores (snd ic)) as [control|e]; cbn [bindr] in *; [|discriminate].
    rewrite <- Hstep. rewrite Hskip. apply foldr_m_ext. intros s jt. destruct (dget_r scores (snd jt)); cbn [bindr]; [|reflexivity].
    destruct (compare_pair _ _ _ _ _ _ _ _ _); reflexivity. }
  assert (Hin : forall i a j b, In ((i, a), (j, b)) pairs <-> nth_error names i = Some a /\ nth_error names j = Some b /\ a <> b).
  { intros i a j b. unfold pairs. rewrite in_flat_map. split.
    - intros ([i' a'] & H1 & H2). apply in_map_iff in H2 as ([j' b'] & He' & H2). injection He' as -> -> -> ->. apply filter_In in H2 as [H2 H3]. apply enumerate_in in H1, H2.
      cbn [snd] in H3. destruct (String.eqb_spec a b); [discriminate|]. auto.
    - intros (H1 & H2 & H3). exists (i, a). split; [now apply enumerate_in|]. apply in_map. apply filter_In. split; [now apply enumerate_in|]. cbn [snd].
      destruct (String.eqb_spec a b); [contradiction|reflexivity]. }
  destruct (fill1 (fun p : (nat * string) * (nat * string) => frozenset [snd (fst p); snd (snd p)]) (pair_value scores test n max_p) pairs c Hf) as (F1 & F2).
  split.
  - intros a b Ha Hb Hab. apply In_nth_error in Ha as (i & Ha). apply In_nth_error in Hb as (j & Hb).
    destruct (F1 ((i, a), (j, b))) as (e & Hv); [apply Hin; auto|]. exists e. unfold fsd_get, kget_r. cbn [fst snd] in Hv. now rewrite Hv.
  - intros a b e Hg. unfold fsd_get, kget_r in Hg. destruct (kget c (frozenset [a; b])) as [e'|] eqn:Hk; [|discriminate]. injection Hg as ->.
    destruct (F2 _ _ Hk) as ([[i a'] [j b']] & Hi & Hkey & Hval). cbn [fst snd] in *. apply Hin in Hi as (H1 & H2 & H3).
    unfold pair_value in Hval. cbn [fst snd] in Hval. unfold dget_r in Hval.
    destruct (dget scores a') as [ca|] eqn:G1; cbn [bindr] in Hval; [|discriminate]. destruct (dget scores b') as [tb|] eqn:G2; cbn [bindr] in Hval; [|discriminate].
    apply nth_error_In in H1, H2.
    destruct (frozenset_pair _ _ _ _ Hkey) as [[-> ->]|[[-> ->]|(-> & -> & ->)]]; [| |contradiction].
    + repeat split; auto. exists i, j, ca, tb. auto.
    + repeat split; auto. exists i, j, ca, tb. auto.
Qed.

(** ** tukey *)
Lemma kget2_step {V} (c : kdict (dict V)) k e m v k' m' : kget c k = Some e ->
  kget2 (kset c k (dset e m v)) k' m' = if key_eqb k' k && String.eqb m' m then Some v else kget2 c k' m'.
Proof.
  intros Hk. unfold kget2. rewrite kget_kset. destruct (key_eqb k' k) eqn:Hkk; cbn [andb]; [|reflexivity]. apply key_eqb_true in Hkk as ->. rewrite Hk.
  destruct (String.eqb_spec m' m) as [ -> |Hm]; [apply dget_dset_eq|]. now rewrite dget_dset_neq by congruence.
Qed.
Definition pair_key (names : list string) (k : list string) : Prop := exists a b, In a names /\ In b names /\ k = frozenset [a; b].

Lemma tukey_step names (scores : model_scores N) max_p c m c' : tukey_metric T names scores max_p c m = Ok c' ->
  exists ss pf, map_m (fun name => do d <- dget_r scores name; dget_r d m) names = Ok ss /\ hsd T ss = Ok pf /\
    (forall k, pair_key names k -> exists i j a b, nth_error names i = Some a /\ nth_error names j = Some b /\ k = frozenset [a; b] /\
        kget2 c' k m = Some (Some (pf i j, fleb (pf i j) max_p))) /\
    (forall k m', m' <> m -> kget2 c' k m' = kget2 c k m') /\
    (forall k, kget c' k <> None -> kget c k <> None).
Proof.
  unfold tukey_metric. intros H. destruct (map_m _ names) as [ss|] eqn:Hss; cbn [bindr] in H; [|discriminate].
  destruct (hsd T ss) as [pf|] eqn:Hpf; cbn [bindr] in H; [|discriminate]. exists ss, pf. split; [reflexivity|]. split; [exact Hpf|].
  rewrite (foldr_m_nest (fun ic acc jt => do e <- fsd_get acc [snd ic; snd jt]; Ok (fsd_set acc [snd ic; snd jt] (dset e m (Some (pf (fst ic) (fst jt), fleb (pf (fst ic) (fst jt)) max_p)))))) in H.
  set (pairs := flat_map (fun ic => map (pair ic) (enumerate names)) (enumerate names)) in H.
  assert (Hin : forall i a j b, In ((i, a), (j, b)) pairs <-> nth_error names i = Some a /\ nth_error names j = Some b).
  { intros i a j b. unfold pairs. rewrite in_flat_map. split.
    - intros ([i' a'] & H1 & H2). apply in_map_iff in H2 as ([j' b'] & He' & H2). injection He' as -> -> -> ->. apply enumerate_in in H1, H2. auto.
    - intros (H1 & H2). exists (i, a). split; [now apply enumerate_in|]. apply in_map. now apply enumerate_in. }
  apply (foldr_m_inv _ (fun done c' =>
    (forall i a j b, In ((i, a), (j, b)) done -> exists i' j' a' b', nth_error names i' = Some a' /\ nth_error names j' = Some b' /\ frozenset [a; b] = frozenset [a'; b'] /\
        kget2 c' (frozenset [a; b]) m = Some (Some (pf i' j', fleb (pf i' j') max_p))) /\
    (forall k m', m' <> m -> kget2 c' k m' = kget2 c k m') /\ (forall k, kget c' k <> None -> kget c k <> None))) in H.
  - destruct H as (H1 & H2 & H3). split; [|auto]. intros k (a & b & Ha & Hb & ->). apply In_nth_error in Ha as (i & Ha). apply In_nth_error in Hb as (j & Hb).
    apply (H1 i a j b). apply Hin. auto.
  - intros done [[i a] [j b]] rest s s1 Hl (I1 & I2 & I3) Hs. cbn [fst snd] in Hs. unfold fsd_get, fsd_set, kget_r in Hs.
    destruct (kget s (frozenset [a; b])) as [e|] eqn:He; cbn [bindr] in Hs; [|discriminate]. injection Hs as <-.
    assert (Hij : nth_error names i = Some a /\ nth_error names j = Some b) by (apply Hin; rewrite Hl; apply in_or_app; right; now left).
    split; [|split].
    + intros i0 a0 j0 b0 Hi0. rewrite (kget2_step _ _ _ _ _ _ _ He), String.eqb_refl, andb_true_r. destruct (key_eqb (frozenset [a0; b0]) (frozenset [a; b])) eqn:Hk.
      * apply key_eqb_true in Hk. exists i, j, a, b. repeat split; tauto.
      * apply in_app_or in Hi0 as [Hi0|[Heq|[]]]; [now apply (I1 i0 a0 j0 b0)|]. injection Heq as -> -> -> ->. rewrite key_eqb_refl in Hk. discriminate.
    + intros k m' Hm. rewrite (kget2_step _ _ _ _ _ _ _ He). destruct (String.eqb_spec m' m); [contradiction|]. rewrite andb_false_r. now apply I2.
    + intros k. rewrite kget_kset. destruct (key_eqb k (frozenset [a; b])) eqn:Hk; [|apply I3]. intros _. apply I3. apply key_eqb_true in Hk as ->. congruence.
  - split; [intros i a j b []|]. auto.
Qed.

Lemma tails_in {A} (l : list A) a r : In (a, r) (tails l) -> In a l /\ incl r l.
Proof.
  induction l as [|b l IH]; cbn; [intros []|]. intros [H|H]; [injection H as <- <-; split; [now left|apply incl_refl]|].
  destruct (IH H) as [H1 H2]. split; [now right|]. now apply incl_tl.
Qed.
Lemma init_keys {V} (names : list string) (d0 : dict V) :
  forall k, kget (fold_left (fun acc ct => fold_left (fun acc t => fsd_set acc [fst ct; t] d0) (snd ct) acc) (tails names) []) k <> None -> pair_key names k.
Proof.
  assert (Hg : forall (l : list (string * list string)) acc, (forall c r, In (c, r) l -> In c names /\ incl r names) -> (forall k, kget acc k <> None -> pair_key names k) ->
    forall k, kget (fold_left (fun acc ct => fold_left (fun acc t => fsd_set acc [fst ct; t] d0) (snd ct) acc) l acc) k <> None -> pair_key names k).
  { induction l as [|[c r] l IH]; intros acc Hl Hacc; [exact Hacc|]. cbn [fold_left fst snd]. apply IH; [intros; apply Hl; now right|].
    destruct (Hl c r (or_introl eq_refl)) as [Hc Hr]. clear IH Hl. revert acc Hacc. induction r as [|t r IHr]; intros acc Hacc; [exact Hacc|].
    cbn [fold_left]. apply IHr; [intros z Hz; apply Hr; now right|]. intros k. unfold fsd_set. rewrite kget_kset. destruct (key_eqb k (frozenset [c; t])) eqn:Hk; [|apply Hacc].
    intros _. apply key_eqb_true in Hk as ->. exists c, t. repeat split; [exact Hc|apply Hr; now left]. }
  apply Hg; [intros c r H; exact (tails_in _ _ _ H)|]. intros k H. cbn in H. contradiction.
Qed.

Lemma tukey_fill names (scores : model_scores N) n max_p c :
  compute_statistical_significance E T names scores "tukey" n max_p = Ok c ->
  exists a0 d0, nth_error names 0 = Some a0 /\ dget scores a0 = Some d0 /\
  (forall m, In m (dkeys d0) -> exists ss pf, map_m (fun name => do d <- dget_r scores name; dget_r d m) names = Ok ss /\ hsd T ss = Ok pf /\
     forall k, pair_key names k -> exists i j a b, nth_error names i = Some a /\ nth_error names j = Some b /\ k = frozenset [a; b] /\
        kget2 c k m = Some (Some (pf i j, fleb (pf i j) max_p))) /\
  (forall k, kget c k <> None -> pair_key names k).
Proof.
  unfold compute_statistical_significance. cbn [existsb String.eqb Ascii.eqb Bool.eqb orb]. intros H.
  unfold nth_r in H. destruct (nth_error names 0) as [a0|] eqn:H0; cbn [bindr] in H; [|discriminate]. unfold dget_r at 1 in H.
  destruct (dget scores a0) as [d0|] eqn:Hd; cbn [bindr] in H; [|discriminate]. exists a0, d0. split; [reflexivity|]. split; [exact Hd|].
  pose proof (init_keys names (map (fun m => (m, @None (@F N * bool))) (dkeys d0))) as Hinit.
  apply (foldr_m_inv _ (fun done c => (forall m, In m done -> exists ss pf, map_m (fun name => do d <- dget_r scores name; dget_r d m) names = Ok ss /\ hsd T ss = Ok pf /\
     forall k, pair_key names k -> exists i j a b, nth_error names i = Some a /\ nth_error names j = Some b /\ k = frozenset [a; b] /\
        kget2 c k m = Some (Some (pf i j, fleb (pf i j) max_p))) /\ (forall k, kget c k <> None -> pair_key names k))) in H; [exact H| |].
  - intros done m rest s s1 _ (I1 & I2) Hs. destruct (tukey_step _ _ _ _ _ _ Hs) as (ss & pf & Hss & Hpf & H1 & H2 & H3). split.
    + intros m' Hm'. destruct (String.eqb_spec m' m) as [ -> |Hne]; [exists ss, pf; auto|].
      apply in_app_or in Hm' as [Hm'|[ <- |[]]]; [|congruence]. destruct (I1 m' Hm') as (ss' & pf' & G1 & G2 & G3). exists ss', pf'. split; [exact G1|]. split; [exact G2|].
      intros k Hk. destruct (G3 k Hk) as (i & j & a & b & R1 & R2 & R3 & R4). exists i, j, a, b. rewrite H2 by exact Hne. auto.
    + intros k Hk. apply I2. now apply H3.
  - split; [intros m []|exact Hinit].
Qed.
End C.

(** A pair without an entry: KeyError. *)
Theorem C61_no_entry : forall (V : Type) (d : kdict V) a b, (forall e, fsd_get d [a; b] <> Ok e) -> fsd_get d [a; b] = Err KeyError.
Proof. intros V d a b H. unfold fsd_get, kget_r in *. destruct (kget d (frozenset [a; b])) as [e|]; [now destruct (H e)|reflexivity]. Qed.

(** ** C61: the comparisons.  Looking up a pair does not depend on its order.  With fisher or student
    there is an entry for exactly the pairs of different names, holding for each metric the p-value
    of the test between the per-query scores of the two models (one of them as control), and whether
    it is at most max_p.  Runs of the same name share their entries (see [stands_for]). *)
Theorem C61_comparisons : forall (N : Num) (E : env N) (T : tests N) y xs metrics test n max_p digits percent mk y' xs' rep,
  dict_ok (q_map y) -> Forall (fun x => dict2_ok (r_map x)) xs ->
  compare E T y xs metrics test n max_p digits percent mk = (y', xs', Ok rep) ->
  (forall a b, fsd_get (rp_comparisons rep) [a; b] = fsd_get (rp_comparisons rep) [b; a]) /\
  (test = "fisher" \/ test = "student" ->
   (forall a b, (exists e, fsd_get (rp_comparisons rep) [a; b] = Ok e) <-> In a (rp_names rep) /\ In b (rp_names rep) /\ a <> b) /\
   (forall a b x1 x2 m, stands_for xs a x1 -> stands_for xs b x2 -> a <> b -> In m metrics ->
      exists e p l1 l2, fsd_get (rp_comparisons rep) [a; b] = Ok e /\ dget e m = Some (Some (p, fleb p max_p)) /\
        query_scores E y x1 metrics mk m l1 /\ query_scores E y x2 metrics mk m l2 /\
        (p_value_of E T test n max_p l1 l2 p \/ p_value_of E T test n max_p l2 l1 p))).
Proof.
  intros N E T y xs metrics test n max_p digits percent mk y' xs' rep Hy Hxs H.
  destruct (compare_ok E T _ _ _ _ _ _ _ _ _ _ _ _ Hy Hxs H) as (scores & Hsc & _ & _ & _ & _ & _ & Hcmp & _).
  split; [intros a b; unfold fsd_get; now rewrite frozenset_sym|]. intros Ht.
  destruct (pairs_fill E T _ _ _ _ _ _ Ht Hcmp) as (F1 & F2). split.
  - intros a b. split; [intros (e & He); destruct (F2 _ _ _ He) as (H1 & H2 & H3 & _); auto|]. intros (H1 & H2 & H3). now apply F1.
  - intros a b x1 x2 m Ha Hb Hab Hm.
    destruct (stands_scores E _ _ _ _ _ _ _ a x1 Hsc Ha) as (ar1 & G1 & I1 & _ & Q1). destruct (Q1 m Hm) as (l1 & L1 & _ & S1).
    destruct (stands_scores E _ _ _ _ _ _ _ b x2 Hsc Hb) as (ar2 & G2 & I2 & _ & Q2). destruct (Q2 m Hm) as (l2 & L2 & _ & S2).
    destruct (F1 a b I1 I2 Hab) as (e & He). destruct (F2 a b e He) as (_ & _ & _ & i & j & ca & tb & Hor & Hcp).
    destruct (compare_pair_ok E T _ _ _ _ _ _ _ _ Hcp) as (P1 & _).
    destruct Hor as [[O1 O2]|[O1 O2]].
    + rewrite G1 in O1. rewrite G2 in O2. injection O1 as <-. injection O2 as <-. destruct (P1 m (dget_key _ _ _ L1)) as (lc & lt & p & R1 & R2 & R3 & R4).
      rewrite L1 in R1. rewrite L2 in R2. injection R1 as <-. injection R2 as <-. exists e, p, l1, l2. auto 10.
    + rewrite G2 in O1. rewrite G1 in O2. injection O1 as <-. injection O2 as <-. destruct (P1 m (dget_key _ _ _ L2)) as (lc & lt & p & R1 & R2 & R3 & R4).
      rewrite L2 in R1. rewrite L1 in R2. injection R1 as <-. injection R2 as <-. exists e, p, l1, l2. auto 10.
Qed.

(** With tukey one test per metric is made on the scores of all models, in their order, and the
    entry of a pair is its p-value for two models of these names (also of a model with itself). *)
Theorem C61_tukey : forall (N : Num) (E : env N) (T : tests N) y xs metrics n max_p digits percent mk y' xs' rep,
  dict_ok (q_map y) -> Forall (fun x => dict2_ok (r_map x)) xs ->
  compare E T y xs metrics "tukey" n max_p digits percent mk = (y', xs', Ok rep) ->
  (forall m, In m metrics -> exists ss pf,
     Forall2 (fun a l => forall x, stands_for xs a x -> query_scores E y x metrics mk m l) (rp_names rep) ss /\ hsd T ss = Ok pf /\
     forall a b, In a (rp_names rep) -> In b (rp_names rep) ->
       exists e i j, fsd_get (rp_comparisons rep) [a; b] = Ok e /\ dget e m = Some (Some (pf i j, fleb (pf i j) max_p)) /\
         (nth_error (rp_names rep) i = Some a /\ nth_error (rp_names rep) j = Some b \/
          nth_error (rp_names rep) i = Some b /\ nth_error (rp_names rep) j = Some a)) /\
  (forall a b e, fsd_get (rp_comparisons rep) [a; b] = Ok e -> In a (rp_names rep) /\ In b (rp_names rep)).
Proof.
  intros N E T y xs metrics n max_p digits percent mk y' xs' rep Hy Hxs H.
  destruct (compare_ok E T _ _ _ _ _ _ _ _ _ _ _ _ Hy Hxs H) as (scores & Hsc & _ & _ & _ & _ & _ & Hcmp & _).
  destruct (tukey_fill E T _ _ _ _ _ Hcmp) as (a0 & d0 & H0 & Hd0 & F1 & F2). split.
  - intros m Hm.
    pose proof Hsc as (S1 & _). rewrite firstn_all in S1.
    destruct (stands_exists xs _ a0 S1 (nth_error_In _ _ H0)) as (x0 & Hx0).
    destruct (stands_scores E _ _ _ _ _ _ _ a0 x0 Hsc Hx0) as (ar0 & G0 & _ & _ & Q0). rewrite Hd0 in G0. injection G0 as <-.
    destruct (Q0 m Hm) as (l0 & L0 & _). destruct (F1 m (dget_key _ _ _ L0)) as (ss & pf & Hss & Hpf & Hk). exists ss, pf. split; [|split; [exact Hpf|]].
    + clear - Hss Hsc Hm. revert ss Hss.
      assert (Hg : forall l ss, map_m (fun name => do d <- dget_r scores name; dget_r d m) l = Ok ss ->
        Forall2 (fun a l => forall x, stands_for xs a x -> query_scores E y x metrics mk m l) l ss); [|intros ss; apply Hg].
      induction l as [|a l IH]; intros ss Hss; cbn [map_m] in Hss; [injection Hss as <-; constructor|].
      unfold dget_r at 1 in Hss. destruct (dget scores a) as [d|] eqn:Hd; cbn [bindr] in Hss; [|discriminate].
      unfold dget_r at 1 in Hss. destruct (dget d m) as [v|] eqn:Hv; cbn [bindr] in Hss; [|discriminate].
      destruct (map_m _ l) as [ss'|] eqn:Hl; cbn [bindr] in Hss; [|discriminate]. injection Hss as <-. constructor; [|now apply IH].
      intros x Hx. destruct (stands_scores E _ _ _ _ _ _ _ a x Hsc Hx) as (ar & G & _ & _ & Q). rewrite Hd in G. injection G as <-.
      destruct (Q m Hm) as (l1 & L1 & _ & HS). rewrite Hv in L1. now injection L1 as <-.
    + intros a b Ha Hb. destruct (Hk (frozenset [a; b])) as (i & j & a' & b' & R1 & R2 & R3 & R4); [exists a, b; auto|].
      unfold kget2 in R4. destruct (kget (rp_comparisons rep) (frozenset [a; b])) as [e|] eqn:He; [|discriminate].
      exists e, i, j. split; [unfold fsd_get, kget_r; now rewrite He|]. split; [exact R4|].
      destruct (frozenset_pair _ _ _ _ R3) as [[-> ->]|[[-> ->]|(-> & -> & ->)]]; auto.
  - intros a b e He. unfold fsd_get, kget_r in He. destruct (kget (rp_comparisons rep) (frozenset [a; b])) eqn:Hk; [|discriminate].
    destruct (F2 (frozenset [a; b])) as (a' & b' & Ha & Hb & Heq); [congruence|].
    destruct (frozenset_pair _ _ _ _ Heq) as [[-> ->]|[[-> ->]|(-> & -> & ->)]]; auto.
Qed.

(** No other name of a test is accepted. *)
Theorem C61_other_tests : forall (N : Num) (E : env N) (T : tests N) y xs metrics test n max_p digits percent mk,
  ~ In test ["fisher"; "student"; "tukey"] -> is_Ok (snd (compare E T y xs metrics test n max_p digits percent mk)) = false.
Proof.
  intros N E T y xs metrics test n max_p digits percent mk Ht. unfold compare. destruct (score_runs E 0 y xs metrics mk [] [] []) as [[y1 xs1] r]. cbn [snd].
  destruct r as [[[names results] scores]|e]; [|reflexivity]. cbn [bindr]. unfold compute_statistical_significance.
  cbn [existsb]. destruct (String.eqb_spec test "fisher"); [exfalso; apply Ht; subst; cbn; auto|]. destruct (String.eqb_spec test "student"); [exfalso; apply Ht; subst; cbn; auto|].
  cbn [orb]. destruct (String.eqb_spec test "tukey"); [exfalso; apply Ht; subst; cbn; auto|]. reflexivity.
Qed.
Print Assumptions C61_no_entry.
