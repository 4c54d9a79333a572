(** T_Compare.v: compare (C60, C61, C68) *)
From Coq Require Import Lia Permutation.
From Verif Require Import Base Dict Num NumLaws NumCmp Env M_Common M_Qrels M_Run M_Metrics M_Text M_Evaluate M_Compare
  Spec_DS Spec_Compare P_Base P_Dict P_Common P_DS P_History P_Optimize P_Compare.
Open Scope string_scope.
Open Scope list_scope.
Open Scope nat_scope.

(** ** loops that fill a dictionary *)
Lemma foldr_m_ext {A S} (f g : S -> A -> result S) l : (forall s a, f s a = g s a) -> forall s, foldr_m f l s = foldr_m g l s.
Proof. intros H. induction l as [|a l IH]; intros s; cbn; [reflexivity|]. rewrite H. destruct (g s a); cbn; auto. Qed.
Lemma foldr_m_app {A S} (f : S -> A -> result S) l1 l2 s : foldr_m f (l1 ++ l2) s = do s' <- foldr_m f l1 s; foldr_m f l2 s'.
Proof. revert s. induction l1 as [|a l1 IH]; intros s; cbn; [reflexivity|]. destruct (f s a); cbn; auto. Qed.
Lemma foldr_m_map {A B S} (f : S -> B -> result S) (h : A -> B) l s : foldr_m f (map h l) s = foldr_m (fun s a => f s (h a)) l s.
Proof. revert s. induction l as [|a l IH]; intros s; cbn; [reflexivity|]. destruct (f s (h a)); cbn; auto. Qed.
Lemma foldr_m_nest {A B S} (g : A -> S -> B -> result S) (h : A -> list B) l : forall s,
  foldr_m (fun acc a => foldr_m (g a) (h a) acc) l s = foldr_m (fun acc ab => g (fst ab) acc (snd ab)) (flat_map (fun a => map (pair a) (h a)) l) s.
Proof.
  induction l as [|a l IH]; intros s; cbn [foldr_m flat_map]; [reflexivity|]. rewrite foldr_m_app, foldr_m_map. cbn [fst snd].
  change (fun s0 b => g a s0 b) with (g a). destruct (foldr_m (g a) (h a) s); cbn [bindr]; auto.
Qed.

Definition kget2 {V} (d : kdict (dict V)) (k : list string) (m : string) : option V := match kget d k with Some r => dget r m | None => None end.
Lemma kget2_kset2 {V} (d : kdict (dict V)) k m v k' m' : kget2 (kset2 d k m v) k' m' = if key_eqb k' k && String.eqb m' m then Some v else kget2 d k' m'.
Proof.
  unfold kget2, kset2. rewrite kget_kset. destruct (key_eqb k' k) eqn:Hk; cbn [andb]; [|reflexivity]. apply key_eqb_true in Hk as ->.
  destruct (String.eqb_spec m' m) as [ -> |Hm]; [apply dget_dset_eq|]. rewrite dget_dset_neq by congruence. destruct (kget d k); reflexivity.
Qed.
(** one loop assigning [d[key p][mk p] = val p] *)
Lemma fill2 {A V} (key : A -> list string) (mk : A -> string) (val : A -> result V) l w :
  foldr_m (fun acc p => do v <- val p; Ok (kset2 acc (key p) (mk p) v)) l [] = Ok w ->
  (forall p, In p l -> exists v, kget2 w (key p) (mk p) = Some v) /\
  (forall k m v, kget2 w k m = Some v -> exists p, In p l /\ key p = k /\ mk p = m /\ val p = Ok v).
Proof.
  intros H.
  apply (foldr_m_inv _ (fun done w => (forall p, In p done -> exists v, kget2 w (key p) (mk p) = Some v) /\
    (forall k m v, kget2 w k m = Some v -> exists p, In p done /\ key p = k /\ mk p = m /\ val p = Ok v))) in H; [exact H| |].
  - intros done a rest s s1 _ (I1 & I2) Hs. destruct (val a) as [v|e] eqn:Hv; cbn [bindr] in Hs; [|discriminate]. injection Hs as <-. split.
    + intros p Hp. rewrite kget2_kset2. destruct (key_eqb (key p) (key a) && String.eqb (mk p) (mk a)) eqn:Hb; [eauto|].
      apply in_app_or in Hp as [Hp|[ <- |[]]]; [now apply I1|]. rewrite key_eqb_refl, String.eqb_refl in Hb. discriminate.
    + intros k m v0. rewrite kget2_kset2. destruct (key_eqb k (key a) && String.eqb m (mk a)) eqn:Hb; intros Hg.
      * apply andb_true_iff in Hb as [H1 H2]. apply key_eqb_true in H1. apply String.eqb_eq in H2. injection Hg as <-.
        exists a. split; [apply in_or_app; right; now left|]. auto.
      * destruct (I2 k m v0 Hg) as (p & Hp & Hq). exists p. split; [apply in_or_app; now left|exact Hq].
  - split; [intros p []|]. intros k m v Hk. discriminate.
Qed.
(** one loop assigning [d[key p] = val p] *)
Lemma fill1 {A V} (key : A -> list string) (val : A -> result V) l w :
  foldr_m (fun acc p => do v <- val p; Ok (kset acc (key p) v)) l [] = Ok w ->
  (forall p, In p l -> exists v, kget w (key p) = Some v) /\
  (forall k v, kget w k = Some v -> exists p, In p l /\ key p = k /\ val p = Ok v).
Proof.
  intros H.
  apply (foldr_m_inv _ (fun done w => (forall p, In p done -> exists v, kget w (key p) = Some v) /\
    (forall k v, kget w k = Some v -> exists p, In p done /\ key p = k /\ val p = Ok v))) in H; [exact H| |].
  - intros done a rest s s1 _ (I1 & I2) Hs. destruct (val a) as [v|e] eqn:Hv; cbn [bindr] in Hs; [|discriminate]. injection Hs as <-. split.
    + intros p Hp. rewrite kget_kset. destruct (key_eqb (key p) (key a)) eqn:Hb; [eauto|].
      apply in_app_or in Hp as [Hp|[ <- |[]]]; [now apply I1|]. rewrite key_eqb_refl in Hb. discriminate.
    + intros k v0. rewrite kget_kset. destruct (key_eqb k (key a)) eqn:Hb; intros Hg.
      * apply key_eqb_true in Hb. injection Hg as <-. exists a. split; [apply in_or_app; right; now left|]. auto.
      * destruct (I2 k v0 Hg) as (p & Hp & Hq). exists p. split; [apply in_or_app; now left|exact Hq].
  - split; [intros p []|]. intros k v Hk. discriminate.
Qed.

Section C.
Context {N : Num} (E : env N) (T : tests N).

(** ** win / tie / loss *)
Definition wtl_value (scores : model_scores N) (c t m : string) : result wtl :=
  do cd <- dget_r scores c; do cs <- dget_r cd m; do td <- dget_r scores t; do ts <- dget_r td m;
  do w <- count_pairs (fun a b => fltb b a) cs ts; do e <- count_pairs feqb cs ts; do l <- count_pairs fltb cs ts; Ok (WTL w e l).
Lemma wtl_fill names metrics (scores : model_scores N) w : win_tie_loss names metrics scores = Ok w ->
  (forall c t m, In c names -> In t names -> c <> t -> In m metrics -> exists v, kget2 w [c; t] m = Some v /\ wtl_value scores c t m = Ok v) /\
  (forall k m v, kget2 w k m = Some v -> exists c t, k = [c; t] /\ In c names /\ In t names /\ c <> t /\ In m metrics).
Proof.
  intros H. unfold win_tie_loss in H.
  set (trips := flat_map (fun ct => map (pair ct) (if String.eqb (fst ct) (snd ct) then [] else metrics)) (flat_map (fun c => map (pair c) names) names)).
  assert (Hf : foldr_m (fun acc p => do v <- wtl_value scores (fst (fst p)) (snd (fst p)) (snd p); Ok (kset2 acc [fst (fst p); snd (fst p)] (snd p) v)) trips [] = Ok w).
  { rewrite <- H. unfold trips.
    rewrite <- (foldr_m_nest (fun ct acc m => do v <- wtl_value scores (fst ct) (snd ct) m; Ok (kset2 acc [fst ct; snd ct] m v))).
    rewrite <- (foldr_m_nest (fun c acc t => foldr_m (fun acc m => do v <- wtl_value scores c t m; Ok (kset2 acc [c; t] m v)) (if String.eqb c t then [] else metrics) acc) (fun _ => names)).
    apply foldr_m_ext. intros s c. apply foldr_m_ext. intros s1 t. destruct (String.eqb c t); [reflexivity|]. apply foldr_m_ext. intros s2 m.
    unfold wtl_value.
    repeat (match goal with |- (bindr (bindr ?r _) _) = (bindr ?r _) => destruct r; cbn [bindr]; [|reflexivity] end). reflexivity. }
  assert (Hin : forall c t m, In (c, t, m) trips <-> In c names /\ In t names /\ c <> t /\ In m metrics).
  { intros c t m. unfold trips. rewrite in_flat_map. split.
    - intros ([c' t'] & H1 & H2). apply in_flat_map in H1 as (c'' & Hc & H1). apply in_map_iff in H1 as (t'' & He & Ht). injection He as -> ->.
      apply in_map_iff in H2 as (m' & He & Hm). injection He as -> -> ->. cbn [fst snd] in Hm. destruct (String.eqb_spec c t); [destruct Hm|auto].
    - intros (H1 & H2 & H3 & H4). exists (c, t). split; [apply in_flat_map; exists c; split; [exact H1|now apply in_map]|]. apply in_map. cbn [fst snd].
      destruct (String.eqb_spec c t); [contradiction|exact H4]. }
  destruct (fill2 (fun p : string * string * string => [fst (fst p); snd (fst p)]) snd (fun p => wtl_value scores (fst (fst p)) (snd (fst p)) (snd p)) trips w Hf) as (F1 & F2).
  split.
  - intros c t m H1 H2 H3 H4. destruct (F1 (c, t, m)) as (v & Hv); [apply Hin; auto|]. cbn [fst snd] in Hv. exists v. split; [exact Hv|].
    destruct (F2 _ _ _ Hv) as ([[c' t'] m'] & _ & Hk & Hm & Hval). cbn [fst snd] in *. injection Hk as -> ->. now subst m'.
  - intros k m v Hv. destruct (F2 _ _ _ Hv) as ([[c' t'] m'] & Hi & Hk & Hm & _). cbn [fst snd] in *. apply Hin in Hi. subst. exists c', t'. tauto.
Qed.

Lemma count_positions (f : F -> F -> bool) (a b : list F) n : count_pairs f a b = Ok n -> length a = length b /\ n = positions f a b.
Proof.
  unfold count_pairs. destruct (Nat.eqb_spec (length a) (length b)); [|discriminate]. intros H. injection H as <-. split; [assumption|].
  unfold positions. apply count_filter.
Qed.
Lemma positions_mirror (f g : F -> F -> bool) : (forall a b, f a b = g b a) -> forall a b : list F, positions f a b = positions g b a.
Proof.
  intros H a. unfold positions. induction a as [|u a IH]; intros [|v b]; cbn [combine filter fst snd length]; try reflexivity.
  rewrite H. destruct (g v u); cbn [length]; now rewrite IH.
Qed.

(** ** the report of compare *)
Lemma compare_ok y xs metrics test n max_p digits percent mk y' xs' rep : dict_ok (q_map y) -> Forall (fun x => dict2_ok (r_map x)) xs ->
  compare E T y xs metrics test n max_p digits percent mk = (y', xs', Ok rep) ->
  exists scores, scored E y xs metrics mk (length xs) (rp_names rep) (rp_results rep) scores /\
    rp_metrics rep = metrics /\ rp_test rep = test /\ rp_max_p rep = max_p /\ rp_digits rep = digits /\ rp_percent rep = percent /\
    compute_statistical_significance E T (rp_names rep) scores test n max_p = Ok (rp_comparisons rep) /\
    win_tie_loss (rp_names rep) metrics scores = Ok (rp_wtl rep).
Proof.
  intros Hy Hxs H. unfold compare in H. destruct (score_runs E 0 y xs metrics mk [] [] []) as [[y1 xs1] r] eqn:Hs. injection H as _ _ H.
  destruct r as [[[names results] scores]|e]; cbn [bindr] in H; [|discriminate].
  destruct (compute_statistical_significance E T names scores test n max_p) as [cmp|e] eqn:Hc; cbn [bindr] in H; [|discriminate].
  destruct (win_tie_loss names metrics scores) as [w|e] eqn:Hw; cbn [bindr] in H; [|discriminate]. injection H as <-.
  exists scores. cbn. split; [|auto 10].
  apply (score_runs_ok E y xs metrics mk Hy Hxs xs 0 y [] [] [] y1 xs1 (names, results, scores)); [reflexivity|reflexivity|now left| |exact Hs].
  split; [reflexivity|]. split; [intros a ar Ha; discriminate|]. split; [intros a []|]. split; [intros a Ha; now destruct Ha|reflexivity].
Qed.
Lemma stands_scores y xs metrics mk names results scores a x : scored E y xs metrics mk (length xs) names results scores -> stands_for xs a x ->
  exists ar, dget scores a = Some ar /\ In a names /\
   (exists o, ev_res (evaluate E (QObj y) (RObj x) metrics false false true mk) = Ok o /\ arrays_of metrics o = Ok ar) /\
   (forall m, In m metrics -> exists l, dget ar m = Some l /\ dget2 results a m = Some (fmean l) /\ query_scores E y x metrics mk m l).
Proof.
  intros (S1 & S2 & S3 & _) (i & (Hi & Hname) & Hlast).
  assert (Ha : In a names).
  { rewrite S1, firstn_all. apply in_map_iff. exists (i, x). split; [exact Hname|]. now apply enumerate_in. }
  destruct (S3 a Ha) as (ar & Har). exists ar. split; [exact Har|]. split; [exact Ha|].
  destruct (S2 a ar Har) as (j & z & (Hj & (Hz & Hzn) & Hjl) & Hev & Hm & _).
  assert (j = i).
  { destruct (Nat.lt_trichotomy i j) as [Hlt|[Heq|Hlt]]; [|now symmetry|]; exfalso.
    - apply (Hlast j z Hlt). split; assumption.
    - apply (Hjl i x Hlt); [|split; assumption]. apply nth_error_Some. congruence. }
  subst j. rewrite Hi in Hz. injection Hz as <-. split; [exact Hev|]. intros m Hmm. destruct (Hm m Hmm) as (l & Hl & Hr). exists l. split; [exact Hl|]. split; [exact Hr|].
  destruct Hev as (o & Ho & Hao). exists o. split; [exact Ho|]. exact (arrays_get metrics o ar Hao m l Hl).
Qed.
Lemma stands_exists xs (names : list string) a : names = map (fun ix => model_name (fst ix) (snd ix)) (enumerate xs) -> In a names -> exists x : Run N, stands_for xs a x.
Proof.
  intros -> Ha.
  assert (Hg : forall n, (exists i x, i < n /\ named xs i a x) -> exists i x, i < n /\ named xs i a x /\ forall j x', i < j -> j < n -> ~ named xs j a x').
  { induction n as [|n IH]; intros (i & x & Hi & Hn); [lia|].
    assert (Hd : (exists x', named xs n a x') \/ ~ (exists x', named xs n a x')).
    { unfold named. destruct (nth_error xs n) as [z|]; [|right; intros (x' & H & _); discriminate].
      destruct (string_dec (model_name n z) a); [left; eauto|right; intros (x' & H & H'); injection H as <-; contradiction]. }
    destruct Hd as [(x' & Hx')|Hd].
    - exists n, x'. split; [lia|]. split; [exact Hx'|]. intros; lia.
    - destruct IH as (i' & x' & H1 & H2 & H3).
      + exists i, x. split; [|exact Hn]. destruct (Nat.eq_dec i n) as [ -> |]; [exfalso; apply Hd; eauto|lia].
      + exists i', x'. split; [lia|]. split; [exact H2|]. intros j z Hj1 Hj2 Hz. destruct (Nat.eq_dec j n) as [ -> |]; [apply Hd; eauto|]. apply (H3 j z); auto; lia. }
  apply in_map_iff in Ha as ([i x] & Hm & Hin). apply enumerate_in in Hin. cbn [fst snd] in Hm.
  destruct (Hg (length xs)) as (j & z & H1 & H2 & H3).
  { exists i, x. split; [apply nth_error_Some; congruence|split; assumption]. }
  exists z, j. split; [exact H2|]. intros k z' Hk Hz'. apply (H3 k z' Hk); [|exact Hz']. apply nth_error_Some. destruct Hz' as [Hz' _]. congruence.
Qed.
End C.

(** ** C68: names and mean scores.  The models are named after the runs (run_1, run_2, ... without a
    name), in the given order, and under each name and metric stands the mean of the per-query scores
    that evaluate returns for the (last) run of that name. *)
Theorem C68_results : forall (N : Num) (E : env N) (T : tests N) y xs metrics test n max_p digits percent mk y' xs' rep,
  dict_ok (q_map y) -> Forall (fun x => dict2_ok (r_map x)) xs ->
  compare E T y xs metrics test n max_p digits percent mk = (y', xs', Ok rep) ->
  length (rp_names rep) = length xs /\
  (forall i x, nth_error xs i = Some x -> nth_error (rp_names rep) i = Some (model_name i x)) /\
  rp_metrics rep = metrics /\ rp_test rep = test /\ rp_max_p rep = max_p /\
  (forall a, In a (rp_names rep) -> exists x, stands_for xs a x) /\
  (forall a x m, stands_for xs a x -> In m metrics -> exists l, query_scores E y x metrics mk m l /\ dget2 (rp_results rep) a m = Some (fmean l)) /\
  (forall a m, ~ In a (rp_names rep) \/ ~ In m metrics -> dget2 (rp_results rep) a m = None).
Proof.
  intros N E T y xs metrics test n max_p digits percent mk y' xs' rep Hy Hxs H.
  destruct (compare_ok E T _ _ _ _ _ _ _ _ _ _ _ _ Hy Hxs H) as (scores & Hsc & H1 & H2 & H3 & _ & _ & _ & _).
  pose proof Hsc as (S1 & S2 & S3 & S4 & S5). rewrite firstn_all in S1.
  split; [rewrite S1, map_length; unfold enumerate; now rewrite enum_from_length|].
  split. { intros i x Hx. rewrite S1, nth_error_map. unfold enumerate.
    assert (Hg : forall (l : list (Run N)) k j, nth_error (enum_from k l) j = option_map (fun a => (k + j, a)) (nth_error l j)).
    { clear. induction l as [|a l IH]; intros k [|j]; cbn; try reflexivity; [now rewrite Nat.add_0_r|]. rewrite IH. destruct (nth_error l j); cbn; [|reflexivity]. repeat f_equal. lia. }
    rewrite Hg, Hx. reflexivity. }
  split; [exact H1|]. split; [exact H2|]. split; [exact H3|]. split.
  { intros a Ha. now apply (stands_exists xs (rp_names rep)). }
  split.
  - intros a x m Hst Hm. destruct (stands_scores E _ _ _ _ _ _ _ a x Hsc Hst) as (ar & _ & _ & _ & Hr). destruct (Hr m Hm) as (l & _ & Hl & Hq). eauto.
  - intros a m [Ha|Hm]; [unfold dget2; now rewrite (S5 a Ha)|].
    destruct (in_dec string_dec a (rp_names rep)) as [Hi|Hi]; [|unfold dget2; now rewrite (S5 a Hi)].
    destruct (S3 a Hi) as (ar & Har). destruct (S2 a ar Har) as (_ & _ & _ & _ & _ & Hn). now apply Hn.
Qed.

(** ** C60: win / tie / loss *)
Theorem C60_win_tie_loss : forall (N : Num), NumLaws N -> NumCmp N ->
  forall (E : env N) (T : tests N) y xs metrics test n max_p digits percent mk y' xs' rep,
  dict_ok (q_map y) -> Forall (fun x => dict2_ok (r_map x)) xs ->
  compare E T y xs metrics test n max_p digits percent mk = (y', xs', Ok rep) ->
  forall a b x1 x2 m, stands_for xs a x1 -> stands_for xs b x2 -> a <> b -> In m metrics ->
  exists l1 l2 d d' w t l, query_scores E y x1 metrics mk m l1 /\ query_scores E y x2 metrics mk m l2 /\ length l1 = length l2 /\
    kget (rp_wtl rep) [a; b] = Some d /\ dget d m = Some (WTL w t l) /\
    kget (rp_wtl rep) [b; a] = Some d' /\ dget d' m = Some (WTL l t w) /\
    w = positions (fun u v => fltb v u) l1 l2 /\ t = positions feqb l1 l2 /\ l = positions fltb l1 l2 /\
    (Forall (fun v => is_nan v = false) (l1 ++ l2) -> w + t + l = length l1) /\
    (~ Forall (fun v => is_nan v = false) (l1 ++ l2) -> w + t + l < length l1).
Proof.
  intros N HL HC E T y xs metrics test n max_p digits percent mk y' xs' rep Hy Hxs H a b x1 x2 m Ha Hb Hab Hm.
  destruct (compare_ok E T _ _ _ _ _ _ _ _ _ _ _ _ Hy Hxs H) as (scores & Hsc & _ & _ & _ & _ & _ & _ & Hw).
  destruct (wtl_fill _ _ _ _ Hw) as (F1 & _).
  destruct (stands_scores E _ _ _ _ _ _ _ a x1 Hsc Ha) as (ar1 & G1 & I1 & _ & Q1). destruct (Q1 m Hm) as (l1 & L1 & _ & S1).
  destruct (stands_scores E _ _ _ _ _ _ _ b x2 Hsc Hb) as (ar2 & G2 & I2 & _ & Q2). destruct (Q2 m Hm) as (l2 & L2 & _ & S2).
  destruct (F1 a b m I1 I2 Hab Hm) as (v & Hv & Hval). destruct (F1 b a m I2 I1 (fun e => Hab (eq_sym e)) Hm) as (v' & Hv' & Hval').
  unfold wtl_value, dget_r in Hval, Hval'. rewrite G1, G2 in *. cbn [bindr] in *. rewrite L1, L2 in *. cbn [bindr] in *.
  destruct (count_pairs _ l1 l2) as [w|] eqn:Cw in Hval; cbn [bindr] in Hval; [|discriminate].
  destruct (count_pairs feqb l1 l2) as [t|] eqn:Ct; cbn [bindr] in Hval; [|discriminate].
  destruct (count_pairs fltb l1 l2) as [l|] eqn:Cl; cbn [bindr] in Hval; [|discriminate]. injection Hval as <-.
  destruct (count_pairs _ l2 l1) as [w'|] eqn:Cw' in Hval'; cbn [bindr] in Hval'; [|discriminate].
  destruct (count_pairs feqb l2 l1) as [t'|] eqn:Ct'; cbn [bindr] in Hval'; [|discriminate].
  destruct (count_pairs fltb l2 l1) as [l'|] eqn:Cl'; cbn [bindr] in Hval'; [|discriminate]. injection Hval' as <-.
  apply count_positions in Cw as [Hlen Ew]. apply count_positions in Ct as [_ Et]. apply count_positions in Cl as [_ El].
  apply count_positions in Cw' as [_ Ew']. apply count_positions in Ct' as [_ Et']. apply count_positions in Cl' as [_ El'].
  assert (Hw' : w' = l) by (rewrite Ew', El; apply positions_mirror; reflexivity).
  assert (Hl' : l' = w) by (rewrite El', Ew; apply positions_mirror; reflexivity).
  assert (Ht' : t' = t) by (rewrite Et', Et; apply positions_mirror; intros; apply feqb_sym). rewrite Hw', Hl', Ht' in Hv'. clear Ew' El' Et' Hw' Hl' Ht'.
  unfold kget2 in Hv, Hv'. destruct (kget (rp_wtl rep) [a; b]) as [d|]; [|discriminate]. destruct (kget (rp_wtl rep) [b; a]) as [d'|]; [|discriminate].
  exists l1, l2, d, d', w, t, l. do 10 (split; [assumption||reflexivity|]).
  rewrite Ew, Et, El. clear - HL HC Hlen. unfold positions. split.
  - revert l2 Hlen. induction l1 as [|u l1 IH]; intros [|v l2] Hlen Hn; cbn in Hlen; try discriminate; [reflexivity|]. injection Hlen as Hlen.
    rewrite <- app_comm_cons in Hn. apply Forall_cons_iff in Hn as [Hu Hn]. apply Forall_app in Hn as [Hn1 Hn2]. apply Forall_cons_iff in Hn2 as [Hv Hn2].
    specialize (IH l2 Hlen (proj2 (Forall_app _ _ _) (conj Hn1 Hn2))). pose proof (trichotomy u v Hu Hv) as Ht.
    cbn [combine filter fst snd]. destruct (fltb v u), (feqb u v), (fltb u v); cbn [length] in *; lia.
  - assert (Hle : forall (a b : list F), length a = length b -> length (filter (fun ab => fltb (snd ab) (fst ab)) (combine a b)) + length (filter (fun ab => feqb (fst ab) (snd ab)) (combine a b)) + length (filter (fun ab => fltb (fst ab) (snd ab)) (combine a b)) <= length a).
    { induction a as [|u a IH]; intros [|v b] Hl; cbn in Hl; try discriminate; [cbn; lia|]. injection Hl as Hl. specialize (IH b Hl).
      assert (Hx : (if fltb v u then 1 else 0) + (if feqb u v then 1 else 0) + (if fltb u v then 1 else 0) <= 1).
      { rewrite cmp_eq, !cmp_lt. destruct (fleb u v), (fleb v u); cbn; lia. }
      cbn [combine filter fst snd]. destruct (fltb v u), (feqb u v), (fltb u v); cbn [length] in *; lia. }
    revert l2 Hlen. induction l1 as [|u l1 IH]; intros [|v l2] Hlen Hn; cbn in Hlen; try discriminate; [exfalso; apply Hn; constructor|]. injection Hlen as Hlen.
    cbn [combine filter fst snd length]. pose proof (Hle l1 l2 Hlen) as Hle1.
    destruct (is_nan u) eqn:Hu; [|destruct (is_nan v) eqn:Hv].
    + destruct (nan_cmp u v (or_introl Hu)) as (-> & -> & ->). lia.
    + destruct (nan_cmp u v (or_intror Hv)) as (-> & -> & ->). lia.
    + assert (Hn' : ~ Forall (fun v => is_nan v = false) (l1 ++ l2)).
      { intros Hf. apply Hn. rewrite <- app_comm_cons. constructor; [exact Hu|]. apply Forall_app in Hf as [H1 H2]. apply Forall_app. split; [exact H1|now constructor]. }
      specialize (IH l2 Hlen Hn'). pose proof (trichotomy u v Hu Hv) as Ht.
      destruct (fltb v u), (feqb u v), (fltb u v); cbn [length] in *; lia.
Qed.
