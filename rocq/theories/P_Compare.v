(** P_Compare.v: lemmas on compare *)
From Coq Require Import Lia Permutation.
From Verif Require Import Base Dict Num NumLaws NumCmp Env M_Common M_Qrels M_Run M_Metrics M_Text M_Evaluate M_Norm M_Fusion M_Train M_Optimize M_Compare
  Spec_DS Spec_Optimize Spec_Compare P_Base P_Dict P_Common P_DS P_History P_Optimize.
Open Scope string_scope.
Open Scope list_scope.
Open Scope nat_scope.

(** ** keys *)
Lemma key_eqb_true a b : key_eqb a b = true <-> a = b.
Proof. unfold key_eqb. destruct (list_eq_dec string_dec a b); split; congruence. Qed.
Lemma key_eqb_refl a : key_eqb a a = true.
Proof. now apply key_eqb_true. Qed.
Lemma kget_kset {V} (d : kdict V) k k' v : kget (kset d k v) k' = if key_eqb k' k then Some v else kget d k'.
Proof.
  induction d as [|[k0 v0] d IH]; cbn [kset kget].
  - destruct (key_eqb k' k); reflexivity.
  - destruct (key_eqb k k0) eqn:Hk; cbn [kget].
    + apply key_eqb_true in Hk as <-. destruct (key_eqb k' k); reflexivity.
    + rewrite IH. destruct (key_eqb k' k0) eqn:H0; [|reflexivity]. apply key_eqb_true in H0 as <-.
      destruct (key_eqb k' k) eqn:H1; [|reflexivity]. apply key_eqb_true in H1 as <-. rewrite key_eqb_refl in Hk. discriminate.
Qed.
Lemma frozenset_in l x : In x (frozenset l) <-> In x l.
Proof. unfold frozenset. rewrite str_sort_in. apply nodup_In. Qed.
Lemma frozenset_eq l l' : frozenset l = frozenset l' <-> (forall x, In x l <-> In x l').
Proof.
  split.
  - intros H x. rewrite <- (frozenset_in l), <- (frozenset_in l'), H. reflexivity.
  - intros H. unfold frozenset. apply str_sort_set_eq; [apply NoDup_nodup|apply NoDup_nodup|]. intros x. rewrite !nodup_In. apply H.
Qed.
Lemma frozenset_pair a b c d : frozenset [a; b] = frozenset [c; d] -> (a = c /\ b = d) \/ (a = d /\ b = c) \/ (a = b /\ c = d /\ a = c).
Proof.
  rewrite frozenset_eq. intros H.
  pose proof (proj1 (H a) (or_introl eq_refl)) as Ha. pose proof (proj1 (H b) (or_intror (or_introl eq_refl))) as Hb.
  pose proof (proj2 (H c) (or_introl eq_refl)) as Hc. pose proof (proj2 (H d) (or_intror (or_introl eq_refl))) as Hd. cbn in *. intuition (subst; auto).
Qed.
Lemma frozenset_sym a b : frozenset [a; b] = frozenset [b; a].
Proof. apply frozenset_eq. intros x. cbn. tauto. Qed.

(** ** loops *)
Lemma foldr_m_inv {A S} (f : S -> A -> result S) (I : list A -> S -> Prop) l : forall s s',
  (forall done a rest s s1, l = done ++ a :: rest -> I done s -> f s a = Ok s1 -> I (done ++ [a]) s1) ->
  I [] s -> foldr_m f l s = Ok s' -> I l s'.
Proof.
  intros s s' Hstep H0 H.
  assert (Hg : forall rest done s, l = done ++ rest -> I done s -> foldr_m f rest s = Ok s' -> I l s').
  { induction rest as [|a rest IH]; intros done s1 Hl Hi Hf; cbn [foldr_m] in Hf.
    - injection Hf as <-. rewrite app_nil_r in Hl. now subst.
    - destruct (f s1 a) as [s2|e] eqn:Hfa; cbn [bindr] in Hf; [|discriminate].
      apply (IH (done ++ [a]) s2); [now rewrite <- app_assoc|eapply Hstep; eauto|exact Hf]. }
  now apply (Hg l [] s).
Qed.
Lemma foldr_m_total {A S} (f : S -> A -> result S) (I : S -> Prop) l : (forall a s, In a l -> I s -> exists s1, f s a = Ok s1 /\ I s1) ->
  forall s, I s -> exists s', foldr_m f l s = Ok s' /\ I s'.
Proof.
  induction l as [|a l IH]; intros Hs s Hi; cbn [foldr_m]; [eauto|]. destruct (Hs a s (or_introl eq_refl) Hi) as (s1 & -> & H1). cbn [bindr].
  apply IH; [|exact H1]. intros b s2 Hb. apply Hs. now right.
Qed.
Lemma map_m_in {A B} (f : A -> result B) l : forall ys, map_m f l = Ok ys -> forall a, In a l -> exists b, f a = Ok b /\ In b ys.
Proof.
  induction l as [|x l IH]; cbn; intros ys H a Ha; [destruct Ha|]. destruct (f x) eqn:Hx; cbn in H; [|discriminate].
  destruct (map_m f l) eqn:Hl; cbn in H; [|discriminate]. injection H as <-. destruct Ha as [ <- | Ha ].
  - eexists. split; [exact Hx|now left].
  - destruct (IH _ eq_refl a Ha) as (b' & H1 & H2). exists b'. split; [exact H1|now right].
Qed.
Lemma map_m_nth {A B} (f : A -> result B) l : forall ys, map_m f l = Ok ys -> forall i a, nth_error l i = Some a -> exists b, f a = Ok b /\ nth_error ys i = Some b.
Proof.
  induction l as [|x l IH]; cbn; intros ys H i a Ha; [now destruct i|]. destruct (f x) eqn:Hx; cbn in H; [|discriminate].
  destruct (map_m f l) eqn:Hl; cbn in H; [|discriminate]. injection H as <-. destruct i as [|i]; cbn in *.
  - injection Ha as <-. eauto.
  - now apply IH.
Qed.

Section P.
Context {N : Num} (E : env N).

(** ** evaluate, called with the qrels sorted by an earlier call *)
Lemma make_comparable_same (x : Run N) y0 y1 : dict2_ok (r_map x) -> dict_ok (q_map y0) ->
  (forall q, In q (dkeys (q_map y0)) <-> In q (dkeys (q_map y1))) -> Run_make_comparable E x y1 = Run_make_comparable E x y0.
Proof.
  intros Hx Hy Hk. unfold Run_make_comparable, Run_sort, Run_with_map. cbn [r_map r_name r_scores r_mean r_std]. f_equal.
  change (canon E r_negf (make_comparable_map (r_map x) (q_map y1)) = canon E r_negf (make_comparable_map (r_map x) (q_map y0))).
  pose proof (make_comparable_map_ok (r_map x) (q_map y1) Hx) as O1. pose proof (make_comparable_map_ok (r_map x) (q_map y0) Hx) as O0.
  assert (Hg : forall q, dget (make_comparable_map (r_map x) (q_map y1)) q = dget (make_comparable_map (r_map x) (q_map y0)) q).
  { intros q. rewrite !make_comparable_map_get by exact Hx.
    assert (Hm : dmem (q_map y1) q = dmem (q_map y0) q) by (apply Bool.eq_iff_eq_true; rewrite !dmem_in; symmetry; apply Hk). now rewrite Hm. }
  assert (Hkeys : dkeys (canon E r_negf (make_comparable_map (r_map x) (q_map y1))) = dkeys (canon E r_negf (make_comparable_map (r_map x) (q_map y0)))).
  { rewrite !canon_keys by (apply O1 || apply O0). apply str_sort_set_eq; [apply O1|apply O0|]. intros q. rewrite <- !dmem_in. unfold dmem. now rewrite Hg. }
  assert (Hext : forall d d' : dict (dict F), dict_ok d -> dkeys d = dkeys d' -> (forall k, dget d k = dget d' k) -> d = d').
  { clear. induction d as [|[k v] d IH]; intros [|[k' v'] d'] Ho Hk Hg; cbn in Hk; try discriminate; [reflexivity|].
    injection Hk as <- Hk. pose proof (Hg k) as H1. cbn in H1. rewrite String.eqb_refl in H1. injection H1 as <-. f_equal.
    inversion Ho as [|? ? Hn Ho']; subst. apply IH; [exact Ho'|exact Hk|]. intros q. specialize (Hg q). cbn in Hg.
    destruct (String.eqb_spec q k) as [Hqk|Hqk]; [|exact Hg]. rewrite Hqk in *.
    assert (Hn' : ~ In k (dkeys d')) by (unfold dkeys in *; rewrite <- Hk; exact Hn).
    rewrite (proj2 (dget_None d k) Hn), (proj2 (dget_None d' k) Hn'). reflexivity. }
  apply Hext; [unfold dict_ok; rewrite canon_keys by apply O1; apply str_sort_nodup, O1|exact Hkeys|]. intros k. rewrite !canon_get by (apply O1 || apply O0). now rewrite Hg.
Qed.

Lemma evaluate_same y0 y (x : Run N) metrics mean std save mk : dict_ok (q_map y0) -> dict2_ok (r_map x) -> same_qrels E y0 y ->
  let out := evaluate E (QObj y) (RObj x) metrics mean std save mk in
  same_qrels E y0 (match ev_q out with QObj y1 => y1 | _ => y end) /\
  ev_res out = ev_res (evaluate E (QObj y0) (RObj x) metrics mean std save mk) /\
  ev_r out = ev_r (evaluate E (QObj y0) (RObj x) metrics mean std save mk).
Proof.
  intros Hy Hx Hs. cbv zeta.
  assert (Hmk : (if mk then RObj (Run_make_comparable E x y) else RObj x) = (if mk then RObj (Run_make_comparable E x y0) else RObj x)).
  { destruct mk; [|reflexivity]. f_equal. destruct Hs as [ -> | -> ]; [reflexivity|]. apply make_comparable_same; auto.
    intros q. symmetry. now apply typed_keys. }
  unfold evaluate. cbv zeta. rewrite Hmk. set (r := if mk then RObj (Run_make_comparable E x y0) else RObj x).
  assert (Hck : check_keys (QObj y) r = check_keys (QObj y0) r).
  { unfold r. destruct Hs as [ -> | -> ]; [reflexivity|]. destruct mk; cbn [check_keys]; now rewrite keys_eqb_typed. }
  rewrite Hck. destruct (check_keys (QObj y0) r) as [[]|e]; [|cbn; auto].
  assert (Hcv : convert_qrels E (QObj y) = convert_qrels E (QObj y0)).
  { destruct Hs as [ -> | -> ]; [reflexivity|]. cbn [convert_qrels]. rewrite typed_again. reflexivity. }
  rewrite Hcv. cbn [convert_qrels]. destruct (Qrels_to_typed_list E y0) as [y1 tq] eqn:Ht.
  assert (Hy1 : same_qrels E y0 y1) by (right; now rewrite Ht).
  assert (Hq : forall (o : eval_out), ev_q o = QObj y1 -> same_qrels E y0 (match ev_q o with QObj y1 => y1 | _ => y end)) by (intros o ->; exact Hy1).
  destruct (convert_run E r) as [r1 [tr|e]]; [|cbn; auto].
  destruct (compute_scores E tq tr metrics) as [[m d]|e]; [|cbn; auto].
  destruct r1 as [x1|?|?|?]; try (split; [apply Hq; reflexivity|split; reflexivity]).
  destruct save; [destruct (save_results (if mean then std else false) x1 d) as [x2 [e|]]|]; (split; [apply Hq; reflexivity|split; reflexivity]).
Qed.

(** ** scoring the runs *)
Lemma arrays_get metrics (o : @outcome N) a : arrays_of metrics o = Ok a -> forall m l, dget a m = Some l ->
  match o with
  | OutOne (OArr l') => metrics = [m] /\ l = l'
  | OutDict d => dget d m = Some (OArr l)
  | _ => False
  end.
Proof.
  intros H m l Hl. destruct o as [[l'|?|? ?]|d]; cbn [arrays_of] in H; try discriminate.
  - destruct metrics as [|m' [|]]; try discriminate. injection H as <-. cbn in Hl. destruct (String.eqb_spec m m'); [|discriminate]. subst. injection Hl as <-. auto.
  - revert a H Hl. induction d as [|[k v] d IH]; cbn [map_m]; intros a H Hl; [injection H as <-; discriminate|].
    cbn [snd fst] in H. destruct v as [lv|?|? ?]; cbn [bindr] in H; try discriminate.
    destruct (map_m _ d) as [a'|e] eqn:Hd; cbn [bindr] in H; [|discriminate]. injection H as <-. cbn in Hl. cbn [dget].
    destruct (String.eqb m k); [now injection Hl as <-|]. now apply (IH a').
Qed.

(** the state of the loop: which run stands for a name among the first [i] *)
Definition owns (xs : list (Run N)) (n : nat) (a : string) (i : nat) (x : Run N) : Prop :=
  i < n /\ named xs i a x /\ forall j x', i < j -> j < n -> ~ named xs j a x'.
Definition scored (y0 : Qrels) (xs : list (Run N)) metrics mk (n : nat) (names : list string) (results : dict (dict F)) (scores : model_scores N) : Prop :=
  names = map (fun ix => model_name (fst ix) (snd ix)) (enumerate (firstn n xs)) /\
  (forall a ar, dget scores a = Some ar -> exists i x, owns xs n a i x /\
     (exists o, ev_res (evaluate E (QObj y0) (RObj x) metrics false false true mk) = Ok o /\ arrays_of metrics o = Ok ar) /\
     (forall m, In m metrics -> exists l, dget ar m = Some l /\ dget2 results a m = Some (fmean l)) /\
     (forall m, ~ In m metrics -> dget2 results a m = None)) /\
  (forall a, In a names -> exists ar, dget scores a = Some ar) /\
  (forall a, dget scores a <> None -> In a names) /\
  (forall a, ~ In a names -> dget results a = None).

Lemma dget2_dset2 {V} (d : dict (dict V)) a m v b k : dget2 (dset2 d a m v) b k = if String.eqb b a then (if String.eqb k m then Some v else dget2 d b k) else dget2 d b k.
Proof.
  unfold dset2, dget2. destruct (String.eqb_spec b a) as [ -> |Hne].
  - rewrite dget_dset_eq. destruct (String.eqb_spec k m) as [ -> |Hk].
    + now rewrite dget_dset_eq.
    + rewrite dget_dset_neq by congruence. destruct (dget d a); reflexivity.
  - rewrite dget_dset_neq by congruence. reflexivity.
Qed.

Lemma set_means (name : string) (a : dict (list (@F N))) metrics : forall results r',
  foldr_m (fun r m => do l <- dget_r a m; Ok (dset2 r name m (fmean l))) metrics results = Ok r' ->
  (forall m, In m metrics -> exists l, dget a m = Some l /\ dget2 r' name m = Some (fmean l)) /\
  (forall m, ~ In m metrics -> dget2 r' name m = dget2 results name m) /\
  (forall b, b <> name -> dget r' b = dget results b).
Proof.
  induction metrics as [|m0 metrics IH]; intros results r' H; cbn [foldr_m] in H.
  - injection H as <-. split; [intros m []|]. split; reflexivity.
  - unfold dget_r in H. destruct (dget a m0) as [l0|] eqn:Hm0; cbn [bindr] in H; [|discriminate].
    destruct (IH _ _ H) as (H1 & H2 & H3). split; [|split].
    + intros m Hm. destruct (in_dec string_dec m metrics) as [Hi|Hi]; [now apply H1|].
      destruct Hm as [ <- | Hm ]; [|contradiction]. exists l0. split; [exact Hm0|]. rewrite H2 by exact Hi.
      rewrite dget2_dset2, !String.eqb_refl. reflexivity.
    + intros m Hm. rewrite H2 by (intros Hi; apply Hm; now right). rewrite dget2_dset2, String.eqb_refl.
      destruct (String.eqb_spec m m0) as [ -> |]; [exfalso; apply Hm; now left|reflexivity].
    + intros b Hb. rewrite H3 by exact Hb. unfold dset2. now rewrite dget_dset_neq by congruence.
Qed.

Lemma names_snoc (xs : list (Run N)) n x : nth_error xs n = Some x ->
  map (fun ix => model_name (fst ix) (snd ix)) (enumerate (firstn (S n) xs)) =
  map (fun ix => model_name (fst ix) (snd ix)) (enumerate (firstn n xs)) ++ [model_name n x].
Proof.
  intros H. assert (Hf : firstn (S n) xs = firstn n xs ++ [x]).
  { revert n H. induction xs as [|a xs IH]; intros [|n] H; cbn in *; try discriminate; [now injection H as ->|]. f_equal. now apply IH. }
  assert (Hl : length (firstn n xs) = n) by (apply firstn_length_le; assert (nth_error xs n <> None) by congruence; apply nth_error_Some in H0; lia).
  rewrite Hf. unfold enumerate. rewrite enum_from_app, map_app. cbn [enum_from map fst snd]. now rewrite Hl.
Qed.

Lemma score_runs_ok y0 xs metrics mk : dict_ok (q_map y0) -> Forall (fun x => dict2_ok (r_map x)) xs ->
  forall rest n y names results scores y' xs' r, xs = firstn n xs ++ rest -> n + length rest = length xs -> same_qrels E y0 y ->
  scored y0 xs metrics mk n names results scores ->
  score_runs E n y rest metrics mk names results scores = (y', xs', Ok r) ->
  let '(names', results', scores') := r in scored y0 xs metrics mk (length xs) names' results' scores'.
Proof.
  intros Hy Hxs. induction rest as [|x rest IH]; intros n y names results scores y' xs' r Hsplit Hlen Hsame Hsc H; cbn [score_runs] in H.
  - injection H as _ _ <-. cbn [length] in Hlen. rewrite Nat.add_0_r in Hlen. now subst n.
  - cbn [length] in Hlen.
    assert (Hnl : length (firstn n xs) = n) by (apply firstn_length_le; lia).
    assert (Hx : nth_error xs n = Some x) by (rewrite Hsplit, nth_error_app2 by lia; rewrite Hnl, Nat.sub_diag; reflexivity).
    assert (Hxok : dict2_ok (r_map x)) by (rewrite Forall_forall in Hxs; apply Hxs; eapply nth_error_In; exact Hx).
    destruct (evaluate_same y0 y x metrics false false true mk Hy Hxok Hsame) as (S1 & S2 & _). cbv zeta in S1, S2.
    rewrite S2 in H.
    destruct (ev_res (evaluate E (QObj y0) (RObj x) metrics false false true mk)) as [o|e] eqn:Ho; cbn [bindr] in H; [|discriminate].
    destruct (arrays_of metrics o) as [ar|e] eqn:Har; cbn [bindr] in H; [|discriminate].
    destruct (foldr_m _ metrics results) as [results1|e] eqn:Hres; cbn [bindr] in H; [|discriminate].
    destruct (score_runs E (S n) _ rest metrics mk _ results1 _) as [[y2 xs2] r2] eqn:Hrec. injection H as _ _ ->.
    change (run_name n x) with (model_name n x) in *.
    apply (IH (S n) _ _ _ _ _ _ r) in Hrec; [exact Hrec| |lia|exact S1|].
    + rewrite Hsplit at 1. assert (Hf : firstn (S n) xs = firstn n xs ++ [x]).
      { clear - Hx. revert n Hx. induction xs as [|a xs IH]; intros [|n] H; cbn in *; try discriminate; [now injection H as ->|]. f_equal. now apply IH. }
      rewrite Hf, <- app_assoc. reflexivity.
    + destruct Hsc as (C1 & C2 & C3 & C4 & C5). set (name := model_name n x) in *.
      destruct (set_means name ar metrics results results1 Hres) as (M1 & M2 & M3).
      assert (Hown : forall a i z, a <> name -> owns xs n a i z -> owns xs (S n) a i z).
      { intros a i z Ha (O1 & O2 & O3). split; [lia|]. split; [exact O2|]. intros j x' Hj1 Hj2 (Hn1 & Hn2).
        destruct (Nat.eq_dec j n) as [ -> |]; [|apply (O3 j x'); [lia|lia|split; assumption]].
        rewrite Hx in Hn1. injection Hn1 as <-. apply Ha. symmetry. exact Hn2. }
      split; [rewrite C1; symmetry; now apply names_snoc|]. split; [|split; [|split]].
      * intros a ar' Ha. destruct (string_dec a name) as [ -> |Hne].
        -- rewrite dget_dset_eq in Ha. injection Ha as <-. exists n, x.
           split; [split; [lia|split; [split; [exact Hx|reflexivity]|intros; lia]]|].
           split; [exists o; auto|]. split; [exact M1|]. intros m Hm. rewrite M2 by exact Hm.
           destruct (in_dec string_dec name names) as [Hi|Hi].
           ++ destruct (C3 name Hi) as (ar0 & Har0). destruct (C2 _ _ Har0) as (i & z & _ & _ & _ & Hnone). now apply Hnone.
           ++ unfold dget2. now rewrite C5.
        -- rewrite dget_dset_neq in Ha by congruence. destruct (C2 a ar' Ha) as (i & z & Ow & Hev & Hm & Hn). exists i, z.
           split; [now apply Hown|]. split; [exact Hev|]. unfold dget2 in *. rewrite M3 by exact Hne. split; assumption.
      * intros a Ha. apply in_app_or in Ha as [Ha|[ <- |[]]].
        -- destruct (string_dec a name) as [ -> |Hne]; [rewrite dget_dset_eq; eauto|]. rewrite dget_dset_neq by congruence. now apply C3.
        -- rewrite dget_dset_eq. eauto.
      * intros a Ha. apply in_or_app. destruct (string_dec a name) as [ -> |Hne]; [right; now left|]. left. rewrite dget_dset_neq in Ha by congruence. now apply C4.
      * intros a Ha. assert (a <> name) by (intros ->; apply Ha, in_or_app; right; now left). rewrite M3 by assumption. apply C5.
        intros Hi. apply Ha, in_or_app. now left.
Qed.
End P.
