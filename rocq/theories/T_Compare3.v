(** T_Compare3.v: compare, end to end (C68) *)
From Coq Require Import Lia Permutation Sorted Reals.
From Verif Require Import Base Dict Num NumLaws NumCmp Env M_Common M_Qrels M_Run M_Metrics M_Text M_Evaluate M_Compare
  Spec_DS Spec_Metrics Spec_Eval Spec_Compare P_Base P_Dict P_Common P_DS P_History P_Metrics P_Optimize P_Compare P_Eval P_Eval2 P_Eval3 T_Evaluate T_Compare T_Compare2.
Open Scope string_scope.
Open Scope list_scope.
Open Scope nat_scope.

Lemma foldr_m_tot {A S} (f : S -> A -> result S) l : (forall a s, In a l -> exists s1, f s a = Ok s1) -> forall s, exists s', foldr_m f l s = Ok s'.
Proof.
  intros H s. destruct (foldr_m_total f (fun _ => True) l) with (s := s) as (s' & Hs & _); [|exact I|eauto].
  intros a s0 Ha _. destruct (H a s0 Ha) as (s1 & ->). eauto.
Qed.

Section C.
Context {N : Num} (E : env N) (T : tests N).

(** ** compare raises nothing when evaluate does not and the arrays have the same length *)
Definition good_arrays metrics k (ar : dict (list (@F N))) : Prop :=
  (forall m, In m metrics -> exists l, dget ar m = Some l /\ length l = k) /\ (forall m, dget ar m <> None -> In m metrics).
Lemma means_total (name : string) (ar : dict (list (@F N))) metrics : (forall m, In m metrics -> dget ar m <> None) -> forall results,
  exists r', foldr_m (fun r m => do l <- dget_r ar m; Ok (dset2 r name m (fmean l))) metrics results = Ok r'.
Proof.
  induction metrics as [|m metrics IH]; intros H results; cbn [foldr_m]; [eauto|]. unfold dget_r at 1.
  destruct (dget ar m) as [l|] eqn:Hm; [|exfalso; exact (H m (or_introl eq_refl) Hm)]. cbn [bindr]. apply IH. intros m' Hm'. apply H. now right.
Qed.
Lemma score_runs_total y0 metrics mk : dict_ok (q_map y0) ->
  forall xs n y names results scores, Forall (fun x => dict2_ok (r_map x)) xs -> same_qrels E y0 y ->
  (forall x, In x xs -> exists o ar, ev_res (evaluate E (QObj y0) (RObj x) metrics false false true mk) = Ok o /\ arrays_of metrics o = Ok ar /\
     forall m, In m metrics -> dget ar m <> None) ->
  exists y' xs' r, score_runs E n y xs metrics mk names results scores = (y', xs', Ok r).
Proof.
  intros Hy. induction xs as [|x xs IH]; intros n y names results scores Hxs Hsame Hev; cbn [score_runs]; [eauto|].
  apply Forall_cons_iff in Hxs as [Hx Hxs].
  destruct (evaluate_same E y0 y x metrics false false true mk Hy Hx Hsame) as (S1 & S2 & _). cbv zeta in S1, S2. rewrite S2.
  destruct (Hev x (or_introl eq_refl)) as (o & ar & Ho & Har & Hm). rewrite Ho. cbn [bindr]. rewrite Har. cbn [bindr].
  destruct (means_total (run_name n x) ar metrics Hm results) as (r1 & Hr1). rewrite Hr1. cbn [bindr].
  edestruct IH as (y' & xs' & r & Hrec); [exact Hxs|exact S1|intros z Hz; apply Hev; now right|].
  rewrite Hrec. eauto.
Qed.

Lemma compare_pair_total i j (c t : dict (list F)) metrics k test n max_p : test = "fisher" \/ test = "student" -> good_arrays metrics k c -> good_arrays metrics k t ->
  exists e, compare_pair E T i j c t test n max_p = Ok e.
Proof.
  intros Ht (Hc & Hc') (Htt & _). unfold compare_pair.
  edestruct (foldr_m_total (fun acc m => do c0 <- dget_r c m; do t0 <- dget_r t m;
     do ps <- (if String.eqb test "fisher" then fisher_randomization_test E (draws T i j m) c0 t0 n max_p
               else if String.eqb test "student" then paired_student_t_test T c0 t0 max_p else Err NotImplementedError);
     Ok (dset acc m (Some ps))) (fun _ : dict (stat N) => True) (dkeys c)) as (e & He & _); [|exact I|eauto].
  intros m s Hm _. apply key_dget in Hm as (v & Hv). assert (Hmm : In m metrics) by (apply Hc'; congruence).
  destruct (Hc m Hmm) as (l1 & L1 & Len1). destruct (Htt m Hmm) as (l2 & L2 & Len2). unfold dget_r. rewrite L1, L2. cbn [bindr].
  unfold fisher_randomization_test, paired_student_t_test. rewrite Len1, Len2, Nat.eqb_refl.
  destruct Ht as [ -> | -> ]; cbn [String.eqb Ascii.eqb Bool.eqb bindr]; eauto.
Qed.
Lemma significance_total names (scores : model_scores N) metrics k test n max_p : test = "fisher" \/ test = "student" ->
  (forall a, In a names -> exists ar, dget scores a = Some ar /\ good_arrays metrics k ar) ->
  exists c, compute_statistical_significance E T names scores test n max_p = Ok c.
Proof.
  intros Ht Hs. unfold compute_statistical_significance.
  assert (He : existsb (String.eqb test) ["fisher"; "student"] = true) by (destruct Ht as [ -> | -> ]; reflexivity). rewrite He.
  edestruct (foldr_m_total (fun acc ic =>
      do control <- dget_r scores (snd ic);
      foldr_m (fun acc jt =>
        if String.eqb (snd ic) (snd jt) then Ok acc
        else
          do treatment <- dget_r scores (snd jt);
          do e <- compare_pair E T (fst ic) (fst jt) control treatment test n max_p;
          Ok (fsd_set acc [snd ic; snd jt] e))
        (enumerate names) acc) (fun _ => True) (enumerate names)) as (c & Hc & _); [|exact I|eauto].
  intros [i a] s Ha _. apply enumerate_in, nth_error_In in Ha. cbn [fst snd]. destruct (Hs a Ha) as (ar & Har & Gar). unfold dget_r at 1. rewrite Har. cbn [bindr].
  edestruct (foldr_m_total (fun acc jt =>
        if String.eqb a (snd jt) then Ok acc
        else
          do treatment <- dget_r scores (snd jt);
          do e <- compare_pair E T i (fst jt) ar treatment test n max_p;
          Ok (fsd_set acc [a; snd jt] e)) (fun _ => True) (enumerate names)) as (c & Hc & _); [|exact I|exists c; split; [exact Hc|exact I]].
  intros [j b] s' Hb _. apply enumerate_in, nth_error_In in Hb. cbn [fst snd]. destruct (String.eqb a b); [eauto|].
  destruct (Hs b Hb) as (ar' & Har' & Gar'). unfold dget_r. rewrite Har'. cbn [bindr].
  destruct (compare_pair_total i j ar ar' metrics k test n max_p Ht Gar Gar') as (e & ->). cbn [bindr]. eauto.
Qed.
Lemma wtl_total names metrics (scores : model_scores N) k : (forall a, In a names -> exists ar, dget scores a = Some ar /\ good_arrays metrics k ar) ->
  exists w, win_tie_loss names metrics scores = Ok w.
Proof.
  intros Hs. unfold win_tie_loss. apply foldr_m_tot. intros a s Ha. apply foldr_m_tot. intros b s' Hb. destruct (String.eqb a b); [eauto|]. apply foldr_m_tot.
  intros m s2 Hm. destruct (Hs a Ha) as (ar & Har & (Gar & _)). destruct (Hs b Hb) as (ar' & Har' & (Gar' & _)).
  destruct (Gar m Hm) as (l1 & L1 & Len1). destruct (Gar' m Hm) as (l2 & L2 & Len2). unfold dget_r. rewrite Har, Har'. cbn [bindr]. rewrite L1, L2. cbn [bindr].
  unfold count_pairs. rewrite Len1, Len2, Nat.eqb_refl. cbn [bindr]. eauto.
Qed.
Lemma compare_total y xs metrics k test n max_p digits percent mk : dict_ok (q_map y) -> Forall (fun x => dict2_ok (r_map x)) xs -> test = "fisher" \/ test = "student" ->
  (forall x, In x xs -> exists o ar, ev_res (evaluate E (QObj y) (RObj x) metrics false false true mk) = Ok o /\ arrays_of metrics o = Ok ar /\ good_arrays metrics k ar) ->
  exists y' xs' rep, compare E T y xs metrics test n max_p digits percent mk = (y', xs', Ok rep).
Proof.
  intros Hy Hxs Ht Hev. unfold compare.
  destruct (score_runs_total y metrics mk Hy xs 0 y [] [] [] Hxs (or_introl eq_refl)) as (y' & xs' & r & Hr).
  { intros x Hx. destruct (Hev x Hx) as (o & ar & H1 & H2 & (H3 & _)). exists o, ar. split; [exact H1|]. split; [exact H2|]. intros m Hm. destruct (H3 m Hm) as (l & -> & _). discriminate. }
  rewrite Hr. cbn [bindr]. destruct r as [[names results] scores].
  assert (Hsc : scored E y xs metrics mk (length xs) names results scores).
  { apply (score_runs_ok E y xs metrics mk Hy Hxs xs 0 y [] [] [] y' xs' (names, results, scores)); [reflexivity|reflexivity|now left| |exact Hr].
    split; [reflexivity|]. split; [intros a ar Ha; discriminate|]. split; [intros a []|]. split; [intros a Ha; now destruct Ha|reflexivity]. }
  destruct Hsc as (_ & C2 & C3 & _).
  assert (Hs : forall a, In a names -> exists ar, dget scores a = Some ar /\ good_arrays metrics k ar).
  { intros a Ha. destruct (C3 a Ha) as (ar & Har). exists ar. split; [exact Har|]. destruct (C2 a ar Har) as (i & x & (_ & (Hx & _) & _) & (o & Ho & Ho') & _).
    destruct (Hev x (nth_error_In _ _ Hx)) as (o1 & ar1 & H1 & H2 & H3). rewrite Ho in H1. injection H1 as <-. rewrite Ho' in H2. now injection H2 as <-. }
  destruct (significance_total names scores metrics k test n max_p Ht Hs) as (c & ->). cbn [bindr].
  destruct (wtl_total names metrics scores k Hs) as (w & ->). cbn [bindr]. eauto.
Qed.

(** ** the runs afterwards *)
Lemma score_runs_after y0 metrics mk : dict_ok (q_map y0) ->
  forall xs n y names results scores y' xs' r, Forall (fun x => dict2_ok (r_map x)) xs -> same_qrels E y0 y ->
  score_runs E n y xs metrics mk names results scores = (y', xs', Ok r) ->
  same_qrels E y0 y' /\
  Forall2 (fun x x' => ev_r (evaluate E (QObj y0) (RObj x) metrics false false true mk) = RObj x') xs xs'.
Proof.
  intros Hy. induction xs as [|x xs IH]; intros n y names results scores y' xs' r Hxs Hsame H; cbn [score_runs] in H.
  - injection H as <- <- _. split; [exact Hsame|constructor].
  - apply Forall_cons_iff in Hxs as [Hx Hxs].
    destruct (evaluate_same E y0 y x metrics false false true mk Hy Hx Hsame) as (S1 & S2 & S3). cbv zeta in S1, S2, S3. rewrite S2, S3 in H.
    destruct (do o <- _; _) as [[ar r1]|e] in H; [|discriminate].
    destruct (score_runs E (S n) _ xs metrics mk _ _ _) as [[y2 xs2] r2] eqn:Hrec in H. injection H as <- <- ->.
    destruct (IH _ _ _ _ _ _ _ _ Hxs S1 Hrec) as (R1 & R2). split; [exact R1|]. constructor; [|exact R2].
    clear. unfold evaluate. cbv zeta.
    assert (Hr : exists x1, (if mk then RObj (Run_make_comparable E x y0) else RObj x) = RObj x1) by (destruct mk; eauto). destruct Hr as (x1 & ->).
    destruct (check_keys (QObj y0) (RObj x1)) as [[]|]; [|reflexivity]. cbn [convert_qrels]. destruct (Qrels_to_typed_list E y0) as [y1 tq].
    cbn [convert_run]. destruct (Run_to_typed_list E x1) as [x2 tr]. destruct (compute_scores E tq tr metrics) as [[m d]|]; [|reflexivity].
    destruct (save_results false x2 d) as [x3 [e|]]; reflexivity.
Qed.

Lemma evaluate_arrays q r metrics save mk d : ev_res (evaluate E q r metrics false false save mk) = Ok (OutDict d) -> forall k v, In (k, v) d -> exists l, v = OArr l.
Proof.
  unfold evaluate. cbv zeta. destruct (check_keys _ _) as [[]|]; [|discriminate]. destruct (convert_qrels E q) as [q1 [tq|]]; [|discriminate].
  destruct (convert_run E _) as [r1 [tr|]]; [|discriminate]. destruct (compute_scores E tq tr metrics) as [[m dd]|]; [|discriminate].
  assert (Hg : forall (o : option exn) (r2 : rarg) m, ev_res (match o with Some e => EvalOut q1 r2 (Err e) | None =>
      EvalOut q1 r2 (if length metrics =? 1 then do v <- dget_r (map (fun kv => (fst kv, summarise false false (snd kv))) dd) m; Ok (OutOne v)
        else Ok (OutDict (map (fun kv => (fst kv, summarise false false (snd kv))) dd))) end) = Ok (OutDict d) -> forall k v, In (k, v) d -> exists l, v = OArr l).
  { intros o r2 m0 H k v Hin. destruct o; [discriminate|]. cbn [ev_res] in H. destruct (length metrics =? 1).
    - destruct (dget_r _ m0); cbn in H; discriminate.
    - injection H as <-. apply in_map_iff in Hin as ([k0 v0] & Heq & _). injection Heq as _ <-. cbn [snd]. exists v0. reflexivity. }
  destruct r1 as [x1|?|?|?]; [destruct save; [destruct (save_results false x1 dd) as [x2 o]|]|..]; try exact (Hg _ _ _); exact (Hg None _ _).
Qed.
End C.

(** ** over the reals *)
Lemma arrays_total metrics (scores : string -> list R) res : returns metrics false false scores res ->
  (forall d, res = Ok (@OutDict NumR d) -> forall k v, In (k, v) d -> exists l, v = @OArr NumR l) ->
  exists o ar, res = Ok o /\ @arrays_of NumR metrics o = Ok ar /\ forall m, (In m metrics -> dget ar m = Some (scores m)) /\ (~ In m metrics -> dget ar m = None).
Proof.
  assert (Hg : forall d : dict (@outval NumR), (forall k v, In (k, v) d -> exists l, v = @OArr NumR l) ->
      exists ar, map_m (fun kv : string * @outval NumR => match snd kv with OArr l => Ok (fst kv, l) | _ => Err TypeError end) d = Ok ar /\
        forall m, match dget d m with Some v => exists l, v = @OArr NumR l /\ dget ar m = Some l | None => dget ar m = None end).
  { clear. induction d as [|[k v] d IH]; intros H; cbn [map_m]; [exists []; split; [reflexivity|]; intros m; reflexivity|].
      destruct (H k v (or_introl eq_refl)) as (l & ->). destruct IH as (ar & Har & Hm); [intros k' v' Hk'; apply (H k' v'); now right|].
      cbn [snd fst bindr]. rewrite Har. cbn [bindr]. exists ((k, l) :: ar). split; [reflexivity|]. intros m. cbn [dget]. destruct (String.eqb m k); [eauto|apply Hm]. }
  assert (Hd : forall d, (forall s, (In s metrics -> dget d s = Some (reported false false (scores s))) /\ (~ In s metrics -> dget d s = None)) ->
     (forall k v, In (k, v) d -> exists l, v = @OArr NumR l) -> exists ar, @arrays_of NumR metrics (OutDict d) = Ok ar /\ forall m, (In m metrics -> dget ar m = Some (scores m)) /\ (~ In m metrics -> dget ar m = None)).
  { intros d Hd Ha. destruct (Hg d Ha) as (ar & Har & Hm). exists ar. split; [exact Har|]. intros m. specialize (Hm m). specialize (Hd m) as [H1 H2]. split; intros Hi.
    - rewrite (H1 Hi) in Hm. destruct Hm as (l & Hl & Hr). injection Hl as <-. exact Hr.
    - now rewrite (H2 Hi) in Hm. }
  unfold returns. destruct metrics as [|s [|s2 ms]].
  2: { intros -> _. exists (@OutOne NumR (reported false false (scores s))), [(s, scores s)]. split; [reflexivity|]. split; [reflexivity|]. intros m. cbn [dget In].
       destruct (String.eqb_spec m s) as [ -> |Hne]; split; try reflexivity; intros H; [exfalso; tauto|]. destruct H as [H|[]]; congruence. }
  all: intros (d & -> & Hdd) Ha; destruct (Hd d Hdd (Ha d eq_refl)) as (ar & H1 & H2); exists (@OutDict NumR d), ar; auto.
Qed.

(** ** C68: compare, end to end.  For qrels and runs with any edit histories, the same queries (or
    make_comparable), supported metrics and fisher or student, compare raises nothing; every model is
    scored on the queries of the qrels in the same order, so that the tests and the win/tie/loss
    counts (C60, C61) pair the scores of the same query; the reported value of a model is the mean of
    its scores; and each run ends up with these scores saved in it. *)
Theorem C68_compare : forall (E : env NumR), env_ok E -> forall (T : tests NumR) y xs metrics test n max_p digits percent mk,
  qrels_reachable E y -> Forall (run_reachable E) xs ->
  (mk = false -> Forall (fun x => same_queries (q_map y) (r_map x)) xs) ->
  Forall (fun x => docs_distinct E (q_map y) (r_map x)) xs -> metrics_ok metrics (q_map y) ->
  test = "fisher" \/ test = "student" ->
  exists y' xs' rep qs, compare E T y xs metrics test n max_p digits percent mk = (y', xs', Ok rep) /\
    Permutation qs (dkeys (q_map y)) /\ StronglySorted (fun a b => str_ltb a b = true) qs /\
    Forall2 (fun x x' => exists ranking scores,
        (forall q, In q qs -> ranks (of_query (r_map x) q) (ranking q)) /\
        are_scores metrics (q_map y) qs ranking scores /\
        (forall m, In m metrics -> query_scores E y x metrics mk m (scores m) /\ length (scores m) = length qs) /\
        (forall a m, stands_for xs a x -> In m metrics -> dget2 (rp_results rep) a m = Some (mean_of (scores m))) /\
        saved metrics false qs scores x x' /\ r_name x' = r_name x) xs xs'.
Proof.
  intros E HE T y xs metrics test n max_p digits percent mk Hy Hxs Hsame Hdd Hm Ht.
  pose proof (qrels_reachable_inv E HE y Hy) as Iy. assert (Ix : Forall (@run_inv NumR) xs) by (eapply Forall_impl; [|exact Hxs]; intros x; apply run_reachable_inv; exact HE).
  assert (Oy : dict_ok (q_map y)) by apply Iy. assert (Ox : Forall (fun x : Run NumR => dict2_ok (r_map x)) xs) by (eapply Forall_impl; [|exact Ix]; intros x Hx; apply Hx).
  remember (str_sort (dkeys (q_map y))) as qs eqn:Eqs.
  assert (Hall : forall x, In x xs -> exists ranking scores x' o ar, ev_r (@evaluate NumR E (QObj y) (RObj x) metrics false false true mk) = RObj x' /\
     (forall q, In q qs -> ranks (of_query (r_map x) q) (ranking q)) /\ are_scores metrics (q_map y) qs ranking scores /\
     ev_res (@evaluate NumR E (QObj y) (RObj x) metrics false false true mk) = Ok o /\ @arrays_of NumR metrics o = Ok ar /\
     (forall m, (In m metrics -> dget ar m = Some (scores m)) /\ (~ In m metrics -> dget ar m = None)) /\
     (forall m, In m metrics -> length (scores m) = length qs) /\ saved metrics false qs scores x x' /\ r_name x' = r_name x).
  { intros x Hx. rewrite Forall_forall in Ix, Hdd.
    destruct (evaluate_objects E HE y x metrics false false true mk Iy (Ix x Hx)) as (ranking & scores & y1 & x' & H1 & H2 & H3 & H4 & (H5 & H6 & H7) & H8 & H9 & H10 & H11 & H12 & H13); rewrite <- ?Eqs in *; [|now apply Hdd|exact Hm|].
    { intros Hmk. specialize (Hsame Hmk). rewrite Forall_forall in Hsame. now apply Hsame. }
    assert (Hret : returns metrics false false scores (ev_res (@evaluate NumR E (QObj y) (RObj x) metrics false false true mk))).
    { unfold eval_result, returns in *. destruct metrics as [|s [|s2 ms]]; auto. destruct H12 as (name & k & lvl & _ & Hr). rewrite Hr. reflexivity. }
    destruct (arrays_total metrics scores _ Hret) as (o & ar & R1 & R2 & R3).
    { intros d Hd. exact (evaluate_arrays E _ _ _ _ _ d Hd). }
    exists ranking, scores, x', o, ar. split; [exact H2|]. split; [exact H10|]. split; [exact H11|]. split; [exact R1|]. split; [exact R2|]. split; [exact R3|]. split; [|split; [exact H13|exact H7]].
    intros m Hmm. destruct (Hm m Hmm) as (name & k & lvl & Hden & _). specialize (H11 m name k lvl Hmm Hden).
    clear - H11. symmetry. revert H11. generalize (scores m) as l. induction qs as [|q qs0 IH]; intros l Hl; inversion Hl; subst; [reflexivity|]. cbn [length]. f_equal. now apply IH. }
  destruct (compare_total E T y xs metrics (length qs) test n max_p digits percent mk Oy Ox Ht) as (y' & xs' & rep & Hc).
  { intros x Hx. destruct (Hall x Hx) as (ranking & scores & x' & o & ar & _ & _ & _ & R1 & R2 & R3 & R4 & _). exists o, ar. split; [exact R1|]. split; [exact R2|]. split.
    - intros m Hmm. exists (scores m). split; [now apply R3|now apply R4].
    - intros m Hmm. destruct (in_dec string_dec m metrics) as [Hi|Hi]; [exact Hi|]. exfalso. apply Hmm. now apply R3. }
  exists y', xs', rep, qs. split; [exact Hc|]. split; [rewrite Eqs; apply Permutation_sym, str_sort_perm|]. split; [rewrite Eqs; apply str_sort_strict; apply Iy|].
  destruct (C68_results _ E T _ _ _ _ _ _ _ _ _ _ _ _ Oy Ox Hc) as (_ & _ & _ & _ & _ & _ & Hres & _).
  pose proof Hc as Hc'. unfold compare in Hc'. destruct (score_runs E 0 y xs metrics mk [] [] []) as [[y1 xs1] r] eqn:Hs. injection Hc' as -> -> Hr.
  destruct r as [r|]; [|discriminate]. destruct (score_runs_after E y metrics mk Oy xs 0 y [] [] [] y' xs' r Ox (or_introl eq_refl) Hs) as (_ & Haft).
  assert (Hin : forall l l', Forall2 (fun x x' => ev_r (@evaluate NumR E (QObj y) (RObj x) metrics false false true mk) = RObj x') l l' -> incl l xs ->
    Forall2 (fun x x' => exists ranking scores,
        (forall q, In q qs -> ranks (of_query (r_map x) q) (ranking q)) /\
        are_scores metrics (q_map y) qs ranking scores /\
        (forall m, In m metrics -> query_scores E y x metrics mk m (scores m) /\ length (scores m) = length qs) /\
        (forall a m, stands_for xs a x -> In m metrics -> dget2 (rp_results rep) a m = Some (mean_of (scores m))) /\
        saved metrics false qs scores x x' /\ r_name x' = r_name x) l l'); [|apply (Hin xs xs' Haft); apply incl_refl].
  induction 1 as [|x x' l l' Hx Hl IH]; intros Hi; [constructor|]. constructor; [|apply IH; intros z Hz; apply Hi; now right].
  destruct (Hall x (Hi x (or_introl eq_refl))) as (ranking & scores & x2 & o & ar & E1 & K1 & K2 & R1 & R2 & R3 & R4 & R5 & R6). rewrite Hx in E1. injection E1 as <-.
  exists ranking, scores. split; [exact K1|]. split; [exact K2|].
  assert (Hqs : forall m, In m metrics -> query_scores E y x metrics mk m (scores m)).
  { intros m Hmm. exists o. split; [exact R1|]. apply (arrays_get metrics o ar R2). now apply R3. }
  split; [intros m Hmm; split; [now apply Hqs|now apply R4]|]. split; [|split; [exact R5|exact R6]].
  intros a m Ha Hmm. destruct (Hres a x m Ha Hmm) as (l0 & (o' & Ho' & Hl0) & Hv). rewrite <- fmean_R.
  assert (Heq : l0 = scores m).
  { destruct (Hqs m Hmm) as (o2 & Ho2 & Hl2). rewrite Ho' in Ho2. injection Ho2 as <-. destruct o' as [[l1|?|? ?]|d]; try contradiction.
    - destruct Hl0 as [_ ->]. destruct Hl2 as [_ ->]. reflexivity.
    - rewrite Hl0 in Hl2. now injection Hl2 as ->. }
  rewrite <- Heq. exact Hv.
Qed.
Print Assumptions C68_compare.
