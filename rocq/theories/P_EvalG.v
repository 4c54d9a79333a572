(** P_EvalG.v: evaluate on objects, for any arithmetic *)
From Coq Require Import Reals.
From Verif Require Import Base Dict Num NumLaws Env M_Common M_Qrels M_Run M_History M_Metrics M_Strings M_Evaluate
  Spec_DS Spec_Hist Spec_Strings Spec_Metrics Spec_MetricsAPI Spec_Eval Spec_Float2
  P_Base P_Dict P_Common P_History P_DS T_DS P_Eval P_Eval2 P_Eval3.
Open Scope string_scope.
Open Scope list_scope.
Open Scope nat_scope.

Section G.
Context {N : Num} (HL : NumLaws N) (E : env N) (HE : env_ok E).
Definition rarg_g (rs : list (dict F)) : list rows := map (fun r => to_rows E r_tof r) rs.
Definition qarg_g (js : list (dict Z)) : list rows := map (fun j => to_rows E q_tof j) js.

Lemma sound_run_inv x : sound_run x -> run_inv x.
Proof.
  intros (Hok & Hn & Hs). split; [exact Hok|]. split.
  - intros q r Hq. apply Forall_forall. intros v Hv. apply (nan_negf HL). apply in_map_iff in Hv as ((d & v') & <- & Hv).
    apply (Hn q d). unfold dget2. rewrite Hq. apply in_dget; [|exact Hv]. now apply (proj2 Hok q).
  - intros H. destruct (Hs H) as [Hk Hr]. split; [exact Hk|]. intros q r Hq. eapply StronglySorted_impl; [|exact (Hr q r Hq)].
    intros a b Hab. unfold by_score_desc, r_negf. now rewrite law_opp_le.
Qed.
Lemma run_typed_g x : run_inv x ->
  let x' := fst (Run_to_typed_list E x) in
  snd (Run_to_typed_list E x) = rarg_g (map (of_query (r_map x')) (str_sort (dkeys (r_map x)))) /\
  dkeys (r_map x') = str_sort (dkeys (r_map x)) /\ dict2_ok (r_map x') /\
  (forall q, match dget (r_map x) q, dget (r_map x') q with
             | Some r, Some r' => Permutation r r' | None, None => True | _, _ => False end) /\
  forall q, StronglySorted (fun a b : string * F => fleb (snd b) (snd a) = true) (of_query (r_map x') q).
Proof.
  intros (Hok & Hnf & Hso). unfold Run_to_typed_list. cbn [fst snd].
  set (x' := if r_sorted x then x else Run_sort E x).
  assert (H : dkeys (r_map x') = str_sort (dkeys (r_map x)) /\ dict2_ok (r_map x') /\
     (forall q, match dget (r_map x) q, dget (r_map x') q with
             | Some r, Some r' => Permutation r r' | None, None => True | _, _ => False end) /\
     is_sorted r_negf (r_map x')).
  { unfold x'. destruct (r_sorted x) eqn:Hs.
    - specialize (Hso eq_refl). repeat split; auto; try apply Hok; try apply Hso.
      + symmetry. apply str_sort_id. destruct Hso as [Hk _].
        eapply StronglySorted_impl; [|exact Hk]. intros a b Hab. unfold str_ltb in Hab.
        apply andb_true_iff in Hab. apply Hab.
      + intros q. destruct (dget (r_map x) q); auto.
    - repeat split.
      + apply (canon_keys E r_negf). apply Hok.
      + apply (canon_ok E HE r_negf). exact Hok.
      + apply (canon_ok E HE r_negf). exact Hok.
      + intros q. assert (Hg : dget (r_map (Run_sort E x)) q = option_map (sort_dict_by_value E r_negf) (dget (r_map x) q))
          by exact (canon_get E r_negf (r_map x) q (proj1 Hok)). rewrite Hg.
        destruct (dget (r_map x) q) as [r|] eqn:Hq; cbn; auto. apply sort_dict_by_value_perm; auto. now apply (proj2 Hok q).
      + apply (canon_sorted E HE r_negf (r_map x) Hok Hnf).
      + apply (canon_sorted E HE r_negf (r_map x) Hok Hnf). }
  destruct H as (H1 & H2 & H3 & H4).
  split; [|split; [exact H1|split; [exact H2|split; [exact H3|]]]].
  - unfold to_typed_list. rewrite dvals_of_keys by apply H2. rewrite <- H1. reflexivity.
  - intros q. unfold of_query. destruct (dget (r_map x') q) as [r|] eqn:Hq; [|constructor].
    destruct (is_sorted_in_order HL _ H4) as [_ Hd]. exact (Hd q r Hq).
Qed.
Lemma qrels_typed_g y : sound_qrels y ->
  let y' := fst (Qrels_to_typed_list E y) in
  snd (Qrels_to_typed_list E y) = qarg_g (map (of_query (q_map y')) (str_sort (dkeys (q_map y)))) /\
  dkeys (q_map y') = str_sort (dkeys (q_map y)) /\ dict2_ok (q_map y') /\
  (forall q, match dget (q_map y) q, dget (q_map y') q with
             | Some r, Some r' => Permutation r r' | None, None => True | _, _ => False end).
Proof.
  intros (Hok & Hso). unfold Qrels_to_typed_list. cbn [fst snd].
  set (y' := if q_sorted y then y else Qrels_sort E y).
  assert (H : dkeys (q_map y') = str_sort (dkeys (q_map y)) /\ dict2_ok (q_map y') /\
     (forall q, match dget (q_map y) q, dget (q_map y') q with
             | Some r, Some r' => Permutation r r' | None, None => True | _, _ => False end)).
  { unfold y'. destruct (q_sorted y) eqn:Hs.
    - specialize (Hso eq_refl). repeat split; auto; try apply Hok; try apply Hso.
      + symmetry. apply str_sort_id. destruct Hso as [Hk _].
        eapply StronglySorted_impl; [|exact Hk]. intros a b Hab. unfold str_ltb in Hab.
        apply andb_true_iff in Hab. apply Hab.
      + intros q. destruct (dget (q_map y) q); auto.
    - repeat split.
      + apply (canon_keys E q_negf). apply Hok.
      + apply (canon_ok E HE q_negf). exact Hok.
      + apply (canon_ok E HE q_negf). exact Hok.
      + intros q. assert (Hg : dget (q_map (Qrels_sort E y)) q = option_map (sort_dict_by_value E q_negf) (dget (q_map y) q))
          by exact (canon_get E q_negf (q_map y) q (proj1 Hok)). rewrite Hg.
        destruct (dget (q_map y) q) as [r|] eqn:Hq; cbn; auto. apply sort_dict_by_value_perm; auto. now apply (proj2 Hok q). }
  destruct H as (H1 & H2 & H3). split; [|split; [exact H1|split; [exact H2|exact H3]]].
  unfold to_typed_list. rewrite dvals_of_keys by apply H2. rewrite <- H1. reflexivity.
Qed.

Lemma compute_scores_g tq tr metrics (P : string -> list F -> Prop) :
  (forall s, In s metrics -> exists m k lvl f vs, extract_metric_and_params s = Ok (m, k, lvl) /\
      metric_switch E m = Ok f /\ f tq tr k lvl = Ok vs /\ P s vs) ->
  exists m d, compute_scores E tq tr metrics = Ok (m, d) /\ dict_ok d /\
    (forall s, In s (dkeys d) <-> In s metrics) /\ (forall s vs, dget d s = Some vs -> P s vs) /\
    (forall s, metrics = [s] -> exists vs, d = [(s, vs)]).
Proof.
  intros H. unfold compute_scores.
  assert (Hgen : forall ms (st : string * dict (list F)), incl ms metrics -> dict_ok (snd st) ->
     (forall s vs, dget (snd st) s = Some vs -> P s vs) ->
     exists m d, foldr_m (fun st metric =>
             do mkl <- extract_metric_and_params metric;
             let '(m, k, lvl) := mkl in
             do f <- metric_switch E m;
             do s <- f tq tr k lvl;
             Ok (m, dset (snd st) metric s)) ms st = Ok (m, d) /\ dict_ok d /\
       (forall s, In s (dkeys d) <-> In s ms \/ In s (dkeys (snd st))) /\ (forall s vs, dget d s = Some vs -> P s vs) /\
       (forall s, ms = [s] -> snd st = [] -> exists vs, d = [(s, vs)])).
  { intros ms. induction ms as [|s ms IH]; intros st Hi Hd HP; cbn [foldr_m].
    - exists (fst st), (snd st). split; [now destruct st|]. split; [exact Hd|]. split; [cbn; tauto|]. split; [exact HP|discriminate].
    - destruct (H s (Hi s (or_introl eq_refl))) as (m & k & lvl & f & vs & H1 & H2 & H3 & H4).
      rewrite H1. cbn [bindr]. rewrite H2. cbn [bindr]. rewrite H3. cbn [bindr].
      destruct (IH (m, dset (snd st) s vs)) as (m' & d & G1 & G2 & G3 & G4 & G5).
      + intros a Ha. apply Hi. now right.
      + cbn. now apply dict_ok_dset.
      + intros s' us Hs'. cbn in Hs'. rewrite dget_dset in Hs'. destruct (String.eqb_spec s' s) as [->|].
        * inversion Hs'; subst. exact H4.
        * now apply HP.
      + exists m', d. split; [exact G1|]. split; [exact G2|]. split; [|split; [exact G4|]].
        * intros s'. rewrite G3. cbn [snd In]. rewrite in_dkeys_dset. split; intros Ha; [destruct Ha as [Ha|[Ha|Ha]]|destruct Ha as [[Ha|Ha]|Ha]]; subst; auto.
        * intros s' Hs' Hst. inversion Hs'; subst. cbn in G1. inversion G1; subst.
          exists vs. destruct st as [st1 st2]. cbn [snd] in *. now subst. }
  destruct (Hgen metrics ("", [])) as (m & d & G1 & G2 & G3 & G4 & G5).
  - intros a Ha; exact Ha.
  - constructor.
  - discriminate.
  - exists m, d. split; [exact G1|]. split; [exact G2|]. split; [|split; [exact G4|]].
    + intros s. rewrite G3. cbn. tauto.
    + intros s Hs. now apply G5.
Qed.

(** the two arguments of the metrics, the ranking of each query *)
Definition eval_pair (y : Qrels) (x : Run N) (mk : bool) : dict (dict Z) * dict (dict F) :=
  (q_map (fst (Qrels_to_typed_list E y)), r_map (fst (Run_to_typed_list E (if mk then Run_make_comparable E x y else x)))).
Lemma eval_pair_spec y x mk : sound_qrels y -> sound_run x -> (mk = false -> same_queries (q_map y) (r_map x)) ->
  let jm := fst (eval_pair y x mk) in let rm := snd (eval_pair y x mk) in let qs := str_sort (dkeys (q_map y)) in
  (forall q, Permutation (of_query (q_map y) q) (of_query jm q)) /\
  (forall q, In q qs -> Permutation (of_query (r_map x) q) (of_query rm q)) /\
  (forall q, StronglySorted (fun a b : string * F => fleb (snd b) (snd a) = true) (of_query rm q)) /\
  (forall q, dict_ok (of_query jm q)) /\ (forall q, dict_ok (of_query rm q)) /\
  dkeys rm = qs /\ dict_ok rm /\
  check_keys (QObj y) (RObj (if mk then Run_make_comparable E x y else x)) = Ok tt /\
  convert_qrels E (QObj y) = (QObj (fst (Qrels_to_typed_list E y)), Ok (qarg_g (map (of_query jm) qs))) /\
  convert_run E (RObj (if mk then Run_make_comparable E x y else x)) =
    (RObj (fst (Run_to_typed_list E (if mk then Run_make_comparable E x y else x))), Ok (rarg_g (map (of_query rm) qs))).
Proof.
  intros Hy Hx0 Hsame jm rm qs. pose proof (sound_run_inv x Hx0) as Hx.
  set (x1 := if mk then Run_make_comparable E x y else x).
  assert (Hx1 : run_inv x1).
  { unfold x1. destruct mk; [|exact Hx]. exact (run_step_inv E HE HL x (RMakeComparable y) Hx I I). }
  assert (Hqk : dict_ok (q_map y)) by apply Hy.
  assert (Hxk : dict2_ok (r_map x)) by apply Hx.
  assert (Hget : forall q, In q (dkeys (q_map y)) -> exists r1, dget (r_map x1) q = Some r1 /\ Permutation (of_query (r_map x) q) r1).
  { intros q Hq. unfold x1. destruct mk.
    - destruct (C05_make_comparable N E HE x y Hxk Hqk) as (_ & H & _).
      destruct (H q Hq) as (r1 & H1 & H2). exists r1. split; [exact H1|]. unfold of_query.
      destruct (dget (r_map x) q); [exact H2|subst; constructor].
    - apply (Hsame eq_refl) in Hq. unfold of_query. destruct (dget (r_map x) q) eqn:Hd; [eauto|]. apply dget_None in Hd. contradiction. }
  assert (Hkeys : forall q, In q (dkeys (q_map y)) <-> In q (dkeys (r_map x1))).
  { intros q. unfold x1. destruct mk; [|now apply Hsame].
    destruct (C05_make_comparable N E HE x y Hxk Hqk) as (H & _). split; apply Permutation_in; [now apply Permutation_sym|exact H]. }
  assert (Hqs : qs = str_sort (dkeys (r_map x1))) by (apply str_sort_set_eq; auto; apply Hx1).
  destruct (qrels_typed_g y Hy) as (Q1 & Q2 & Q3 & Q4).
  destruct (run_typed_g x1 Hx1) as (R1 & R2 & R3 & R4 & R5).
  assert (Ejm : jm = q_map (fst (Qrels_to_typed_list E y))) by reflexivity.
  assert (Erm : rm = r_map (fst (Run_to_typed_list E x1))) by reflexivity.
  rewrite <- Ejm in *. rewrite <- Erm in *. fold qs in Q1, Q2. rewrite <- Hqs in R1, R2.
  split; [exact (of_query_perm _ _ Q4)|]. split.
  { intros q Hq. assert (Hq' : In q (dkeys (q_map y))) by (eapply Permutation_in; [apply Permutation_sym, str_sort_perm|exact Hq]).
    destruct (Hget q Hq') as (r1 & H1 & H2). eapply Permutation_trans; [exact H2|]. specialize (R4 q). rewrite H1 in R4. unfold of_query. destruct (dget rm q); [exact R4|contradiction]. }
  split; [exact R5|]. split.
  { intros q. unfold of_query. destruct (dget jm q) eqn:Hd; [|constructor]. now apply (proj2 Q3 q). }
  split.
  { intros q. unfold of_query. destruct (dget rm q) eqn:Hd; [|constructor]. now apply (proj2 R3 q). }
  split; [exact R2|]. split; [apply R3|]. split.
  { assert (Ha : forall b, b = true -> assertr b = Ok tt) by now intros b ->. apply Ha. apply keys_eqb_spec. exact Hkeys. }
  split.
  - unfold convert_qrels. rewrite (surjective_pairing (Qrels_to_typed_list E y)). now rewrite Q1.
  - unfold convert_run. fold x1. rewrite (surjective_pairing (Run_to_typed_list E x1)). now rewrite R1.
Qed.

Lemma summarise_mean std (l : list F) : mean_part (summarise true std l) = Some (fmean l).
Proof. destruct std; reflexivity. Qed.

(** evaluate with return_mean = True: the means of the score arrays *)
Lemma evaluate_means y x metrics std save mk (P : string -> list F -> Prop) :
  sound_qrels y -> sound_run x -> (mk = false -> same_queries (q_map y) (r_map x)) ->
  let jm := fst (eval_pair y x mk) in let rm := snd (eval_pair y x mk) in let qs := str_sort (dkeys (q_map y)) in
  (forall s, In s metrics -> exists m k lvl f vs, extract_metric_and_params s = Ok (m, k, lvl) /\ metric_switch E m = Ok f /\
      f (qarg_g (map (of_query jm) qs)) (rarg_g (map (of_query rm) qs)) k lvl = Ok vs /\ P s vs /\ length vs = length qs) ->
  exists scores, (forall s, In s metrics -> P s (scores s)) /\
    returns_means metrics (fun s => fmean (scores s)) (ev_res (evaluate E (QObj y) (RObj x) metrics true std save mk)).
Proof.
  intros Hy Hx Hsame jm rm qs Hm. destruct (eval_pair_spec y x mk Hy Hx Hsame) as (S1 & S2 & S3 & S4 & S5 & S6 & S7 & S8 & S9 & S10).
  fold jm rm qs in S1, S2, S3, S4, S5, S6, S7, S9, S10.
  set (tq := qarg_g (map (of_query jm) qs)) in *. set (tr := rarg_g (map (of_query rm) qs)) in *.
  destruct (compute_scores_g tq tr metrics (fun s vs => P s vs /\ length vs = length qs)) as (m & d & D1 & D2 & D3 & D4 & D5).
  { intros s Hs. destruct (Hm s Hs) as (m & k & lvl & f & vs & A & B & C & D & L). exists m, k, lvl, f, vs. tauto. }
  set (scores := fun s => match dget d s with Some vs => vs | None => [] end). exists scores.
  assert (Hsc : forall s, In s metrics -> dget d s = Some (scores s)).
  { intros s Hs. unfold scores. destruct (dget d s) eqn:Hd; [reflexivity|]. apply dget_None in Hd. apply D3 in Hs. contradiction. }
  split; [intros s Hs; apply (D4 s), Hsc, Hs|].
  set (x2 := fst (Run_to_typed_list E (if mk then Run_make_comparable E x y else x))) in *.
  assert (Hsave : exists x3, save_results std x2 d = (x3, None)).
  { destruct (save_results_spec std d x2 D2 S7) as (x3 & H & _); [|now exists x3]. intros s vs Hd.
    replace (length (r_map x2)) with (length (dkeys rm)) by (unfold dkeys; now rewrite map_length). rewrite S6. now apply (D4 s). }
  destruct Hsave as (x3 & Hsave).
  assert (Hres : ev_res (evaluate E (QObj y) (RObj x) metrics true std save mk) =
     let o := map (fun kv => (fst kv, summarise true std (snd kv))) d in
     if length metrics =? 1 then do v <- dget_r o (last_key d (if save then last_key d m else m)); Ok (OutOne v) else Ok (OutDict o)).
  { unfold evaluate. replace (if mk then RObj (Run_make_comparable E x y) else RObj x) with (RObj (if mk then Run_make_comparable E x y else x)) by now destruct mk.
    rewrite S8, S9, S10, D1. destruct save; [rewrite Hsave|]; reflexivity. }
  rewrite Hres. cbv zeta.
  assert (Hdict : forall s, (In s metrics -> exists v, dget (map (fun kv => (fst kv, summarise true std (snd kv))) d) s = Some v /\ mean_part v = Some (fmean (scores s))) /\
     (~ In s metrics -> dget (map (fun kv => (fst kv, summarise true std (snd kv))) d) s = None)).
  { intros s. rewrite dget_map_vals. split; intros Hs.
    - rewrite (Hsc s Hs). cbn. eexists. split; [reflexivity|apply summarise_mean].
    - assert (Hn : dget d s = None) by (apply dget_None; now rewrite D3). now rewrite Hn. }
  unfold returns_means. destruct metrics as [|s [|s2 ms]].
  - eexists. split; [reflexivity|exact Hdict].
  - destruct (D5 s eq_refl) as (vs & ->). assert (Hv : scores s = vs) by (unfold scores; cbn; now rewrite String.eqb_refl).
    rewrite Hv. destruct save; cbn [length Nat.eqb map fst snd]; unfold last_key, dget_r; cbn [fold_left fst dget]; rewrite String.eqb_refl; cbn [bindr]; eexists; (split; [reflexivity|apply summarise_mean]).
  - eexists. split; [reflexivity|exact Hdict].
Qed.
End G.
