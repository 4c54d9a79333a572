(** P_Eval5.v: evaluate on any pair of objects and dicts; metric values are unique. *)
From Coq Require Import Reals Lra.
From Verif Require Import Base Dict Num NumLaws Env M_Common M_Qrels M_Run M_History M_Metrics M_Evaluate
  Spec_DS Spec_Hist Spec_Strings Spec_Metrics Spec_MetricsAPI Spec_Eval
  P_Base P_Dict P_Common P_History P_DS P_Metrics P_Metrics4 P_Metrics6 P_Metrics7 T_DS T_Metrics T_Parse P_Eval P_Eval2 P_Eval3 P_Eval4.
Open Scope string_scope.
Open Scope list_scope.
Open Scope nat_scope.

Lemma metric_value_unique name j l ds k v v' : metric_value name j l ds k v -> metric_value name j l ds k v' -> v = v'.
Proof.
  assert (Hn : forall g n v1 v2, is_ndcg g ds n v1 -> is_ndcg g ds n v2 -> v1 = v2).
  { intros g n v1 v2 (i1 & [(r1 & N1 & <-) L1] & ->) (i2 & [(r2 & N2 & <-) L2] & ->).
    assert (Heq : S_dcg_with r1 g n = S_dcg_with r2 g n) by (apply Rle_antisym; [now apply L2|now apply L1]).
    now rewrite Heq. }
  intros H1 H2. destruct H1; inversion H2; subst; try reflexivity; eapply Hn; eassumption.
Qed.

Lemma F2_length {A B} (P : A -> B -> Prop) l1 l2 : Forall2 P l1 l2 -> length l1 = length l2.
Proof. induction 1; cbn; congruence. Qed.

Section S.
Context (E : env NumR) (HE : env_ok E).

Lemma convert_qrels_spec q jm qs : qrels_input E q jm qs ->
  exists q' jf, @convert_qrels NumR E q = (q', Ok (qrels_arg E (map jf qs))) /\
    (forall a, Permutation (of_query jm a) (jf a) /\ judgments_desc (jf a)) /\ dict2_ok jm /\ Permutation qs (dkeys jm).
Proof.
  assert (Hd : forall m, dict2_ok m -> no_empty_query m ->
     exists jf, @python_dict_to_typed_list NumR E (as_reals m) = Ok (qrels_arg E (map jf (dkeys m))) /\
     (forall a, Permutation (of_query m a) (jf a) /\ judgments_desc (jf a)) /\ dict2_ok m /\ Permutation (dkeys m) (dkeys m)).
  { intros m Hok Hne. destruct (dict_typed E HE IZR m Hok Hne) as (jf & H1 & H2). exists jf. split; [|split; [|split; [exact Hok|reflexivity]]].
    - etransitivity; [exact H1|]. unfold qrels_arg. rewrite map_map. reflexivity.
    - intros a. destruct (H2 a) as [H3 H4]. split; [exact H3|]. unfold judgments_desc.
      eapply StronglySorted_impl; [|exact H4]. intros x y Hxy. now apply le_IZR. }
  intros [y Hy|m Hok Hne|m Hok Hne].
  - apply (qrels_reachable_inv E HE) in Hy. destruct (qrels_typed E HE y Hy) as (Q1 & Q2 & Q3 & Q4 & Q5 & Q6 & Q7).
    exists (@QObj NumR (fst (@Qrels_to_typed_list NumR E y))), (of_query (q_map (fst (@Qrels_to_typed_list NumR E y)))).
    split; [|split; [|split; [apply Hy|apply Permutation_sym, str_sort_perm]]].
    + unfold convert_qrels. rewrite (surjective_pairing (@Qrels_to_typed_list NumR E y)). now rewrite Q1.
    + intros a. split; [now apply of_query_perm|apply Q7].
  - destruct (Hd m Hok Hne) as (jf & H1 & H2). exists (@QDict NumR (as_reals m)), jf. split; [|exact H2].
    cbn [convert_qrels]. now rewrite H1.
  - destruct (Hd m Hok Hne) as (jf & H1 & H2). exists (@QSubDict NumR (as_reals m)), jf. split; [|exact H2].
    cbn [convert_qrels]. now rewrite H1.
Qed.

Lemma as_is (m : dict (dict R)) : map (fun qj => (fst qj, map (fun kv => (fst kv, snd kv)) (snd qj))) m = m.
Proof.
  rewrite <- (map_id m) at 2. apply map_ext. intros [q r]. cbn [fst snd].
  replace (map (fun kv : string * R => (fst kv, snd kv)) r) with r; [reflexivity|].
  rewrite <- (map_id r) at 1. apply map_ext. now intros [].
Qed.
Lemma convert_run_spec r rm rs : run_input E r rm rs ->
  exists r' rf, @convert_run NumR E r = (r', Ok (run_arg E (map rf rs))) /\
    (forall a, Permutation (of_query rm a) (rf a) /\ StronglySorted (fun a b : string * R => (snd b <= snd a)%R) (rf a)) /\
    dict2_ok rm /\ Permutation rs (dkeys rm) /\ is_run_object r' = is_run_object r /\
    (forall x', r' = RObj x' -> dkeys (r_map x') = rs /\ dict_ok (r_map x')).
Proof.
  assert (Hd : forall m, dict2_ok m -> no_empty_query m ->
     exists rf, @python_dict_to_typed_list NumR E m = Ok (run_arg E (map rf (dkeys m))) /\
     (forall a, Permutation (of_query m a) (rf a) /\ StronglySorted (fun a b : string * R => (snd b <= snd a)%R) (rf a))).
  { intros m Hok Hne. destruct (dict_typed E HE (fun v => v) m Hok Hne) as (rf & H1 & H2). exists rf. split.
    - assert (Ha : @python_dict_to_typed_list NumR E m = Ok (map (fun q => @to_rows NumR E R (fun v => v) (rf q)) (dkeys m))).
      { etransitivity; [|exact H1]. f_equal. symmetry. apply as_is. }
      etransitivity; [exact Ha|]. unfold run_arg. rewrite map_map. reflexivity.
    - intros a. destruct (H2 a) as [H3 H4]. auto. }
  intros [x Hx|m Hok Hne|m Hok Hne].
  - apply (run_reachable_inv E HE) in Hx. destruct (run_typed E HE x Hx) as (R1 & R2 & R3 & R4 & R5 & R6 & R7 & R8 & R9 & R10).
    exists (@RObj NumR (fst (Run_to_typed_list E x))), (of_query (r_map (fst (Run_to_typed_list E x)))).
    split; [|split; [|split; [apply Hx|split; [apply Permutation_sym, str_sort_perm|split; [reflexivity|]]]]].
    + unfold convert_run. rewrite (surjective_pairing (Run_to_typed_list E x)). now rewrite R1.
    + intros a. split; [now apply of_query_perm|apply R10].
    + intros x' H. injection H as <-. split; [exact R2|apply R3].
  - destruct (Hd m Hok Hne) as (rf & H1 & H2). exists (@RDict NumR m), rf. split; [|split; [exact H2|split; [exact Hok|split; [reflexivity|split; [reflexivity|discriminate]]]]].
    cbn [convert_run]. now rewrite H1.
  - destruct (Hd m Hok Hne) as (rf & H1 & H2). exists (@RSubDict NumR m), rf. split; [|split; [exact H2|split; [exact Hok|split; [reflexivity|split; [reflexivity|discriminate]]]]].
    cbn [convert_run]. now rewrite H1.
Qed.

Lemma check_same q jm qs r rm rs : qrels_input E q jm qs -> run_input E r rm rs -> same_queries jm rm ->
  @check_keys NumR q r = Ok tt.
Proof.
  intros Hq Hr Hs.
  assert (Ha : forall b, b = true -> assertr b = Ok tt) by now intros b ->.
  assert (Hk : forall m q, In q (dkeys (as_reals m)) <-> In q (dkeys m)).
  { intros m a. unfold as_reals, dkeys. rewrite map_map. cbn. reflexivity. }
  destruct Hq, Hr; cbn [check_keys]; try reflexivity; apply Ha, keys_eqb_spec; intros a.
  - apply Hs.
  - apply Hs.
  - etransitivity; [apply Hk|apply Hs].
  - etransitivity; [apply Hk|apply Hs].
Qed.

Lemma evaluate_pairs q jm qs r rm rs metrics mean std save mk :
  qrels_input E q jm qs -> run_input E r rm rs -> same_queries jm rm ->
  (forall a b, In (a, b) (combine qs rs) -> ids_distinct (doc_key E) (dkeys (of_query jm a) ++ dkeys (of_query rm b))) ->
  metrics_ok metrics jm -> mk = false \/ check_keys q r = Ok tt /\ (forall y x, q = QObj y -> r = RObj x -> False) ->
  exists ranking scores,
    (forall b, In b rs -> ranks (of_query rm b) (ranking b)) /\
    (forall s name k lvl, In s metrics -> denotes s name k lvl ->
       Forall2 (fun ab v => metric_value name (of_query jm (fst ab)) lvl (ranking (snd ab)) k v) (combine qs rs) (scores s)) /\
    eval_result metrics mean std (save && is_run_object r) scores (ev_res (@evaluate NumR E q r metrics mean std save mk)).
Proof.
  intros Hq Hr Hsame Hids Hmet Hmk.
  assert (Hcheck := check_same q jm qs r rm rs Hq Hr Hsame).
  destruct (convert_qrels_spec q jm qs Hq) as (q' & jf & Q1 & Q2 & Q3 & Q4).
  destruct (convert_run_spec r rm rs Hr) as (r' & rf & R1 & R2 & R3 & R4 & R5 & R6).
  assert (Hlen : length qs = length rs).
  { rewrite (Permutation_length Q4), (Permutation_length R4). apply Permutation_length.
    apply NoDup_Permutation; [apply Q3|apply R3|exact Hsame]. }
  set (js := map jf qs) in *. set (rl := map rf rs) in *.
  assert (Hal : aligned E js rl).
  { unfold aligned, js, rl. clear - Hids Hlen Q2 Q3 R2 R3. revert rs Hlen Hids.
    induction qs as [|a qs IH]; intros [|b rs] Hl Hi; try discriminate; constructor.
    - destruct (Q2 a) as [Pa _], (R2 b) as [Pb _].
      assert (Ha : dict_ok (of_query jm a)) by (unfold of_query; destruct (dget jm a) eqn:Hd; [now apply (proj2 Q3 a)|constructor]).
      assert (Hb : dict_ok (of_query rm b)) by (unfold of_query; destruct (dget rm b) eqn:Hd; [now apply (proj2 R3 b)|constructor]).
      split; [|split].
      + unfold dict_ok, dkeys in *. eapply Permutation_NoDup; [apply Permutation_map, Pa|exact Ha].
      + unfold dict_ok, dkeys in *. eapply Permutation_NoDup; [apply Permutation_map, Pb|exact Hb].
      + eapply ids_distinct_perm; [|apply (Hi a b); now left].
        apply Permutation_app; unfold dkeys; apply Permutation_map; assumption.
    - apply IH; [now inversion Hl|]. intros; apply Hi. now right. }
  set (ranking := fun b => dkeys (rf b)).
  set (P := fun (s : string) (vs : list R) => forall name k lvl, denotes s name k lvl ->
       Forall2 (fun ab v => metric_value name (of_query jm (fst ab)) lvl (ranking (snd ab)) k v) (combine qs rs) vs).
  destruct (compute_scores_spec E (qrels_arg E js) (run_arg E rl) metrics
      (fun s vs => P s vs /\ length vs = length rs)) as (m & d & D1 & D2 & D3 & D4 & D5).
  { intros s Hs. destruct (Hmet s Hs) as (name & k & lvl & (He & Hn & Hk & Hl) & Hdef).
    destruct (metric_array E name k lvl js rl HE Hn Hk Hl Hal) as (f & vs & F1 & F2 & F3).
    - apply Forall_map, Forall_forall. intros a _. apply Q2.
    - apply Forall_map, Forall_forall. intros a Ha. eapply metric_defined_perm; [apply Q2|]. apply Hdef.
      now apply (Permutation_in _ Q4).
    - exists name, k, lvl, f, vs. split; [exact He|]. split; [exact F1|]. split; [exact F2|].
      assert (F4 : Forall2 (fun ab v => metric_value name (jf (fst ab)) lvl (dkeys (rf (snd ab))) k v) (combine qs rs) vs).
      { unfold js, rl in F3. clear - F3 Hlen. revert rs vs Hlen F3. induction qs as [|a qs IH]; intros [|b rs] vs Hl F; cbn in *; try discriminate;
          inversion F; subst; constructor; auto. }
      split.
      + intros name' k' lvl' (He' & _). assert (Hee : Ok (name, k, lvl) = Ok (name', k', lvl')) by (rewrite <- He; exact He').
        injection Hee as <- <- <-.
        eapply Forall2_impl; [|exact F4]. intros [a b] v. cbn [fst snd]. apply metric_value_perm.
        * assert (Ha : dict_ok (of_query jm a)) by (unfold of_query; destruct (dget jm a) eqn:Hd; [now apply (proj2 Q3 a)|constructor]).
          unfold dict_ok, dkeys in *. eapply Permutation_NoDup; [apply Permutation_map, Q2|exact Ha].
        * apply Permutation_sym, Q2.
      + assert (Hl2 : length (combine qs rs) = length vs) by exact (F2_length _ _ _ F4).
        rewrite combine_length, Hlen, Nat.min_id in Hl2. symmetry. exact Hl2. }
  set (scores := fun s => match dget d s with Some vs => vs | None => [] end).
  assert (Hsc : forall s, In s metrics -> dget d s = Some (scores s)).
  { intros s Hs. unfold scores. apply D3 in Hs.
    assert (Hgen : forall o : option (list R), o <> None -> o = Some (match o with Some vs => vs | None => [] end)) by (intros [o|]; congruence).
    apply Hgen. intros Hd. apply dget_None in Hd. contradiction. }
  assert (Hnone : forall s, ~ In s metrics -> dget d s = None) by (intros s Hs; apply dget_None; now rewrite D3).
  assert (Hout : ev_res (@evaluate NumR E q r metrics mean std save mk) =
       (let m := if save && is_run_object r then last_key d m else m in
        let m := if mean then last_key d m else m in
        let o := map (fun kv => (fst kv, reported mean std (snd kv))) d in
        if length metrics =? 1 then do v <- dget_r o m; Ok (OutOne v) else Ok (OutDict o))).
  { unfold evaluate.
    match goal with |- context[match check_keys q ?t with _ => _ end] => replace t with r end.
    2:{ destruct Hmk as [->|[_ Hmk]]; [reflexivity|]. destruct mk; [|reflexivity].
        destruct q; try reflexivity; destruct r; try reflexivity. exfalso. eapply Hmk; reflexivity. }
    rewrite Hcheck, Q1, R1, D1.
    rewrite (map_ext _ _ (fun kv => f_equal (pair (fst kv)) (summarise_R mean std (snd kv)))).
    rewrite <- R5. destruct r' as [x'|m'|m'|m']; cbn [is_run_object]; rewrite ?andb_false_r, ?andb_true_r; try (destruct mean; reflexivity).
    destruct save; [|reflexivity].
    destruct (save_results_spec (mean && std) d x' D2 (proj2 (R6 x' eq_refl))) as (x3 & S1 & _).
    { intros s vs Hs. etransitivity; [exact (proj2 (D4 s vs Hs))|]. destruct (R6 x' eq_refl) as [R7 _]. rewrite <- R7. unfold dkeys. now rewrite map_length. }
    replace (if mean then std else false) with (mean && std) by now destruct mean.
    rewrite S1. destruct mean; reflexivity. }
  exists ranking, scores. split; [|split].
  - intros b _. exists (rf b). split; [apply R2|]. split; [apply R2|reflexivity].
  - intros s name k lvl Hs Hd. exact (proj1 (D4 s (scores s) (Hsc s Hs)) name k lvl Hd).
  - rewrite Hout. unfold eval_result. destruct metrics as [|s [|s2 ms]].
    + exists (map (fun kv => (fst kv, reported mean std (snd kv))) d). split; [reflexivity|].
      intros s. split; [intros []|]. intros Hs. rewrite dget_map_vals.
      exact (f_equal (option_map (reported mean std)) (Hnone s Hs)).
    + destruct (D5 s eq_refl) as (k & lvl & vs & He & ->). exists m, k, lvl. split; [exact He|].
      assert (Hv : scores s = vs) by (unfold scores; cbn; now rewrite String.eqb_refl).
      cbn [length Nat.eqb map fst snd]. rewrite Hv. unfold last_key. cbn [fold_left fst].
      unfold dget_r. destruct mean, (save && is_run_object r); cbn [orb dget]; rewrite ?String.eqb_refl; cbn [bindr]; try reflexivity.
      destruct (String.eqb m s); reflexivity.
    + exists (map (fun kv => (fst kv, reported mean std (snd kv))) d). split; [reflexivity|].
      intros s'. rewrite dget_map_vals. split; intros Hs.
      * exact (f_equal (option_map (reported mean std)) (Hsc s' Hs)).
      * exact (f_equal (option_map (reported mean std)) (Hnone s' Hs)).
Qed.
End S.
