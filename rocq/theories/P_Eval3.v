(** P_Eval3.v: evaluate on Qrels and Run objects, general lemma. *)
From Coq Require Import Reals Lra.
From Verif Require Import Base Dict Num NumLaws Env M_Common M_Qrels M_Run M_History M_Metrics M_Evaluate
  Spec_DS Spec_Hist Spec_Strings Spec_Metrics Spec_MetricsAPI Spec_Eval
  P_Base P_Dict P_Common P_History P_DS P_Metrics P_Metrics4 P_Metrics6 P_Metrics7 T_DS T_Metrics T_Parse P_Eval P_Eval2.
Open Scope string_scope.
Open Scope list_scope.
Open Scope nat_scope.

Lemma fmean_R (l : list R) : @fmean NumR l = mean_of l.
Proof. unfold fmean, mean_of. rewrite fsum_R, fnat_INR. reflexivity. Qed.
Lemma fstd_R (l : list R) : @fstd NumR l = std_of l.
Proof. unfold fstd, std_of. rewrite !fmean_R. reflexivity. Qed.
Lemma summarise_R mean std (l : list R) :
  @summarise NumR mean (if mean then std else false) l = reported mean std l.
Proof. unfold summarise, reported. rewrite fmean_R, fstd_R. destruct mean, std; reflexivity. Qed.

Lemma Forall2_combine_map {A B C V} (f : A -> B) (g : A -> C) (P : B * C -> V -> Prop) qs vs :
  Forall2 P (combine (map f qs) (map g qs)) vs -> Forall2 (fun q v => P (f q, g q) v) qs vs.
Proof.
  revert vs. induction qs as [|q qs IH]; intros vs H; inversion H; subst; constructor; auto.
Qed.
Lemma Forall2_in_l {A B} (P Q : A -> B -> Prop) l1 l2 : (forall a b, In a l1 -> P a b -> Q a b) ->
  Forall2 P l1 l2 -> Forall2 Q l1 l2.
Proof. intros H F. induction F; constructor; [apply H; auto; now left|]. apply IHF. intros. apply H; auto. now right. Qed.
Lemma of_query_perm {V} (m m' : dict (dict V)) :
  (forall q, match dget m q, dget m' q with
             | Some r, Some r' => Permutation r r' | None, None => True | _, _ => False end) ->
  forall q, Permutation (of_query m q) (of_query m' q).
Proof. intros H q. specialize (H q). unfold of_query. destruct (dget m q), (dget m' q); auto; contradiction. Qed.
Lemma of_query_smap {V} (m m' : dict (dict V)) : dict2_ok m ->
  (forall q, match dget m q, dget m' q with
             | Some r, Some r' => Permutation r r' | None, None => True | _, _ => False end) ->
  smap_eq (smap_of m') (smap_of m).
Proof.
  intros Hm H. split; cbn; intros q; [|intros d]; specialize (H q); unfold dmem, dget2;
    destruct (dget m q) as [r|] eqn:Hq, (dget m' q) as [r'|]; auto; try contradiction.
  symmetry. apply dget_perm; auto. now apply (proj2 Hm q).
Qed.
Lemma ids_distinct_perm key l l' : Permutation l l' -> ids_distinct key l -> ids_distinct key l'.
Proof.
  intros Hp H d d' Hd Hd'. apply H; eapply Permutation_in; try eassumption; now apply Permutation_sym.
Qed.

Section G.
Context (E : env NumR) (HE : env_ok E).

(** the result, before it is split into cases *)
Definition eval_result (metrics : list string) (mean std save : bool) (scores : string -> list R) : result (@outcome NumR) -> Prop :=
  fun res => match metrics with
  | [s] => exists name k lvl, @extract_metric_and_params NumR s = Ok (name, k, lvl) /\
           res = if mean || save || String.eqb name s then Ok (@OutOne NumR (reported mean std (scores s))) else Err KeyError
  | _ => returns metrics mean std scores res
  end.

Lemma dkeys_map_vals {V W} (f : V -> W) (d : dict V) : dkeys (map (fun kv => (fst kv, f (snd kv))) d) = dkeys d.
Proof. unfold dkeys. rewrite map_map. apply map_ext. reflexivity. Qed.
Lemma dget_map_vals {V W} (f : V -> W) (d : dict V) s : dget (map (fun kv => (fst kv, f (snd kv))) d) s = option_map f (dget d s).
Proof. induction d as [|[k v] d IH]; cbn; auto. destruct (String.eqb s k); auto. Qed.

Lemma dict_perm_set {V} (m m' : dict V) : dict_ok m -> dict_ok m' ->
  (forall q, In q (dkeys m) <-> In q (dkeys m')) -> str_sort (dkeys m) = str_sort (dkeys m').
Proof. intros. now apply str_sort_set_eq. Qed.

Lemma evaluate_objects y x metrics mean std save mk :
  qrels_inv y -> @run_inv NumR x -> (mk = false -> same_queries (q_map y) (r_map x)) ->
  docs_distinct E (q_map y) (r_map x) -> metrics_ok metrics (q_map y) ->
  let out := @evaluate NumR E (QObj y) (RObj x) metrics mean std save mk in
  let qs := str_sort (dkeys (q_map y)) in
  exists ranking scores y' x', ev_q out = QObj y' /\ ev_r out = RObj x' /\
    y' = fst (@Qrels_to_typed_list NumR E y) /\ ranking = (fun q => dkeys (of_query (r_map x') q)) /\
    (let x1 := fst (Run_to_typed_list E (if mk then Run_make_comparable E x y else x)) in
     r_map x' = r_map x1 /\ r_sorted x' = r_sorted x1 /\ r_name x' = r_name x) /\
    smap_eq (smap_of (q_map y')) (smap_of (q_map y)) /\
    smap_eq (smap_of (r_map x')) (s_restrict (smap_of (r_map x)) (fun q => dmem (q_map y) q)) /\
    (forall q, In q qs -> ranks (of_query (r_map x) q) (ranking q)) /\
    are_scores metrics (q_map y) qs ranking scores /\
    eval_result metrics mean std save scores (ev_res out) /\
    (if save then saved metrics (mean && std) qs scores x x' else nothing_saved x x').
Proof.
  intros Hy Hx Hsame Hids Hmet out qs.
  set (x1 := if mk then Run_make_comparable E x y else x).
  assert (Hx1 : @run_inv NumR x1).
  { unfold x1. destruct mk; [|exact Hx].
    exact (run_step_inv E HE NumR_laws x (RMakeComparable y) Hx I I). }
  assert (Hqk : dict_ok (q_map y)) by apply Hy.
  assert (Hxk : dict2_ok (r_map x)) by apply Hx.
  assert (Hf : r_name x1 = r_name x /\ r_scores x1 = r_scores x /\ r_mean x1 = r_mean x /\ r_std x1 = r_std x).
  { unfold x1. destruct mk; repeat split. }
  destruct Hf as (Hf1 & Hf2 & Hf3 & Hf4).
  assert (Hget : forall q, In q (dkeys (q_map y)) -> exists r1, dget (r_map x1) q = Some r1 /\ Permutation (of_query (r_map x) q) r1).
  { intros q Hq. unfold x1. destruct mk.
    - destruct (C05_make_comparable NumR E HE x y Hxk Hqk) as (_ & H & _).
      destruct (H q Hq) as (r1 & H1 & H2). exists r1. split; [exact H1|]. unfold of_query.
      assert (Hgen : forall o : option (dict R), match o with Some r => Permutation r r1 | None => r1 = [] end ->
         Permutation (match o with Some r => r | None => [] end) r1) by (intros [r|] Ho; [exact Ho|subst; constructor]).
      exact (Hgen _ H2).
    - apply (Hsame eq_refl) in Hq. unfold of_query. destruct (dget (r_map x) q) eqn:Hd; [eauto|].
      apply dget_None in Hd. contradiction. }
  assert (Hkeys : forall q, In q (dkeys (q_map y)) <-> In q (dkeys (r_map x1))).
  { intros q. unfold x1. destruct mk; [|now apply Hsame].
    destruct (C05_make_comparable NumR E HE x y Hxk Hqk) as (H & _). split; apply Permutation_in; [now apply Permutation_sym|exact H]. }
  assert (Hsm1 : smap_eq (smap_of (r_map x1)) (s_restrict (smap_of (r_map x)) (fun q => dmem (q_map y) q))).
  { destruct mk; unfold x1.
    - exact (proj2 (proj2 (run_step_refines E HE x (RMakeComparable y) (smap_of (r_map x)) Hxk I (conj (fun _ => eq_refl) (fun _ _ => eq_refl))))).
    - assert (Hb : forall q, dmem (r_map x) q = dmem (q_map y) q).
      { intros q. apply Bool.eq_iff_eq_true. rewrite !dmem_in. symmetry. now apply Hsame. }
      split; cbn; intros q; [apply Hb|]. intros d. rewrite <- Hb. unfold dmem, dget2. assert (Hgen : forall o : option (dict R), match o with Some r => dget r d | None => None end = if match o with Some _ => true | None => false end then match o with Some r => dget r d | None => None end else None) by now intros [r|]. exact (Hgen _). }
  assert (Hqs : qs = str_sort (dkeys (r_map x1))).
  { apply str_sort_set_eq; auto. apply Hx1. }
  destruct (qrels_typed E HE y Hy) as (Q1 & Q2 & Q3 & Q4 & Q5 & Q6 & Q7).
  destruct (run_typed E HE x1 Hx1) as (R1 & R2 & R3 & R4 & R5 & R6 & R7 & R8 & R9 & R10).
  set (y' := fst (@Qrels_to_typed_list NumR E y)) in *.
  set (x2 := fst (Run_to_typed_list E x1)) in *.
  fold qs in Q1, Q2. rewrite <- Hqs in R1, R2.
  set (ranking := fun q => dkeys (of_query (r_map x2) q)).
  assert (Hinqs : forall q, In q qs <-> In q (dkeys (q_map y))).
  { intros q. unfold qs. split; apply Permutation_in; [apply Permutation_sym|]; apply str_sort_perm. }
  assert (Hperm2 : forall q, In q qs -> Permutation (of_query (r_map x) q) (of_query (r_map x2) q)).
  { intros q Hq. apply Hinqs in Hq. destruct (Hget q Hq) as (r1 & H1 & H2).
    eapply Permutation_trans; [exact H2|]. specialize (R9 q). unfold of_query.
    assert (Hgen : forall o1 o2 : option (dict R), o1 = Some r1 ->
       match o1, o2 with Some r, Some r' => Permutation r r' | None, None => True | _, _ => False end ->
       Permutation r1 (match o2 with Some r => r | None => [] end)).
    { intros o1 [r2|] -> Ho; [exact Ho|contradiction]. }
    exact (Hgen _ _ H1 R9). }
  assert (Hpermy : forall q, Permutation (of_query (q_map y) q) (of_query (q_map y') q)) by exact (of_query_perm _ _ Q6).
  assert (Hjok : forall q, dict_ok (of_query (q_map y) q)).
  { intros q. unfold of_query. destruct (dget (q_map y) q) eqn:Hd; [|constructor]. now apply (proj2 (proj1 Hy) q). }
  assert (Hj'ok : forall q, dict_ok (of_query (q_map y') q)).
  { intros q. unfold of_query. destruct (dget (q_map y') q) eqn:Hd; [|constructor]. now apply (proj2 Q3 q). }
  assert (Hr'ok : forall q, dict_ok (of_query (r_map x2) q)).
  { intros q. unfold of_query. destruct (dget (r_map x2) q) eqn:Hd; [|constructor]. now apply (proj2 R3 q). }
  assert (Hal : aligned E (map (of_query (q_map y')) qs) (map (of_query (r_map x2)) qs)).
  { unfold aligned. assert (Hi : incl qs qs) by (intros ? ?; auto). revert Hi. generalize qs at 1 3 4 as l.
    induction l as [|q l IH]; intros Hi; constructor.
    - split; [apply Hj'ok|]. split; [apply Hr'ok|].
      eapply ids_distinct_perm; [|apply (Hids q)].
      + apply Permutation_app; unfold dkeys; apply Permutation_map; [apply Hpermy|]. apply Hperm2, Hi. now left.
      + apply Hinqs, Hi. now left.
    - apply IH. intros a Ha. apply Hi. now right. }
  set (P := fun (s : string) (vs : list R) => forall name k lvl, denotes s name k lvl ->
       Forall2 (fun q v => metric_value name (of_query (q_map y) q) lvl (ranking q) k v) qs vs).
  destruct (compute_scores_spec E (qrels_arg E (map (of_query (q_map y')) qs)) (run_arg E (map (of_query (r_map x2)) qs)) metrics
      (fun s vs => P s vs /\ length vs = length qs)) as (m & d & D1 & D2 & D3 & D4 & D5).
  { intros s Hs. destruct (Hmet s Hs) as (name & k & lvl & (He & Hn & Hk & Hl) & Hdef).
    destruct (metric_array E name k lvl (map (of_query (q_map y')) qs) (map (of_query (r_map x2)) qs) HE Hn Hk Hl Hal)
      as (f & vs & F1 & F2 & F3).
    - apply Forall_map, Forall_forall. intros q _. apply Q7.
    - apply Forall_map, Forall_forall. intros q Hq. eapply metric_defined_perm; [apply Hpermy|]. now apply Hdef, Hinqs.
    - exists name, k, lvl, f, vs. split; [exact He|]. split; [exact F1|]. split; [exact F2|].
      apply Forall2_combine_map in F3. cbn [fst snd] in F3. split.
      + intros name' k' lvl' (He' & _). assert (Hee : Ok (name, k, lvl) = Ok (name', k', lvl')) by (rewrite <- He; exact He').
        injection Hee as <- <- <-.
        eapply Forall2_impl; [|exact F3]. intros q v. apply metric_value_perm; [apply Hj'ok|]. apply Permutation_sym, Hpermy.
      + clear - F3. induction F3; cbn; congruence. }
  set (scores := fun s => match dget d s with Some vs => vs | None => [] end).
  assert (Hsc : forall s, In s metrics -> dget d s = Some (scores s)).
  { intros s Hs. unfold scores. apply D3 in Hs.
    assert (Hgen : forall o : option (list R), o <> None -> o = Some (match o with Some vs => vs | None => [] end)) by (intros [o|]; congruence).
    apply Hgen. intros Hd. apply dget_None in Hd. contradiction. }
  assert (Hnone : forall s, ~ In s metrics -> dget d s = None) by (intros s Hs; apply dget_None; now rewrite D3).
  assert (Hcheck : check_keys (QObj y) (@RObj NumR x1) = Ok tt).
  { assert (Ha : forall b, b = true -> assertr b = Ok tt) by now intros b ->.
    apply Ha. apply keys_eqb_spec. exact Hkeys. }
  assert (Hr2 : dkeys (r_map x2) = qs) by exact R2.
  (* the saving step *)
  assert (Hlen2 : length (r_map x2) = length qs) by (rewrite <- Hr2; unfold dkeys; now rewrite map_length).
  destruct (save_results_spec (mean && std) d x2 D2 (proj1 R3)) as (x3 & S1 & S2 & S3 & S4 & S5).
  { intros s vs Hd. rewrite Hlen2. now apply (D4 s). }
  assert (Hout : out =
     EvalOut (QObj y') (RObj (if save then x3 else x2))
       (let m := if save then last_key d m else m in
        let m := if mean then last_key d m else m in
        let o := map (fun kv => (fst kv, reported mean std (snd kv))) d in
        if length metrics =? 1 then do v <- dget_r o m; Ok (OutOne v) else Ok (OutDict o))).
  { unfold out, evaluate.
    replace (if mk then RObj (Run_make_comparable E x y) else RObj x) with (RObj x1) by (unfold x1; destruct mk; reflexivity).
    rewrite Hcheck. unfold convert_qrels, convert_run.
    replace (Qrels_to_typed_list E y) with (y', qrels_arg E (map (of_query (q_map y')) qs)).
    2:{ rewrite (surjective_pairing (@Qrels_to_typed_list NumR E y)). fold y'. now rewrite Q1. }
    replace (Run_to_typed_list E x1) with (x2, run_arg E (map (of_query (r_map x2)) qs)).
    2:{ rewrite (surjective_pairing (Run_to_typed_list E x1)). fold x2. now rewrite R1. }
    rewrite D1. rewrite (map_ext _ _ (fun kv => f_equal (pair (fst kv)) (summarise_R mean std (snd kv)))).
    replace (if mean then std else false) with (mean && std) by now destruct mean.
    destruct save; [rewrite S1|]; reflexivity. }
  exists ranking, scores, y', (if save then x3 else x2).
  rewrite Hout. cbn [ev_q ev_r ev_res].
  split; [reflexivity|]. split; [reflexivity|]. split; [reflexivity|]. split.
  { unfold ranking. destruct save; [now rewrite S2|reflexivity]. }
  split.
  { cbv zeta. fold x2. destruct save.
    - split; [exact S2|]. split; [exact S3|]. rewrite S4, R5. exact Hf1.
    - split; [reflexivity|]. split; [reflexivity|]. rewrite R5. exact Hf1. }
  split; [apply of_query_smap; [apply Hy|exact Q6]|].
  split.
  { apply smap_eq_trans with (smap_of (r_map x1)); [|exact Hsm1].
    replace (r_map (if save then x3 else x2)) with (r_map x2) by (destruct save; auto).
    apply of_query_smap; [apply Hx1|exact R9]. }
  split.
  { intros q Hq. exists (of_query (r_map x2) q). split; [now apply Hperm2|]. split; [apply R10|reflexivity]. }
  split.
  { intros s name k lvl Hs Hd. exact (proj1 (D4 s (scores s) (Hsc s Hs)) name k lvl Hd). }
  split.
  { unfold eval_result. destruct metrics as [|s [|s2 ms]].
    - exists (map (fun kv => (fst kv, reported mean std (snd kv))) d). split; [reflexivity|].
      intros s. split; [intros []|]. intros Hs. rewrite dget_map_vals.
      exact (f_equal (option_map (reported mean std)) (Hnone s Hs)).
    - destruct (D5 s eq_refl) as (k & lvl & vs & He & ->). exists m, k, lvl. split; [exact He|].
      assert (Hv : scores s = vs) by (unfold scores; cbn; now rewrite String.eqb_refl).
      cbn [length Nat.eqb map fst snd]. rewrite Hv. unfold last_key. cbn [fold_left fst].
      unfold dget_r. destruct mean, save; cbn [orb dget]; rewrite ?String.eqb_refl; cbn [bindr]; try reflexivity.
      destruct (String.eqb m s); reflexivity.
    - exists (map (fun kv => (fst kv, reported mean std (snd kv))) d). split; [reflexivity|].
      intros s'. rewrite dget_map_vals. split; intros Hs.
      + exact (f_equal (option_map (reported mean std)) (Hsc s' Hs)).
      + exact (f_equal (option_map (reported mean std)) (Hnone s' Hs)). }
  destruct save.
  - intros s. specialize (S5 s). rewrite Hr2 in S5. rewrite R6, R7, R8, Hf2, Hf3, Hf4 in S5. split; intros Hs.
    + rewrite (Hsc s Hs) in S5. rewrite fmean_R, fstd_R in S5. exact S5.
    + rewrite (Hnone s Hs) in S5. exact S5.
  - unfold nothing_saved. rewrite R6, R7, R8. auto.
Qed.
End G.
