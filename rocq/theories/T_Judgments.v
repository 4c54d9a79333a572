(** T_Judgments.v: C94, metrics without grades only see which side of the level a judgment
    is on; judgments given as floats are truncated by Qrels but not by a plain dict. *)
From Coq Require Import Reals Lia Lra SpecFloat.
From Verif Require Import Base Dict Num NumLaws Env EnvEx M_Common M_Qrels M_Run M_History M_Metrics M_Evaluate
  M_Judgments Spec_DS Spec_Judgments P_Base P_Dict P_Common P_History P_Metrics P_Eval4 P_Compare P_Judgments T_DS.
Open Scope string_scope.
Open Scope list_scope.
Open Scope nat_scope.

Section S.
Context {N : Num} (E : env N) (HE : env_ok E).

(** the rows of one query are those of its judgments, in some order *)
Definition rows_of (J : string -> option F) (rws : rows) : Prop :=
  exists l : dict F, NoDup (dkeys l) /\ (forall d, dget l d = J d) /\
    Permutation rws (map (fun kv => (doc_key E (fst kv), snd kv)) l).

Lemma descending_perm (x : rows) : Permutation (descending_sort E x) x.
Proof.
  unfold descending_sort.
  transitivity (map (fun i => nth i x (0%Z, fzero)) (seq 0 (length x))).
  - apply Permutation_map. rewrite <- Permutation_rev.
    assert (H := argsort_perm E HE (map snd x)). rewrite map_length in H. exact H.
  - rewrite map_nth_seq. apply Permutation_refl.
Qed.

Lemma rows_forall2 {V} (m : dict (dict V)) (g : dict V -> rows) (J : string -> string -> option F) :
  dict_ok m -> (forall q r, dget m q = Some r -> rows_of (J q) (g r)) ->
  Forall2 (fun q rws => rows_of (J q) rws) (dkeys m) (map g (dvals m)).
Proof.
  intros Hok H. unfold dvals, dkeys. rewrite map_map.
  assert (Hin : forall q r, In (q, r) m -> rows_of (J q) (g r)).
  { intros q r Hq. apply H. now apply in_dget. }
  clear Hok H. induction m as [|[q r] m IH]; cbn; constructor.
  - apply Hin. now left.
  - apply IH. intros; apply Hin. now right.
Qed.

Lemma dget_map_vals {V W} (f : V -> W) (r : dict V) d :
  dget (map (fun kv => (fst kv, f (snd kv))) r) d = option_map f (dget r d).
Proof. induction r as [|[k v] r IH]; [reflexivity|]. cbn. destruct (String.eqb d k); auto. Qed.

Lemma holds_convert q qs J : holds q qs J ->
  exists q1 tq, convert_qrels E q = (q1, Ok tq) /\ Forall2 (fun a rws => rows_of (J a) rws) qs tq.
Proof.
  assert (Hd : forall m, dict2_ok m -> m <> [] -> (forall q r, dget m q = Some r -> r <> []) ->
     exists tq, python_dict_to_typed_list E m = Ok tq /\ Forall2 (fun a rws => rows_of (dget2 m a) rws) (dkeys m) tq).
  { intros m Hok Hne Hnq. unfold python_dict_to_typed_list.
    rewrite (nonempty_checks m (proj1 Hok)) by (split; assumption).
    eexists. split; [reflexivity|]. rewrite inplace_map by apply (sched_perm E HE). rewrite map_map.
    apply rows_forall2; [apply Hok|]. intros a r Hr. exists r. split; [eapply Hok; eauto|]. split.
    - intros d. unfold dget2. now rewrite Hr.
    - apply descending_perm. }
  destruct 1 as [y Hok Hs|m Hok Hne Hnq|m Hok Hne Hnq].
  - cbn [convert_qrels]. unfold Qrels_to_typed_list.
    set (m' := q_map (if q_sorted y then y else Qrels_sort E y)).
    assert (Hm' : dict2_ok m' /\ dkeys m' = str_sort (dkeys (q_map y)) /\ forall a d, dget2 m' a d = dget2 (q_map y) a d).
    { unfold m'. destruct (q_sorted y).
      - split; [exact Hok|]. split; [|reflexivity]. symmetry. apply str_sort_id.
        specialize (Hs eq_refl). clear -Hs. induction Hs as [|a l Hl IH Ha]; constructor; [exact IH|].
        eapply Forall_impl; [|exact Ha]. intros b Hb. unfold str_ltb in Hb. apply andb_true_iff in Hb as [Hb _]. exact Hb.
      - change (q_map (Qrels_sort E y)) with (canon E q_negf (q_map y)).
        split; [now apply canon_ok|]. split; [now apply canon_keys, Hok|]. intros. now apply canon_get2. }
    destruct Hm' as (H1 & H2 & H3). eexists. eexists. split; [reflexivity|]. fold m'. rewrite <- H2.
    unfold to_typed_list. apply rows_forall2; [apply H1|]. intros a r Hr.
    exists (map (fun kv => (fst kv, fofZ (snd kv))) r). split; [|split].
    + unfold dkeys. rewrite map_map. exact (proj2 H1 a r Hr).
    + intros d. rewrite dget_map_vals, <- H3. unfold dget2. now rewrite Hr.
    + unfold to_rows, q_tof. rewrite map_map. apply Permutation_refl.
  - destruct (Hd m Hok Hne Hnq) as (tq & H1 & H2). exists (QDict m), tq. cbn. now rewrite H1.
  - destruct (Hd m Hok Hne Hnq) as (tq & H1 & H2). exists (QSubDict m), tq. cbn. now rewrite H1.
Qed.

Lemma rows_alike lvl J J' x x' : (forall d, same_side lvl (J d) (J' d)) ->
  rows_of J x -> rows_of J' x' -> alike lvl x x'.
Proof.
  intros Hs (l & Hn & Hg & Hp) (l' & Hn' & Hg' & Hp'). unfold alike.
  rewrite (Permutation_map (side lvl) Hp), (Permutation_map (side lvl) Hp'). rewrite !map_map.
  set (g := fun kv : string * F => (fst kv, (fleb (fofZ lvl) (snd kv), fltb (snd kv) (fofZ lvl)))).
  enough (Hpp : Permutation (map g l) (map g l')).
  { apply (Permutation_map (fun x : string * (bool * bool) => (doc_key E (fst x), snd x))) in Hpp.
    rewrite !map_map in Hpp. exact Hpp. }
  assert (Hnd : forall p : dict F, NoDup (dkeys p) -> NoDup (map g p)).
  { intros p Hp0. apply (NoDup_map_inv fst). rewrite map_map. exact Hp0. }
  assert (Hone : forall (J1 J2 : string -> option F) (p1 p2 : dict F), (forall d, same_side lvl (J1 d) (J2 d)) ->
      NoDup (dkeys p1) -> NoDup (dkeys p2) -> (forall d, dget p1 d = J1 d) -> (forall d, dget p2 d = J2 d) ->
      forall z, In z (map g p1) -> In z (map g p2)).
  { intros J1 J2 p1 p2 HJ N1 N2 G1 G2 z Hz. apply in_map_iff in Hz as ([d v] & <- & Hin).
    apply in_dget in Hin; [|exact N1]. specialize (HJ d). rewrite <- G1, <- G2, Hin in HJ.
    cbn [same_side] in HJ. destruct (dget p2 d) as [w|] eqn:Ew; [|contradiction]. destruct HJ as [A B].
    apply dget_Some_in in Ew. apply in_map_iff. exists (d, w). split; [|exact Ew].
    unfold g. cbn [fst snd]. now rewrite A, B. }
  apply NoDup_Permutation; [now apply Hnd|now apply Hnd|]. intros z. split.
  - now apply (Hone J J').
  - apply (Hone J' J); auto. intros d. specialize (Hs d). unfold same_side in *.
    destruct (J d), (J' d); auto. destruct Hs. now split.
Qed.

Lemma keys_eqb_in {V V' W} (a : dict V) (a' : dict V') (b : dict W) :
  (forall q, In q (dkeys a) <-> In q (dkeys a')) -> keys_eqb a b = keys_eqb a' b.
Proof.
  intros H. unfold keys_eqb, keys_subset. f_equal.
  - apply Bool.eq_true_iff_eq. rewrite !forallb_forall. split; intros Hx q Hq; apply Hx, H, Hq.
  - induction (dkeys b) as [|k l IH]; [reflexivity|]. cbn. rewrite IH. f_equal. unfold dmem.
    destruct (dget a k) eqn:E1, (dget a' k) eqn:E2; auto; exfalso.
    + apply dget_None in E2. apply E2, H. apply dget_Some_in in E1. unfold dkeys. change k with (fst (k, v)). now apply in_map.
    + apply dget_None in E1. apply E1, H. apply dget_Some_in in E2. unfold dkeys. change k with (fst (k, v)). now apply in_map.
Qed.
End S.

(** ** C94 *)
Theorem C94_relevance_only : forall (N : Num) (E : env N), env_ok E ->
  forall q q' qs J J' r metrics mean std save mk,
  holds q qs J -> holds q' qs J' -> is_subdict q = is_subdict q' ->
  (mk = true -> is_object q = is_object q' /\ forall x, r = RObj x -> dict2_ok (r_map x)) ->
  (forall s m k lvl, In s metrics -> extract_metric_and_params s = Ok (m, k, lvl) ->
     ~ In m graded_metrics /\
     forall a d, In a qs -> same_side lvl (J a d) (J' a d)) ->
  ev_res (evaluate E q r metrics mean std save mk) = ev_res (evaluate E q' r metrics mean std save mk) /\
  ev_r (evaluate E q r metrics mean std save mk) = ev_r (evaluate E q' r metrics mean std save mk).
Proof.
  intros N E HE q q' qs J J' r metrics mean std save mk Hq Hq' Hsub Hmk Hm.
  set (ks := fun p : qarg => match p with QObj y => dkeys (q_map y) | QDict m => dkeys m | QSubDict m => dkeys m | QTyped _ => [] end).
  assert (Hkeys : forall p ps Jp, holds p ps Jp -> forall a, In a ps <-> In a (ks p)).
  { intros p ps Jp Hp a. destruct Hp; [apply str_sort_in|unfold ks; tauto|unfold ks; tauto]. }
  assert (KK : forall a, In a (ks q) <-> In a (ks q')).
  { intros a. rewrite <- (Hkeys _ _ _ Hq), <- (Hkeys _ _ _ Hq'). tauto. }
  assert (Hok : forall p ps Jp, holds p ps Jp -> match p with QObj y => dict_ok (q_map y) | QTyped _ => False | _ => True end).
  { intros p ps Jp Hp. destruct Hp as [y Hy _| |]; [apply Hy|exact I|exact I]. }
  assert (Oq := Hok _ _ _ Hq). assert (Oq' := Hok _ _ _ Hq'). clear Hkeys Hok.
  destruct (holds_convert E HE q qs J Hq) as (q1 & tq & Hc & Hr).
  destruct (holds_convert E HE q' qs J' Hq') as (q1' & tq' & Hc' & Hr').
  assert (Hal : forall tr, compute_scores E tq tr metrics = compute_scores E tq' tr metrics).
  { intros tr. apply compute_alike. intros s m k lvl Hs Hx. destruct (Hm s m k lvl Hs Hx) as [Hg Hside]. split; [exact Hg|].
    clear -Hr Hr' Hside. revert tq tq' Hr Hr'. induction qs as [|a qs IH]; intros tq tq' Hr Hr'; inversion Hr; inversion Hr'; subst; constructor.
    - eapply rows_alike; [|eassumption|eassumption]. intros d. apply Hside. now left.
    - apply IH; auto. intros b d Hb. apply Hside. now right. }
  assert (Hprep : (if mk then match q, r with QObj x, RObj y => RObj (Run_make_comparable E y x) | _, _ => r end else r)
    = (if mk then match q', r with QObj x, RObj y => RObj (Run_make_comparable E y x) | _, _ => r end else r)).
  { destruct mk; [|reflexivity]. destruct (Hmk eq_refl) as [Ho Hx].
    destruct q as [y| | |], q' as [y'| | |]; try discriminate; try contradiction; try reflexivity.
    destruct r as [x| | |]; try reflexivity. f_equal.
    apply make_comparable_same; [now apply Hx|exact Oq'|]. intros a. cbn in KK. rewrite KK. tauto. }
  unfold evaluate. rewrite <- Hprep.
  set (r0 := if mk then _ else r). clearbody r0.
  assert (Hck : check_keys q r0 = check_keys q' r0).
  { destruct q as [y|m|m|l], q' as [y'|m'|m'|l']; try discriminate; try contradiction; destruct r0; cbn [check_keys];
      try reflexivity; f_equal; apply keys_eqb_in; exact KK. }
  rewrite Hck. destruct (check_keys q' r0); [|split; reflexivity].
  rewrite Hc, Hc'. destruct (convert_run E r0) as [r1 [tr|]]; [|split; reflexivity].
  rewrite Hal. destruct (compute_scores E tq' tr metrics) as [[m d]|]; [|split; reflexivity].
  match goal with |- context[let '(_, _) := ?t in _] => destruct t as [[r2 m2] e2] end.
  destruct e2; split; reflexivity.
Qed.
Print Assumptions C94_relevance_only.

(** ** Judgments given as floats *)

(** the judgments rounded toward zero *)
Definition rounded (d : dict (dict R)) : dict (dict Z) :=
  map (fun qj => (fst qj, map (fun kv => (fst kv, Rtrunc (snd kv))) (snd qj))) d.

(** rounding does not cross a positive level, nor any level when the judgment is >= 0 *)
Lemma trunc_side (l : Z) (v : R) : (1 <= l)%Z \/ (0 <= v)%R -> ((IZR l <= v)%R <-> (l <= Rtrunc v)%Z).
Proof.
  intros H. unfold Rtrunc. destruct (Rle_dec 0 v) as [Hv|Hv].
  - destruct (base_Int_part v) as [H1 H2]. split; intros Hl.
    + apply Z.lt_succ_r. unfold Z.succ. apply lt_IZR. rewrite plus_IZR. lra.
    + apply IZR_le in Hl. lra.
  - destruct H as [H|H]; [|contradiction]. apply Rnot_le_lt in Hv.
    destruct (base_Int_part (- v)) as [H1 H2]. split; intros Hl.
    + apply IZR_le in H. lra.
    + exfalso. assert (Hi : (-1 < Int_part (- v))%Z) by (apply lt_IZR; lra). lia.
Qed.

Lemma same_side_trunc (l : Z) (v : R) : (1 <= l)%Z \/ (0 <= v)%R ->
  @same_side NumR l (Some v) (Some (IZR (Rtrunc v))).
Proof.
  intros H. assert (Ht := trunc_side l v H).
  assert (A : (IZR l <= v)%R <-> (IZR l <= IZR (Rtrunc v))%R).
  { rewrite Ht. split; [apply IZR_le|apply le_IZR]. }
  cbn. unfold Rleb, Rltb. split.
  - destruct (Rle_dec (IZR l) v), (Rle_dec (IZR l) (IZR (Rtrunc v))); tauto.
  - destruct (Rlt_dec v (IZR l)), (Rlt_dec (IZR (Rtrunc v)) (IZR l)); auto; exfalso; lra.
Qed.

Lemma mapr_ok {A B} (f : A -> result B) (g : A -> B) l : (forall a, f a = Ok (g a)) -> mapr f l = Ok (map g l).
Proof. intros H. induction l as [|a l IH]; [reflexivity|]. cbn. now rewrite H, IH. Qed.

Lemma int_of_float_R (v : R) : @int_of_float NumR v = Ok (Rtrunc v).
Proof.
  unfold int_of_float, is_nan. cbn. unfold Reqb. destruct (Req_EM_T v v); [|contradiction].
  destruct (Req_EM_T (v - v) 0) as [_|H]; [reflexivity|]. exfalso. apply H. lra.
Qed.
Lemma map_values_R (d : dict (dict R)) : map_values (map_values (@int_of_float NumR)) d = Ok (rounded d).
Proof.
  unfold map_values. apply (mapr_ok _ (fun qj => (fst qj, map (fun kv => (fst kv, Rtrunc (snd kv))) (snd qj)))).
  intros [q r]. cbn [fst snd].
  rewrite (mapr_ok _ (fun kv => (fst kv, Rtrunc (snd kv)))); [reflexivity|].
  intros [k v]. cbn [fst snd]. now rewrite int_of_float_R.
Qed.
Lemma rounded_keys d : dkeys (rounded d) = dkeys d.
Proof. unfold rounded, dkeys. now rewrite map_map. Qed.
Lemma rounded_get d q : dget (rounded d) q = option_map (map (fun kv => (fst kv, Rtrunc (snd kv)))) (dget d q).
Proof. apply (dget_map_vals (map (fun kv : string * R => (fst kv, Rtrunc (snd kv))))). Qed.
Lemma rounded_get2 d q k : dget2 (rounded d) q k = option_map Rtrunc (dget2 d q k).
Proof.
  unfold dget2. rewrite rounded_get. destruct (dget d q) as [r|]; [|reflexivity]. cbn [option_map].
  apply dget_map_vals.
Qed.
Lemma rounded_ok d : dict2_ok d -> dict2_ok (rounded d).
Proof.
  intros [H1 H2]. split; [unfold dict_ok; now rewrite rounded_keys|]. intros q r. rewrite rounded_get.
  destruct (dget d q) as [r0|] eqn:Er; [|discriminate]. cbn. intros H. injection H as <-.
  unfold dict_ok, dkeys. rewrite map_map. exact (H2 q r0 Er).
Qed.

(** A Qrels built from float judgments holds the judgments rounded toward zero; metrics
    without grades give the same numbers for it as for the unrounded plain dict, for levels
    of at least 1 or judgments that are not negative. *)
Theorem C94_truncation : forall (E : env NumR), env_ok E ->
  forall (d : dict (dict R)) name, dict2_ok d -> d <> [] -> (forall q r, dget d q = Some r -> r <> []) ->
  exists y, @Qrels_init_float NumR E d name = Ok y /\
    dkeys (q_map y) = str_sort (dkeys d) /\
    (forall q doc, dget2 (q_map y) q doc = option_map Rtrunc (dget2 d q doc)) /\
    (StronglySorted (fun a b => str_ltb a b = true) (dkeys d) ->
     forall r metrics mean std save,
     (forall s m k lvl, In s metrics -> @extract_metric_and_params NumR s = Ok (m, k, lvl) ->
        ~ In m graded_metrics /\
        ((1 <= lvl)%Z \/ forall q doc v, dget2 d q doc = Some v -> (0 <= v)%R)) ->
     ev_res (@evaluate NumR E (QObj y) r metrics mean std save false)
     = ev_res (@evaluate NumR E (QDict d) r metrics mean std save false)).
Proof.
  intros E HE d name Hok Hne Hnq.
  assert (Hr := rounded_ok d Hok).
  assert (Hdoc : some_document (rounded d)).
  { destruct d as [|[q [|[k v] r]] d]; [contradiction| |].
    - exfalso. apply (Hnq q []); [cbn; now rewrite String.eqb_refl|reflexivity].
    - exists q, k, (Rtrunc v). rewrite rounded_get2. unfold dget2. cbn [dget]. rewrite String.eqb_refl. cbn [dget]. now rewrite String.eqb_refl. }
  exists (mkQrels (@canon NumR E Z (@q_negf NumR) (rounded d)) true name).
  split; [|split; [|split]].
  - unfold Qrels_init_float.
    assert (Hc : exists s l, concat (map dkeys (dvals d)) = s :: l).
    { destruct d as [|[q [|[k v] r]] d]; [contradiction| |cbn; eauto].
      exfalso. apply (Hnq q []); [cbn; now rewrite String.eqb_refl|reflexivity]. }
    destruct Hc as (s & l & Hc). 
    match goal with |- context[match ?t with [] => Err ValueError | _ :: _ => Ok tt end] =>
      replace t with (s :: l) by (symmetry; exact Hc) end.
    cbn [bindr].
    match goal with |- context[map_values ?f ?x] => replace (map_values f x) with (Ok (rounded d)) by (symmetry; exact (map_values_R d)) end.
    cbn [bindr]. unfold Qrels_init. rewrite build_from_dict_ok by assumption. reflexivity.
  - cbn [q_map]. rewrite canon_keys by apply Hr. now rewrite rounded_keys.
  - intros q doc. cbn [q_map]. rewrite canon_get2 by assumption. apply rounded_get2.
  - intros Hs r metrics mean std save Hm.
    set (y := mkQrels (@canon NumR E Z (@q_negf NumR) (rounded d)) true name).
    assert (Hk : dkeys (q_map y) = str_sort (dkeys d)).
    { unfold y. cbn [q_map]. rewrite canon_keys by apply Hr. now rewrite rounded_keys. }
    assert (Hsd : str_sort (dkeys d) = dkeys d).
    { apply str_sort_id. clear -Hs. induction Hs as [|a l Hl IH Ha]; constructor; [exact IH|].
      eapply Forall_impl; [|exact Ha]. intros b Hb. unfold str_ltb in Hb. apply andb_true_iff in Hb as [Hb _]. exact Hb. }
    refine (proj1 (C94_relevance_only NumR E HE (QObj y) (@QDict NumR d) (dkeys d)
              (fun q k => option_map IZR (dget2 (q_map y) q k)) (dget2 d) r metrics mean std save false _ _ eq_refl _ _)).
    + replace (dkeys d) with (str_sort (dkeys (q_map y))) by (now rewrite Hk, !Hsd).
      apply (@H_obj NumR); [now apply canon_ok|]. intros _. rewrite Hk, Hsd. exact Hs.
    + now apply (@H_dict NumR).
    + discriminate.
    + intros s m k lvl Hin Hx. destruct (Hm s m k lvl Hin Hx) as [Hg Hl]. split; [exact Hg|].
      intros a doc _. unfold y. cbn [q_map]. rewrite canon_get2, rounded_get2 by assumption.
      destruct (dget2 d a doc) as [v|] eqn:Ev; [|exact I]. cbn [option_map].
      assert (Hv : (1 <= lvl)%Z \/ (0 <= v)%R) by (destruct Hl as [Hl|Hl]; [now left|right; eapply Hl; eauto]).
      destruct (same_side_trunc lvl v Hv) as [A B]. split; [now symmetry|now symmetry].
Qed.
Print Assumptions C94_truncation.

(** add_multi with float scores: everything is converted first; if one score is NaN or infinite the call raises and the object
    is as before, otherwise the truncated judgments are added. *)
Theorem C94_add_multi : forall (N : Num) (E : env N) (x : Qrels) qs ds (scores : list (list F)),
  let finite v := is_nan v = false /\ feqb (fsub v v) fzero = true in
  ((forall l v, In l scores -> In v l -> finite v) -> Qrels_add_multi_float E x qs ds scores = Qrels_add_multi E x qs ds (map (map ftrunc) scores)) /\
  ((exists l v, In l scores /\ In v l /\ ~ finite v) -> Qrels_add_multi_float E x qs ds scores = (x, Some ValueError)).
Proof.
  intros N E x qs ds scores finite. unfold Qrels_add_multi_float.
  assert (Hi : forall v, (finite v -> int_of_float v = Ok (ftrunc v)) /\ (~ finite v -> int_of_float v = Err ValueError)).
  { intros v. unfold int_of_float, finite. destruct (is_nan v), (feqb (fsub v v) fzero); cbn [orb negb]; split; intros H; try reflexivity; try (destruct H; discriminate); exfalso; apply H; now split. }
  assert (Hl : forall l, ((forall v, In v l -> finite v) -> mapr int_of_float l = Ok (map ftrunc l)) /\ ((exists v, In v l /\ ~ finite v) -> mapr int_of_float l = Err ValueError)).
  { induction l as [|v l (IH1 & IH2)]; [split; [reflexivity|intros (v & [] & _)]|]. cbn [mapr map]. split.
    - intros H. rewrite (proj1 (Hi v)) by (apply H; now left). cbn [bindr]. rewrite IH1 by (intros; apply H; now right). reflexivity.
    - intros (w & [-> |Hw] & Hnf); [now rewrite (proj2 (Hi w) Hnf)|]. destruct (int_of_float v) as [z|e] eqn:Hv; cbn [bindr]; [rewrite IH2 by eauto; reflexivity|].
      unfold int_of_float in Hv. destruct (is_nan v || _); [now injection Hv as <-|discriminate]. }
  split; intros H.
  - assert (Hs : mapr (mapr int_of_float) scores = Ok (map (map ftrunc) scores)); [|now rewrite Hs].
    induction scores as [|l scores IH]; [reflexivity|]. cbn [mapr map]. rewrite (proj1 (Hl l)) by (intros v Hv; exact (H l v (or_introl eq_refl) Hv)). cbn [bindr].
    rewrite IH by (intros l' v Hl' Hv; exact (H l' v (or_intror Hl') Hv)). reflexivity.
  - assert (Hs : mapr (mapr int_of_float) scores = Err ValueError); [|now rewrite Hs].
    destruct H as (l & v & Hin & Hv & Hnf). induction scores as [|l' scores IH]; [destruct Hin|]. cbn [mapr].
    assert (Hl' : mapr int_of_float l' = Err ValueError \/ exists zs, mapr int_of_float l' = Ok zs).
    { clear. induction l' as [|w l' IH]; [right; now exists []|]. cbn [mapr]. unfold int_of_float at 1 3. destruct (is_nan w || _); cbn [bindr]; [now left|]. destruct IH as [-> |(zs & ->)]; cbn [bindr]; eauto. }
    destruct Hin as [-> |Hin]; [rewrite (proj2 (Hl l)) by eauto; reflexivity|]. destruct Hl' as [-> |(zs & ->)]; cbn [bindr]; [reflexivity|]. now rewrite (IH Hin).
Qed.
Print Assumptions C94_add_multi.

(** Calls with float scores on an object: what is stored, and what a call that raises leaves. *)
Theorem C94_add_score : forall (N : Num) (x : Qrels) (q d : string) (v : F),
  let finite := is_nan v = false /\ feqb (fsub v v) fzero = true in
  (finite -> Qrels_add_score_float x q d v = (Qrels_add_score x q d (ftrunc v), None)) /\
  (~ finite -> exists x', Qrels_add_score_float x q d v = (x', Some ValueError) /\
     q_sorted x' = q_sorted x /\ q_name x' = q_name x /\
     (forall a k, dget2 (q_map x') a k = dget2 (q_map x) a k) /\
     forall a, dmem (q_map x') a = (if String.eqb a q then true else dmem (q_map x) a)).
Proof.
  intros N x q d v finite. unfold Qrels_add_score_float, int_of_float. split.
  - intros [H1 H2]. now rewrite H1, H2.
  - intros Hf. assert (Hb : is_nan v || negb (feqb (fsub v v) fzero) = true).
    { destruct (is_nan v) eqn:E1; [reflexivity|]. destruct (feqb (fsub v v) fzero) eqn:E2; [|reflexivity].
      exfalso. apply Hf. now split. }
    rewrite Hb. eexists. split; [reflexivity|]. split; [reflexivity|]. split; [reflexivity|]. cbn [q_map].
    destruct (dget (q_map x) q) as [r|] eqn:Er; split.
    + reflexivity.
    + intros a. destruct (String.eqb_spec a q) as [ -> |_]; [|reflexivity]. unfold dmem. now rewrite Er.
    + intros a k. unfold dget2. rewrite dget_dset. destruct (String.eqb_spec a q) as [ -> |_]; [|reflexivity].
      now rewrite Er.
    + intros a. unfold dmem. rewrite dget_dset. destruct (String.eqb a q); reflexivity.
Qed.
Print Assumptions C94_add_score.

(** ** Where the two differ: a metric that uses grades, and a level below 1 with a negative
    judgment.  [as_object d] evaluates Qrels(d), [as_dict d] the plain dict. *)
Definition as_object (d : dict (dict sf)) (r : dict (dict sf)) (m : string) : result (@outcome NumSF) :=
  do y <- @Qrels_init_float NumSF env_ex d None;
  ev_res (@evaluate NumSF env_ex (QObj y) (@RDict NumSF r) [m] true false true false).
Definition as_dict (d : dict (dict sf)) (r : dict (dict sf)) (m : string) : result (@outcome NumSF) :=
  ev_res (@evaluate NumSF env_ex (@QDict NumSF d) (@RDict NumSF r) [m] true false true false).

Theorem C94_graded_refuted :
  let d := [("q", [("a", @fdec NumSF 15 1)])] in                  (* judgment 1.5 *)
  let r := [("q", [("a", sf_of_Z 1)])] in
  as_dict d r "rbp.50" = Ok (@OutOne NumSF (@OMean NumSF (@fdec NumSF 75 2))) /\
  as_object d r "rbp.50" = Ok (@OutOne NumSF (@OMean NumSF (@fdec NumSF 5 1))).
Proof. cbv zeta. unfold as_dict, as_object. split; vmr. Qed.
Print Assumptions C94_graded_refuted.

Theorem C94_negative_level_refuted :
  let d := [("q", [("a", @fdec NumSF (-5) 1)])] in                (* judgment -0.5 *)
  let r := [("q", [("a", sf_of_Z 1)])] in
  as_dict d r "hits-l0" = Ok (@OutOne NumSF (@OMean NumSF (sf_of_Z 0))) /\
  as_object d r "hits-l0" = Ok (@OutOne NumSF (@OMean NumSF (sf_of_Z 1))).
Proof. cbv zeta. unfold as_dict, as_object. split; vmr. Qed.
Print Assumptions C94_negative_level_refuted.

(** A call that raises leaves a query without judgments behind; the run that had the same
    queries as the qrels before is refused afterwards. *)
Theorem C94_failed_add_score_refuted :
  let y := mkQrels [("q", [("a", 1%Z)])] true None in
  let y' := fst (@Qrels_add_score_float NumSF y "p" "a" S754_nan) in
  let r := [("q", [("a", sf_of_Z 1)])] in
  snd (@Qrels_add_score_float NumSF y "p" "a" S754_nan) = Some ValueError /\
  ev_res (@evaluate NumSF env_ex (QObj y) (@RDict NumSF r) ["hits"] true false true false)
    = Ok (@OutOne NumSF (@OMean NumSF (sf_of_Z 1))) /\
  ev_res (@evaluate NumSF env_ex (QObj y') (@RDict NumSF r) ["hits"] true false true false) = Err AssertionError.
Proof. cbv zeta. split; [vmr|]. split; vmr. Qed.
Print Assumptions C94_failed_add_score_refuted.

(** ** Non-vacuity *)
Definition ex_fd : dict (dict sf) :=
  [("p", [("a", @fdec NumSF 5 1); ("b", @fdec NumSF 27 1)]); ("q", [("c", @fdec NumSF 1999 3)])].
Definition ex_fr : dict (dict sf) :=
  [("p", [("a", sf_of_Z 4); ("b", sf_of_Z 3)]); ("q", [("x", sf_of_Z 1); ("c", @fdec NumSF 5 1)])].
Example C94_ex_built :
  (do y <- @Qrels_init_float NumSF env_ex ex_fd None; Ok (q_map y))
  = Ok [("p", [("b", 2%Z); ("a", 0%Z)]); ("q", [("c", 1%Z)])].
Proof. unfold ex_fd. vmr. Qed.
Example C94_ex_mrr :
  as_dict ex_fd ex_fr "mrr" = Ok (@OutOne NumSF (@OMean NumSF (@fdec NumSF 5 1))) /\
  as_object ex_fd ex_fr "mrr" = Ok (@OutOne NumSF (@OMean NumSF (@fdec NumSF 5 1))).
Proof. unfold as_dict, as_object, ex_fd, ex_fr. split; vmr. Qed.
(** the hypotheses of C94_relevance_only are met by binarising judgments *)
Example C94_ex_holds :
  @holds NumSF (QObj (mkQrels [("q", [("a", 1%Z); ("b", 5%Z)])] false None)) ["q"]
     (fun q d => option_map sf_of_Z (dget2 [("q", [("a", 1%Z); ("b", 5%Z)])] q d)) /\
  @holds NumSF (QObj (mkQrels [("q", [("b", 3%Z); ("a", 0%Z)])] false None)) ["q"]
     (fun q d => option_map sf_of_Z (dget2 [("q", [("b", 3%Z); ("a", 0%Z)])] q d)) /\
  forall d, @same_side NumSF 2 (option_map sf_of_Z (dget2 [("q", [("a", 1%Z); ("b", 5%Z)])] "q" d))
     (option_map sf_of_Z (dget2 [("q", [("b", 3%Z); ("a", 0%Z)])] "q" d)).
Proof.
  split; [|split].
  - apply (@H_obj NumSF (mkQrels [("q", [("a", 1%Z); ("b", 5%Z)])] false None)); [|discriminate].
    apply dict2_ok_dec; cbn; [nodup|]. repeat (constructor; [cbn; nodup|]). constructor.
  - apply (@H_obj NumSF (mkQrels [("q", [("b", 3%Z); ("a", 0%Z)])] false None)); [|discriminate].
    apply dict2_ok_dec; cbn; [nodup|]. repeat (constructor; [cbn; nodup|]). constructor.
  - intros d. unfold dget2. cbn [dget String.eqb Ascii.eqb Bool.eqb].
    destruct (String.eqb_spec d "a") as [ -> |Ha]; [split; vm_compute; reflexivity|].
    destruct (String.eqb_spec d "b") as [ -> |Hb]; [split; vm_compute; reflexivity|exact I].
Qed.
