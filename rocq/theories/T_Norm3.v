(** T_Norm3.v: borda normalisation (C41) and concrete cases for C37-C41 *)
From Coq Require Import Reals Lra Psatz.
From Verif Require Import Base Dict Num NumLaws Env EnvEx M_Common M_Qrels M_Run M_History M_Norm
  Spec_DS Spec_Hist Spec_Metrics Spec_Eval Spec_Norm
  P_Base P_Dict P_Common P_History P_DS P_Metrics P_Eval P_Eval3 P_Norm T_Norm T_Norm2 Ex_Metrics.
Open Scope string_scope.
Open Scope list_scope.
Open Scope nat_scope.

(** values of borda over the reals *)
Definition bv (r : dict R) (n : nat) (d : string) : R :=
  match index_of (dkeys r) d with
  | Some i => (1 - INR i / INR n)%R
  | None => (1 / 2 - (INR (length r) - 1) / (2 * INR n))%R
  end.
Lemma bv_eq (r : dict R) n d : @borda_value NumR r n d = bv r n d.
Proof.
  unfold borda_value, bv.
  assert (Hgen : forall o : option nat,
    match o with Some i => @fsub NumR fone (fdiv (fnat i) (fnat n))
    | None => @fsub NumR (fdec 5 1) (fdiv (fofZ (Z.of_nat (length r) - 1)) (fofZ (2 * Z.of_nat n))) end =
    match o with Some i => (1 - INR i / INR n)%R | None => (1 / 2 - (INR (length r) - 1) / (2 * INR n))%R end).
  { intros [i|].
    - rewrite !fnat_R. reflexivity.
    - numR. rewrite minus_IZR, mult_IZR, <- !INR_IZR_INZ. unfold Rdiv. lra. }
  apply Hgen.
Qed.

Lemma NoDup_app_intro_str (l1 l2 : list string) : NoDup l1 -> NoDup l2 -> (forall d, In d l1 -> In d l2 -> False) -> NoDup (l1 ++ l2).
Proof.
  induction l1 as [|a l1 IH]; cbn; auto. intros H1 H2 H. inversion_clear H1. constructor.
  - rewrite in_app_iff. intros [|]; auto. apply (H a); auto.
  - apply IH; auto. intros d Hd. apply H. now right.
Qed.
Lemma Rsum_concat_partition (c : list string) (f : string -> R) (ks : list string) : NoDup c -> NoDup ks ->
  (forall d, In d ks -> In d c) ->
  Rsum (map f c) = (Rsum (map f ks) + Rsum (map f (filter (fun d => negb (existsb (String.eqb d) ks)) c)))%R.
Proof.
  intros Hc Hk Hs. rewrite <- Rsum_app, <- map_app. apply Rsum_perm. apply Permutation_map.
  apply NoDup_Permutation; auto.
  - apply NoDup_app_intro_str.
    + exact Hk.
    + now apply NoDup_filter.
    + intros d Hd Hf. apply filter_In in Hf as [_ Hf]. apply negb_true_iff in Hf.
      assert (existsb (String.eqb d) ks = true); [|congruence]. apply existsb_exists. exists d. split; auto. apply String.eqb_refl.
  - intros d. rewrite in_app_iff, filter_In. split.
    + intros Hd. destruct (existsb (String.eqb d) ks) eqn:He; [|now right].
      apply existsb_exists in He as (d' & Hd' & He). apply String.eqb_eq in He. subst. now left.
    + intros [H|[H _]]; auto.
Qed.
Lemma sum_index (f : nat -> R) (ks : list string) : NoDup ks ->
  Rsum (map (fun d => match index_of ks d with Some i => f i | None => 0%R end) ks) = Rsum_n (length ks) f.
Proof.
  intros Hn. unfold Rsum_n. f_equal. apply nth_error_ext. intros i. rewrite !nth_error_map.
  destruct (nth_error ks i) as [d|] eqn:Hi; cbn.
  - apply index_of_spec in Hi as Hi'; [|exact Hn]. rewrite Hi'.
    assert (i < length ks) by (apply nth_error_Some; congruence).
    rewrite (nth_error_nth' _ 0) by (rewrite seq_length; lia). rewrite seq_nth by lia. reflexivity.
  - apply nth_error_None in Hi. symmetry. rewrite (proj2 (nth_error_None (seq 0 (length ks)) i)); [reflexivity|]. now rewrite seq_length.
Qed.
Lemma Rsum_n_S n f : Rsum_n (S n) f = (Rsum_n n f + f n)%R.
Proof. unfold Rsum_n. rewrite seq_S, map_app, Rsum_app. cbn. lra. Qed.
Lemma sum_arith k n : (0 < n)%R -> Rsum_n k (fun i => 1 - INR i / n)%R = (INR k - INR k * (INR k - 1) / (2 * n))%R.
Proof.
  intros Hn. induction k as [|k IH]; [unfold Rsum_n; cbn; field; lra|].
  rewrite Rsum_n_S, IH, S_INR. field. lra.
Qed.
Lemma filter_out_length (c ks : list string) : NoDup c -> NoDup ks -> (forall d, In d ks -> In d c) ->
  length (filter (fun d => negb (existsb (String.eqb d) ks)) c) = length c - length ks /\ length ks <= length c.
Proof.
  intros Hc Hk Hs. assert (Hp : Permutation c (ks ++ filter (fun d => negb (existsb (String.eqb d) ks)) c)).
  { apply NoDup_Permutation; auto.
    - apply NoDup_app_intro_str; [exact Hk|now apply NoDup_filter|].
      intros d Hd Hf. apply filter_In in Hf as [_ Hf]. apply negb_true_iff in Hf.
      assert (existsb (String.eqb d) ks = true); [|congruence]. apply existsb_exists. exists d. split; auto. apply String.eqb_refl.
    - intros d. rewrite in_app_iff, filter_In. split.
      + intros Hd. destruct (existsb (String.eqb d) ks) eqn:He; [|now right].
        apply existsb_exists in He as (d' & Hd' & He). apply String.eqb_eq in He. subst. now left.
      + intros [H|[H _]]; auto. }
  apply Permutation_length in Hp. rewrite app_length in Hp. lia.
Qed.
Lemma borda_total (r : dict R) (c : list string) : dict_ok r -> NoDup c -> c <> [] -> (forall d, In d (dkeys r) -> In d c) ->
  Rsum (map (bv r (length c)) c) = ((INR (length c) + 1) / 2)%R.
Proof.
  intros Hr Hc Hne Hs. set (n := length c).
  assert (Hn : (0 < INR n)%R) by (apply lt_0_INR; unfold n; destruct c; [easy|cbn; lia]).
  rewrite (Rsum_concat_partition c (bv r n) (dkeys r)) by auto.
  rewrite (Rsum_map_ext (bv r n) (fun d => match index_of (dkeys r) d with Some i => (1 - INR i / INR n)%R | None => 0%R end) (dkeys r)).
  2:{ intros d Hd. unfold bv. destruct (index_of (dkeys r) d) eqn:Hi; auto. apply index_of_None in Hi. easy. }
  rewrite (sum_index (fun i => 1 - INR i / INR n)%R) by exact Hr. rewrite sum_arith by exact Hn.
  rewrite (Rsum_map_ext (bv r n) (fun _ => (1 / 2 - (INR (length r) - 1) / (2 * INR n))%R)).
  2:{ intros d Hd. apply filter_In in Hd as [_ Hd]. apply negb_true_iff in Hd. unfold bv.
      destruct (index_of (dkeys r) d) as [i|] eqn:Hi; auto. apply index_of_spec in Hi; [|exact Hr]. apply nth_error_In in Hi.
      assert (existsb (String.eqb d) (dkeys r) = true); [|congruence]. apply existsb_exists. exists d. split; auto. apply String.eqb_refl. }
  rewrite Rsum_map_const. destruct (filter_out_length c (dkeys r) Hc Hr Hs) as [Hl Hle]. rewrite Hl, minus_INR by exact Hle.
  replace (length (dkeys r)) with (length r) by (unfold dkeys; now rewrite map_length). fold n. field. lra.
Qed.

Section B.
Context (E : env NumR) (HE : env_ok E).
Definition borda_results (xs : list (Run NumR)) (q : string) (r : dict R) : dict R :=
  map (fun d => (d, bv r (length (cands_of E (map (@r_map NumR) xs) q)) d)) (cands_of E (map (@r_map NumR) xs) q).
Definition borda_run (xs : list (Run NumR)) (x : Run NumR) : Run NumR :=
  @new_run NumR (r_name x) (map (fun qr => (fst qr, borda_results xs (fst qr) (snd qr))) (r_map x)).

Lemma borda_norm_R xs : xs <> [] -> Forall a_run xs -> same_query_order xs ->
  borda_norm E xs = Ok (map (borda_run xs) xs).
Proof.
  intros Hne Hrun Hq. destruct xs as [|x0 xs]; [easy|]. unfold borda_norm.
  change (map (@r_map NumR) (x0 :: xs)) with (r_map x0 :: map (@r_map NumR) xs).
  rewrite (get_candidates_ok E).
  2:{ intros q m Hqm Hm. apply in_map_iff in Hm as (x & <- & Hx).
      rewrite <- (Hq x0 x); [exact Hqm|now left|now right]. }
  cbn [bindr]. apply map_m_ok. intros x Hx.
  assert (Hax : a_run x) by (rewrite Forall_forall in Hrun; auto).
  erewrite (per_query_k_ok E HE _ _ (borda_results (x0 :: xs)) (r_map x)); [reflexivity|apply Hax|].
  intros i q r Hi. assert (Hqi : nth_error (dkeys (r_map x0)) i = Some q).
  { rewrite (Hq x0 x); [|now left|exact Hx]. unfold dkeys. now rewrite nth_error_map, Hi. }
  unfold nth_r. rewrite nth_error_map, Hqi. cbn [option_map bindr].
  rewrite borda_norm_ok.
  - f_equal. apply map_ext. intros d. now rewrite bv_eq.
  - apply (proj2 Hax q). apply in_dget; [apply Hax|]. eapply nth_error_In; eauto.
  - now apply cands_of_nodup.
Qed.
End B.

(** ** C41 *)
Theorem C41_borda : forall (E : env NumR), env_ok E ->
  forall xs, xs <> [] -> Forall a_run xs -> same_query_order xs ->
  exists ys, normalize_runs E xs (Some "borda") = Ok ys /\
    Forall2 (fun x y =>
      a_run y /\ r_name y = r_name x /\ (forall q, has_query y q <-> has_query x q) /\
      forall q cs, has_query x q -> candidates_are xs q cs ->
        let n := INR (length cs) in let r := INR (length (results_of x q)) in
        (forall d i, at_position x q d i -> score_of y q d = Some (1 - INR i / n)%R) /\
        (forall d, In d cs -> ~ retrieves x q d -> score_of y q d = Some (1 / 2 - (r - 1) / (2 * n))%R) /\
        (forall d, ~ In d cs -> score_of y q d = None) /\
        (cs <> [] -> Rsum (scores_for y q) = ((n + 1) / 2)%R) /\
        (forall d d' v v', retrieves x q d -> ~ retrieves x q d' ->
           score_of y q d = Some v -> score_of y q d' = Some v' -> (v' < v)%R)) xs ys.
Proof.
  intros E HE xs Hne Hrun Hord. exists (map (borda_run E xs) xs).
  split; [cbn [normalize_runs String.eqb Ascii.eqb Bool.eqb]; now apply borda_norm_R|].
  assert (HF : forall l, incl l xs -> Forall2 (fun x y =>
      a_run y /\ r_name y = r_name x /\ (forall q, has_query y q <-> has_query x q) /\
      forall q cs, has_query x q -> candidates_are xs q cs ->
        let n := INR (length cs) in let r := INR (length (results_of x q)) in
        (forall d i, at_position x q d i -> score_of y q d = Some (1 - INR i / n)%R) /\
        (forall d, In d cs -> ~ retrieves x q d -> score_of y q d = Some (1 / 2 - (r - 1) / (2 * n))%R) /\
        (forall d, ~ In d cs -> score_of y q d = None) /\
        (cs <> [] -> Rsum (scores_for y q) = ((n + 1) / 2)%R) /\
        (forall d d' v v', retrieves x q d -> ~ retrieves x q d' ->
           score_of y q d = Some v -> score_of y q d' = Some v' -> (v' < v)%R)) l (map (borda_run E xs) l)).
  2:{ apply HF. apply incl_refl. }
  induction l as [|x l IH]; intros Hincl; [constructor|]. cbn [map]. constructor; [|apply IH; intros z Hz; apply Hincl; now right].
  clear IH. assert (Hx : In x xs) by (apply Hincl; now left).
  assert (Hax : a_run x) by (rewrite Forall_forall in Hrun; auto).
  assert (Hget : forall q, @dget (dict R) (r_map (borda_run E xs x)) q = option_map (borda_results E xs q) (@dget (dict R) (r_map x) q)).
  { intros q. exact (mapk_get (N := NumR) (borda_results E xs) (r_map x) q). }
  split; [|split; [reflexivity|split]].
  - split.
    + unfold dict_ok. unfold borda_run. cbn [new_run r_map].
      match goal with |- NoDup ?a => assert (a = dkeys (r_map x)) as -> by exact (mapk_keys (N := NumR) (borda_results E xs) (r_map x)) end. apply Hax.
    + intros q r Hr. pose proof (eq_trans (eq_sym (Hget q)) Hr) as Hr'.
      assert (Hgen : forall o : option (dict R), option_map (borda_results E xs q) o = Some r -> dict_ok r).
      { intros [r0|] H0; [|discriminate]. inversion H0. unfold dict_ok, borda_results, dkeys. rewrite map_map. cbn [fst]. rewrite map_id. now apply cands_of_nodup. }
      exact (Hgen _ Hr').
  - intros q. unfold has_query, borda_run. cbn [new_run r_map].
    match goal with |- In q ?a <-> _ => assert (a = dkeys (r_map x)) as -> by exact (mapk_keys (N := NumR) (borda_results E xs) (r_map x)) end. tauto.
  - intros q cs Hq Hcc. set (n := INR (length cs)). set (r := INR (length (results_of x q))). destruct Hcc as [Hnd Hcs].
    set (c := cands_of E (map (@r_map NumR) xs) q).
    assert (Hc : forall d, In d c <-> candidate xs q d).
    { intros d. unfold c. rewrite cands_of_in by assumption. unfold retrieved_any, candidate, retrieves, score_of, dget2. split.
      - intros (m & r0 & Hm & Hr0 & Hd). apply in_map_iff in Hm as (z & <- & Hz). exists z. split; auto.
        apply key_dget in Hd as [v Hv]. exists v.
        assert (Hgen : forall o : option (dict R), o = Some r0 -> match o with Some r => dget r d | None => None end = Some v) by (intros o ->; exact Hv).
        exact (Hgen _ Hr0).
      - intros (z & Hz & v & Hv).
        assert (Hgen : forall o : option (dict R), match o with Some r => dget r d | None => None end = Some v -> exists r0, o = Some r0 /\ In d (dkeys r0)).
        { intros [r0|] H0; [|discriminate]. exists r0. split; auto. eapply dget_Some_key; eauto. }
        destruct (Hgen _ Hv) as (r0 & Hr0 & Hd). exists (r_map z), r0. split; [now apply in_map|]. auto. }
    assert (Hlen : length c = length cs).
    { apply Permutation_length, NoDup_Permutation; auto. - now apply cands_of_nodup. - intros d. now rewrite Hc, Hcs. }
    assert (Hres : results_of (borda_run E xs x) q = borda_results E xs q (results_of x q)).
    { unfold results_of, of_query. unfold has_query in Hq. apply key_dget in Hq as [r0 Hr0].
      assert (Hgen : forall o o' : option (dict R), o = option_map (borda_results E xs q) o' -> o' = Some r0 ->
        match o with Some r => r | None => [] end = borda_results E xs q match o' with Some r => r | None => [] end) by (intros o o' -> ->; reflexivity).
      exact (Hgen _ _ (Hget q) Hr0). }
    assert (Hscore : forall z d, score_of z q d = dget (results_of z q) d).
    { intros z d. unfold score_of, dget2, results_of, of_query.
      assert (Hgen : forall o : option (dict R), match o with Some r => dget r d | None => None end = dget match o with Some r => r | None => [] end d) by (intros [|]; auto).
      apply Hgen. }
    assert (Hval : forall d, score_of (borda_run E xs x) q d = if in_dec string_dec d c then Some (bv (results_of x q) (length cs) d) else None).
    { intros d. rewrite Hscore, Hres. unfold borda_results. fold c. rewrite const_map_get, Hlen. reflexivity. }
    assert (Hrok : dict_ok (results_of x q)).
    { unfold results_of, of_query. apply key_dget in Hq as [r0 Hr0].
      assert (Hgen : forall o : option (dict R), o = Some r0 -> dict_ok r0 -> dict_ok match o with Some r => r | None => [] end) by (intros o ->; auto).
      exact (Hgen _ Hr0 (proj2 Hax q r0 Hr0)). }
    assert (Hretr : forall d, retrieves x q d <-> In d (dkeys (results_of x q))).
    { intros d. unfold retrieves. rewrite (Hscore x d). apply Some_mem. }
    assert (Hsub : forall d, In d (dkeys (results_of x q)) -> In d c).
    { intros d Hd. apply Hc. exists x. split; auto. now apply Hretr. }
    assert (Hv1 : forall d i, at_position x q d i -> score_of (borda_run E xs x) q d = Some (1 - INR i / n)%R).
    { intros d i Hi. rewrite Hval. unfold at_position in Hi. assert (Hin := nth_error_In _ _ Hi).
      destruct (in_dec string_dec d c) as [_|Hno]; [|exfalso; apply Hno; auto].
      unfold bv. apply index_of_spec in Hi; [|exact Hrok]. now rewrite Hi. }
    assert (Hv2 : forall d, In d cs -> ~ retrieves x q d -> score_of (borda_run E xs x) q d = Some (1 / 2 - (r - 1) / (2 * n))%R).
    { intros d Hd Hno. rewrite Hval. destruct (in_dec string_dec d c) as [_|Hn0].
      - unfold bv. rewrite Hretr in Hno. apply index_of_None in Hno. now rewrite Hno.
      - exfalso. apply Hn0. rewrite Hc, <- Hcs. exact Hd. }
    split; [exact Hv1|]. split; [exact Hv2|]. split; [|split].
    + intros d Hd. rewrite Hval. destruct (in_dec string_dec d c) as [Hin|]; auto. exfalso. apply Hd. apply Hcs, Hc, Hin.
    + intros Hcne. unfold scores_for. rewrite Hres. unfold borda_results, dvals. fold c. rewrite map_map. cbn [snd].
      unfold n. rewrite <- Hlen. apply borda_total; auto; [now apply cands_of_nodup|].
      intros Hc0. apply Hcne. rewrite Hc0 in Hlen. now destruct cs.
    + intros d d' v v' Hd Hd' Hv Hv'. rewrite Hretr in Hd. apply In_nth_error in Hd as [i Hi].
      rewrite (Hv1 d i Hi) in Hv. inversion Hv; subst v.
      assert (Hin' : In d' cs). { rewrite Hval in Hv'. destruct (in_dec string_dec d' c) as [Hin|]; [|discriminate]. apply Hcs, Hc, Hin. }
      rewrite (Hv2 d' Hin' Hd') in Hv'. inversion Hv'; subst v'.
      assert (Hi' := position_lt x q d i Hi). destruct (filter_out_length c (dkeys (results_of x q)) (cands_of_nodup E HE _ _) Hrok Hsub) as [_ Hle].
      assert (Hlk : length (dkeys (results_of x q)) = length (results_of x q)) by (unfold dkeys; apply map_length).
      rewrite Hlk, Hlen in Hle. assert (H1 : (INR i + 1 <= r)%R) by (unfold r; rewrite <- S_INR; apply le_INR; lia).
      assert (H2 : (r <= n)%R) by (apply le_INR; lia). assert (H3 : (0 <= INR i)%R) by apply pos_INR.
      assert (H4 : (0 < n)%R) by lra.
      apply Rmult_lt_reg_r with (2 * n)%R; [lra|].
      replace ((1 / 2 - (r - 1) / (2 * n)) * (2 * n))%R with (n - (r - 1))%R by (field; lra).
      replace ((1 - INR i / n) * (2 * n))%R with (2 * n - 2 * INR i)%R by (field; lra). lra.
Qed.

Lemma sorted_same_order xs : Forall queries_sorted xs -> Forall a_run xs -> same_query_sets xs -> same_query_order xs.
Proof.
  intros Hs Ha Hq x x' Hx Hx'. rewrite Forall_forall in Hs, Ha.
  assert (Hgen : forall z, In z xs -> str_sort (dkeys (r_map z)) = dkeys (r_map z)).
  { intros z Hz. apply str_sort_id. eapply StronglySorted_impl; [|apply (Hs z Hz)].
    intros a b Hab. unfold str_ltb in Hab. now apply andb_prop in Hab. }
  rewrite <- (Hgen x Hx), <- (Hgen x' Hx'). apply str_sort_set_eq; [apply (Ha x Hx)|apply (Ha x' Hx')|].
  intros q. split; intros H; [apply (Hq x x')|apply (Hq x' x)]; auto.
Qed.

(** The same for runs that have been sorted: then having the same query ids is enough. *)
Theorem C41_borda_sorted : forall (E : env NumR), env_ok E ->
  forall xs, xs <> [] -> Forall a_run xs -> Forall queries_sorted xs -> same_query_sets xs -> same_query_order xs /\
  exists ys, normalize_runs E xs (Some "borda") = Ok ys /\ length ys = length xs.
Proof.
  intros E HE xs Hne Ha Hs Hq. assert (Ho : same_query_order xs) by now apply sorted_same_order.
  split; [exact Ho|]. destruct (C41_borda E HE xs Hne Ha Ho) as (ys & Hys & HF). exists ys. split; auto.
  clear - HF. induction HF; cbn; auto.
Qed.

(** Runs with the same queries stored in different orders: the candidates of one query are
    used for another, and retrieved documents disappear. *)
Section Mis.
Context {N : Num} (v : F).
Definition b1_gen : Run N := run_hist env_ex Run_empty [RAddScore "q1" "a" v; RAddScore "q2" "b" v].
Definition b2_gen : Run N := run_hist env_ex Run_empty [RAddScore "q2" "b" v; RAddScore "q1" "a" v].
Lemma misaligned_gen : exists ys y, normalize_runs env_ex [b1_gen; b2_gen] (Some "borda") = Ok ys /\
  nth_error ys 1 = Some y /\ dget2 (r_map y) "q2" "b" = None.
Proof. eexists. eexists. split; [lazy; reflexivity|]. split; reflexivity. Qed.
End Mis.
Definition b1 : Run NumR := @b1_gen NumR 1%R.
Definition b2 : Run NumR := @b2_gen NumR 1%R.
Lemma reach_add os : Forall run_op_shape os -> run_reachable env_ex (@run_hist NumR env_ex Run_empty os).
Proof. intros H. exists Run_empty, os. auto. Qed.
Theorem C41_misaligned_refuted : exists (E : env NumR) xs ys y,
  env_ok E /\ Forall (run_reachable E) xs /\ same_query_sets xs /\
  normalize_runs E xs (Some "borda") = Ok ys /\ nth_error ys 1 = Some y /\
  (exists x, nth_error xs 1 = Some x /\ retrieves x "q2" "b") /\ ~ retrieves y "q2" "b".
Proof.
  destruct (@misaligned_gen NumR 1%R) as (ys & y & Hys & Hy & Hn).
  exists env_ex, [b1; b2], ys, y.
  split; [apply env_ok_ex|].
  split. { constructor; [|constructor; [|constructor]]; apply reach_add; repeat constructor. }
  split.
  { intros x x' q Hx Hx' Hq. assert (Hk : forall z, In z [b1; b2] -> (has_query z q <-> q = "q1" \/ q = "q2")).
    { intros z [<-|[<-|[]]]; unfold has_query; cbn; intuition. }
    apply (Hk x' Hx'). now apply (Hk x Hx). }
  split; [exact Hys|]. split; [exact Hy|].
  split; [exists b2; split; [reflexivity|]; exists 1%R; reflexivity|].
  intros [s Hs]. pose proof (eq_trans (eq_sym Hs) Hn) as H. discriminate H.
Qed.

(** ** concrete cases *)
Definition n_x : Run NumR := @run_hist NumR env_ex Run_empty
  [@RAddScore NumR "q1" "a" 3%R; @RAddScore NumR "q1" "b" 1%R; @RAddScore NumR "q1" "c" 2%R; @RAddScore NumR "q2" "a" 5%R].
Definition n_x2 : Run NumR := @run_hist NumR env_ex Run_empty
  [@RAddScore NumR "q1" "c" 3%R; @RAddScore NumR "q1" "d" 1%R; @RAddScore NumR "q2" "b" 5%R].
Lemma n_x_run : a_run n_x.
Proof. apply (run_reachable_inv env_ex env_ok_ex). apply reach_add. repeat constructor. Qed.
Lemma n_x2_run : a_run n_x2.
Proof. apply (run_reachable_inv env_ex env_ok_ex). apply reach_add. repeat constructor. Qed.
Lemma n_x_min : is_min_of (scores_for n_x "q1") 1%R.
Proof. split; [cbn; auto|]. intros v Hv. cbn in Hv. decompose [or] Hv; subst; try contradiction; cbn; lra. Qed.
Lemma n_x_max : is_max_of (scores_for n_x "q1") 3%R.
Proof. split; [cbn; auto|]. intros v Hv. cbn in Hv. decompose [or] Hv; subst; try contradiction; cbn; lra. Qed.
Lemma tiny_le_1 : (tiny <= 1)%R.
Proof. unfold tiny. simpl. lra. Qed.
Lemma n_x_a : score_of n_x "q1" "a" = Some 3%R. Proof. reflexivity. Qed.
Lemma n_x_b : score_of n_x "q1" "b" = Some 1%R. Proof. reflexivity. Qed.
Lemma n_x_c : score_of n_x "q1" "c" = Some 2%R. Proof. reflexivity. Qed.
Example ex_C38 : exists y, normalize env_ex n_x "min-max" = Ok y /\
  score_of y "q1" "a" = Some 1%R /\ score_of y "q1" "b" = Some 0%R /\ score_of y "q1" "c" = Some (1 / 2)%R.
Proof.
  destruct (C38_min_max env_ex env_ok_ex n_x "min-max" n_x_run) as (y & Hy & Hf & _); [cbn; auto|].
  exists y. split; [exact Hy|]. assert (Ht := tiny_le_1).
  rewrite (Hf "q1" "a" 3%R 1%R 3%R n_x_a n_x_min n_x_max), (Hf "q1" "b" 1%R 1%R 3%R n_x_b n_x_min n_x_max),
    (Hf "q1" "c" 2%R 1%R 3%R n_x_c n_x_min n_x_max).
  rewrite !Rmax_left by lra. split; [f_equal; lra|split; f_equal; lra].
Qed.
Example ex_C39_no_empty : no_empty_results n_x.
Proof.
  intros q Hq. assert (q = "q1" \/ q = "q2") as [->| ->] by (unfold has_query in Hq; cbn in Hq; intuition); discriminate.
Qed.
Example ex_C39_sum : exists y, normalize env_ex n_x "sum" = Ok y /\ Rsum (scores_for y "q1") = 1%R.
Proof.
  destruct (C39_sum env_ex env_ok_ex n_x n_x_run) as (y & Hy & _ & _ & Hs & _). exists y. split; [exact Hy|].
  apply (Hs "q1" 1%R); [apply n_x_min|]. assert (Ht := tiny_le_1). cbn. lra.
Qed.
Example ex_C41 : exists ys, normalize_runs env_ex [n_x; n_x2] (Some "borda") = Ok ys.
Proof.
  destruct (C41_borda env_ex env_ok_ex [n_x; n_x2]) as (ys & Hys & _); [discriminate| | |eauto].
  - constructor; [apply n_x_run|constructor; [apply n_x2_run|constructor]].
  - intros x x' [<-|[<-|[]]] [<-|[<-|[]]]; reflexivity.
Qed.
Example ex_C41_cands : candidates_are [n_x; n_x2] "q1" ["a"; "b"; "c"; "d"].
Proof.
  split; [repeat constructor; cbn; intuition discriminate|]. intros d. split.
  - intros Hd. cbn in Hd. decompose [or] Hd; subst; try contradiction;
      [exists n_x|exists n_x|exists n_x|exists n_x2]; (split; [cbn; auto|]); eexists; reflexivity.
  - intros (x & [<-|[<-|[]]] & s & Hs); unfold score_of, dget2 in Hs; cbn in Hs;
    repeat match type of Hs with context[String.eqb d ?k] => destruct (String.eqb_spec d k); [subst; cbn; tauto|] end; discriminate.
Qed.

Print Assumptions C41_borda.
Print Assumptions C41_misaligned_refuted.
