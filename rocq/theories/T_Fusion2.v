(** T_Fusion2.v: BordaFuse (C46) *)
From Coq Require Import Reals Lra Psatz.
From Verif Require Import Base Dict Num NumLaws Env EnvEx M_Common M_Qrels M_Run M_History M_Norm M_Fusion
  Spec_DS Spec_Hist Spec_Metrics Spec_Eval Spec_Norm Spec_Fusion
  P_Base P_Dict P_Common P_DS P_Metrics P_Eval P_Norm T_Norm T_Norm2 T_Norm3 P_Fusion P_Fusion2 T_Fusion Ex_Metrics.
Open Scope string_scope.
Open Scope list_scope.
Open Scope nat_scope.

Section G.
Context {N : Num} (E : env N) (HE : env_ok E).
Definition borda_res (c : list string) (r : dict F) : dict F :=
  by_pos (fun i => fofZ (Z.of_nat (length c) - Z.of_nat i)) r ++
  map (fun d => (d, fdiv (fofZ (Z.of_nat (length c) - Z.of_nat (length r) + 1)) (fofZ 2))) (filter (fun d => negb (dmem r d)) c).
Lemma borda_res_keys c r : dkeys (borda_res c r) = dkeys r ++ filter (fun d => negb (dmem r d)) c.
Proof. unfold borda_res. rewrite dkeys_app, by_pos_keys. f_equal. unfold dkeys. rewrite map_map. cbn. apply map_id. Qed.
Lemma borda_res_ok c r : dict_ok r -> NoDup c -> dict_ok (borda_res c r).
Proof.
  intros Hr Hc. unfold dict_ok. rewrite borda_res_keys. apply NoDup_app_intro_str; auto.
  - now apply NoDup_filter.
  - intros d Hd Hf. apply filter_In in Hf as [_ Hf]. apply negb_true_iff, dmem_nin in Hf. easy.
Qed.
Lemma dget_app {V} (a b : dict V) d : dget (a ++ b) d = match dget a d with Some v => Some v | None => dget b d end.
Proof. induction a as [|[k v] a IH]; cbn; auto. now destruct (String.eqb d k). Qed.
Lemma borda_res_get c r d : (forall e, In e (dkeys r) -> In e c) ->
  dget (borda_res c r) d = if in_dec string_dec d c then
    Some (match index_of (dkeys r) d with Some i => fofZ (Z.of_nat (length c) - Z.of_nat i)
          | None => fdiv (fofZ (Z.of_nat (length c) - Z.of_nat (length r) + 1)) (fofZ 2) end) else None.
Proof.
  intros Hs. unfold borda_res. rewrite dget_app, by_pos_get.
  destruct (index_of (dkeys r) d) as [i|] eqn:Hi; cbn [option_map].
  - destruct (in_dec string_dec d c) as [|Hn]; auto. exfalso. apply Hn, Hs.
    destruct (in_dec string_dec d (dkeys r)) as [|H]; auto. apply index_of_None in H. congruence.
  - apply index_of_None in Hi.
    match goal with |- dget (map (fun d => (d, ?u)) ?l) d = _ => rewrite (const_map_get (fun _ => u) l d) end.
    destruct (in_dec string_dec d (filter (fun d => negb (dmem r d)) c)) as [Hf|Hf], (in_dec string_dec d c) as [Hc|Hc]; auto.
    + apply filter_In in Hf as [Hf _]. easy.
    + exfalso. apply Hf. apply filter_In. split; auto. now apply negb_true_iff, dmem_nin.
Qed.
Lemma borda_score_ok c r : dict_ok r -> NoDup c -> _borda_score r c = Ok (borda_res c r).
Proof.
  intros Hr Hc. unfold _borda_score.
  rewrite (pos_scores_ok (N := N) _ (fun i => fofZ (Z.of_nat (length c) - Z.of_nat i))) by auto. cbn [bindr]. f_equal. unfold borda_res.
  set (a := by_pos _ r). set (u := fdiv _ _).
  assert (H : forall l acc, NoDup l -> (forall d, In d l -> ~ In d (dkeys acc)) ->
    fold_left (fun acc d => dset acc d u) l acc = acc ++ map (fun d => (d, u)) l).
  { induction l as [|d l IH]; intros acc Hn Hd; cbn; [now rewrite app_nil_r|]. inversion_clear Hn.
    rewrite IH; auto.
    - rewrite dset_nin by (apply Hd; now left). now rewrite <- app_assoc.
    - intros e He. rewrite in_dkeys_dset. intros [->|Hin]; [easy|]. apply (Hd e); [now right|auto]. }
  apply H; [now apply NoDup_filter|]. intros d Hd. unfold a. rewrite by_pos_keys. apply filter_In in Hd as [_ Hd].
  now apply negb_true_iff, dmem_nin in Hd.
Qed.
Definition borda_ms (ms : list (dict (dict F))) (m : dict (dict F)) : dict (dict F) :=
  map (fun qr => (fst qr, borda_res (cands_of E ms (fst qr)) (snd qr))) m.
Lemma borda_scores_ok (xs : list (Run N)) : xs <> [] -> Forall (fun x => dict2_ok (r_map x)) xs ->
  (forall x x', In x xs -> In x' xs -> dkeys (r_map x) = dkeys (r_map x')) ->
  borda_scores E xs = Ok (map (fun x => borda_ms (maps xs) (r_map x)) xs).
Proof.
  intros Hne Ha Ho. rewrite Forall_forall in Ha. destruct xs as [|x0 xs0]; [easy|]. set (xs := x0 :: xs0) in *. unfold borda_scores.
  change (maps xs) with (r_map x0 :: maps xs0). rewrite (get_candidates_ok E (r_map x0) (maps xs0)).
  2:{ intros q m Hqm Hm. apply in_map_iff in Hm as (x & <- & Hx). rewrite <- (Ho x0 x); [exact Hqm|now left|now right]. }
  change (r_map x0 :: maps xs0) with (maps xs). cbn [bindr]. apply map_m_ok. intros x Hx.
  rewrite (per_query_k_ok E HE _ _ (fun q r => borda_res (cands_of E (maps xs) q) r) (r_map x)); [reflexivity|apply (Ha x Hx)|].
  intros i q r Hi. assert (Hqi : nth_error (dkeys (r_map x0)) i = Some q).
  { rewrite (Ho x0 x); [|now left|exact Hx]. unfold dkeys. now rewrite nth_error_map, Hi. }
  unfold nth_r. rewrite nth_error_map, Hqi. cbn [option_map bindr]. apply borda_score_ok.
  - apply (proj2 (Ha x Hx) q). apply in_dget; [apply (Ha x Hx)|]. eapply nth_error_In; eauto.
  - now apply cands_of_nodup.
Qed.
Lemma borda_ms_ofq ms m q : In q (dkeys m) -> ofq (borda_ms ms m) q = borda_res (cands_of E ms q) (ofq m q).
Proof.
  intros Hq. unfold ofq, borda_ms. rewrite (mapk_get (fun q r => borda_res (cands_of E ms q) r) m q).
  apply key_dget in Hq as [r Hr]. now rewrite Hr.
Qed.
Lemma borda_ms_keys ms m : dkeys (borda_ms ms m) = dkeys m.
Proof. unfold borda_ms. apply (mapk_keys (fun q r => borda_res (cands_of E ms q) r)). Qed.
End G.

Section B.
Context (E : env NumR) (HE : env_ok E).
Lemma cands_candidates xs q : candidates_are xs q (cands_of E (maps xs) q).
Proof.
  split; [now apply cands_of_nodup|]. intros d. rewrite (cands_of_in (N := NumR) E HE). unfold retrieved_any, candidate. split.
  - intros (m & r & Hm & Hr & Hd). apply in_map_iff in Hm as (x & <- & Hx). exists x. split; auto. apply retrieves_key.
    unfold results_of, of_query.
    assert (Hgen : forall o : option (dict R), o = Some r -> In d (dkeys match o with Some r => r | None => [] end)) by (intros o ->; exact Hd).
    exact (Hgen _ Hr).
  - intros (x & Hx & Hd). apply retrieves_key in Hd. unfold results_of, of_query in Hd.
    assert (Hgen : forall o : option (dict R), In d (dkeys match o with Some r => r | None => [] end) -> exists r, o = Some r /\ In d (dkeys r)).
    { intros [r|] H; [eauto|easy]. }
    destruct (Hgen _ Hd) as (r & Hr & Hdr). exists (r_map x), r. split; [now apply in_map|auto].
Qed.
Lemma cands_length xs q cs cs' : candidates_are xs q cs -> candidates_are xs q cs' -> Permutation cs cs'.
Proof. intros [H1 H2] [H3 H4]. apply NoDup_Permutation; auto. intros d. now rewrite H2, H4. Qed.

Lemma borda_get xs x q d : a_run x -> In x xs ->
  @dget R (@borda_res NumR (cands_of E (maps xs) q) (results_of x q)) d =
  if in_dec string_dec d (cands_of E (maps xs) q) then Some (borda_points (length (cands_of E (maps xs) q)) x q d) else None.
Proof.
  intros Hax Hx. set (c := cands_of E (maps xs) q).
  assert (Hs : forall e, In e (dkeys (results_of x q)) -> In e c).
  { intros e He. apply cands_candidates. exists x. split; auto. now apply retrieves_key. }
  pose proof (borda_res_get (N := NumR) c (results_of x q) d Hs) as Hg.
  refine (eq_trans Hg _). destruct (in_dec string_dec d c) as [Hd|]; auto. f_equal. unfold borda_points, rank_of. rewrite rank_in_index.
  assert (Hgen : forall o : option nat, match o with Some i => @fofZ NumR (Z.of_nat (length c) - Z.of_nat i)
    | None => @fdiv NumR (fofZ (Z.of_nat (length c) - Z.of_nat (length (results_of x q)) + 1)) (fofZ 2) end =
    match option_map S o with Some r => (INR (length c) + 1 - INR r)%R | None => ((INR (length c) - INR (length (results_of x q)) + 1) / 2)%R end).
  { intros [i|]; cbn [option_map].
    - rewrite S_INR, !INR_IZR_INZ. change (IZR (Z.of_nat (length c) - Z.of_nat i) = (IZR (Z.of_nat (length c)) + 1 - (IZR (Z.of_nat i) + 1))%R).
      rewrite minus_IZR. lra.
    - rewrite !INR_IZR_INZ. change ((IZR (Z.of_nat (length c) - Z.of_nat (length (results_of x q)) + 1) / IZR 2)%R = ((IZR (Z.of_nat (length c)) - IZR (Z.of_nat (length (results_of x q))) + 1) / 2)%R).
      rewrite plus_IZR, minus_IZR. reflexivity. }
  apply Hgen.
Qed.

Lemma borda_comb tag formula name xs (φ : string -> string -> R) : fusable xs -> same_query_order xs ->
  (forall q d, candidate xs q d -> formula (map (fun x => @borda_res NumR (cands_of E (maps xs) q) (results_of x q)) xs) d = Ok (φ q d)) ->
  exists y, bindr (@borda_scores NumR E xs) (fun ms => @comb NumR E tag formula name ms) = Ok y /\ r_name y = Some name /\
    fusion_of xs y (fun q d s => s = φ q d).
Proof.
  intros (Hne & Ha & Hs) Ho Hf. rewrite (borda_scores_ok (N := NumR) E HE xs Hne Ha Ho). cbn [bindr].
  rewrite Forall_forall in Ha.
  assert (Hk : forall x q, In q (dkeys (@borda_ms NumR E (maps xs) (r_map x))) <-> has_query x q).
  { intros x q. unfold has_query. assert (Hke : forall l l' : list string, l = l' -> (In q l <-> In q l')) by (intros l l' ->; tauto). apply Hke.
    apply (borda_ms_keys (N := NumR)). }
  assert (Hofq : forall x q, In x xs -> has_query x q -> ofq (@borda_ms NumR E (maps xs) (r_map x)) q = @borda_res NumR (cands_of E (maps xs) q) (results_of x q)).
  { intros x q Hx Hq. exact (borda_ms_ofq (N := NumR) E (maps xs) (r_map x) q Hq). }
  assert (Hmap : forall q, (forall x, In x xs -> has_query x q) ->
    map (fun m : dict (dict R) => ofq m q) (map (fun x => @borda_ms NumR E (maps xs) (r_map x)) xs) =
    map (fun x => @borda_res NumR (cands_of E (maps xs) q) (results_of x q)) xs).
  { intros q Hq. rewrite map_map. apply map_ext_in. intros x Hx. apply Hofq; auto. }
  apply comb_R; auto.
  - intros H. apply map_eq_nil in H. easy.
  - intros m Hm. apply in_map_iff in Hm as (x & <- & Hx). unfold dict_ok.
    assert (Hke : forall l l' : list string, l = l' -> NoDup l' -> NoDup l) by (intros l l' ->; tauto).
    eapply Hke; [apply (borda_ms_keys (N := NumR))|]. apply (Ha x Hx).
  - intros m x q Hm Hx. apply in_map_iff in Hm as (z & <- & Hz). rewrite Hk.
    split; intros H; [exact (Hs z x q Hz Hx H)|exact (Hs x z q Hx Hz H)].
  - intros q d x Hx Hq. rewrite Hmap by (intros z Hz; exact (Hs x z q Hx Hz Hq)). rewrite has_doc_in.
    assert (Hin : forall z, In z xs -> (In d (dkeys (@borda_res NumR (cands_of E (maps xs) q) (results_of z q))) <-> candidate xs q d)).
    { intros z Hz. rewrite <- Some_mem, borda_get by auto. rewrite <- (proj2 (cands_candidates xs q) d).
      destruct (in_dec string_dec d (cands_of E (maps xs) q)); [|split; [intros [s Hs']; discriminate|easy]].
      split; eauto. }
    split.
    + intros (r & Hr & Hd). apply in_map_iff in Hr as (z & <- & Hz). now apply (Hin z Hz).
    + intros Hc. destruct xs as [|x0 xs0]; [easy|]. eexists. split; [left; reflexivity|]. apply Hin; [now left|exact Hc].
  - intros q d Hc. rewrite Hmap by (intros z Hz; eapply candidate_query; eauto). now apply Hf.
Qed.

(** each run hands out n(n+1)/2 points *)
Lemma points_total x q cs : a_run x -> NoDup cs -> (forall d, retrieves x q d -> In d cs) ->
  Rsum (map (borda_points (length cs) x q) cs) = (INR (length cs) * (INR (length cs) + 1) / 2)%R.
Proof.
  intros Hax Hc Hs. set (n := INR (length cs)). set (ks := dkeys (results_of x q)).
  assert (Hk : NoDup ks) by apply (results_ok x q Hax).
  assert (Hsub : forall d, In d ks -> In d cs) by (intros d Hd; apply Hs; now apply retrieves_key).
  rewrite (Rsum_concat_partition cs (borda_points (length cs) x q) ks) by auto.
  rewrite (Rsum_map_ext (borda_points (length cs) x q) (fun d => match index_of ks d with Some i => (n - INR i)%R | None => 0%R end) ks).
  2:{ intros d Hd. unfold borda_points, rank_of. fold ks. rewrite rank_in_index. destruct (index_of ks d) eqn:Hi.
      - cbn [option_map]. rewrite S_INR. unfold n. lra.
      - apply index_of_None in Hi. easy. }
  rewrite (sum_index (fun i => n - INR i)%R) by exact Hk.
  rewrite (Rsum_map_ext (borda_points (length cs) x q) (fun _ => ((n - INR (length ks) + 1) / 2)%R)).
  2:{ intros d Hd. apply filter_In in Hd as [_ Hd]. apply negb_true_iff in Hd. unfold borda_points, rank_of. fold ks. rewrite rank_in_index.
      destruct (index_of ks d) as [i|] eqn:Hi.
      - apply index_of_spec in Hi; [|exact Hk]. apply nth_error_In in Hi.
        assert (existsb (String.eqb d) ks = true); [|congruence]. apply existsb_exists. exists d. split; auto. apply String.eqb_refl.
      - cbn [option_map]. unfold n, ks, dkeys. now rewrite map_length. }
  rewrite Rsum_map_const. destruct (filter_out_length cs ks Hc Hk Hsub) as [Hl Hle]. rewrite Hl, minus_INR by exact Hle. fold n.
  assert (Hsum : forall k, Rsum_n k (fun i => n - INR i)%R = (n * INR k - INR k * (INR k - 1) / 2)%R).
  { induction k as [|k IH]; [unfold Rsum_n; cbn; lra|]. rewrite Rsum_n_S, IH, S_INR. lra. }
  rewrite Hsum. field.
Qed.
Lemma Rsum_swap {A B} (f : A -> B -> R) la lb : Rsum (map (fun b => Rsum (map (fun a => f a b) la)) lb) = Rsum (map (fun a => Rsum (map (f a) lb)) la).
Proof.
  induction lb as [|b lb IH]; cbn [map].
  - change (Rsum (@nil R)) with 0%R. induction la as [|a la IHa]; cbn; [reflexivity|]. change (fold_right Rplus 0%R) with Rsum in *. rewrite <- IHa. lra.
  - cbn [Rsum fold_right]. change (fold_right Rplus 0%R) with Rsum. rewrite IH. clear IH. induction la as [|a la IHa]; cbn; [lra|].
    change (fold_right Rplus 0%R) with Rsum in *. rewrite <- IHa. lra.
Qed.
Lemma Rsum_scal {A} (f : A -> R) w l : Rsum (map (fun a => (w * f a)%R) l) = (w * Rsum (map f l))%R.
Proof. induction l as [|a l IH]; cbn; [lra|]. change (fold_right Rplus 0%R) with Rsum in *. rewrite IH. lra. Qed.
Lemma sum_of_scores y q cs (v : string -> R) : a_run y -> NoDup cs -> (forall d, retrieves y q d <-> In d cs) ->
  (forall d s, score_of y q d = Some s -> s = v d) -> Rsum (scores_for y q) = Rsum (map v cs).
Proof.
  intros Hy Hn Hr Hv. assert (Hok := results_ok y q Hy).
  transitivity (Rsum (map v (dkeys (results_of y q)))).
  - unfold scores_for, dvals, dkeys. rewrite map_map. f_equal. apply map_ext_in. intros [d s] Hin. cbn [fst snd]. apply Hv.
    rewrite score_of_results. now apply in_dget.
  - apply Rsum_perm, Permutation_map. apply NoDup_Permutation; auto. intros d. rewrite <- retrieves_key. apply Hr.
Qed.
End B.

(** ** C46 *)
Theorem C46_bordafuse : forall (E : env NumR), env_ok E -> forall xs name, fusable xs -> same_query_order xs ->
  exists y, bordafuse E xs name = Ok y /\ r_name y = Some name /\
    fusion_of xs y (fun q d s => forall cs, candidates_are xs q cs -> s = Rsum (map (fun x => borda_points (length cs) x q d) xs)) /\
    forall q cs, candidates_are xs q cs ->
      Rsum (scores_for y q) = (INR (length xs) * (INR (length cs) * (INR (length cs) + 1) / 2))%R.
Proof.
  intros E HE xs name Hxs Ho.
  destruct (borda_comb E HE "_comb_sum" (@sum_formula NumR) name xs
    (fun q d => Rsum (map (fun x => borda_points (length (cands_of E (maps xs) q)) x q d) xs)) Hxs Ho) as (y & Hy & Hn & Hf).
  { intros q d Hc. unfold sum_formula. f_equal. rewrite fsum_R. unfold get_all. rewrite map_map. f_equal. apply map_ext_in. intros x Hx.
    assert (Hax : a_run x) by (destruct Hxs as (_ & Ha & _); rewrite Forall_forall in Ha; auto).
    assert (Hgen : forall o : option R, o = Some (borda_points (length (cands_of E (maps xs) q)) x q d) ->
      match o with Some v => v | None => @fzero NumR end = borda_points (length (cands_of E (maps xs) q)) x q d) by (intros o ->; reflexivity).
    refine (Hgen _ (eq_trans (borda_get E HE xs x q d Hax Hx) _)). destruct (in_dec string_dec d (cands_of E (maps xs) q)) as [|Hni]; auto.
    exfalso. apply Hni. now apply (cands_candidates E HE xs q). }
  exists y. split; [exact Hy|]. split; [exact Hn|].
  assert (Hf' : fusion_of xs y (fun q d s => forall cs, candidates_are xs q cs -> s = Rsum (map (fun x => borda_points (length cs) x q d) xs))).
  { eapply fusion_of_impl; [|exact Hf]. cbn beta. intros q d s Hc -> cs Hcs.
    now rewrite (Permutation_length (cands_length xs q _ _ Hcs (cands_candidates E HE xs q))). }
  split; [exact Hf'|]. intros q cs Hcs.
  destruct Hf' as (Hay & _ & Hret & Hval & _).
  rewrite (sum_of_scores y q cs (fun d => Rsum (map (fun x => borda_points (length cs) x q d) xs)) Hay (proj1 Hcs)).
  - rewrite (Rsum_swap (fun x d => borda_points (length cs) x q d) xs cs).
    rewrite (Rsum_map_ext _ (fun _ => (INR (length cs) * (INR (length cs) + 1) / 2)%R)); [now rewrite Rsum_map_const|].
    intros x Hx. apply points_total; [|apply Hcs|].
    + destruct Hxs as (_ & Ha & _); rewrite Forall_forall in Ha; auto.
    + intros d Hd. apply Hcs. exists x. auto.
  - intros d. rewrite Hret. symmetry. apply Hcs.
  - intros d s Hs. now apply (Hval q d s Hs).
Qed.

Theorem C46_weighted_bordafuse : forall (E : env NumR), env_ok E -> forall xs ws name, fusable xs -> same_query_order xs -> length xs = length ws ->
  exists y, weighted_bordafuse E xs ws name = Ok y /\ r_name y = Some name /\
    fusion_of xs y (fun q d s => forall cs, candidates_are xs q cs ->
       s = Rsum (map (fun wx => fst wx * borda_points (length cs) (snd wx) q d)%R (combine ws xs))) /\
    forall q cs, candidates_are xs q cs ->
      Rsum (scores_for y q) = (Rsum ws * (INR (length cs) * (INR (length cs) + 1) / 2))%R.
Proof.
  intros E HE xs ws name Hxs Ho Hl.
  destruct (borda_comb E HE "_weighted_sum" (@wsum_formula NumR ws) name xs
    (fun q d => Rsum (map (fun wx => fst wx * borda_points (length (cands_of E (maps xs) q)) (snd wx) q d)%R (combine ws xs))) Hxs Ho) as (y & Hy & Hn & Hf).
  { intros q d Hc. rewrite (wsum_formula_ok (N := NumR)) by (rewrite map_length; unfold F; cbn; rewrite Hl; apply le_n). f_equal. rewrite fsum_R, combine_map_r, map_map.
    cbn [fst snd]. change (@combine (@F NumR) (Run NumR) ws xs) with (@combine R (Run NumR) ws xs).
    f_equal. apply map_ext_in. intros [w x] Hwx. cbn [fst snd]. apply in_combine_r in Hwx as Hx.
    assert (Hax : a_run x) by (destruct Hxs as (_ & Ha & _); rewrite Forall_forall in Ha; auto).
    assert (Hgen : forall o : option R, o = Some (borda_points (length (cands_of E (maps xs) q)) x q d) ->
      @fmul NumR w match o with Some v => v | None => @fzero NumR end = (w * borda_points (length (cands_of E (maps xs) q)) x q d)%R) by (intros o ->; reflexivity).
    refine (Hgen _ (eq_trans (borda_get E HE xs x q d Hax Hx) _)). destruct (in_dec string_dec d (cands_of E (maps xs) q)) as [|Hni]; auto.
    exfalso. apply Hni. now apply (cands_candidates E HE xs q). }
  exists y. split; [exact Hy|]. split; [exact Hn|].
  assert (Hf' : fusion_of xs y (fun q d s => forall cs, candidates_are xs q cs -> s = Rsum (map (fun wx => fst wx * borda_points (length cs) (snd wx) q d)%R (combine ws xs)))).
  { eapply fusion_of_impl; [|exact Hf]. cbn beta. intros q d s Hc -> cs Hcs.
    now rewrite (Permutation_length (cands_length xs q _ _ Hcs (cands_candidates E HE xs q))). }
  split; [exact Hf'|]. intros q cs Hcs.
  destruct Hf' as (Hay & _ & Hret & Hval & _).
  rewrite (sum_of_scores y q cs (fun d => Rsum (map (fun wx => fst wx * borda_points (length cs) (snd wx) q d)%R (combine ws xs))) Hay (proj1 Hcs)).
  - rewrite (Rsum_swap (fun wx d => (fst wx * borda_points (length cs) (snd wx) q d)%R) (combine ws xs) cs).
    rewrite (Rsum_map_ext _ (fun wx => (fst wx * (INR (length cs) * (INR (length cs) + 1) / 2))%R)).
    + assert (Hws : map fst (combine ws xs) = ws) by (apply combine_map_fst; symmetry; exact Hl).
      transitivity (Rsum (map fst (combine ws xs)) * (INR (length cs) * (INR (length cs) + 1) / 2))%R; [|now rewrite Hws].
      set (c := (INR (length cs) * (INR (length cs) + 1) / 2)%R).
      rewrite (Rmult_comm _ c), <- (Rsum_scal fst c). apply Rsum_map_ext. intros wx _. apply Rmult_comm.
    + intros [w x] Hx. cbn [fst snd]. apply in_combine_r in Hx. rewrite <- (points_total x q cs).
      * apply (Rsum_scal (borda_points (length cs) x q) w cs).
      * destruct Hxs as (_ & Ha & _); rewrite Forall_forall in Ha; auto.
      * apply Hcs.
      * intros d Hd. apply Hcs. exists x. auto.
  - intros d. rewrite Hret. symmetry. apply Hcs.
  - intros d s Hs. now apply (Hval q d s Hs).
Qed.
