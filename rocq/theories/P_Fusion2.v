(** P_Fusion2.v: fusion over the reals, from the loops to the vocabulary of Spec_Fusion.v *)
From Coq Require Import Reals Lra Psatz.
From Verif Require Import Base Dict Num NumLaws Env M_Common M_Qrels M_Run M_Norm M_Fusion
  Spec_DS Spec_Metrics Spec_Eval Spec_Norm Spec_Fusion
  P_Base P_Dict P_Common P_DS P_Metrics P_Norm T_Norm T_Norm2 P_Fusion.
Open Scope string_scope.
Open Scope list_scope.
Open Scope nat_scope.

Lemma score_of_results x q d : score_of x q d = @dget R (results_of x q) d.
Proof.
  unfold score_of, dget2, results_of, of_query.
  assert (Hgen : forall o : option (dict R), match o with Some r => dget r d | None => None end = dget match o with Some r => r | None => [] end d) by (intros [|]; auto).
  apply Hgen.
Qed.
Lemma retrieves_key x q d : retrieves x q d <-> In d (dkeys (results_of x q)).
Proof. unfold retrieves. rewrite score_of_results. apply Some_mem. Qed.
Lemma results_ok x q : a_run x -> dict_ok (results_of x q).
Proof.
  intros [Hok Hin]. unfold results_of, of_query.
  assert (Hgen : forall o : option (dict R), (forall r, o = Some r -> dict_ok r) -> dict_ok match o with Some r => r | None => [] end).
  { intros [r|] H; [now apply H|constructor]. }
  apply Hgen. intros r Hr. exact (Hin q r Hr).
Qed.
Lemma candidate_query xs q d x : same_query_sets xs -> candidate xs q d -> In x xs -> has_query x q.
Proof. intros Hs (z & Hz & s & Hd) Hx. apply score_has_query in Hd. exact (Hs z x q Hz Hx Hd). Qed.

Lemma rank_in_index l d : rank_in l d = option_map S (index_of l d).
Proof.
  induction l as [|e l IH]; cbn; auto. destruct (string_dec d e) as [He|He].
  - subst. now rewrite String.eqb_refl.
  - apply String.eqb_neq in He. rewrite He, IH. now destruct (index_of l d).
Qed.
Lemma rank_of_position x q d i : a_run x -> (rank_of x q d = Some (S i) <-> at_position x q d i).
Proof.
  intros Hx. unfold rank_of, at_position. rewrite rank_in_index.
  rewrite <- index_of_spec by apply (results_ok x q Hx).
  destruct (index_of (dkeys (results_of x q)) d); cbn; split; congruence.
Qed.
Lemma rank_of_retrieves x q d : retrieves x q d <-> exists r, rank_of x q d = Some r.
Proof.
  rewrite retrieves_key. unfold rank_of. rewrite rank_in_index.
  destruct (index_of (dkeys (results_of x q)) d) as [i|] eqn:Hi; cbn.
  - split; [eauto|]. intros _. destruct (in_dec string_dec d (dkeys (results_of x q))) as [|Hn]; auto.
    apply index_of_None in Hn. congruence.
  - apply index_of_None in Hi. split; [easy|]. intros [r Hr]. discriminate.
Qed.

Section C.
Context (E : env NumR) (HE : env_ok E).

Lemma fusion_of_impl xs y (P P' : string -> string -> R -> Prop) : (forall q d s, candidate xs q d -> P q d s -> P' q d s) -> fusion_of xs y P -> fusion_of xs y P'.
Proof.
  intros H (H1 & H2 & H3 & H4 & H5 & H6). refine (conj H1 (conj H2 (conj H3 (conj _ (conj H5 H6))))).
  intros q d s Hs. apply H; [|now apply H4]. apply H3. now exists s.
Qed.

Lemma comb_R tag formula name xs (ms : list (dict (dict R))) (φ : string -> string -> R) : xs <> [] -> ms <> [] ->
  (forall m, In m ms -> dict_ok m) ->
  (forall m x q, In m ms -> In x xs -> (In q (dkeys m) <-> has_query x q)) ->
  (forall q d x, In x xs -> has_query x q -> (has_doc (map (fun m => ofq m q) ms) d = true <-> candidate xs q d)) ->
  (forall q d, candidate xs q d -> formula (map (fun m => ofq m q) ms) d = Ok (φ q d)) ->
  same_query_sets xs ->
  exists y, @comb NumR E tag formula name ms = Ok y /\ r_name y = Some name /\ fusion_of xs y (fun q d s => s = φ q d).
Proof.
  intros Hxs Hms Hok Hq Hd Hf Hsame. destruct ms as [|m0 ms]; [easy|]. destruct xs as [|x0 xs']; [easy|]. set (xs := x0 :: xs') in *.
  assert (Hq0 : forall q, In q (dkeys m0) <-> has_query x0 q) by (intros q; apply Hq; now left).
  assert (H1 : @dict_ok (dict R) m0) by (apply Hok; now left).
  assert (H2 : forall q m, In q (dkeys m0) -> In m ms -> In q (dkeys m)).
  { intros q m Hin Hm. apply (Hq m x0 q); [now right|now left|]. now apply Hq0. }
  assert (H3 : forall q d, In q (dkeys m0) -> has_doc (map (fun m => ofq m q) (m0 :: ms)) d = true ->
     formula (map (fun m => ofq m q) (m0 :: ms)) d = Ok (φ q d)).
  { intros q d Hin Hh. apply Hf. apply (Hd q d x0); [now left|now apply Hq0|exact Hh]. }
  destruct (@comb_parallel_ok NumR E HE tag formula m0 ms φ H1 H2 H3) as (out & Hout & Hk & Hok2 & Hg).
  exists (Run_sort E (@new_run NumR (Some name) out)). split; [exact (comb_eq (N := NumR) E tag formula name (m0 :: ms) out Hout)|].
  set (y0 := @new_run NumR (Some name) out).
  assert (Hrun : a_run y0) by exact Hok2.
  assert (Hhq : forall q, has_query y0 q <-> has_query x0 q).
  { intros q. rewrite <- Hq0. unfold has_query, y0. cbn [new_run r_map]. 
    assert (Hke : forall l l' : list string, l = l' -> (In q l <-> In q l')) by (intros l l' ->; tauto). apply Hke. exact Hk. }
  assert (Hsc : forall q d, has_query x0 q -> score_of y0 q d = if has_doc (map (fun m => ofq m q) (m0 :: ms)) d then Some (φ q d) else None).
  { intros q d Hin. apply Hg. now apply Hq0. }
  split; [reflexivity|].
  assert (Hret : forall q d, retrieves y0 q d <-> candidate xs q d).
  { intros q d. split.
    - intros [s Hs]. assert (Hin : has_query x0 q) by (apply Hhq; eapply score_has_query; eauto).
      apply (Hd q d x0); [now left|exact Hin|]. rewrite Hsc in Hs by exact Hin.
      destruct (has_doc (map (fun m => ofq m q) (m0 :: ms)) d); [reflexivity|discriminate].
    - intros Hc. assert (Hin : has_query x0 q) by (eapply candidate_query; eauto; now left).
      exists (φ q d). rewrite Hsc by exact Hin. now rewrite (proj2 (Hd q d x0 (or_introl eq_refl) Hin) Hc). }
  split; [now apply sort_a_run|]. split; [|split; [|split; [|split]]].
  - intros x q Hx. rewrite sort_has_query by exact Hrun. rewrite Hhq. split; intros H.
    + exact (Hsame x0 x q (or_introl eq_refl) Hx H).
    + exact (Hsame x x0 q Hx (or_introl eq_refl) H).
  - intros q d. rewrite <- Hret. unfold retrieves. now setoid_rewrite (sort_score E y0 q d HE Hrun).
  - intros q d s Hs. rewrite (sort_score E y0 q d HE Hrun) in Hs.
    assert (Hin : has_query x0 q) by (apply Hhq; eapply score_has_query; eauto).
    rewrite Hsc in Hs by exact Hin. destruct (has_doc (map (fun m => ofq m q) (m0 :: ms)) d); congruence.
  - now apply sort_queries_sorted.
  - now apply sort_ranked.
Qed.

(** ** the runs themselves *)
Lemma has_doc_runs xs q d : has_doc (map (fun m : dict (dict R) => ofq m q) (map (@r_map NumR) xs)) d = true <-> candidate xs q d.
Proof.
  rewrite has_doc_in, map_map. unfold candidate. split.
  - intros (r & Hr & Hd). apply in_map_iff in Hr as (x & <- & Hx). exists x. split; auto. now apply retrieves_key.
  - intros (x & Hx & Hd). apply retrieves_key in Hd. exists (results_of x q). split; auto. apply in_map_iff. exists x. auto.
Qed.
Lemma score_comb tag formula name xs (φ : string -> string -> R) : fusable xs ->
  (forall q d, candidate xs q d -> formula (map (fun x => results_of x q) xs) d = Ok (φ q d)) ->
  exists y, @comb NumR E tag formula name (maps xs) = Ok y /\ r_name y = Some name /\ fusion_of xs y (fun q d s => s = φ q d).
Proof.
  intros (Hne & Ha & Hs) Hf. rewrite Forall_forall in Ha. apply comb_R; auto.
  - unfold maps. intros H. apply map_eq_nil in H. easy.
  - intros m Hm. apply in_map_iff in Hm as (x & <- & Hx). now apply Ha.
  - intros m x q Hm Hx. apply in_map_iff in Hm as (z & <- & Hz). split; intros H; [exact (Hs z x q Hz Hx H)|exact (Hs x z q Hx Hz H)].
  - intros q d x Hx Hq. apply has_doc_runs.
  - intros q d Hc. unfold maps. rewrite map_map. exact (Hf q d Hc).
Qed.
Lemma present_runs xs q d : @present NumR (map (fun x => results_of x q) xs) d = scores_given xs q d.
Proof.
  unfold present, scores_given. rewrite map_map. f_equal. apply map_ext. intros x. now rewrite score_of_results.
Qed.
Lemma sum_get_all (rs : list (dict R)) d : @fsum NumR (@get_all NumR fzero rs d) = Rsum (@present NumR rs d).
Proof.
  rewrite fsum_R. unfold get_all, present. induction rs as [|r rs IH]; [reflexivity|]. cbn [map concat]. rewrite Rsum_app.
  cbn [Rsum fold_right]. change (fold_right Rplus 0%R) with Rsum. rewrite IH.
  assert (Hgen : forall o : option R, (match o with Some v => v | None => @fzero NumR end + Rsum (@present NumR rs d))%R =
    (Rsum match o with Some v => [v] | None => [] end + Rsum (@present NumR rs d))%R).
  { intros [v|]; cbn; lra. }
  apply (Hgen (@dget R r d)).
Qed.

(** ** runs rescored by position *)
Definition prescored {P} (h : P -> dict R -> nat -> R) (ps : list P) (xs : list (Run NumR)) : list (dict (dict R)) :=
  map (fun px => @posmap NumR (h (fst px)) (r_map (snd px))) (combine ps xs).
Lemma combine_in_snd {A B} (ps : list A) (xs : list B) x : length xs <= length ps -> In x xs -> exists p, In (p, x) (combine ps xs).
Proof.
  intros Hl Hx. apply In_nth_error in Hx as [i Hi]. assert (i < length xs) by (apply nth_error_Some; congruence).
  destruct (nth_error ps i) as [p|] eqn:Hp; [|apply nth_error_None in Hp; lia]. exists p.
  assert (Hc : nth_error (combine ps xs) i = Some (p, x)).
  { clear - Hi Hp. revert ps xs Hi Hp. induction i; intros [|a ps] [|b xs]; cbn; try discriminate; intros H1 H2; [congruence|auto]. }
  eapply nth_error_In; eauto.
Qed.
Lemma pos_comb {P} tag formula name (h : P -> dict R -> nat -> R) ps xs (φ : string -> string -> R) : fusable xs -> length xs <= length ps ->
  (forall q d, candidate xs q d ->
     formula (map (fun px => @by_pos NumR (h (fst px) (results_of (snd px) q)) (results_of (snd px) q)) (combine ps xs)) d = Ok (φ q d)) ->
  exists y, @comb NumR E tag formula name (prescored h ps xs) = Ok y /\ r_name y = Some name /\ fusion_of xs y (fun q d s => s = φ q d).
Proof.
  intros (Hne & Ha & Hs) Hl Hf. rewrite Forall_forall in Ha.
  assert (Hofq : forall q, map (fun m : dict (dict R) => ofq m q) (prescored h ps xs) =
     map (fun px => @by_pos NumR (h (fst px) (results_of (snd px) q)) (results_of (snd px) q)) (combine ps xs)).
  { intros q. unfold prescored. rewrite map_map. apply map_ext. intros px. exact (@posmap_ofq NumR (h (fst px)) (r_map (snd px)) q). }
  apply comb_R; auto.
  - unfold prescored. intros H. apply map_eq_nil in H. destruct ps as [|p ps], xs as [|x xs]; cbn in *; try easy; lia.
  - intros m Hm. apply in_map_iff in Hm as ([p x] & <- & Hx). cbn [fst snd].
    apply (proj1 (@posmap_ok NumR (h p) (r_map x) (Ha x (in_combine_r _ _ _ _ Hx)))).
  - intros m x q Hm Hx. apply in_map_iff in Hm as ([p z] & <- & Hz). cbn [fst snd]. apply in_combine_r in Hz.
    assert (Hk : In q (dkeys (@posmap NumR (h p) (r_map z))) <-> has_query z q).
    { unfold has_query. assert (Hke : forall l l' : list string, l = l' -> (In q l <-> In q l')) by (intros l l' ->; tauto). apply Hke.
      exact (@posmap_keys NumR (h p) (r_map z)). }
    rewrite Hk. split; intros H; [exact (Hs z x q Hz Hx H)|exact (Hs x z q Hx Hz H)].
  - intros q d x Hx Hq. rewrite Hofq, has_doc_in. unfold candidate. split.
    + intros (r & Hr & Hd). apply in_map_iff in Hr as ([p z] & <- & Hz). cbn [fst snd] in Hd. apply in_combine_r in Hz as Hz'.
      exists z. split; auto. apply retrieves_key.
      assert (Hke : forall l l' : list string, l = l' -> (In d l -> In d l')) by (intros l l' ->; tauto).
      eapply Hke; [|exact Hd]. exact (@by_pos_keys NumR _ (results_of z q)).
    + intros (z & Hz & Hd). apply retrieves_key in Hd. destruct (combine_in_snd ps xs z Hl Hz) as [p Hp].
      eexists. split; [apply in_map_iff; exists (p, z); split; [reflexivity|exact Hp]|]. cbn [fst snd].
      assert (Hke : forall l l' : list string, l = l' -> (In d l' -> In d l)) by (intros l l' ->; tauto).
      eapply Hke; [|exact Hd]. exact (@by_pos_keys NumR _ (results_of z q)).
  - intros q d Hc. rewrite Hofq. now apply Hf.
Qed.
Lemma present_pos {P} (h : P -> dict R -> nat -> R) ps xs q d :
  @present NumR (map (fun px => @by_pos NumR (h (fst px) (results_of (snd px) q)) (results_of (snd px) q)) (combine ps xs)) d =
  values_given ps xs (fun p x r => h p (results_of x q) (r - 1)) q d.
Proof.
  unfold present, values_given. rewrite map_map. f_equal. apply map_ext. intros [p x]. cbn [fst snd].
  assert (Hg := @by_pos_get NumR (h p (results_of x q)) (results_of x q) d).
  unfold rank_of. rewrite rank_in_index.
  assert (Hgen : forall (o : option R) o', o = option_map (h p (results_of x q)) o' ->
    match o with Some v => [v] | None => [] end = match option_map S o' with Some r => [h p (results_of x q) (r - 1)] | None => [] end).
  { intros o [i|] ->; cbn; auto. now rewrite Nat.sub_0_r. }
  exact (Hgen _ _ Hg).
Qed.
Lemma values_ranks {P} (ps : list P) xs (v : nat -> R) q d : length xs <= length ps ->
  values_given ps xs (fun _ _ r => v r) q d = map v (ranks_given xs q d).
Proof.
  unfold values_given, ranks_given. revert ps. induction xs as [|x xs IH]; intros [|p ps] Hl; cbn in *; auto; try lia.
  rewrite map_app, <- (IH ps) by lia. f_equal. now destruct (rank_of x q d).
Qed.
End C.
