(** T_Fusion3.v: condorcet fusion (C47) *)
From Coq Require Import Reals Lra Psatz.
From Verif Require Import Base Dict Num NumLaws Env EnvEx M_Common M_Qrels M_Run M_History M_Norm M_Fusion
  Spec_DS Spec_Hist Spec_Metrics Spec_Eval Spec_Norm Spec_Fusion
  P_Base P_Dict P_Common P_DS P_Metrics P_Eval P_Norm T_Norm T_Norm2 T_Norm3 P_Fusion P_Fusion2 T_Fusion T_Fusion2 Ex_Metrics.
Open Scope string_scope.
Open Scope list_scope.
Open Scope nat_scope.

Section G.
Context {N : Num} (E : env N) (HE : env_ok E).
Lemma score_by_order_ok c order : NoDup c -> Permutation order (seq 0 (length c)) ->
  score_by_order c order = Ok (map (fun id => (snd id, fofZ (Z.of_nat (length c) - Z.of_nat (fst id)))) (enumerate (map (fun i => nth i c "") order))).
Proof.
  intros Hc Hp. unfold score_by_order. rewrite (map_m_ok _ (fun i => nth i c "")).
  2:{ intros i Hi. apply (Permutation_in _ Hp) in Hi. apply in_seq in Hi. unfold nth_r. rewrite (nth_error_nth' c "") by lia. reflexivity. }
  cbn [bindr]. rewrite map_length. rewrite (Permutation_length Hp), seq_length.
  apply foldr_m_fresh; [reflexivity|]. cbn [fst]. unfold enumerate. rewrite enum_from_snd.
  apply (Permutation_NoDup (l := map (fun i => nth i c "") (seq 0 (length c)))).
  - apply Permutation_map. now symmetry.
  - now rewrite map_nth_seq.
Qed.
Lemma get_results_ok m0 ms : (forall q m, In q (dkeys m0) -> In m ms -> In q (dkeys m)) ->
  get_results (m0 :: ms) = Ok (map (fun q => map (fun m : dict (dict F) => dkeys (ofq m q)) (m0 :: ms)) (dkeys m0)).
Proof.
  intros H. unfold get_results. apply map_m_ok. intros q Hq. apply map_m_ok. intros m Hm.
  assert (Hin : In q (dkeys m)) by (destruct Hm as [<-|Hm]; auto). apply key_dget in Hin as [r Hr]. unfold dget_r, ofq. now rewrite Hr.
Qed.
Lemma condorcet_with_ok f (g : string -> dict F) (xs : list (Run N)) name x0 xs0 : xs = x0 :: xs0 -> dict_ok (r_map x0) ->
  (forall q x, In q (dkeys (r_map x0)) -> In x xs -> In q (dkeys (r_map x))) ->
  (forall q, In q (dkeys (r_map x0)) -> f (map (fun x => dkeys (ofq (r_map x) q)) xs) (cands_of E (maps xs) q) = Ok (g q)) ->
  condorcet_with E f xs name = Ok (new_run (Some name) (map (fun q => (q, g q)) (dkeys (r_map x0)))).
Proof.
  intros -> Hok Hk Hf. unfold condorcet_with.
  change (maps (x0 :: xs0)) with (r_map x0 :: maps xs0) at 1 2.
  assert (Hk' : forall q m, In q (dkeys (r_map x0)) -> In m (maps xs0) -> In q (dkeys m)).
  { intros q m Hq Hm. apply in_map_iff in Hm as (x & <- & Hx). apply Hk; [auto|now right]. }
  rewrite get_results_ok, (get_candidates_ok E) by exact Hk'. cbn [bindr].
  rewrite (map_m_ok _ (fun i => match nth_error (dkeys (r_map x0)) i with Some q => g q | None => [] end)).
  - cbn [bindr]. rewrite (map_seq_nth_error (dkeys (r_map x0)) _ g) by (intros i q Hi; now rewrite Hi).
    rewrite convert_results_ok; [|exact Hok|now rewrite map_length]. cbn [bindr]. f_equal. f_equal.
    clear. induction (dkeys (r_map x0)); cbn; congruence.
  - intros i Hi. apply in_seq in Hi. destruct (nth_error (dkeys (r_map x0)) i) as [q|] eqn:Hq; [|apply nth_error_None in Hq; lia].
    unfold nth_r. rewrite !nth_error_map, Hq. cbn [option_map bindr].
    rewrite <- (Hf q) by (eapply nth_error_In; eauto). f_equal. change (r_map x0 :: maps xs0) with (maps (x0 :: xs0)). unfold maps. now rewrite map_map.
Qed.
End G.

Lemma adjacent_app {A} (l1 l2 : list A) a b : adjacent (l1 ++ a :: b :: l2) a b.
Proof. induction l1; cbn; constructor; auto. Qed.
Lemma adjacent_nth {A} (l : list A) i a b : nth_error l i = Some a -> nth_error l (S i) = Some b -> adjacent l a b.
Proof.
  revert l; induction i; intros [|c l]; cbn; try discriminate; intros H1 H2.
  - destruct l; cbn in *; [discriminate|]. inversion H1; inversion H2; subst. constructor.
  - constructor. now apply IHi.
Qed.

Section C.
Context (E : env NumR) (HE : env_ok E) (pysort : (nat -> nat -> bool) -> list nat -> list nat) (Hsort : sorter_ok pysort).

Definition zidx (x : Run NumR) (q d : string) : Z :=
  match index_of (dkeys (results_of x q)) d with Some i => Z.of_nat i | None => 1000000%Z end.
Lemma zidx_prefers x q a b : (Z.of_nat (length (results_of x q)) <= 1000000)%Z -> a_run x -> (zidx x q a <? zidx x q b)%Z = prefers x q a b.
Proof.
  intros Hl Hx. unfold zidx, prefers, rank_of. rewrite !rank_in_index.
  assert (Hlt : forall d i, index_of (dkeys (results_of x q)) d = Some i -> i < length (results_of x q)).
  { intros d i Hi. apply index_of_spec in Hi; [|apply (results_ok x q Hx)].
    replace (length (results_of x q)) with (length (dkeys (results_of x q))) by (unfold dkeys; apply map_length). apply nth_error_Some. congruence. }
  destruct (index_of (dkeys (results_of x q)) a) as [i|] eqn:Ha, (index_of (dkeys (results_of x q)) b) as [j|] eqn:Hb; cbn [option_map];
    try apply Hlt in Ha; try apply Hlt in Hb.
  - destruct (Z.ltb_spec (Z.of_nat i) (Z.of_nat j)), (Nat.ltb_spec (S i) (S j)); auto; lia.
  - apply Z.ltb_lt. lia.
  - apply Z.ltb_ge. lia.
  - apply Z.ltb_irrefl.
Qed.

Definition cond_order (lt : list (list Z) -> nat -> nat -> bool) xs q : list string :=
  let c := cands_of E (maps xs) q in
  map (fun i => nth i c "") (pysort (lt (run_indices (map (fun x => dkeys (results_of x q)) xs) c)) (seq 0 (length c))).
Definition cond_res (lt : list (list Z) -> nat -> nat -> bool) xs q : dict R :=
  map (fun id => (snd id, IZR (Z.of_nat (length (cands_of E (maps xs) q)) - Z.of_nat (fst id)))) (enumerate (cond_order lt xs q)).
Lemma cond_order_perm lt xs q : Permutation (cond_order lt xs q) (cands_of E (maps xs) q).
Proof.
  unfold cond_order. set (c := cands_of E (maps xs) q).
  transitivity (map (fun i => nth i c "") (seq 0 (length c))); [apply Permutation_map; apply Hsort|]. rewrite map_nth_seq. apply Permutation_refl.
Qed.

Lemma condorcet_like_ok lt f xs name (beats : string -> string -> string -> Prop) : fusable xs ->
  (forall q, f (map (fun x => dkeys (results_of x q)) xs) (cands_of E (maps xs) q) = Ok (cond_res lt xs q)) ->
  (forall q c i j a b, nth_error c i = Some a -> nth_error c j = Some b ->
     (lt (run_indices (map (fun x => dkeys (results_of x q)) xs) c) i j = true \/
      lt (run_indices (map (fun x => dkeys (results_of x q)) xs) c) j i = false) -> ~ beats q b a) ->
  exists y, @condorcet_with NumR E f xs name = Ok y /\ r_name y = Some name /\ condorcet_like xs y beats.
Proof.
  intros (Hne & Ha & Hs) Hf Hb. destruct xs as [|x0 xs0] eqn:Hxs; [easy|]. rewrite <- Hxs in *. rewrite Forall_forall in Ha.
  assert (Hx0 : In x0 xs) by (subst; now left).
  exists (@new_run NumR (Some name) (map (fun q => (q, cond_res lt xs q)) (dkeys (r_map x0)))).
  split; [|split; [reflexivity|]].
  { apply (condorcet_with_ok (N := NumR) E f (cond_res lt xs) xs name x0 xs0 Hxs).
    - apply (Ha x0 Hx0).
    - intros q x Hq Hx. exact (Hs x0 x q Hx0 Hx Hq).
    - intros q _. exact (Hf q). }
  set (y := @new_run NumR (Some name) (map (fun q => (q, cond_res lt xs q)) (dkeys (r_map x0)))).
  assert (Hget : forall q, @dget (dict R) (r_map y) q = if in_dec string_dec q (dkeys (r_map x0)) then Some (cond_res lt xs q) else None).
  { intros q. exact (const_map_get (cond_res lt xs) (dkeys (r_map x0)) q). }
  assert (Hnoc : forall q d, ~ has_query x0 q -> ~ candidate xs q d).
  { intros q d Hq Hc. apply Hq. eapply candidate_query; eauto. }
  assert (Hres : forall q, results_of y q = cond_res lt xs q).
  { intros q. unfold results_of, of_query.
    assert (Hgen : forall o : option (dict R), o = (if in_dec string_dec q (dkeys (r_map x0)) then Some (cond_res lt xs q) else None) ->
      match o with Some r => r | None => [] end = cond_res lt xs q); [|exact (Hgen _ (Hget q))].
    intros o ->. destruct (in_dec string_dec q (dkeys (r_map x0))) as [|Hn]; auto.
    assert (Hc : cands_of E (maps xs) q = []).
    { destruct (cands_of E (maps xs) q) as [|d c] eqn:Hc; auto. exfalso. apply (Hnoc q d Hn). apply (cands_candidates E HE xs q). rewrite Hc. now left. }
    pose proof (cond_order_perm lt xs q) as Hp. rewrite Hc in Hp. apply Permutation_sym, Permutation_nil in Hp. unfold cond_res. now rewrite Hp. }
  assert (Hkeys : forall q, dkeys (results_of y q) = cond_order lt xs q).
  { intros q. rewrite Hres. unfold cond_res, dkeys. rewrite map_map. cbn [fst]. apply enum_from_snd. }
  assert (Hlen : forall q, length (results_of y q) = length (cands_of E (maps xs) q)).
  { intros q. rewrite <- (Permutation_length (cond_order_perm lt xs q)), <- Hkeys. unfold dkeys. now rewrite map_length. }
  assert (Hnd : forall q, NoDup (dkeys (results_of y q))).
  { intros q. rewrite Hkeys. eapply Permutation_NoDup; [symmetry; apply cond_order_perm|]. now apply cands_of_nodup. }
  assert (Hay : a_run y).
  { split.
    - unfold y. cbn [new_run r_map]. unfold dict_ok, dkeys at 1. rewrite map_map. cbn [fst]. rewrite map_id. apply (Ha x0 Hx0).
    - intros q r Hr. pose proof (eq_trans (eq_sym (Hget q)) Hr) as H. destruct (in_dec string_dec q (dkeys (r_map x0))); [|discriminate].
      inversion H. unfold dict_ok. rewrite <- Hres. apply Hnd. }
  assert (Hscore : forall q d i, at_position y q d i -> score_of y q d = Some (INR (length (results_of y q)) - INR i)%R).
  { intros q d i Hi. rewrite score_of_results. rewrite Hlen. unfold at_position in Hi. rewrite Hkeys in Hi. rewrite Hres. apply in_dget.
    - unfold dict_ok. rewrite <- Hres. apply Hnd.
    - unfold cond_res. apply in_map_iff. exists (i, d). cbn [fst snd]. split; [|now apply enumerate_in].
      f_equal. now rewrite !INR_IZR_INZ, <- minus_IZR. }
  assert (Hadj : forall q a b i, at_position y q a i -> at_position y q b (S i) -> ~ beats q b a).
  { intros q a b i Hi Hj. unfold at_position in Hi, Hj. rewrite Hkeys in Hi, Hj. unfold cond_order in Hi, Hj. rewrite nth_error_map in Hi, Hj.
    set (c := cands_of E (maps xs) q) in *.
    set (lt' := lt (run_indices (map (fun x => dkeys (results_of x q)) xs) c)) in *. destruct (Hsort lt' (seq 0 (length c))) as [Hp Hadj].
    destruct (nth_error (pysort lt' (seq 0 (length c))) i) as [u|] eqn:Hu; [|discriminate].
    destruct (nth_error (pysort lt' (seq 0 (length c))) (S i)) as [v|] eqn:Hv; [|discriminate]. cbn in Hi, Hj. inversion Hi as [Hi']; inversion Hj as [Hj'].
    assert (Hul : u < length c) by (apply nth_error_In, (Permutation_in _ Hp), in_seq in Hu; lia).
    assert (Hvl : v < length c) by (apply nth_error_In, (Permutation_in _ Hp), in_seq in Hv; lia).
    rewrite Hi', Hj'. apply (Hb q c u v a b).
    - rewrite <- Hi'. now apply nth_error_nth'.
    - rewrite <- Hj'. now apply nth_error_nth'.
    - apply Hadj. eapply adjacent_nth; eauto. }
  assert (Hret : forall q d, retrieves y q d <-> candidate xs q d).
  { intros q d. rewrite retrieves_key, Hkeys. rewrite <- (proj2 (cands_candidates E HE xs q) d).
    split; apply Permutation_in; [|symmetry]; apply cond_order_perm. }
  split; [exact Hay|]. split; [|split; [exact Hret|split; [|split; [exact Hscore|split; [exact Hadj|]]]]].
  - intros x q Hx. unfold has_query at 1, y. cbn [new_run r_map]. unfold dkeys at 1. rewrite map_map. cbn [fst]. rewrite map_id.
    split; intros H; [exact (Hs x0 x q Hx0 Hx H)|exact (Hs x x0 q Hx Hx0 H)].
  - intros q. rewrite Hres. unfold cond_res. apply StronglySorted_map. cbn [snd].
    generalize (cond_order lt xs q) as l, (length (cands_of E (maps xs) q)) as n. intros l n. unfold enumerate.
    generalize 0 as j. induction l as [|d l IH]; intros j; cbn [enum_from]; constructor; [apply IH|].
    apply Forall_forall. intros [k e] Hk. cbn [fst]. apply enum_from_in in Hk as [Hk _]. apply IZR_le. lia.
  - intros q Htr a b i j Hi Hj Hij. revert b Hj. induction j as [|j IH]; [lia|]. intros b Hj.
    destruct (Nat.eq_dec i j) as [->|Hne']; [eapply Hadj; eauto|].
    unfold at_position in Hj. destruct (nth_error (dkeys (results_of y q)) j) as [c|] eqn:Hc.
    2:{ apply nth_error_None in Hc. assert (S j < length (dkeys (results_of y q))) by (apply nth_error_Some; congruence). lia. }
    assert (Hcand : forall d k, nth_error (dkeys (results_of y q)) k = Some d -> candidate xs q d).
    { intros d k Hk. apply Hret, retrieves_key. eapply nth_error_In; eauto. }
    apply (Htr a c b); eauto.
    + apply IH; [lia|exact Hc].
Qed.

Lemma run_indices_nth xs q c x i d : nth_error c i = Some d -> In x xs ->
  nth i (map (fun e => match index_of (dkeys (results_of x q)) e with Some i => Z.of_nat i | None => 1000000%Z end) c) 0%Z = zidx x q d.
Proof.
  intros Hi Hx. unfold zidx. apply nth_error_nth. rewrite nth_error_map, Hi. reflexivity.
Qed.
Lemma condorcet_lt_votes xs q c i j a b : short_results xs -> Forall a_run xs -> nth_error c i = Some a -> nth_error c j = Some b ->
  condorcet_lt (run_indices (map (fun x => dkeys (results_of x q)) xs) c) i j = (length xs - votes xs q a b <=? votes xs q a b).
Proof.
  intros Hsh Hax Hi Hj. unfold condorcet_lt, run_indices. rewrite !map_map, map_length, count_map. unfold votes.
  rewrite (count_ext _ (fun x => prefers x q a b)); auto. intros x Hx. rewrite Forall_forall in Hax.
  rewrite (run_indices_nth xs q c x i a Hi Hx), (run_indices_nth xs q c x j b Hj Hx). apply zidx_prefers; auto.
Qed.
Lemma prefers_asym x q a b : prefers x q a b = true -> prefers x q b a = false.
Proof.
  unfold prefers. destruct (rank_of x q a), (rank_of x q b); auto; try discriminate.
  intros H. apply Nat.ltb_lt in H. apply Nat.ltb_ge. lia.
Qed.
Lemma votes_le xs q a b : votes xs q a b + votes xs q b a <= length xs.
Proof.
  unfold votes. induction xs as [|x xs IH]; cbn; [lia|]. pose proof (prefers_asym x q a b).
  destruct (prefers x q a b), (prefers x q b a); cbn; try lia; specialize (H eq_refl); discriminate.
Qed.
Lemma weighted_votes_le ws xs q a b : length ws = length xs -> (forall w, In w ws -> 0 <= w)%R -> (weighted_votes ws xs q a b + weighted_votes ws xs q b a <= Rsum ws)%R.
Proof.
  unfold weighted_votes. revert ws; induction xs as [|x xs IH]; intros [|w ws] Hl Hw; cbn in Hl; try lia; [cbn; lra|].
  cbn [combine map fst snd Rsum fold_right]. change (fold_right Rplus 0%R) with Rsum.
  specialize (IH ws ltac:(lia) (fun w' H => Hw w' (or_intror H))). pose proof (Hw w (or_introl eq_refl)). pose proof (prefers_asym x q a b) as Hp.
  destruct (prefers x q a b), (prefers x q b a); try lra; specialize (Hp eq_refl); discriminate.
Qed.
Lemma wcondorcet_lt_votes (ws : list R) xs q c i j a b : length ws = length xs -> short_results xs -> Forall a_run xs -> nth_error c i = Some a -> nth_error c j = Some b ->
  @wcondorcet_lt NumR ws (run_indices (map (fun x => dkeys (results_of x q)) xs) c) i j =
  Rleb (Rsum ws - weighted_votes ws xs q a b) (weighted_votes ws xs q a b).
Proof.
  intros Hl Hsh Hax Hi Hj. unfold wcondorcet_lt, run_indices. rewrite map_map, combine_map_r.
  assert (H : forall l1 l2 v1 v2, length l1 = length l2 -> (forall x, In x l2 -> In x xs) ->
    fold_left (fun v wr => if (nth i (snd wr) 0 <? nth j (snd wr) 0)%Z then (@fadd NumR (fst v) (fst wr), snd v) else (fst v, @fadd NumR (snd v) (fst wr)))
      (map (fun wx : R * Run NumR => (fst wx, map (fun e => match index_of (dkeys (results_of (snd wx) q)) e with Some i => Z.of_nat i | None => 1000000%Z end) c)) (combine l1 l2)) (v1, v2)
    = ((v1 + weighted_votes l1 l2 q a b)%R, (v2 + (Rsum l1 - weighted_votes l1 l2 q a b))%R)).
  { intros l1 l2; revert l1; induction l2 as [|x l2 IH]; intros [|w l1] v1 v2 Hl' Hin; cbn in Hl'; try lia.
    - cbn. f_equal; lra.
    - cbn [combine map fold_left fst snd]. rewrite (run_indices_nth xs q c x i a Hi), (run_indices_nth xs q c x j b Hj) by (apply Hin; now left).
      rewrite Forall_forall in Hax. rewrite zidx_prefers by (try apply Hsh; try apply Hax; apply Hin; now left).
      unfold weighted_votes. cbn [combine map fst snd Rsum fold_right]. change (fold_right Rplus 0%R) with Rsum.
      destruct (prefers x q a b); (etransitivity; [apply IH; [lia|intros; apply Hin; now right]|]); unfold weighted_votes; f_equal; cbn [fadd NumR]; lra. }
  pose proof (H ws xs 0%R 0%R Hl (fun x Hx => Hx)) as H'.
  match goal with |- context[fold_left ?f ?l ?s] => replace (fold_left f l s) with ((0 + weighted_votes ws xs q a b)%R, (0 + (Rsum ws - weighted_votes ws xs q a b))%R) by (symmetry; exact H') end.
  rewrite !Rplus_0_l. reflexivity.
Qed.
End C.

(** ** C47 *)
Theorem C47_condorcet : forall (E : env NumR) pysort, env_ok E -> sorter_ok pysort ->
  forall xs name, fusable xs -> short_results xs ->
  exists y, condorcet E pysort xs name = Ok y /\ r_name y = Some name /\ condorcet_like xs y (majority xs).
Proof.
  intros E pysort HE Hsort xs name Hxs Hsh. unfold condorcet.
  apply (condorcet_like_ok E HE pysort Hsort condorcet_lt); auto.
  - intros q. unfold _condorcet. apply (score_by_order_ok (N := NumR)); [now apply cands_of_nodup|apply Hsort].
  - intros q c i j a b Hi Hj H. destruct Hxs as (_ & Ha & _).
    rewrite (condorcet_lt_votes xs q c i j a b Hsh Ha Hi Hj), (condorcet_lt_votes xs q c j i b a Hsh Ha Hj Hi) in H.
    unfold majority. pose proof (votes_le xs q a b). rewrite Nat.leb_le, Nat.leb_gt in H. lia.
Qed.
Theorem C47_weighted_condorcet : forall (E : env NumR) pysort, env_ok E -> sorter_ok pysort ->
  forall xs ws name, fusable xs -> short_results xs -> length ws = length xs -> (forall w, In w ws -> 0 <= w)%R ->
  exists y, weighted_condorcet E pysort xs ws name = Ok y /\ r_name y = Some name /\ condorcet_like xs y (weighted_majority ws xs).
Proof.
  intros E pysort HE Hsort xs ws name Hxs Hsh Hl Hw. unfold weighted_condorcet.
  apply (condorcet_like_ok E HE pysort Hsort (@wcondorcet_lt NumR ws)); auto.
  - intros q. unfold _wcondorcet. rewrite map_length.
    assert (Hlen : (@length (@F NumR) ws <? length xs) = false) by (apply Nat.ltb_ge; unfold F; cbn; lia).
    rewrite Hlen, andb_false_r. apply (score_by_order_ok (N := NumR)); [now apply cands_of_nodup|apply Hsort].
  - intros q c i j a b Hi Hj H. destruct Hxs as (_ & Ha & _).
    rewrite (wcondorcet_lt_votes ws xs q c i j a b Hl Hsh Ha Hi Hj), (wcondorcet_lt_votes ws xs q c j i b a Hl Hsh Ha Hj Hi) in H.
    unfold weighted_majority. pose proof (weighted_votes_le ws xs q a b Hl Hw). unfold Rleb in H.
    destruct (Rle_dec (Rsum ws - weighted_votes ws xs q a b) (weighted_votes ws xs q a b)), (Rle_dec (Rsum ws - weighted_votes ws xs q b a) (weighted_votes ws xs q b a));
      destruct H as [H|H]; try discriminate; lra.
Qed.
