(** T_Fusion6.v: fusion of too few weights (C45), of misaligned runs (C46), properties and limits of
    condorcet (C47), ranks of unsorted runs (C52); concrete cases and assumptions for T_Fusion*.v *)
From Coq Require Import Reals Lra Psatz.
From Verif Require Import Base Dict Num NumLaws Env EnvEx M_Common M_Qrels M_Run M_History M_Norm M_Fusion
  Spec_DS Spec_Hist Spec_Metrics Spec_Eval Spec_Norm Spec_Fusion
  P_Base P_Dict P_Common P_DS P_Metrics P_Eval P_Norm T_Norm T_Norm2 T_Norm3 P_Fusion P_Fusion2 P_Fusion3
  T_Fusion T_Fusion2 T_Fusion3 T_Fusion4 T_Fusion5 Ex_Metrics.
Open Scope string_scope.
Open Scope list_scope.
Open Scope nat_scope.

(** ** C45: too few weights *)
Lemma prange_r_err {A} order n (init : A) (f : nat -> result A) e : Permutation order (seq 0 n) ->
  (forall i, i < n -> (exists v, f i = Ok v) \/ f i = Err e) -> (exists i, i < n /\ f i = Err e) ->
  prange_r order n init f = Err e.
Proof.
  intros Hp Hall (i & Hi & He). unfold prange_r.
  assert (Hin : In i order) by (apply (Permutation_in _ (Permutation_sym Hp)), in_seq; lia).
  assert (Hlt : forall k, In k order -> k < n) by (intros k Hk; apply (Permutation_in _ Hp), in_seq in Hk; lia).
  clear Hp. revert Hin Hlt. generalize (repeat init n). induction order as [|k l IH]; intros acc Hin Hlt; [easy|].
  cbn [foldr_m]. destruct (Hall k (Hlt k (or_introl eq_refl))) as [[v Hv]|Hv]; rewrite Hv; cbn [bindr]; auto.
  destruct Hin as [->|Hin]; [congruence|]. apply IH; auto. intros; apply Hlt; now right.
Qed.
Theorem C45_too_few_weights : forall (E : env NumR), env_ok E -> forall xs ws name q d, fusable xs -> candidate xs q d ->
  length ws < length xs -> wsum E xs ws name = Err IndexError.
Proof.
  intros E HE xs ws name q d (Hne & Ha & Hs) Hc Hl. destruct xs as [|x0 xs0] eqn:Hxs; [easy|]. rewrite <- Hxs in *.
  assert (Hx0 : In x0 xs) by (subst; now left).
  assert (Hq : has_query x0 q) by (eapply candidate_query; eauto).
  unfold wsum, comb.
  assert (Herr : comb_parallel E "_weighted_sum" (@wsum_formula NumR ws) (maps xs) = Err IndexError); [|now rewrite Herr].
  unfold comb_parallel. change (maps xs) with (map (@r_map NumR) xs). rewrite Hxs at 1. cbn [map].
  assert (Hk : forall q' m, In q' (dkeys (r_map x0)) -> In m (map (@r_map NumR) xs) -> In q' (dkeys m)).
  { intros q' m Hq' Hm. apply in_map_iff in Hm as (x & <- & Hx). exact (Hs x0 x q' Hx0 Hx Hq'). }
  assert (Hf : forall q' e, has_doc (map (fun m : dict (dict R) => ofq m q') (map (@r_map NumR) xs)) e = true ->
     @wsum_formula NumR ws (map (fun m : dict (dict R) => ofq m q') (map (@r_map NumR) xs)) e = Err IndexError).
  { intros q' e _. apply (wsum_formula_err (N := NumR)). rewrite !map_length. exact Hl. }
  rewrite (prange_r_err _ _ _ _ IndexError); [reflexivity|apply (sched_perm _ HE)| |].
  - intros i Hi. unfold nth_r. destruct (nth_error (dkeys (r_map x0)) i) as [q'|] eqn:Hq'; [|apply nth_error_None in Hq'; lia].
    cbn [bindr]. rewrite (map_m_get (N := NumR)) by (intros m Hm; apply (Hk q' m); [eapply nth_error_In; eauto|exact Hm]). cbn [bindr].
    destruct (existsb (fun r : dict R => negb (length r =? 0)) (map (fun m : dict (dict R) => ofq m q') (map (@r_map NumR) xs))) eqn:Hex.
    + right. apply (comb_results_err (N := NumR)).
      * apply existsb_exists in Hex as (r & Hr & Hlr). destruct r as [|[e v] r]; [discriminate|]. exists e. apply has_doc_in.
        eexists. split; [exact Hr|]. now left.
      * apply Hf.
    + left. destruct (comb_results_ok (N := NumR) (@wsum_formula NumR ws) (map (fun m : dict (dict R) => ofq m q') (map (@r_map NumR) xs)) (fun _ => 0%R)) as (acc & Hacc & _).
      * intros e He. exfalso. apply has_doc_in in He as (r & Hr & Hd).
        assert (Hc' : existsb (fun r : dict R => negb (length r =? 0)) (map (fun m : dict (dict R) => ofq m q') (map (@r_map NumR) xs)) = true).
        { apply existsb_exists. exists r. split; auto. destruct r; [easy|reflexivity]. }
        congruence.
      * exists acc. exact Hacc.
  - unfold has_query in Hq. apply In_nth_error in Hq as [i Hi]. exists i. split; [apply nth_error_Some; congruence|].
    unfold nth_r. rewrite Hi. cbn [bindr]. rewrite (map_m_get (N := NumR)) by (intros m Hm; apply (Hk q m); [eapply nth_error_In; eauto|exact Hm]). cbn [bindr].
    apply (comb_results_err (N := NumR)); [|apply Hf]. exists d. now apply has_doc_runs.
Qed.

(** ** C46: runs that store their queries in different orders *)
Section Mis.
Context {N : Num} (v : F).
Lemma misaligned_borda_gen : exists ma mb, borda_scores env_ex [b1_gen v; b2_gen v] = Ok [ma; mb] /\
  dkeys ma = ["q1"; "q2"] /\ dkeys mb = ["q2"; "q1"] /\ exists s, dget2 mb "q2" "a" = Some s.
Proof. eexists. eexists. split; [lazy; reflexivity|]. split; [reflexivity|]. split; [reflexivity|]. eexists. reflexivity. Qed.
End Mis.
Theorem C46_misaligned_refuted : exists (E : env NumR) xs y,
  env_ok E /\ Forall (run_reachable E) xs /\ fusable xs /\
  bordafuse E xs "f" = Ok y /\ retrieves y "q2" "a" /\ ~ candidate xs "q2" "a".
Proof.
  destruct (@misaligned_borda_gen NumR 1%R) as (ma & mb & Hb & Ka & Kb & s & Hs).
  assert (HE := env_ok_ex).
  destruct (comb_parallel_ok (N := NumR) env_ex HE "_comb_sum" (@sum_formula NumR) ma [mb]
     (fun q d => @fsum NumR (@get_all NumR fzero (map (fun m : dict (dict R) => ofq m q) [ma; mb]) d))) as (out & Ho & Hk & Hok & Hg).
  { unfold dict_ok. rewrite Ka. repeat constructor; cbn; intuition discriminate. }
  { intros q m Hq [<-|[]]. rewrite Ka in Hq. rewrite Kb. cbn in *. tauto. }
  { intros q d Hq Hd. reflexivity. }
  exists env_ex, [b1; b2], (Run_sort env_ex (@new_run NumR (Some "f") out)).
  assert (Hreach : Forall (run_reachable env_ex) [b1; b2]).
  { constructor; [|constructor; [|constructor]]; apply reach_add; repeat constructor. }
  assert (Hrun : Forall a_run [b1; b2]).
  { eapply Forall_impl; [|exact Hreach]. intros x Hx. now apply (run_reachable_inv env_ex HE). }
  split; [exact HE|]. split; [exact Hreach|]. split.
  { split; [discriminate|]. split; [exact Hrun|]. intros x x' q Hx Hx' Hq.
    assert (Hkz : forall z, In z [b1; b2] -> (has_query z q <-> q = "q1" \/ q = "q2")).
    { intros z [<-|[<-|[]]]; unfold has_query; cbn; intuition. }
    apply (Hkz x' Hx'). now apply (Hkz x Hx). }
  split.
  { unfold bordafuse. change [b1; b2] with [@b1_gen NumR 1%R; @b2_gen NumR 1%R]. rewrite Hb. cbn [bindr].
    apply (comb_eq (N := NumR)). exact Ho. }
  split.
  - unfold retrieves. rewrite sort_score; [|exact HE|exact Hok]. eexists. refine (eq_trans (Hg "q2" "a" _) _).
    { rewrite Ka. cbn. auto. }
    assert (Hd : @has_doc R (map (fun m : dict (dict R) => ofq m "q2") [ma; mb]) "a" = true).
    { apply has_doc_in. exists (ofq mb "q2"). split; [cbn; auto|]. eapply dget_Some_key. rewrite <- dget2_ofq. exact Hs. }
    exact (f_equal (fun b : bool => if b then _ else None) Hd).
  - intros (x & [<-|[<-|[]]] & s' & Hs'); discriminate Hs'.
Qed.

(** ** C47: condorcet looks only at the rankings *)
Section Irrelevant.
Context {N : Num}.
Definition same_ranking (m m' : dict (dict F)) : Prop :=
  dkeys m = dkeys m' /\ forall q, option_map dkeys (dget m q) = option_map dkeys (dget m' q).
Lemma get_results_same ms ms' : Forall2 same_ranking ms ms' -> get_results ms = get_results ms'.
Proof.
  intros H. destruct H as [|m m' ms ms' [Hk Hq] H]; [reflexivity|]. unfold get_results. rewrite Hk. apply map_m_eq. intros q _.
  assert (H' : Forall2 same_ranking (m :: ms) (m' :: ms')) by (constructor; [split|]; auto). clear - H'.
  induction H' as [|a a' l l' [_ Ha] H IH]; [reflexivity|]. cbn [map_m]. rewrite IH. specialize (Ha q).
  unfold dget_r. destruct (dget a q), (dget a' q); cbn in *; try discriminate; auto. inversion Ha as [Hk']. now rewrite Hk'.
Qed.
Lemma get_candidates_same E ms ms' : Forall2 same_ranking ms ms' -> get_candidates E ms = get_candidates E ms'.
Proof.
  intros H. destruct H as [|m m' ms ms' [Hk Hq] H]; [reflexivity|]. unfold get_candidates. rewrite Hk. apply map_m_eq. intros q _.
  assert (H' : Forall2 same_ranking (m :: ms) (m' :: ms')) by (constructor; [split|]; auto). clear - H'.
  assert (Hr : match map_m (fun m => dget_r m q) (m :: ms) with Ok rs => Ok (map dkeys rs) | Err e => Err e end =
               match map_m (fun m => dget_r m q) (m' :: ms') with Ok rs => Ok (map dkeys rs) | Err e => Err e end).
  { induction H' as [|a a' l l' [_ Ha] H IH]; [reflexivity|]. cbn [map_m]. specialize (Ha q).
    unfold dget_r at 1 3. destruct (dget a q), (dget a' q); cbn in *; try discriminate; auto.
    inversion Ha as [Hk]. destruct (map_m (fun m => dget_r m q) l), (map_m (fun m => dget_r m q) l'); cbn in *; inversion IH; auto. now rewrite Hk, H1. }
  destruct (map_m (fun m => dget_r m q) (m :: ms)), (map_m (fun m => dget_r m q) (m' :: ms')); inversion Hr; cbn; auto. congruence.
Qed.
Lemma condorcet_with_same E f xs xs' name : Forall2 same_ranking (maps xs) (maps xs') ->
  condorcet_with E f xs name = condorcet_with E f xs' name.
Proof.
  intros H. unfold condorcet_with. rewrite (get_results_same _ _ H), (get_candidates_same E _ _ H).
  destruct xs as [|x xs], xs' as [|x' xs']; inversion H as [|? ? ? ? [Hk _]]; subst; auto. cbv zeta. now rewrite Hk.
Qed.
End Irrelevant.

(** every run of [xs'] lists the same queries and, per query, the same documents in the same order as
    the corresponding run of [xs]; the scores may differ *)
Definition same_rankings (xs xs' : list (Run NumR)) : Prop :=
  Forall2 (fun x x' => dkeys (r_map x) = dkeys (r_map x') /\ forall q, dkeys (results_of x q) = dkeys (results_of x' q)) xs xs'.
Theorem C47_scores_irrelevant : forall (E : env NumR) pysort xs xs' ws name, same_rankings xs xs' ->
  condorcet E pysort xs name = condorcet E pysort xs' name /\
  weighted_condorcet E pysort xs ws name = weighted_condorcet E pysort xs' ws name.
Proof.
  intros E pysort xs xs' ws name H.
  assert (Hs : Forall2 (@same_ranking NumR) (maps xs) (maps xs')).
  { induction H as [|x x' xs xs' [Hk Hq] H IH]; constructor; auto. split; auto. intros q.
    specialize (Hq q). unfold results_of, of_query in Hq.
    assert (Hgen : forall o o' : option (dict R), (o = None <-> o' = None) ->
       dkeys match o with Some r => r | None => [] end = dkeys match o' with Some r => r | None => [] end ->
       option_map dkeys o = option_map dkeys o').
    { intros [r|] [r'|] Hn; cbn; try congruence; destruct Hn as [H1 H2]; [discriminate H2|discriminate H1]; auto. }
    apply Hgen; [|exact Hq]. rewrite (dget_None (V := dict R) (r_map x) q), (dget_None (V := dict R) (r_map x') q).
    now change (@dkeys (dict R) (r_map x)) with (@dkeys (dict (@F NumR)) (r_map x)); rewrite Hk. }
  split; [exact (condorcet_with_same E _ xs xs' name Hs)|exact (condorcet_with_same E _ xs xs' name Hs)].
Qed.

(** ** C47: a real sorting algorithm meets [sorter_ok]; a counterexample to unanimity *)
Fixpoint ins (lt : nat -> nat -> bool) (p : nat) (l : list nat) : list nat :=
  match l with
  | [] => [p]
  | n :: l' => if lt p n then p :: l else n :: ins lt p l'
  end.
Definition ins_sort (lt : nat -> nat -> bool) (l : list nat) : list nat := fold_left (fun acc p => ins lt p acc) l [].
Lemma ins_perm lt p l : Permutation (ins lt p l) (p :: l).
Proof. induction l as [|n l IH]; cbn; auto. destruct (lt p n); auto. rewrite IH. apply perm_swap. Qed.
Lemma ins_adj lt p l : (forall a b, adjacent l a b -> lt a b = true \/ lt b a = false) ->
  (forall a b, adjacent (ins lt p l) a b -> lt a b = true \/ lt b a = false).
Proof.
  assert (Hone : forall c a b : nat, ~ adjacent [c] a b).
  { intros c a b Hc. inversion Hc as [|c' t a' b' Hn]; subst. inversion Hn. }
  induction l as [|n l IH]; intros H a b Hab; cbn in Hab.
  - now apply Hone in Hab.
  - destruct (lt p n) eqn:Hpn.
    + inversion Hab as [a' b' t|c t a' b' Hadj]; subst; auto.
    + assert (IH' : forall a b, adjacent (ins lt p l) a b -> lt a b = true \/ lt b a = false) by (apply IH; intros; apply H; now constructor).
      destruct l as [|m l]; cbn in Hab, IH'.
      * inversion Hab as [a' b' t|c t a' b' Hadj]; subst; auto.
      * destruct (lt p m) eqn:Hpm; inversion Hab as [a' b' t|c t a' b' Hadj]; subst; auto. apply H. constructor.
Qed.
Lemma ins_sort_ok : sorter_ok ins_sort.
Proof.
  intros lt l. unfold ins_sort.
  assert (H : forall l acc, (forall a b, adjacent acc a b -> lt a b = true \/ lt b a = false) ->
    Permutation (fold_left (fun acc p => ins lt p acc) l acc) (l ++ acc) /\
    forall a b, adjacent (fold_left (fun acc p => ins lt p acc) l acc) a b -> lt a b = true \/ lt b a = false).
  { clear l. induction l as [|p l IH]; intros acc Hacc; [split; [reflexivity|exact Hacc]|]. cbn [fold_left].
    destruct (IH (ins lt p acc)) as [H1 H2]; [now apply ins_adj|]. split; [|exact H2].
    rewrite H1, ins_perm. cbn. symmetry. apply Permutation_middle. }
  destruct (H l []) as [H1 H2]; [intros a b Hab; inversion Hab|]. rewrite app_nil_r in H1. auto.
Qed.

Definition env_sorted {N : Num} : env N := Env N ex_hash ex_argsort (fun _ n => seq 0 n) (fun l => str_sort (nodup_str l)).
Lemma env_sorted_ok : env_ok (N := NumR) env_sorted.
Proof.
  destruct env_ok_ex. split; cbn; auto.
  - intros l. apply str_sort_nodup, nodup_str_nodup.
  - intros l x. rewrite str_sort_in. apply nodup_str_in.
Qed.
Section Par.
Context {N : Num} (v : F).
Definition pareto1 : Run N := run_hist env_sorted Run_empty [RAddScore "q" "a" v; RAddScore "q" "c" v; RAddScore "q" "b" v].
Definition pareto2 : Run N := run_hist env_sorted Run_empty [RAddScore "q" "b" v; RAddScore "q" "a" v; RAddScore "q" "c" v].
Lemma pareto_gen : exists y r, condorcet env_sorted ins_sort [pareto1; pareto2] "f" = Ok y /\ dget (r_map y) "q" = Some r /\
  dkeys r = ["c"; "b"; "a"].
Proof. eexists. eexists. split; [lazy; reflexivity|]. split; reflexivity. Qed.
End Par.
(** both runs rank "a" before "c", the fused run ranks "c" first and "a" last *)
Theorem C47_unanimity_refuted : exists (E : env NumR) pysort xs y,
  env_ok E /\ sorter_ok pysort /\ Forall (run_reachable E) xs /\ fusable xs /\ short_results xs /\
  condorcet E pysort xs "f" = Ok y /\
  (forall x, In x xs -> prefers x "q" "a" "c" = true) /\ prefers y "q" "c" "a" = true.
Proof.
  destruct (@pareto_gen NumR 1%R) as (y & r & Hy & Hr & Hk).
  exists env_sorted, ins_sort, [@pareto1 NumR 1%R; @pareto2 NumR 1%R], y.
  assert (Hreach : Forall (run_reachable env_sorted) [@pareto1 NumR 1%R; @pareto2 NumR 1%R]).
  { constructor; [|constructor; [|constructor]]; (exists Run_empty; eexists; split; [left; reflexivity|split; [|split; reflexivity]]; repeat constructor). }
  split; [exact env_sorted_ok|]. split; [exact ins_sort_ok|]. split; [exact Hreach|]. split.
  { split; [discriminate|]. split.
    - eapply Forall_impl; [|exact Hreach]. intros x Hx. now apply (run_reachable_inv env_sorted env_sorted_ok).
    - intros x x' q Hx Hx' Hq. assert (Hkz : forall z, In z [@pareto1 NumR 1%R; @pareto2 NumR 1%R] -> (has_query z q <-> q = "q")).
      { intros z [<-|[<-|[]]]; unfold has_query; cbn; intuition. }
      apply (Hkz x' Hx'). now apply (Hkz x Hx). }
  split.
  { intros x q Hx. assert (Hl : length (results_of x q) <= 3); [|lia].
    destruct Hx as [<-|[<-|[]]]; unfold results_of, of_query; cbn [r_map pareto1 pareto2 run_hist]; cbn; destruct (String.eqb q "q"); cbn; lia. }
  split; [exact Hy|]. split.
  - intros x [<-|[<-|[]]]; reflexivity.
  - unfold prefers, rank_of, results_of, of_query.
    assert (Hgen : forall o : option (dict R), o = Some r -> dkeys match o with Some r => r | None => [] end = ["c"; "b"; "a"]) by (intros o ->; exact Hk).
    assert (Hgen2 : forall l, l = ["c"; "b"; "a"] -> match rank_in l "c", rank_in l "a" with
       | Some r, Some r' => r <? r' | Some _, None => true | None, _ => false end = true) by (intros l ->; reflexivity).
    exact (Hgen2 _ (Hgen _ Hr)).
Qed.

(** ** C52: ranks are positions in the stored order *)
Theorem C52_ranked_by_score : forall x q d d' s s' r r', a_run x -> ranked x ->
  score_of x q d = Some s -> score_of x q d' = Some s' -> (s < s')%R ->
  rank_of x q d = Some r -> rank_of x q d' = Some r' -> r' < r.
Proof.
  intros x q d d' s s' r r' Hx Hrk Hs Hs' Hlt Hr Hr'.
  rewrite score_of_results in Hs, Hs'. specialize (Hrk q). pose proof (results_ok x q Hx) as Hok.
  unfold rank_of in Hr, Hr'. revert r r' Hr Hr' Hs Hs'. generalize (results_of x q) Hrk Hok. clear - Hlt.
  intros l Hl. induction Hl as [|[e v] l Hl IH Hf]; intros Hok r r' Hr Hr' Hs Hs'; [discriminate|].
  cbn [dkeys map fst rank_in] in Hr, Hr'. cbn [dget] in Hs, Hs'. inversion Hok as [|? ? Hni Hok']; subst.
  change (map fst l) with (dkeys l) in *. rewrite Forall_forall in Hf.
  destruct (string_dec d e) as [->|Hd].
  - rewrite String.eqb_refl in Hs. inversion Hs; subst v. destruct (string_dec d' e) as [->|Hd'].
    + rewrite String.eqb_refl in Hs'. inversion Hs'; subst. lra.
    + apply String.eqb_neq in Hd'. rewrite Hd' in Hs'. apply dget_Some_in in Hs'. specialize (Hf _ Hs'). cbn in Hf. lra.
  - apply String.eqb_neq in Hd. rewrite Hd in Hs. destruct (rank_in (dkeys l) d) as [k|] eqn:Hk; [|discriminate]. inversion Hr; subst r.
    destruct (string_dec d' e) as [->|Hd'].
    + inversion Hr'; subst. assert (k <> 0); [|lia]. rewrite rank_in_index in Hk. destruct (index_of (dkeys l) d); inversion Hk. lia.
    + apply String.eqb_neq in Hd'. rewrite Hd' in Hs'. destruct (rank_in (dkeys l) d') as [k'|] eqn:Hk'; [|discriminate]. inversion Hr'; subst r'.
      specialize (IH Hok' k k' eq_refl eq_refl Hs Hs'). lia.
Qed.
Theorem C52_sort_ranks_by_score : forall (E : env NumR), env_ok E -> forall x q d d' s s', a_run x ->
  score_of x q d = Some s -> score_of x q d' = Some s' -> (s < s')%R ->
  exists r r', rank_of (Run_sort E x) q d = Some r /\ rank_of (Run_sort E x) q d' = Some r' /\ r' < r.
Proof.
  intros E HE x q d d' s s' Hx Hs Hs' Hlt.
  assert (Hs1 : score_of (Run_sort E x) q d = Some s) by (rewrite sort_score; auto).
  assert (Hs2 : score_of (Run_sort E x) q d' = Some s') by (rewrite sort_score; auto).
  destruct (proj1 (rank_of_retrieves (Run_sort E x) q d)) as [r Hr]; [now exists s|].
  destruct (proj1 (rank_of_retrieves (Run_sort E x) q d')) as [r' Hr']; [now exists s'|].
  exists r, r'. split; auto. split; auto.
  apply (C52_ranked_by_score (Run_sort E x) q d d' s s' r r'); auto.
  - now apply sort_a_run.
  - now apply sort_ranked.
Qed.
Lemma rank_in_app l d e : rank_in (l ++ [e]) d = match rank_in l d with Some r => Some r | None => if string_dec d e then Some (S (length l)) else None end.
Proof.
  induction l as [|a l IH]; cbn; [now destruct (string_dec d e)|].
  destruct (string_dec d a); auto. rewrite IH. destruct (rank_in l d); auto. now destruct (string_dec d e).
Qed.
Lemma rank_in_None l d : ~ In d l -> rank_in l d = None.
Proof. intros H. rewrite rank_in_index. apply index_of_None in H. now rewrite H. Qed.
Lemma add_score_of_query {V} (m : dict (dict V)) q d (s : V) q' :
  of_query (add_score_map m q d s) q' = if string_dec q' q then dset (of_query m q) d s else of_query m q'.
Proof.
  unfold of_query, add_score_map. destruct (dget m q) as [r|] eqn:Hq.
  - cbv zeta. rewrite Hq. destruct (string_dec q' q) as [->|Hn]; [now rewrite dget_dset_eq|now rewrite dget_dset_neq by auto].
  - cbv zeta. rewrite dget_dset_eq. destruct (string_dec q' q) as [->|Hn]; [now rewrite dget_dset_eq|now rewrite !dget_dset_neq by auto].
Qed.
(** add_score: a new document takes the rank after the last result, whatever its score; a document
    already there and all others keep their ranks *)
Theorem C52_add_score_rank : forall x q d s, a_run x ->
  (~ retrieves x q d -> rank_of (Run_add_score x q d s) q d = Some (S (length (results_of x q)))) /\
  (retrieves x q d -> rank_of (Run_add_score x q d s) q d = rank_of x q d) /\
  (forall q' d', (q', d') <> (q, d) -> rank_of (Run_add_score x q d s) q' d' = rank_of x q' d').
Proof.
  intros x q d s Hx.
  assert (Hres : forall q', results_of (Run_add_score x q d s) q' = if string_dec q' q then @dset R (results_of x q) d s else results_of x q').
  { intros q'. exact (add_score_of_query (V := R) (r_map x) q d s q'). }
  unfold rank_of. rewrite Hres. destruct (string_dec q q) as [_|]; [|easy]. split; [|split].
  - intros Hn. rewrite retrieves_key in Hn. rewrite dkeys_dset_nin by exact Hn. rewrite rank_in_app, rank_in_None by exact Hn.
    destruct (string_dec d d); [|easy]. f_equal. f_equal. unfold dkeys. apply map_length.
  - intros Hi. rewrite retrieves_key in Hi. now rewrite dkeys_dset_in.
  - intros q' d' Hne. rewrite Hres. destruct (string_dec q' q) as [->|]; auto.
    destruct (in_dec string_dec d (dkeys (results_of x q))) as [Hi|Hn].
    + now rewrite dkeys_dset_in.
    + rewrite dkeys_dset_nin by exact Hn. rewrite rank_in_app. destruct (rank_in (dkeys (results_of x q)) d'); auto.
      destruct (string_dec d' d) as [->|]; auto. exfalso. now apply Hne.
Qed.
(** a run filled with add_score and never sorted: rrf rewards the document with the lower score *)
Definition u_x : Run NumR := @run_hist NumR env_ex Run_empty [@RAddScore NumR "q" "a" 1%R; @RAddScore NumR "q" "b" 2%R].
Lemma u_run : a_run u_x.
Proof. apply (run_reachable_inv env_ex env_ok_ex). apply reach_add. repeat constructor. Qed.
Lemma u_fusable : fusable [u_x; u_x].
Proof.
  split; [discriminate|]. split; [constructor; [apply u_run|constructor; [apply u_run|constructor]]|]. intros x x' q [<-|[<-|[]]] [<-|[<-|[]]]; auto.
Qed.
Theorem C52_unsorted_refuted : exists (E : env NumR) x y s_a s_b t_a t_b, env_ok E /\ run_reachable E x /\
  fusable [x; x] /\ rrf E [x; x] 60 "f" = Ok y /\
  score_of x "q" "a" = Some s_a /\ score_of x "q" "b" = Some s_b /\ (s_a < s_b)%R /\
  score_of y "q" "a" = Some t_a /\ score_of y "q" "b" = Some t_b /\ (t_b < t_a)%R.
Proof.
  destruct (C44_rrf env_ex env_ok_ex [u_x; u_x] 60%Z "f" u_fusable) as (y & Hy & _ & Hf); [lia|].
  destruct Hf as (_ & _ & Hret & Hval & _).
  destruct (proj2 (Hret "q" "a")) as [ta Ha]. { exists u_x. split; [now left|]. exists 1%R. reflexivity. }
  destruct (proj2 (Hret "q" "b")) as [tb Hb]. { exists u_x. split; [now left|]. exists 2%R. reflexivity. }
  exists env_ex, u_x, y, 1%R, 2%R, ta, tb.
  split; [apply env_ok_ex|]. split; [apply reach_add; repeat constructor|]. split; [apply u_fusable|]. split; [exact Hy|].
  split; [reflexivity|]. split; [reflexivity|]. split; [lra|]. split; [exact Ha|]. split; [exact Hb|].
  apply Hval in Ha, Hb. assert (Ra : ranks_given [u_x; u_x] "q" "a" = [1; 1]) by reflexivity.
  assert (Rb : ranks_given [u_x; u_x] "q" "b" = [2; 2]) by reflexivity.
  rewrite Ra in Ha. rewrite Rb in Hb. subst. cbn. lra.
Qed.

(** ** concrete cases *)
Lemma n_fusable : fusable [n_x; n_x2].
Proof.
  split; [discriminate|]. split; [constructor; [apply n_x_run|constructor; [apply n_x2_run|constructor]]|].
  intros x x' q Hx Hx' Hq. assert (Hk : forall z, In z [n_x; n_x2] -> (has_query z q <-> q = "q1" \/ q = "q2")).
  { intros z [<-|[<-|[]]]; unfold has_query; cbn; intuition. }
  apply (Hk x' Hx'). now apply (Hk x Hx).
Qed.
Lemma n_order : same_query_order [n_x; n_x2].
Proof. intros x x' [<-|[<-|[]]] [<-|[<-|[]]]; reflexivity. Qed.
Lemma n_short : short_results [n_x; n_x2].
Proof.
  intros x q Hx. assert (Hl : length (results_of x q) <= 3); [|lia].
  destruct Hx as [<-|[<-|[]]]; unfold results_of, of_query; cbn; destruct (String.eqb q "q1"); cbn; try lia; destruct (String.eqb q "q2"); cbn; lia.
Qed.
Lemma n_candidate : candidate [n_x; n_x2] "q1" "c".
Proof. exists n_x. split; [now left|]. exists 2%R. reflexivity. Qed.
(** "c" is retrieved by both runs (2 and 3), third in n_x and first in n_x2 *)
Example ex_C43_sum : exists y, comb_sum env_ex [n_x; n_x2] "f" = Ok y /\ score_of y "q1" "c" = Some 5%R.
Proof.
  destruct (C43_comb_sum env_ex env_ok_ex [n_x; n_x2] "f" n_fusable) as (y & Hy & _ & Hf). exists y. split; [exact Hy|].
  destruct Hf as (_ & _ & Hret & Hval & _). destruct (proj2 (Hret "q1" "c") n_candidate) as [s Hs]. rewrite Hs. apply Hval in Hs. subst s.
  f_equal. assert (Hg : scores_given [n_x; n_x2] "q1" "c" = [2%R; 3%R]) by reflexivity. rewrite Hg. cbn. lra.
Qed.
Example ex_C44_rrf : exists y, rrf env_ex [n_x; n_x2] 60 "f" = Ok y /\ score_of y "q1" "c" = Some (1 / 63 + 1 / 61)%R.
Proof.
  destruct (C44_rrf env_ex env_ok_ex [n_x; n_x2] 60%Z "f" n_fusable) as (y & Hy & _ & Hf); [lia|]. exists y. split; [exact Hy|].
  destruct Hf as (_ & _ & Hret & Hval & _). destruct (proj2 (Hret "q1" "c") n_candidate) as [s Hs]. rewrite Hs. apply Hval in Hs. subst s.
  f_equal. assert (Hg : ranks_given [n_x; n_x2] "q1" "c" = [3; 1]) by reflexivity. rewrite Hg. cbn. lra.
Qed.
Example ex_C45 : exists y, wsum env_ex [n_x; n_x2] [2%R; 1%R] "f" = Ok y /\ score_of y "q1" "c" = Some 7%R.
Proof.
  destruct (C45_wsum env_ex env_ok_ex [n_x; n_x2] [2%R; 1%R] "f" n_fusable) as (y & Hy & _ & Hf); [cbn; lia|]. exists y. split; [exact Hy|].
  destruct Hf as (_ & _ & Hret & Hval & _). destruct (proj2 (Hret "q1" "c") n_candidate) as [s Hs]. rewrite Hs. apply Hval in Hs. subst s.
  f_equal. assert (Hg : weighted_given [2%R; 1%R] [n_x; n_x2] "q1" "c" = [(2, 2); (1, 3)]%R) by reflexivity. rewrite Hg. cbn. lra.
Qed.
Example ex_C45_few : wsum env_ex [n_x; n_x2] [2%R] "f" = Err IndexError.
Proof. apply (C45_too_few_weights env_ex env_ok_ex _ _ _ "q1" "c" n_fusable n_candidate). cbn. lia. Qed.
(** candidates of q1: a, b, c, d; n_x gives c 4 - 2 = 2 points, n_x2 gives it 4 *)
Example ex_C46 : exists y, bordafuse env_ex [n_x; n_x2] "f" = Ok y /\ score_of y "q1" "c" = Some 6%R.
Proof.
  destruct (C46_bordafuse env_ex env_ok_ex [n_x; n_x2] "f" n_fusable n_order) as (y & Hy & _ & Hf & _). exists y. split; [exact Hy|].
  destruct Hf as (_ & _ & Hret & Hval & _). destruct (proj2 (Hret "q1" "c") n_candidate) as [s Hs]. rewrite Hs. apply Hval with (cs := ["a"; "b"; "c"; "d"]) in Hs.
  - subst s. f_equal. cbn. lra.
  - split; [repeat constructor; cbn; intuition discriminate|]. intros d. split.
    + intros Hd. assert (H : exists x s, In x [n_x; n_x2] /\ score_of x "q1" d = Some s).
      { cbn in Hd. destruct Hd as [<-|[<-|[<-|[<-|[]]]]].
        - exists n_x, 3%R. split; [now left|reflexivity].
        - exists n_x, 1%R. split; [now left|reflexivity].
        - exists n_x, 2%R. split; [now left|reflexivity].
        - exists n_x2, 1%R. split; [right; now left|reflexivity]. }
      destruct H as (x & v & Hx & Hv). exists x. split; auto. now exists v.
    + intros (x & Hx & Hr). rewrite retrieves_key in Hr. destruct Hx as [<-|[<-|[]]]; cbn in *; intuition.
Qed.
Example ex_C47 : exists y, condorcet env_ex ins_sort [n_x; n_x2] "f" = Ok y.
Proof.
  destruct (C47_condorcet env_ex ins_sort env_ok_ex ins_sort_ok [n_x; n_x2] "f" n_fusable n_short) as (y & Hy & _). eauto.
Qed.
Example ex_C47_transitive : transitive_among [n_x; n_x] "q1" (fun a b => ~ majority [n_x; n_x] "q1" b a).
Proof.
  intros a b c (x & Hx & Ha) (x' & Hx' & Hb) (x'' & Hx'' & Hc) H1 H2.
  assert (Hk : forall z d, In z [n_x; n_x] -> retrieves z "q1" d -> d = "a" \/ d = "b" \/ d = "c").
  { intros z d [<-|[<-|[]]] Hd; rewrite retrieves_key in Hd; cbn in Hd; intuition. }
  pose proof (Hk x a Hx Ha) as Ka. pose proof (Hk x' b Hx' Hb) as Kb. pose proof (Hk x'' c Hx'' Hc) as Kc.
  unfold majority, votes in *. clear - Ka Kb Kc H1 H2.
  destruct Ka as [->|[->| ->]], Kb as [->|[->| ->]], Kc as [->|[->| ->]]; cbn in *; lia.
Qed.
(** the results of the two calls for an irrelevant change of scores *)
Definition n_x' : Run NumR := @run_hist NumR env_ex Run_empty
  [@RAddScore NumR "q1" "a" 30%R; @RAddScore NumR "q1" "b" 10%R; @RAddScore NumR "q1" "c" 2%R; @RAddScore NumR "q2" "a" 0%R].
Example ex_C47_same : same_rankings [n_x; n_x2] [n_x'; n_x2].
Proof.
  constructor; [|constructor; [|constructor]]; split; try reflexivity; intros q.
  unfold results_of, of_query; cbn; destruct (String.eqb q "q1"); [reflexivity|]; destruct (String.eqb q "q2"); reflexivity.
Qed.
Example ex_C48 : Permutation [n_x; n_x2] [n_x2; n_x] /\ Permutation (combine [2%R; 1%R] [n_x; n_x2]) (combine [1%R; 2%R] [n_x2; n_x]).
Proof. split; apply perm_swap. Qed.
Definition n_x_up : Run NumR := @run_hist NumR env_ex Run_empty
  [@RAddScore NumR "q1" "a" 3%R; @RAddScore NumR "q1" "b" 1%R; @RAddScore NumR "q1" "c" 7%R; @RAddScore NumR "q2" "a" 5%R].
Example ex_C49 : raised "q1" "c" [n_x; n_x2] [n_x_up; n_x2].
Proof.
  constructor; [split|constructor; [split|constructor]].
  - intros q d Hne. unfold score_of, dget2. cbn. destruct (String.eqb_spec q "q1") as [->|]; [|reflexivity].
    cbn. destruct (String.eqb_spec d "a"); [reflexivity|]. destruct (String.eqb_spec d "b"); [reflexivity|].
    destruct (String.eqb_spec d "c") as [->|]; [|reflexivity]. now elim Hne.
  - cbn. lra.
  - reflexivity.
  - cbn. lra.
Qed.
Example ex_C42_fuse : exists y, @fuse NumR env_ex ins_sort [n_x; n_x2] (Some "min-max") "sum" [] = Ok y.
Proof.
  unfold fuse. cbn [length Nat.ltb Nat.leb assertr bindr].
  assert (Hs : @same_keys_check NumR [n_x; n_x2] = true) by reflexivity. rewrite Hs. cbn [assertr bindr].
  destruct (C38_min_max env_ex env_ok_ex n_x "min-max" n_x_run) as (y1 & Hy1 & _); [cbn; auto|].
  destruct (C38_min_max env_ex env_ok_ex n_x2 "min-max" n_x2_run) as (y2 & Hy2 & _); [cbn; auto|].
  assert (Hn : @normalize_runs NumR env_ex [n_x; n_x2] (Some "min-max") = Ok [y1; y2]).
  { unfold normalize_runs. cbn [String.eqb Ascii.eqb Bool.eqb map_m]. 
    first [rewrite Hy1, Hy2; reflexivity | cbn; rewrite Hy1, Hy2; reflexivity]. }
  rewrite Hn. cbn [bindr].
  assert (Hf : fusable [y1; y2]).
  { apply (norm_fusable env_ex env_ok_ex [n_x; n_x2] (Some "min-max") [y1; y2] n_fusable); auto. discriminate. }
  destruct (C43_comb_sum env_ex env_ok_ex [y1; y2] "comb_sum" Hf) as (y & Hy & _). exists y. exact Hy.
Qed.

(** what the theorems rest on: the axioms of the standard library's reals *)
Print Assumptions C43_comb_sum.
Print Assumptions C43_comb_max.
Print Assumptions C43_comb_max_sentinel.
Print Assumptions C43_comb_min.
Print Assumptions C43_comb_min_sentinel.
Print Assumptions C43_comb_med.
Print Assumptions C43_comb_anz.
Print Assumptions C43_comb_mnz.
Print Assumptions C43_comb_gmnz.
Print Assumptions C44_isr.
Print Assumptions C44_log_isr.
Print Assumptions C44_logn_isr.
Print Assumptions C44_logn_isr_rejects.
Print Assumptions C44_rrf.
Print Assumptions C44_rbc.
Print Assumptions C45_wsum.
Print Assumptions C45_wmnz.
Print Assumptions C45_mixed.
Print Assumptions C45_unit_weights.
Print Assumptions C46_bordafuse.
Print Assumptions C46_weighted_bordafuse.
Print Assumptions C47_condorcet.
Print Assumptions C47_weighted_condorcet.
Print Assumptions C42_fuse_union.
Print Assumptions C50_fuse_sorted.
Print Assumptions C51_few_runs.
Print Assumptions C51_different_queries.
Print Assumptions C51_unknown_norm.
Print Assumptions C51_unknown_method.
Print Assumptions C51_dispatch.
Print Assumptions C48_run_order.
Print Assumptions C48_weighted_run_order.
Print Assumptions C48_normalised_order.
Print Assumptions C49_monotone.
Print Assumptions C45_too_few_weights.
Print Assumptions C46_misaligned_refuted.
Print Assumptions C47_scores_irrelevant.
Print Assumptions C47_unanimity_refuted.
Print Assumptions C52_ranked_by_score.
Print Assumptions C52_sort_ranks_by_score.
Print Assumptions C52_add_score_rank.
Print Assumptions C52_unsorted_refuted.
