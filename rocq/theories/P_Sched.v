(** P_Sched.v: congruence lemmas for changing the schedule *)
From Verif Require Import Base Dict Num NumLaws Env M_Common M_Qrels M_Run M_Metrics M_Strings M_Text M_Evaluate M_Norm M_Fusion M_Train
  M_Optimize M_Compare M_Plot Spec_Sched Spec_DS P_Base P_Dict P_Common P_DS P_History P_Fusion3.
Open Scope string_scope.
Open Scope list_scope.
Open Scope nat_scope.

Notation "a ~~ b" := (same_outcome a b) (at level 70).
Lemma so_refl {A} (r : result A) : r ~~ r.
Proof. destruct r; cbn; auto. Qed.
Lemma so_bind {A B} (m m' : result A) (f f' : A -> result B) : m ~~ m' -> (forall a, f a ~~ f' a) -> bindr m f ~~ bindr m' f'.
Proof. destruct m, m'; cbn; intros H Hf; try tauto. subst. apply Hf. Qed.
Lemma so_foldr {A S} (f f' : S -> A -> result S) l : (forall s a, f s a ~~ f' s a) -> forall s, foldr_m f l s ~~ foldr_m f' l s.
Proof. intros Hf. induction l as [|a l IH]; intros s; cbn; [reflexivity|]. apply so_bind; auto. Qed.
Lemma so_map_m {A B} (f f' : A -> result B) l : (forall a, f a ~~ f' a) -> map_m f l ~~ map_m f' l.
Proof.
  intros Hf. induction l as [|a l IH]; cbn; [reflexivity|]. apply so_bind; auto. intros b. apply so_bind; auto. intros; reflexivity.
Qed.
Lemma so_prange {A} o o' n (init : A) f f' : Permutation o (seq 0 n) -> Permutation o' (seq 0 n) -> (forall i, f i ~~ f' i) ->
  prange_r o n init f ~~ prange_r o' n init f'.
Proof.
  intros Ho Ho' Hf.
  destruct (prange_r o n init f) as [l|e] eqn:H1, (prange_r o' n init f') as [l'|e'] eqn:H2; cbn; auto.
  - apply (prange_r_inv o n init f l Ho) in H1 as (g & Hg & ->). apply (prange_r_inv o' n init f' l' Ho') in H2 as (g' & Hg' & ->).
    apply map_ext_in. intros i Hi. apply in_seq in Hi. specialize (Hf i). rewrite Hg, Hg' in Hf by lia. exact Hf.
  - apply (prange_r_inv o n init f l Ho) in H1 as (g & Hg & ->).
    rewrite (prange_r_ok o' n init f' g Ho') in H2; [discriminate|]. intros i Hi. specialize (Hf i). rewrite Hg in Hf by lia.
    destruct (f' i); cbn in Hf; [now subst|destruct Hf].
  - apply (prange_r_inv o' n init f' l' Ho') in H2 as (g & Hg & ->).
    rewrite (prange_r_ok o n init f g Ho) in H1; [discriminate|]. intros i Hi. specialize (Hf i). rewrite Hg in Hf by lia.
    destruct (f i); cbn in Hf; [now subst|destruct Hf].
Qed.
(** functions that also return the objects as they are left *)
Definition so2 {S A} (a b : S * result A) : Prop := fst a = fst b /\ snd a ~~ snd b.
Lemma so2_refl {S A} (a : S * result A) : so2 a a.
Proof. split; [reflexivity|apply so_refl]. Qed.

Section P.
Context {N : Num} (E : env N) (s1 s2 : schedule) (V1 : possible s1) (V2 : possible s2).
Notation E1 := (threads_run E s1).
Notation E2 := (threads_run E s2).

Lemma so_parallel {A} tag (init : A) qs rs f f' : (forall q r, f q r ~~ f' q r) ->
  parallel E1 tag init qs rs f ~~ parallel E2 tag init qs rs f'.
Proof.
  intros Hf. unfold parallel. apply so_prange; [apply V1|apply V2|]. intros i. apply so_bind; [apply so_refl|]. intros q.
  apply so_bind; [apply so_refl|]. intros r. apply Hf.
Qed.
Lemma so_with_k {A} k (f f' : nat -> result A) : (forall k, f k ~~ f' k) -> with_k k f ~~ with_k k f'.
Proof. intros H. unfold with_k. apply so_bind; [apply so_refl|]. intros _. apply H. Qed.
Lemma so_lift4 f tag qs rs k l : lift4 E1 f tag qs rs k l ~~ lift4 E2 f tag qs rs k l.
Proof. unfold lift4. apply so_with_k. intros k'. apply so_parallel. intros; apply so_refl. Qed.
Lemma so_hit_lists qs rs k l : get_hit_lists E1 qs rs k l ~~ get_hit_lists E2 qs rs k l.
Proof. unfold get_hit_lists. apply so_with_k. intros k'. apply so_parallel. intros; apply so_refl. Qed.

(** a metric chosen by its name *)
Definition so_fun (f f' : list rows -> list rows -> karg -> Z -> result (list F)) : Prop := forall q r k l, f q r k l ~~ f' q r k l.
Lemma so_metric name : match metric_switch E1 name, metric_switch E2 name with
                       | Ok f, Ok f' => so_fun f f' | Err _, Err _ => True | _, _ => False end.
Proof.
  unfold metric_switch. repeat (match goal with |- context [String.eqb name ?s] => destruct (String.eqb name s) end);
    cbv iota; try exact I; intros q r [k|p] l; cbn [int_k float_k]; try apply so_refl; try apply so_lift4;
    unfold r_precision, bpref, rank_biased_precision; try apply so_parallel; intros; try apply so_refl.
Qed.
Lemma so_compute tq tr ms : compute_scores E1 tq tr ms ~~ compute_scores E2 tq tr ms.
Proof.
  unfold compute_scores. apply so_foldr. intros st m. apply so_bind; [apply so_refl|]. intros [[nm k] lvl].
  pose proof (so_metric nm) as H. destruct (metric_switch E1 nm), (metric_switch E2 nm); cbn [bindr]; try exact I; try destruct H.
  apply so_bind; [apply H|]. intros s. apply so_refl.
Qed.
Lemma sort_slots o (l : list (@rows N)) (g : rows -> rows) : Permutation o (seq 0 (length l)) ->
  fold_left (fun acc i => match nth_error acc i with Some r => set_nth acc i (g r) | None => acc end) o l = map g l.
Proof.
  intros Hp. assert (Hn : NoDup o) by (eapply Permutation_NoDup; [apply Permutation_sym, Hp|apply seq_NoDup]).
  assert (Hlen : forall o (acc : list (@rows N)), length (fold_left (fun acc i => match nth_error acc i with Some r => set_nth acc i (g r) | None => acc end) o acc) = length acc).
  { clear. induction o as [|i o IH]; intros acc; cbn [fold_left]; [reflexivity|]. rewrite IH. destruct (nth_error acc i); [apply set_nth_length|reflexivity]. }
  assert (G : forall o acc j, NoDup o -> nth_error (fold_left (fun acc i => match nth_error acc i with Some r => set_nth acc i (g r) | None => acc end) o acc) j
     = if in_dec Nat.eq_dec j o then option_map g (nth_error acc j) else nth_error acc j).
  { clear. induction o as [|i o IH]; intros acc j Hn; cbn [fold_left]; [destruct (in_dec Nat.eq_dec j []) as [[]|]; reflexivity|].
    inversion Hn; subst. rewrite IH by assumption.
    assert (Hs : nth_error (match nth_error acc i with Some r => set_nth acc i (g r) | None => acc end) j
        = if Nat.eq_dec i j then option_map g (nth_error acc j) else nth_error acc j).
    { destruct (Nat.eq_dec i j) as [->|Hne].
      - destruct (nth_error acc j) as [r|] eqn:Hr; cbn; [|exact Hr]. apply nth_error_set_nth_eq. apply nth_error_Some. congruence.
      - destruct (nth_error acc i) as [r|]; [|reflexivity]. apply nth_error_set_nth_neq. congruence. }
    rewrite Hs. destruct (in_dec Nat.eq_dec j (i :: o)) as [Hi|Hi], (in_dec Nat.eq_dec j o) as [Hj|Hj], (Nat.eq_dec i j) as [He|He]; cbn in Hi; subst; try tauto. }
  apply nth_error_ext. intros j. rewrite (G o l j Hn), nth_error_map.
  destruct (in_dec Nat.eq_dec j o) as [Hi|Hi]; [reflexivity|].
  assert (Hge : length l <= j).
  { destruct (le_lt_dec (length l) j) as [|Hlt]; auto. exfalso. apply Hi, (Permutation_in _ (Permutation_sym Hp)), in_seq. lia. }
  rewrite (proj2 (nth_error_None l j)) by exact Hge. reflexivity.
Qed.
Lemma dict_list x : python_dict_to_typed_list E1 x = python_dict_to_typed_list E2 x.
Proof.
  unfold python_dict_to_typed_list. destruct (_ || _); [reflexivity|]. cbv zeta. f_equal.
  rewrite !sort_slots by (first [apply V1|apply V2]). reflexivity.
Qed.
Lemma convert_qrels_eq q : convert_qrels E1 q = convert_qrels E2 q.
Proof. destruct q; cbn [convert_qrels]; try reflexivity; now rewrite dict_list. Qed.
Lemma convert_run_eq r : convert_run E1 r = convert_run E2 r.
Proof. destruct r; cbn [convert_run]; try reflexivity; now rewrite dict_list. Qed.
Definition so_eval (a b : @eval_out N) : Prop := ev_q a = ev_q b /\ ev_r a = ev_r b /\ ev_res a ~~ ev_res b.
Lemma so_evaluate q r ms mean std save mk : so_eval (evaluate E1 q r ms mean std save mk) (evaluate E2 q r ms mean std save mk).
Proof.
  unfold evaluate. cbv zeta.
  change (if mk then match q with QObj x => match r with RObj y => RObj (Run_make_comparable E1 y x) | _ => r end | _ => r end else r)
    with (if mk then match q with QObj x => match r with RObj y => RObj (Run_make_comparable E2 y x) | _ => r end | _ => r end else r).
  destruct (check_keys q _) as [[]|e]; [|repeat split; cbn; auto].
  rewrite convert_qrels_eq. destruct (convert_qrels E2 q) as [q' [tq|e]]; [|repeat split; cbn; auto].
  rewrite convert_run_eq. match goal with |- context [convert_run E2 ?z] => destruct (convert_run E2 z) as [r' [tr|e]] end; [|repeat split; cbn; auto].
  pose proof (so_compute tq tr ms) as H.
  destruct (compute_scores E1 tq tr ms) as [[m d]|e], (compute_scores E2 tq tr ms) as [[m' d']|e']; cbn in H; try (destruct H; fail); [|repeat split; cbn; auto].
  injection H as <- <-. repeat split. apply so_refl.
Qed.

(** normalisation and fusion *)
Lemma so_per_query tag f f' m : (forall i r, f i r ~~ f' i r) -> per_query E1 tag f m ~~ per_query E2 tag f' m.
Proof.
  intros Hf. unfold per_query. apply so_bind; [|intros; apply so_refl]. apply so_prange; [apply V1|apply V2|]. intros i.
  apply so_bind; [apply so_refl|]. intros q. apply so_bind; [apply so_refl|]. intros r. apply Hf.
Qed.
Lemma so_norm1 tag f (x : Run N) (k : dict (dict F) -> Run N) :
  (do m <- per_query E1 tag f (r_map x); Ok (k m)) ~~ (do m <- per_query E2 tag f (r_map x); Ok (k m)).
Proof. apply so_bind; [|intros; reflexivity]. apply so_per_query. intros; apply so_refl. Qed.
Lemma so_normalize x n : normalize E1 x n ~~ normalize E2 x n.
Proof.
  unfold normalize, norm_switch. repeat (match goal with |- context [if ?b then _ else _] => match b with context [n] => destruct b end end);
    cbn [bindr]; try exact I; unfold max_norm, sum_norm, zmuv_norm, rank_norm, min_max_norm; apply so_norm1.
Qed.
Lemma so_borda xs : borda_norm E1 xs ~~ borda_norm E2 xs.
Proof.
  unfold borda_norm. apply so_bind; [apply so_refl|]. intros c. apply so_map_m. intros x. apply so_norm1.
Qed.
Lemma so_normalize_runs xs n : normalize_runs E1 xs n ~~ normalize_runs E2 xs n.
Proof.
  unfold normalize_runs. destruct n as [n|]; [|reflexivity]. destruct (String.eqb n "borda"); [apply so_borda|].
  apply so_map_m. intros x. apply so_normalize.
Qed.
Lemma so_comb tag f name ms : comb E1 tag f name ms ~~ comb E2 tag f name ms.
Proof.
  unfold comb, comb_parallel. apply so_bind; [|intros; apply so_refl]. destruct ms as [|m0 ms]; [exact I|].
  apply so_bind; [|intros; apply so_refl]. apply so_prange; [apply V1|apply V2|]. intros i. apply so_refl.
Qed.
Lemma so_rescore tag f xs : rescore E1 tag f xs ~~ rescore E2 tag f xs.
Proof. unfold rescore. apply so_map_m. intros x. apply so_per_query. intros; apply so_refl. Qed.
Lemma so_rescore_with {P} tag (f : P -> dict F -> result (dict F)) ps xs : rescore_with E1 tag f ps xs ~~ rescore_with E2 tag f ps xs.
Proof.
  unfold rescore_with. apply so_map_m. intros ix. apply so_bind; [apply so_refl|]. intros p. apply so_per_query. intros; apply so_refl.
Qed.
Lemma so_borda_scores xs : borda_scores E1 xs ~~ borda_scores E2 xs.
Proof.
  unfold borda_scores. apply so_bind; [apply so_refl|]. intros c. apply so_map_m. intros x. apply so_per_query. intros; apply so_refl.
Qed.
Ltac fus := intros; first [apply so_refl|apply so_comb|apply so_rescore|apply so_rescore_with|apply so_borda_scores|(apply so_bind; [fus|fus])].
Context (pysort : (nat -> nat -> bool) -> list nat -> list nat).
Lemma so_switch method : match fusion_switch E1 pysort method, fusion_switch E2 pysort method with
                         | Ok f, Ok f' => forall xs ps, f xs ps ~~ f' xs ps | Err _, Err _ => True | _, _ => False end.
Proof.
  unfold fusion_switch. repeat (match goal with |- context [String.eqb method ?s] => destruct (String.eqb method s) end);
    cbv iota; try exact I; intros xs ps; unfold simple, with_arg, slide_call;
    unfold bayesfuse, bordafuse, comb_anz, comb_gmnz, comb_max, comb_med, comb_min, comb_mnz, comb_sum, isr, log_isr, logn_isr, mapfuse, mixed, posfuse,
      probfuse, rbc, rrf, segfuse, slidefuse, weighted_bordafuse, wmnz, wsum; fus.
Qed.
Lemma so_fuse xs norm method ps : fuse E1 pysort xs norm method ps ~~ fuse E2 pysort xs norm method ps.
Proof.
  unfold fuse. apply so_bind; [apply so_refl|]. intros _. apply so_bind; [apply so_refl|]. intros _. apply so_bind; [apply so_normalize_runs|]. intros ys.
  pose proof (so_switch method) as H. destruct (fusion_switch E1 pysort method), (fusion_switch E2 pysort method); cbn [bindr]; try (destruct H; fail); [apply H|exact I].
Qed.

(** training *)
Lemma so_train_each {A} (f f' : Qrels -> Run N -> Qrels * Run N * result A) : (forall y x, so2 (f y x) (f' y x)) ->
  forall xs y, so2 (train_each f y xs) (train_each f' y xs).
Proof.
  intros Hf. induction xs as [|x xs IH]; intros y; cbn [train_each]; [apply so2_refl|].
  destruct (Hf y x) as [H1 H2]. destruct (f y x) as [[y1 x1] r1], (f' y x) as [[y2 x2] r2]. cbn in H1, H2. injection H1 as <- <-.
  destruct r1 as [a|e], r2 as [a'|e']; cbn in H2; try (destruct H2; fail); [|split; [reflexivity|exact I]]. subst a'.
  destruct (IH y1) as [H3 H4]. destruct (train_each f y1 xs) as [[y3 xs3] r3], (train_each f' y1 xs) as [[y4 xs4] r4]. cbn in H3, H4. injection H3 as <- <-.
  destruct r3, r4; cbn in H4; try (destruct H4; fail); split; cbn; auto. now subst.
Qed.
Lemma so_train_hits y x : so2 (train_hits E1 y x) (train_hits E2 y x).
Proof. unfold train_hits. split; [reflexivity|]. cbn [snd]. apply so_hit_lists. Qed.
Lemma so_slide_train y xs : so2 (slidefuse_train E1 y xs) (slidefuse_train E2 y xs).
Proof.
  unfold slidefuse_train. apply so_train_each. intros y0 x. unfold estimate_probs, train_hits. split; [reflexivity|]. cbn [snd].
  apply so_bind; [apply so_hit_lists|]. intros; apply so_refl.
Qed.
Lemma so_bayes_train y xs : so2 (bayesfuse_train E1 y xs) (bayesfuse_train E2 y xs).
Proof.
  unfold bayesfuse_train. apply so_train_each. intros y' x. unfold train_hits. split; [reflexivity|]. cbn [snd].
  apply so_bind; [apply so_hit_lists|]. intros; apply so_refl.
Qed.
Lemma so_all_hits y xs : so2 (all_hits E1 y xs) (all_hits E2 y xs).
Proof. unfold all_hits. apply so_train_each. intros y' x. split; [reflexivity|]. cbn [snd]. apply so_hit_lists. Qed.
Lemma so_prob_train y xs n : so2 (probfuse_train E1 y xs n) (probfuse_train E2 y xs n).
Proof.
  unfold probfuse_train. destruct (so_all_hits y xs) as [H1 H2].
  destruct (all_hits E1 y xs) as [[y1 x1] r1], (all_hits E2 y xs) as [[y2 x2] r2]. cbn in H1, H2. injection H1 as <- <-.
  split; [reflexivity|]. cbn [snd]. apply so_bind; [exact H2|]. intros l. destruct (n <? 0)%Z; [exact I|].
  apply so_prange; [apply V1|apply V2|]. intros; apply so_refl.
Qed.
Lemma so_seg_train y xs : so2 (segfuse_train E1 y xs) (segfuse_train E2 y xs).
Proof.
  unfold segfuse_train. destruct (so_all_hits y xs) as [H1 H2].
  destruct (all_hits E1 y xs) as [[y1 x1] r1], (all_hits E2 y xs) as [[y2 x2] r2]. cbn in H1, H2. injection H1 as <- <-.
  split; [reflexivity|]. cbn [snd]. apply so_bind; [exact H2|]. intros; apply so_refl.
Qed.
Lemma so_map_train y xs : so2 (mapfuse_train E1 y xs) (mapfuse_train E2 y xs).
Proof.
  unfold mapfuse_train. apply so_train_each. intros y' x. cbv zeta. destruct (so_evaluate (QObj y') (RObj x) ["map"] true false true false) as (H1 & H2 & H3).
  rewrite H1, H2. split; [reflexivity|]. cbn [snd]. apply so_bind; [exact H3|]. intros; apply so_refl.
Qed.

(** optimisation *)
Context (sh : shower N).
Lemma so_trial_eval y z m : so2 (trial_eval E1 y z m) (trial_eval E2 y z m).
Proof.
  unfold trial_eval. cbv zeta. destruct (so_evaluate (QObj y) (RObj z) [m] true false false false) as (H1 & H2 & H3). rewrite H1.
  split; [reflexivity|]. cbn [snd]. apply so_bind; [exact H3|]. intros; apply so_refl.
Qed.
Lemma so_search {S T B} (f f' : S -> T -> S * result (B * F)) show : (forall s t, so2 (f s t) (f' s t)) ->
  forall ts s bs b rep, so2 (search_loop f show s ts bs b rep) (search_loop f' show s ts bs b rep).
Proof.
  intros Hf. induction ts as [|t ts IH]; intros s bs b rep; cbn [search_loop]; [apply so2_refl|].
  destruct (Hf s t) as [H1 H2]. destruct (f s t) as [s' r], (f' s t) as [s'' r']. cbn in H1, H2. subst s''.
  destruct r as [[c v]|e], r' as [[c' v']|e']; cbn in H2; try (destruct H2; fail); [|split; [reflexivity|exact I]]. injection H2 as <- <-.
  cbv zeta. destruct (fleb bs v); apply IH.
Qed.
Lemma so_plain {T} (fu fu' : list (Run N) -> T -> result (Run N)) metric : (forall xs t, fu xs t ~~ fu' xs t) ->
  forall s t, so2 (plain_trial E1 fu metric s t) (plain_trial E2 fu' metric s t).
Proof.
  intros Hf s t. unfold plain_trial. specialize (Hf (snd s) t). destruct (fu (snd s) t) as [z|e], (fu' (snd s) t) as [z'|e']; cbn in Hf; try (destruct Hf; fail).
  - subst z'. destruct (so_trial_eval (fst s) z metric) as [H1 H2]. destruct (trial_eval E1 (fst s) z metric) as [y1 c1], (trial_eval E2 (fst s) z metric) as [y2 c2].
    cbn in H1, H2. subst y2. split; [reflexivity|]. cbn [snd]. apply so_bind; [exact H2|]. intros; apply so_refl.
  - split; [reflexivity|exact I].
Qed.
Lemma so_prob_trial metric s n : so2 (prob_trial E1 metric s n) (prob_trial E2 metric s n).
Proof.
  unfold prob_trial. destruct (so_prob_train (fst s) (snd s) n) as [H1 H2].
  destruct (probfuse_train E1 (fst s) (snd s) n) as [[y1 x1] r1], (probfuse_train E2 (fst s) (snd s) n) as [[y2 x2] r2]. cbn in H1, H2. injection H1 as <- <-.
  destruct r1 as [p|e], r2 as [p'|e']; cbn in H2; try (destruct H2; fail); [|split; [reflexivity|exact I]]. subst p'.
  assert (Hp : probfuse E1 x1 p "probfuse" ~~ probfuse E2 x1 p "probfuse") by (unfold probfuse; fus).
  destruct (probfuse E1 x1 p "probfuse") as [z|e], (probfuse E2 x1 p "probfuse") as [z'|e']; cbn in Hp; try (destruct Hp; fail); [|split; [reflexivity|exact I]]. subst z'.
  destruct (so_trial_eval y1 z metric) as [H1 H3]. destruct (trial_eval E1 y1 z metric) as [y3 c1], (trial_eval E2 y1 z metric) as [y4 c2].
  cbn in H1, H3. subst y4. split; [reflexivity|]. cbn [snd]. apply so_bind; [exact H3|]. intros; apply so_refl.
Qed.
Lemma so_finish {B} name (inj : B -> @pval N) r r' : so2 r r' -> so2 (finish name inj r) (finish name inj r').
Proof.
  intros [H1 H2]. unfold finish. rewrite H1. split; [reflexivity|]. cbn [snd]. apply so_bind; [exact H2|]. intros; apply so_refl.
Qed.
Lemma so_opt_float fu fu' name lo hi y xs metric kws : (forall xs t, fu xs t ~~ fu' xs t) ->
  so2 (opt_float E1 sh fu name lo hi y xs metric kws) (opt_float E2 sh fu' name lo hi y xs metric kws).
Proof.
  intros Hf. unfold opt_float. match goal with |- context [match ?g with Ok _ => _ | Err _ => _ end] => destruct g end; [|apply so2_refl].
  apply so_finish. unfold grid_search. apply so_search. now apply so_plain.
Qed.
Lemma so_opt_weights fu fu' y xs metric kws : (forall xs t, fu xs t ~~ fu' xs t) ->
  so2 (optimize_weights E1 sh fu y xs metric kws) (optimize_weights E2 sh fu' y xs metric kws).
Proof.
  intros Hf. unfold optimize_weights. match goal with |- context [match ?g with Ok _ => _ | Err _ => _ end] => destruct g end; [|apply so2_refl].
  apply so_finish. unfold grid_search. apply so_search. now apply so_plain.
Qed.
Lemma so_train_only {P} (t t' : Qrels -> list (Run N) -> Qrels * list (Run N) * result P) name inj y xs kws :
  (forall y xs, so2 (t y xs) (t' y xs)) -> so2 (train_only t name inj y xs kws) (train_only t' name inj y xs kws).
Proof.
  intros Ht. unfold train_only. destruct (only [] kws); [|apply so2_refl]. destruct (Ht y xs) as [H1 H2].
  destruct (t y xs) as [[y1 x1] r1], (t' y xs) as [[y2 x2] r2]. cbn in H1, H2. injection H1 as <- <-. split; [reflexivity|]. cbn [snd].
  apply so_bind; [exact H2|]. intros; apply so_refl.
Qed.
Lemma so_opt_switch method : match optimization_switch E1 pysort sh method, optimization_switch E2 pysort sh method with
                             | Ok f, Ok f' => forall y xs m kws, so2 (f y xs m kws) (f' y xs m kws) | Err _, Err _ => True | _, _ => False end.
Proof.
  unfold optimization_switch. repeat (match goal with |- context [String.eqb method ?s] => destruct (String.eqb method s) end);
    cbv iota; try exact I; intros y xs m kws;
    unfold optimize_logn_isr, optimize_comb_gmnz, optimize_rbc, optimize_mixed, optimize_weighted_bordafuse, optimize_weighted_condorcet, optimize_wmnz, optimize_wsum;
    first [apply so_opt_float|apply so_opt_weights|apply so_train_only|idtac];
    first [exact so_bayes_train|exact so_map_train|exact so_slide_train|exact so_seg_train|idtac];
    try (intros; unfold comb_gmnz, logn_isr, rbc, mixed, weighted_bordafuse, wmnz, wsum; fus).
  - unfold optimize_probfuse. match goal with |- context [match ?g with Ok _ => _ | Err _ => _ end] => destruct g end; [|apply so2_refl].
    apply so_finish. unfold grid_search. apply so_search. apply so_prob_trial.
  - unfold optimize_rrf. match goal with |- context [match ?g with Ok _ => _ | Err _ => _ end] => destruct g end; [|apply so2_refl].
    apply so_finish. unfold grid_search. apply so_search. apply so_plain. intros; unfold rrf; fus.
  - unfold optimize_slidefuse. match goal with |- context [match ?g with Ok _ => _ | Err _ => _ end] => destruct g end; [|apply so2_refl].
    destruct (so_slide_train y xs) as [H1 H2].
    destruct (slidefuse_train E1 y xs) as [[y1 x1] r1], (slidefuse_train E2 y xs) as [[y2 x2] r2]. cbn in H1, H2. injection H1 as <- <-.
    destruct r1 as [p|e], r2 as [p'|e']; cbn in H2; try (destruct H2; fail); [|split; [reflexivity|exact I]]. subst p'.
    match goal with |- context [finish ?n ?i (grid_search (plain_trial E1 ?f ?m) ?h ?s ?ts)] => 
      assert (Hg : so2 (finish n i (grid_search (plain_trial E1 f m) h s ts)) (finish n i (grid_search (plain_trial E2 (fun xs w => slidefuse E2 xs p w "slidefuse") m) h s ts))) end.
    { apply so_finish. unfold grid_search. apply so_search. apply so_plain. intros; unfold slidefuse; fus. }
    revert Hg. match goal with |- so2 ?a ?b -> _ => destruct a as [[y3 x3] r3], b as [[y4 x4] r4] end. intros [H1 H3].
    cbn in H1, H3. injection H1 as <- <-. split; [reflexivity|]. cbn [snd]. apply so_bind; [exact H3|]. intros; apply so_refl.
Qed.
Lemma so_optimize y xs norm method metric rep kws :
  so2 (optimize_fusion E1 pysort sh y xs norm method metric rep kws) (optimize_fusion E2 pysort sh y xs norm method metric rep kws).
Proof.
  unfold optimize_fusion.
  destruct (assertr (1 <? length xs)); cbn [bindr]; [|apply so2_refl]. destruct (assertr (same_keys_check xs)); cbn [bindr]; [|apply so2_refl].
  destruct (assertr (forallb _ xs)); cbn [bindr]; [|apply so2_refl].
  pose proof (so_normalize_runs xs norm) as Hn.
  destruct (normalize_runs E1 xs norm) as [zs|e], (normalize_runs E2 xs norm) as [zs'|e']; cbn in Hn; try (destruct Hn; fail); cbn [bindr]; [subst zs'|split; [reflexivity|exact I]].
  destruct (if rep then has_hyperparams method else Ok tt); cbn [bindr]; [|apply so2_refl].
  pose proof (so_opt_switch method) as H. destruct (optimization_switch E1 pysort sh method) as [f|e], (optimization_switch E2 pysort sh method) as [f'|e'];
    try (destruct H; fail); cbn [bindr]; [|split; [reflexivity|exact I]].
  destruct (H y zs metric kws) as [H1 H2]. destruct (f y zs metric kws) as [[y1 x1] r1], (f' y zs metric kws) as [[y2 x2] r2]. cbn in H1, H2. injection H1 as <- <-.
  split; [reflexivity|]. cbn [snd]. apply so_bind; [exact H2|]. intros; apply so_refl.
Qed.

(** compare *)
Context (T : tests N).
Lemma fisher_eq rand c t n p : fisher_randomization_test E1 rand c t n p = fisher_randomization_test E2 rand c t n p.
Proof. unfold fisher_randomization_test. destruct (_ =? _); [|reflexivity]. rewrite !prange_spec by (first [apply V1|apply V2]). reflexivity. Qed.
Lemma so_compare_pair i j c t st n p : compare_pair E1 T i j c t st n p ~~ compare_pair E2 T i j c t st n p.
Proof.
  unfold compare_pair. apply so_foldr. intros acc m. apply so_bind; [apply so_refl|]. intros a. apply so_bind; [apply so_refl|]. intros b.
  rewrite fisher_eq. apply so_refl.
Qed.
Lemma so_significance names scores st n p :
  compute_statistical_significance E1 T names scores st n p ~~ compute_statistical_significance E2 T names scores st n p.
Proof.
  unfold compute_statistical_significance. destruct (existsb _ _).
  - apply so_foldr. intros acc ic. apply so_bind; [apply so_refl|]. intros control. apply so_foldr. intros acc' jt.
    destruct (String.eqb _ _); [reflexivity|]. apply so_bind; [apply so_refl|]. intros t. apply so_bind; [apply so_compare_pair|]. intros; reflexivity.
  - apply so_refl.
Qed.
Lemma so_score_runs ms mk : forall xs i y names results scores,
  so2 (score_runs E1 i y xs ms mk names results scores) (score_runs E2 i y xs ms mk names results scores).
Proof.
  induction xs as [|x xs IH]; intros i y names results scores; cbn [score_runs]; [apply so2_refl|]. cbv zeta.
  destruct (so_evaluate (QObj y) (RObj x) ms false false true mk) as (H1 & H2 & H3). rewrite H1, H2.
  set (y1 := match ev_q (evaluate E2 _ _ _ _ _ _ _) with QObj y1 => y1 | _ => y end).
  set (x1 := match ev_r (evaluate E2 _ _ _ _ _ _ _) with RObj x1 => x1 | _ => x end).
  match goal with |- so2 (match ?a with Ok _ => _ | Err _ => _ end) (match ?b with Ok _ => _ | Err _ => _ end) => assert (Hab : a ~~ b) end.
  { apply so_bind; [exact H3|]. intros; apply so_refl. }
  match goal with |- so2 (match ?a with Ok _ => _ | Err _ => _ end) (match ?b with Ok _ => _ | Err _ => _ end) => destruct a as [[a1 rs1]|e1], b as [[a2 rs2]|e2] end;
    cbn in Hab; try (destruct Hab; fail); [|split; [reflexivity|exact I]]. injection Hab as <- <-.
  match goal with |- context [score_runs E1 ?i ?y ?xs ?ms ?mk ?n ?r ?s] => generalize (IH i y n r s) end.
  match goal with |- so2 ?a ?b -> _ => destruct a as [[y3 x3] r3], b as [[y4 x4] r4] end. intros [G1 G2].
  cbn in G1, G2. injection G1 as <- <-. split; [reflexivity|exact G2].
Qed.
Lemma so_compare y xs ms st n p dg pc mk : so2 (compare E1 T y xs ms st n p dg pc mk) (compare E2 T y xs ms st n p dg pc mk).
Proof.
  unfold compare. generalize (so_score_runs ms mk xs 0 y [] [] []).
  match goal with |- so2 ?a ?b -> _ => destruct a as [[y3 x3] r3], b as [[y4 x4] r4] end. intros [H1 H2].
  cbn in H1, H2. injection H1 as <- <-. split; [reflexivity|]. cbn [snd]. apply so_bind; [exact H2|]. intros [[nm rs] sc].
  apply so_bind; [apply so_significance|]. intros; apply so_refl.
Qed.

(** plot and set_relevance_level *)
Lemma so_plot y a : so2 (plot E1 y a) (plot E2 y a).
Proof.
  unfold plot. split; [reflexivity|]. cbn [snd]. apply so_bind; [|intros; apply so_refl]. apply so_map_m. intros r.
  apply so_bind; [|intros; reflexivity]. unfold interpolated_precision_at_recall. apply so_parallel. intros; apply so_refl.
Qed.
End P.
