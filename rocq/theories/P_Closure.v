(** P_Closure.v: every public function keeps the invariant of Run and Qrels objects. *)
From Coq Require Import Reals.
From Verif Require Import Base Dict Num NumLaws Env M_Common M_Qrels M_Run M_History M_Metrics M_Strings M_Evaluate M_Norm M_Fusion
  M_Text M_Train M_Optimize M_Compare M_IO M_Report M_Hub Spec_DS Spec_Hist Spec_Closure
  P_Base P_Dict P_Common P_History P_DS P_Eval P_Fusion3 P_Train T_IO4.
Open Scope string_scope.
Open Scope list_scope.
Open Scope nat_scope.

Lemma fold_inv {A S} (P : S -> Prop) (f : S -> A -> result S) l : (forall s a s', P s -> f s a = Ok s' -> P s') ->
  forall s s', P s -> foldr_m f l s = Ok s' -> P s'.
Proof.
  intros Hf. induction l as [|a l IH]; cbn [foldr_m]; intros s s' Hs H; [now injection H as <-|].
  apply bindr_ok in H as (s1 & H1 & H2). eauto.
Qed.
Lemma set_nth_Forall {A} (P : A -> Prop) (l : list A) : forall i v, Forall P l -> P v -> Forall P (set_nth l i v).
Proof. induction l as [|a l IH]; intros [|i] v Hl Hv; cbn; auto; inversion Hl; subst; constructor; auto. Qed.
Lemma prange_r_Forall {A} (P : A -> Prop) order n (init : A) f out : P init -> (forall i v, f i = Ok v -> P v) ->
  prange_r order n init f = Ok out -> Forall P out.
Proof.
  intros Hi Hf H. unfold prange_r in H. revert H. apply fold_inv.
  - intros s i s' Hs H. apply bindr_ok in H as (v & Hv & Hs'). injection Hs' as <-. apply set_nth_Forall; eauto.
  - apply Forall_forall. intros x Hx. apply repeat_spec in Hx. now subst.
Qed.
Lemma dict2_ok_dset {V} (d : dict (dict V)) q r : dict2_ok d -> dict_ok r -> dict2_ok (dset d q r).
Proof.
  intros [H1 H2] Hr. split; [now apply dict_ok_dset|]. intros q' r' H. rewrite dget_dset in H.
  destruct (String.eqb q' q); [now injection H as <-|eauto].
Qed.
Lemma dict2_ok_nil {V} : dict2_ok ([] : dict (dict V)).
Proof. split; [constructor|discriminate]. Qed.
Lemma dict_ok_nil {V} : dict_ok ([] : dict V).
Proof. constructor. Qed.
Lemma fold_dset_ok {A V} (f : A -> string * V) l : forall d, dict_ok d -> dict_ok (fold_left (fun acc a => dset acc (fst (f a)) (snd (f a))) l d).
Proof. induction l as [|a l IH]; intros d Hd; cbn; [exact Hd|]. apply IH. now apply dict_ok_dset. Qed.

(** a loop that only stores values *)
Lemma stores_ok {A V} (f : dict V -> A -> result (dict V)) l : (forall s a s', f s a = Ok s' -> exists k v, s' = dset s k v) ->
  forall s s', dict_ok s -> foldr_m f l s = Ok s' -> dict_ok s'.
Proof. intros Hf s s' Hs. apply fold_inv; [|exact Hs]. intros s1 a s2 H1 H2. destruct (Hf _ _ _ H2) as (k & v & ->). now apply dict_ok_dset. Qed.

Section P.
Context {N : Num} (E : env N).

Lemma convert_ok q_ids l m : Forall dict_ok l -> convert_results q_ids l = Ok m -> dict2_ok m.
Proof.
  intros Hl. unfold convert_results. apply fold_inv; [|apply dict2_ok_nil].
  intros s [i q] s' Hs H. apply bindr_ok in H as (r & Hr & H). injection H as <-. apply dict2_ok_dset; [exact Hs|].
  unfold nth_r in Hr. destruct (nth_error l _) as [r'|] eqn:Hn; [|discriminate]. injection Hr as <-. apply nth_error_In in Hn.
  rewrite Forall_forall in Hl. now apply Hl.
Qed.
Lemma per_query_dict tag f m m' : (forall i r r', f i r = Ok r' -> dict_ok r') -> per_query E tag f m = Ok m' -> dict2_ok m'.
Proof.
  intros Hf H. unfold per_query in H. apply bindr_ok in H as (out & Ho & H). revert H. apply convert_ok.
  apply (prange_r_Forall dict_ok) in Ho; [exact Ho|apply dict_ok_nil|]. intros i v Hv. apply bindr_ok in Hv as (q & _ & Hv).
  apply bindr_ok in Hv as (r & _ & Hv). eauto.
Qed.
Lemma map_results_ok g r r' : map_results g r = Ok r' -> dict_ok r'.
Proof. unfold map_results. apply stores_ok; [|apply dict_ok_nil]. intros s a s' H. apply bindr_ok in H as (v & _ & H). injection H as <-. eauto. Qed.
Lemma rank_norm_ok r r' : _rank_norm r = Ok r' -> dict_ok r'.
Proof. unfold _rank_norm. apply stores_ok; [|apply dict_ok_nil]. intros s a s' H. injection H as <-. eauto. Qed.
Lemma borda_norm_ok r c r' : _borda_norm r c = Ok r' -> dict_ok r'.
Proof.
  unfold _borda_norm. apply stores_ok; [|apply dict_ok_nil]. intros s a s'. cbn zeta. destruct (dmem r a).
  - destruct (index_of (dkeys r) a); intros H; [injection H as <-; eauto|discriminate].
  - intros H. injection H as <-. eauto.
Qed.
Lemma pos_scores_ok g r r' : pos_scores g r = Ok r' -> dict_ok r'.
Proof. unfold pos_scores. apply stores_ok; [|apply dict_ok_nil]. intros s a s' H. apply bindr_ok in H as (v & _ & H). injection H as <-. eauto. Qed.
Lemma comb_results_ok formula rs r' : comb_results formula rs = Ok r' -> dict_ok r'.
Proof.
  unfold comb_results. apply fold_inv; [|apply dict_ok_nil]. intros s a s' Hs. apply fold_inv; [|exact Hs].
  intros s1 d s2 Hs1. destruct (match dget s1 d with Some v => feqb v fzero | None => true end).
  - intros H. apply bindr_ok in H as (v & _ & H). injection H as <-. now apply dict_ok_dset.
  - intros H. now injection H as <-.
Qed.
Lemma comb_dict tag formula name ms x : comb E tag formula name ms = Ok x ->
  exists m, dict2_ok m /\ x = Run_sort E (new_run (Some name) m).
Proof.
  unfold comb. intros H. apply bindr_ok in H as (m & Hm & H). injection H as <-. exists m. split; [|reflexivity].
  unfold comb_parallel in Hm. destruct ms as [|m0 ms]; [discriminate|]. apply bindr_ok in Hm as (out & Ho & Hm). revert Hm. apply convert_ok.
  apply (prange_r_Forall dict_ok) in Ho; [exact Ho|apply dict_ok_nil|]. intros i v Hv. apply bindr_ok in Hv as (q & _ & Hv).
  apply bindr_ok in Hv as (rs & _ & Hv). eapply comb_results_ok. exact Hv.
Qed.
Lemma score_by_order_ok c o r' : score_by_order c o = Ok r' -> dict_ok r'.
Proof.
  unfold score_by_order. intros H. apply bindr_ok in H as (ds & _ & H). revert H. apply stores_ok; [|apply dict_ok_nil].
  intros s a s' H. injection H as <-. eauto.
Qed.
Lemma condorcet_dict f xs name x : (forall r c r', f r c = Ok r' -> dict_ok r') -> condorcet_with E f xs name = Ok x ->
  exists m, dict2_ok m /\ x = new_run (Some name) m.
Proof.
  intros Hf. unfold condorcet_with. intros H. apply bindr_ok in H as (rs & _ & H). apply bindr_ok in H as (cs & _ & H).
  destruct xs as [|x0 xs]; [discriminate|]. apply bindr_ok in H as (out & Ho & H). apply bindr_ok in H as (m & Hm & H). injection H as <-.
  exists m. split; [|reflexivity]. revert Hm. apply convert_ok. apply map_m_inv in Ho.
  clear - Hf Ho. induction Ho as [|i r l l' Hi Ho IH]; constructor; [|exact IH].
  apply bindr_ok in Hi as (a & _ & Hi). apply bindr_ok in Hi as (b & _ & Hi). eauto.
Qed.
(** what a fusion method returns *)
Definition fused (x : Run N) : Prop := exists name m, dict2_ok m /\ (x = Run_sort E (new_run (Some name) m) \/ x = new_run (Some name) m).
Lemma comb_fused tag formula name ms x : comb E tag formula name ms = Ok x -> fused x.
Proof. intros H. apply comb_dict in H as (m & Hm & ->). exists name, m. auto. Qed.
Lemma rescored_fused (r : result (list (dict (dict F)))) tag formula name x : (do ms <- r; comb E tag formula name ms) = Ok x -> fused x.
Proof. intros H. apply bindr_ok in H as (ms & _ & H). eapply comb_fused. exact H. Qed.
Context (pysort : (nat -> nat -> bool) -> list nat -> list nat).
Lemma condorcet_fused xs name x : condorcet E pysort xs name = Ok x -> fused x.
Proof. intros H. apply condorcet_dict in H as (m & Hm & ->); [exists name, m; auto|]. intros r c r'. apply score_by_order_ok. Qed.
Lemma wcondorcet_fused w xs name x : weighted_condorcet E pysort xs w name = Ok x -> fused x.
Proof.
  intros H. apply condorcet_dict in H as (m & Hm & ->); [exists name, m; auto|]. intros r c r'. unfold _wcondorcet.
  destruct (_ && _); [discriminate|]. apply score_by_order_ok.
Qed.
Lemma simple_fused f dname xs ps x : (forall xs name x, f xs name = Ok x -> fused x) -> simple f dname xs ps = Ok x -> fused x.
Proof. intros Hf H. unfold simple in H. apply bindr_ok in H as (? & _ & H). apply bindr_ok in H as (? & _ & H). eauto. Qed.
Lemma with_arg_fused {A} (f : list (Run N) -> A -> string -> result (Run N)) k conv default dname xs ps x :
  (forall xs a name x, f xs a name = Ok x -> fused x) -> with_arg f k conv default dname xs ps = Ok x -> fused x.
Proof.
  intros Hf H. unfold with_arg in H. apply bindr_ok in H as (? & _ & H). apply bindr_ok in H as (? & _ & H). apply bindr_ok in H as (? & _ & H). eauto.
Qed.
Lemma switch_fused method f xs ps x : fusion_switch E pysort method = Ok f -> f xs ps = Ok x -> fused x.
Proof.
  unfold fusion_switch. intros Hf Hx.
  repeat match type of Hf with (if ?b then _ else _) = _ => destruct b end; try discriminate; injection Hf as <-;
    first [ revert Hx; apply simple_fused; clear; intros xs name x H
          | revert Hx; apply with_arg_fused; clear; intros xs a name x H
          | idtac ];
    try (eapply comb_fused; exact H); try (eapply rescored_fused; exact H); try (eapply condorcet_fused; exact H); try (eapply wcondorcet_fused; exact H).
  - unfold logn_isr in H. apply bindr_ok in H as (? & _ & H). eapply rescored_fused. exact H.
  - unfold slide_call in Hx. do 4 apply bindr_ok in Hx as (? & _ & Hx). eapply rescored_fused. exact Hx.
Qed.
Lemma fuse_fused xs norm method ps x : fuse E pysort xs norm method ps = Ok x -> fused x.
Proof.
  unfold fuse. intros H. do 3 apply bindr_ok in H as (? & _ & H). apply bindr_ok in H as (f & Hf & H). eapply switch_fused; eauto.
Qed.
(** what normalising returns *)
Definition normed (x : Run N) : Prop := exists name m, dict2_ok m /\ (x = Run_sort E (new_run name m) \/ x = new_run name m).
Lemma normalize_normed x norm y : normalize E x norm = Ok y -> normed y.
Proof.
  unfold normalize. intros H. apply bindr_ok in H as (f & Hf & H).
  assert (Hgo : forall tag g, (do m <- per_query E tag (fun _ => g) (r_map x); Ok (new_run (r_name x) m)) = Ok y ->
    (forall r r', g r = Ok r' -> dict_ok r') -> normed y).
  { intros tag g H1 Hg. apply bindr_ok in H1 as (m & Hm & H1). injection H1 as <-. exists (r_name x), m. split; [|now right].
    eapply per_query_dict; [|exact Hm]. intros i r r'. apply Hg. }
  assert (Hmm : forall b, min_max_norm E b x = Ok y -> normed y).
  { intros b H1. unfold min_max_norm in H1. apply bindr_ok in H1 as (m & Hm & H1). exists (r_name x), m. split.
    - eapply per_query_dict; [|exact Hm]. intros i r r'. apply map_results_ok.
    - destruct b; injection H1 as <-; auto. }
  unfold norm_switch in Hf.
  repeat match type of Hf with (if ?b then _ else _) = _ => destruct b end; try discriminate; injection Hf as <-; try discriminate;
    try (eapply Hmm; exact H); try (eapply Hgo; [exact H|]; intros r r'; first [apply map_results_ok|apply rank_norm_ok]).
Qed.
End P.

(** ** the invariant, over the reals *)
Section Inv.
Context (E : env NumR) (HE : env_ok E).
Notation inv := (@run_inv NumR).
Lemma sort_inv x : dict2_ok (r_map x) -> inv (Run_sort E x).
Proof.
  intros H. pose proof (run_step_inv E HE NumR_laws (mkRun (r_map x) false (r_name x) (r_scores x) (r_mean x) (r_std x)) RSort) as Hs.
  cbn [run_step fst] in Hs. assert (Hi : inv (mkRun (r_map x) false (r_name x) (r_scores x) (r_mean x) (r_std x))).
  { split; [exact H|]. split; [apply r_nan_free|discriminate]. }
  specialize (Hs Hi I I). exact Hs.
Qed.
Lemma new_inv name m : dict2_ok m -> inv (new_run name m).
Proof. intros H. split; [exact H|]. split; [apply r_nan_free|discriminate]. Qed.
Lemma fused_inv x : fused E x -> inv x.
Proof. intros (name & m & Hm & [ -> | -> ]); [apply sort_inv; exact Hm|now apply new_inv]. Qed.
Lemma normed_inv x : normed E x -> inv x.
Proof. intros (name & m & Hm & [ -> | -> ]); [apply sort_inv; exact Hm|now apply new_inv]. Qed.
Lemma fields_inv x x' : r_map x' = r_map x -> r_sorted x' = r_sorted x -> inv x -> inv x'.
Proof. unfold run_inv. intros -> ->. auto. Qed.
Lemma typed_run_inv x : inv x -> inv (fst (Run_to_typed_list E x)).
Proof. intros H. exact (run_step_inv E HE NumR_laws x RToTypedList H I I). Qed.
Lemma comparable_inv x y : inv x -> inv (Run_make_comparable E x y).
Proof. intros H. exact (run_step_inv E HE NumR_laws x (RMakeComparable y) H I I). Qed.
Lemma init_inv d name x : dict2_ok d -> Run_from_dict E d name = Ok x -> inv x.
Proof.
  intros Hok Hi. unfold Run_from_dict in Hi. destruct (build_from_dict E r_negf d) as [m|] eqn:Hb; [|discriminate]. cbn in Hi. inversion Hi; subst.
  assert (Hd : has_doc d).
  { unfold build_from_dict in Hb. destruct (concat (map dkeys (dvals d))) eqn:Hc; [discriminate|].
    apply concat_has_doc; [exact Hok|]. congruence. }
  rewrite (build_from_dict_ok E r_negf d Hok Hd) in Hb. inversion Hb; subst.
  apply (canon_inv E HE (mkRun [] true name [] [] [])); auto. apply r_nan_free.
Qed.
Lemma q_init_inv d y : dict2_ok d -> @Qrels_from_dict NumR E d = Ok y -> qrels_inv y.
Proof.
  intros Hok H. apply (qrels_reachable_inv E HE). exists y, []. split; [right|split; [constructor|auto]].
  exists d, None. split; [exact Hok|exact H].
Qed.
Lemma q_fields_inv y y' : q_map y' = q_map y -> q_sorted y' = q_sorted y -> qrels_inv y -> qrels_inv y'.
Proof. unfold qrels_inv. intros -> ->. auto. Qed.
Lemma save_metric_fields std (x : Run NumR) m s : r_map (fst (save_metric std x m s)) = r_map x /\ r_sorted (fst (save_metric std x m s)) = r_sorted x.
Proof. unfold save_metric. destruct (save_queries _ _ _ _). split; reflexivity. Qed.
Lemma save_results_fields std d : forall x : Run NumR, r_map (fst (save_results std x d)) = r_map x /\ r_sorted (fst (save_results std x d)) = r_sorted x.
Proof.
  induction d as [|[m s] d IH]; intros x; cbn [save_results]; [auto|].
  destruct (save_metric_fields std x m s) as [H1 H2]. destruct (save_metric std x m s) as [x' [e|]]; cbn [fst] in *; [auto|].
  destruct (IH x') as [H3 H4]. split; congruence.
Qed.
(** evaluate, whatever its other arguments, leaves good objects *)
Lemma evaluate_run q x metrics mean std save mk x' : inv x ->
  ev_r (@evaluate NumR E q (RObj x) metrics mean std save mk) = RObj x' -> inv x'.
Proof.
  intros Hx. unfold evaluate.
  set (r0 := if mk then match q with QObj y => RObj (Run_make_comparable E x y) | _ => RObj x end else RObj x).
  assert (Hr0 : exists x0, r0 = RObj x0 /\ inv x0).
  { unfold r0. destruct mk; [|eauto]. destruct q; eauto. eexists. split; [reflexivity|]. now apply comparable_inv. }
  destruct Hr0 as (x0 & -> & Hx0).
  destruct (check_keys q (RObj x0)); [|intros H; injection H as <-; exact Hx0].
  destruct (convert_qrels E q) as [q1 [tq|e]]; [|intros H; injection H as <-; exact Hx0].
  cbn [convert_run]. assert (Hx1 := typed_run_inv x0 Hx0). destruct (Run_to_typed_list E x0) as [x1 tr]. cbn [fst] in Hx1.
  destruct (compute_scores E tq tr metrics) as [[m d]|e]; [|intros H; injection H as <-; exact Hx1].
  destruct save.
  - destruct (save_results_fields (if mean then std else false) d x1) as [H1 H2].
    destruct (save_results (if mean then std else false) x1 d) as [x2 e]. cbn [fst] in *.
    assert (Hx2 : inv x2) by now apply (fields_inv x1).
    destruct e; intros H; injection H as <-; exact Hx2.
  - intros H. injection H as <-. exact Hx1.
Qed.
Lemma evaluate_qrels y r metrics mean std save mk y' : qrels_inv y ->
  ev_q (@evaluate NumR E (QObj y) r metrics mean std save mk) = QObj y' -> qrels_inv y'.
Proof.
  intros Hy. unfold evaluate.
  match goal with |- context[check_keys _ ?t] => generalize t end. clear r. intros r.
  destruct (check_keys (QObj y) r); [|intros H; injection H as <-; exact Hy].
  cbn [convert_qrels]. assert (Hy1 := typed_inv E HE y Hy). destruct (Qrels_to_typed_list E y) as [y1 tq]. cbn [fst] in Hy1.
  destruct (convert_run E r) as [r1 [tr|e]]; [|intros H; injection H as <-; exact Hy1].
  destruct (compute_scores E tq tr metrics) as [[m d]|e]; [|intros H; injection H as <-; exact Hy1].
  destruct (match r1 with RObj x => _ | _ => _ end) as [[r2 m2] e]. destruct e; intros H; injection H as <-; exact Hy1.
Qed.

Definition keeps (y : Qrels) (xs : list (Run NumR)) (y' : Qrels) (xs' : list (Run NumR)) : Prop :=
  (qrels_inv y -> qrels_inv y') /\ (Forall inv xs -> Forall inv xs').
Lemma score_runs_keeps metrics mk xs : forall i y names results scores,
  let out := @score_runs NumR E i y xs metrics mk names results scores in keeps y xs (fst (fst out)) (snd (fst out)).
Proof.
  induction xs as [|x xs IH]; intros i y names results scores; cbn [score_runs]; [split; auto|].
  set (out := evaluate E (QObj y) (RObj x) metrics false false true mk).
  assert (Hy : qrels_inv y -> qrels_inv (match ev_q out with QObj y1 => y1 | _ => y end)).
  { intros Hy. destruct (ev_q out) eqn:Ho; auto. eapply evaluate_qrels; [exact Hy|exact Ho]. }
  assert (Hx : inv x -> inv (match ev_r out with RObj x1 => x1 | _ => x end)).
  { intros Hx. destruct (ev_r out) eqn:Ho; auto. eapply evaluate_run; [exact Hx|exact Ho]. }
  set (y1 := match ev_q out with QObj y1 => y1 | _ => y end) in *. set (x1 := match ev_r out with RObj x1 => x1 | _ => x end) in *.
  cbn zeta.
  match goal with |- context[match ?t with Ok _ => _ | Err _ => _ end] => destruct t as [[a results']|e] end.
  - match goal with |- context[score_runs E ?i' y1 xs metrics mk ?n ?r ?s] => specialize (IH i' y1 n r s); destruct (score_runs E i' y1 xs metrics mk n r s) as [[y2 xs2] r2] end.
    cbn [fst snd] in *. destruct IH as [H1 H2]. split; [auto|]. intros H. inversion H; subst. constructor; auto.
  - cbn [fst snd]. split; [auto|]. intros H. inversion H; subst. constructor; auto.
Qed.
Lemma compare_keeps T y xs metrics test n max_p digits percent mk :
  let out := @compare NumR E T y xs metrics test n max_p digits percent mk in keeps y xs (fst (fst out)) (snd (fst out)).
Proof.
  unfold compare. pose proof (score_runs_keeps metrics mk xs 0 y [] [] []) as H.
  destruct (score_runs E 0 y xs metrics mk [] [] []) as [[y' xs'] r]. exact H.
Qed.
Lemma train_each_keeps {A} (f : Qrels -> Run NumR -> Qrels * Run NumR * result A) :
  (forall y x, (qrels_inv y -> qrels_inv (fst (fst (f y x)))) /\ (inv x -> inv (snd (fst (f y x))))) ->
  forall xs y, keeps y xs (fst (fst (train_each f y xs))) (snd (fst (train_each f y xs))).
Proof.
  intros Hf. induction xs as [|x xs IH]; intros y; cbn [train_each]; [split; auto|].
  destruct (Hf y x) as [H1 H2]. destruct (f y x) as [[y1 x1] [a|e]]; cbn [fst snd] in *.
  - destruct (IH y1) as [H3 H4]. destruct (train_each f y1 xs) as [[y2 xs2] [l|e]]; cbn [fst snd] in *;
      (split; [auto|]; intros H; inversion H; subst; constructor; auto).
  - split; [auto|]. intros H. inversion H; subst. constructor; auto.
Qed.
Lemma train_hits_keeps y x : (qrels_inv y -> qrels_inv (fst (fst (train_hits E y x)))) /\ (inv x -> inv (snd (fst (train_hits E y x)))).
Proof. cbn [train_hits fst snd]. split; [apply typed_inv; exact HE|apply typed_run_inv]. Qed.
Lemma pos_train_keeps y xs : keeps y xs (fst (fst (posfuse_train E y xs))) (snd (fst (posfuse_train E y xs))).
Proof. unfold posfuse_train. apply train_each_keeps. intros y1 x. exact (train_hits_keeps y1 x). Qed.
Lemma bayes_train_keeps y xs : keeps y xs (fst (fst (bayesfuse_train E y xs))) (snd (fst (bayesfuse_train E y xs))).
Proof. unfold bayesfuse_train. apply train_each_keeps. intros y1 x. exact (train_hits_keeps y1 x). Qed.
Lemma map_train_keeps y xs : keeps y xs (fst (fst (mapfuse_train E y xs))) (snd (fst (mapfuse_train E y xs))).
Proof.
  unfold mapfuse_train. apply train_each_keeps. intros y1 x. cbn [fst snd]. split.
  - intros Hy. destruct (ev_q _) eqn:Ho; auto. eapply evaluate_qrels; [exact Hy|exact Ho].
  - intros Hx. destruct (ev_r _) eqn:Ho; auto. eapply evaluate_run; [exact Hx|exact Ho].
Qed.
Lemma all_hits_keeps y xs : keeps y xs (fst (fst (all_hits E y xs))) (snd (fst (all_hits E y xs))).
Proof.
  unfold all_hits. cbn zeta.
  match goal with |- keeps _ _ (fst (fst (train_each ?f ?y1 xs))) _ => pose proof (train_each_keeps f) as H; specialize (H (fun y0 x => conj (fun h => h) (typed_run_inv x)) xs y1) end.
  destruct H as [H1 H2]. split; [|exact H2]. intros Hy. apply H1. now apply typed_inv.
Qed.
Lemma seg_train_keeps y xs : keeps y xs (fst (fst (segfuse_train E y xs))) (snd (fst (segfuse_train E y xs))).
Proof. unfold segfuse_train. pose proof (all_hits_keeps y xs) as H. destruct (all_hits E y xs) as [[y' xs'] r]. exact H. Qed.
Lemma prob_train_keeps y xs n : keeps y xs (fst (fst (probfuse_train E y xs n))) (snd (fst (probfuse_train E y xs n))).
Proof. unfold probfuse_train. pose proof (all_hits_keeps y xs) as H. destruct (all_hits E y xs) as [[y' xs'] r]. exact H. Qed.

Lemma keeps_refl y xs : keeps y xs y xs.
Proof. split; auto. Qed.
Lemma keeps_trans y xs y1 xs1 y2 xs2 : keeps y xs y1 xs1 -> keeps y1 xs1 y2 xs2 -> keeps y xs y2 xs2.
Proof. unfold keeps. tauto. Qed.
Lemma trial_eval_keeps y z metric : qrels_inv y -> qrels_inv (fst (trial_eval E y z metric)).
Proof. intros Hy. unfold trial_eval. cbn [fst]. destruct (ev_q _) eqn:Ho; auto. eapply evaluate_qrels; [exact Hy|exact Ho]. Qed.
Lemma search_keeps {T B} (f : Qrels * list (Run NumR) -> T -> (Qrels * list (Run NumR)) * result (B * F)) show trials :
  (forall s t, keeps (fst s) (snd s) (fst (fst (f s t))) (snd (fst (f s t)))) ->
  forall s bs b rep, let out := search_loop f show s trials bs b rep in keeps (fst s) (snd s) (fst (fst out)) (snd (fst out)).
Proof.
  intros Hf. induction trials as [|t trials IH]; intros s bs b rep; cbn [search_loop]; [apply keeps_refl|].
  specialize (Hf s t). destruct (f s t) as [s1 [[b1 sc]|e]]; cbn [fst snd] in *; [|exact Hf].
  destruct (fleb bs sc); (eapply keeps_trans; [exact Hf|apply IH]).
Qed.
Lemma plain_keeps {T} (fusion : list (Run NumR) -> T -> result (Run NumR)) metric s t :
  keeps (fst s) (snd s) (fst (fst (plain_trial E fusion metric s t))) (snd (fst (plain_trial E fusion metric s t))).
Proof.
  unfold plain_trial. destruct (fusion (snd s) t) as [z|e]; [|apply keeps_refl].
  pose proof (trial_eval_keeps (fst s) z metric) as H. destruct (trial_eval E (fst s) z metric) as [y' sc]. cbn [fst snd] in *. split; auto.
Qed.
Lemma prob_trial_keeps metric s n : keeps (fst s) (snd s) (fst (fst (prob_trial E metric s n))) (snd (fst (prob_trial E metric s n))).
Proof.
  unfold prob_trial. pose proof (prob_train_keeps (fst s) (snd s) n) as H. destruct (probfuse_train E (fst s) (snd s) n) as [[y1 xs1] [ps|e]]; [|exact H].
  cbn [fst snd] in H. destruct (probfuse E xs1 ps "probfuse") as [z|e]; [|exact H].
  pose proof (trial_eval_keeps y1 z metric) as H1. destruct (trial_eval E y1 z metric) as [y' sc]. cbn [fst snd] in *.
  destruct H as [H2 H3]. split; auto.
Qed.
Context (pysort : (nat -> nat -> bool) -> list nat -> list nat) (sh : shower NumR).
Lemma optimizer_keeps method f : optimization_switch E pysort sh method = Ok f -> forall y xs metric kws,
  keeps y xs (fst (fst (f y xs metric kws))) (snd (fst (f y xs metric kws))).
Proof.
  intros Hf y xs metric kws.
  assert (Hfl : forall fusion name lo hi, keeps y xs (fst (fst (opt_float E sh fusion name lo hi y xs metric kws))) (snd (fst (opt_float E sh fusion name lo hi y xs metric kws)))).
  { intros fusion name lo hi. unfold opt_float. destruct (bindr _ _) as [trials|e]; [|apply keeps_refl].
    unfold finish. cbn [fst snd]. apply (search_keeps (plain_trial E fusion metric) (s_float sh) trials (plain_keeps fusion metric) (y, xs)). }
  assert (Hw : forall fusion, keeps y xs (fst (fst (optimize_weights E sh fusion y xs metric kws))) (snd (fst (optimize_weights E sh fusion y xs metric kws)))).
  { intros fusion. unfold optimize_weights. destruct (bindr _ _) as [w|e]; [|apply keeps_refl].
    unfold finish. cbn [fst snd]. apply (search_keeps (plain_trial E fusion metric) (s_tuple sh) _ (plain_keeps fusion metric) (y, xs)). }
  assert (Ht : forall P (train : Qrels -> list (Run NumR) -> Qrels * list (Run NumR) * result P) name inj,
    keeps y xs (fst (fst (train y xs))) (snd (fst (train y xs))) ->
    keeps y xs (fst (fst (train_only train name inj y xs kws))) (snd (fst (train_only train name inj y xs kws)))).
  { intros P train name inj H. unfold train_only. destruct (only [] kws); [|apply keeps_refl]. destruct (train y xs) as [[y1 xs1] r]. exact H. }
  unfold optimization_switch in Hf.
  repeat match type of Hf with (if ?b then _ else _) = _ => destruct b end; try discriminate; injection Hf as <-.
  - apply Hfl.
  - apply Hfl.
  - apply Hw.
  - unfold optimize_probfuse. destruct (bindr _ _) as [trials|e]; [|apply keeps_refl].
    unfold finish. cbn [fst snd]. apply (search_keeps (prob_trial E metric) str_int trials (prob_trial_keeps metric) (y, xs)).
  - apply Hfl.
  - unfold optimize_rrf. destruct (bindr _ _) as [trials|e]; [|apply keeps_refl].
    unfold finish. cbn [fst snd]. apply (search_keeps (plain_trial E _ metric) str_int trials (plain_keeps _ metric) (y, xs)).
  - unfold optimize_slidefuse. destruct (bindr _ _) as [trials|e]; [|apply keeps_refl].
    pose proof (pos_train_keeps y xs) as H. unfold posfuse_train in H. unfold slidefuse_train.
    destruct (train_each (estimate_probs E) y xs) as [[y1 xs1] [ps|e]]; cbn [fst snd] in *; [|exact H].
    unfold finish.
    pose proof (search_keeps (plain_trial E (fun xs w => slidefuse E xs ps w "slidefuse") metric) str_int trials (plain_keeps _ metric) (y1, xs1) (fofZ 0) None []) as H1.
    fold (@grid_search NumR _ _ Z (plain_trial E (fun xs w => slidefuse E xs ps w "slidefuse") metric) str_int (y1, xs1) trials) in H1.
    destruct (grid_search _ _ _ _) as [[y2 xs2] r]. cbn [fst snd] in *. eapply keeps_trans; [exact H|exact H1].
  - apply Hw.
  - apply Hw.
  - apply Hw.
  - apply Hw.
  - apply Ht, bayes_train_keeps.
  - apply Ht, map_train_keeps.
  - apply Ht, pos_train_keeps.
  - apply Ht, seg_train_keeps.
Qed.
Lemma normalize_runs_inv xs norm zs : Forall inv xs -> normalize_runs E xs norm = Ok zs -> Forall inv zs.
Proof.
  intros Hxs H. unfold normalize_runs in H. destruct norm as [n|]; [|injection H as <-; exact Hxs].
  destruct (String.eqb n "borda").
  - unfold borda_norm in H. apply bindr_ok in H as (cs & _ & H). apply map_m_inv in H. clear Hxs. induction H as [|x z xs zs H H1 IH]; constructor; [|exact IH].
    apply bindr_ok in H as (m & Hm & H). injection H as <-. apply new_inv. eapply per_query_dict; [|exact Hm].
    intros i r r' Hr. apply bindr_ok in Hr as (c & _ & Hr). eapply borda_norm_ok. exact Hr.
  - apply map_m_inv in H. clear Hxs. induction H as [|x z xs zs H H1 IH]; constructor; [|exact IH]. apply normed_inv. eapply normalize_normed. exact H.
Qed.
Lemma optimize_keeps y xs norm method metric rep kws :
  let out := optimize_fusion E pysort sh y xs norm method metric rep kws in keeps y xs (fst (fst out)) (snd (fst out)).
Proof.
  unfold optimize_fusion. cbn zeta. match goal with |- context[match ?t with Ok _ => _ | Err _ => _ end] => destruct t as [[zs f]|e] eqn:Ho end; [|apply keeps_refl].
  do 3 apply bindr_ok in Ho as (? & _ & Ho). apply bindr_ok in Ho as (zs' & Hz & Ho). apply bindr_ok in Ho as (? & _ & Ho). apply bindr_ok in Ho as (f' & Hf & Ho).
  injection Ho as <- <-. pose proof (optimizer_keeps method f' Hf y zs' metric kws) as [H1 H2].
  destruct (f' y zs' metric kws) as [[y' zs2] r]. cbn [fst snd] in *. split; [exact H1|]. intros Hxs. destruct norm; [exact Hxs|].
  apply H2. now injection Hz as <-.
Qed.

(** files *)
Lemma dset2_ok {V} (d : dict (dict V)) q k v : dict2_ok d -> dict2_ok (dset2 d q k v).
Proof.
  intros H. unfold dset2. apply dict2_ok_dset; [exact H|]. apply dict_ok_dset. destruct (dget d q) eqn:Hd; [|apply dict_ok_nil]. eapply H. exact Hd.
Qed.
Lemma map_m_keys {V W} (f : string * V -> result (string * W)) l l' : (forall kv kw, f kv = Ok kw -> fst kw = fst kv) -> map_m f l = Ok l' -> dkeys l' = dkeys l.
Proof. intros Hf H. apply map_m_inv in H. unfold dkeys. induction H as [|a b l l' H H1 IH]; cbn; [reflexivity|]. f_equal; auto. Qed.
Lemma json_ok {V} (null : result V) d d' : dict2_ok d -> json_values null d = Ok d' -> dict2_ok d'.
Proof.
  intros [H1 H2] H. assert (Hk : dkeys d' = dkeys d).
  { eapply map_m_keys; [|exact H]. intros kv kw Hkw. apply bindr_ok in Hkw as (r & _ & Hkw). now injection Hkw as <-. }
  split; [unfold dict_ok; rewrite Hk; exact H1|]. intros q r Hr. apply dget_Some_in in Hr. apply map_m_inv in H.
  assert (Hx : exists r0, In (q, r0) d /\ dkeys r = dkeys r0).
  { clear - H Hr. induction H as [|a b l l' Ha H IH]; [destruct Hr|]. destruct Hr as [->|Hr].
    - apply bindr_ok in Ha as (r1 & Hr1 & Ha). injection Ha as Ha1 Ha2. destruct a as [q' r0]. cbn [fst snd] in *. subst. exists r0. split; [now left|].
      eapply map_m_keys; [|exact Hr1]. intros kv kw Hkw. apply bindr_ok in Hkw as (v & _ & Hkw). now injection Hkw as <-.
    - destruct (IH Hr) as (r0 & H1 & H2). exists r0. split; [now right|exact H2]. }
  destruct Hx as (r0 & Hi & Hr0). unfold dict_ok. rewrite Hr0. apply (H2 q r0). now apply in_dget.
Qed.
Lemma run_file_inv fl fs path kind name x : files_ok fs -> @Run_from_file NumR E fl fs path kind name = Ok x -> inv x.
Proof.
  intros Hfs H. unfold Run_from_file in H. apply bindr_ok in H as (k & _ & H). apply bindr_ok in H as (dn & Hd & H).
  apply init_inv in H; [exact H|]. destruct (String.eqb k "json").
  - destruct (dget fs path) as [f|] eqn:Hf; [|discriminate]. apply Hfs in Hf. destruct f; try discriminate.
    apply bindr_ok in Hd as (d' & Hd' & Hd). injection Hd as <-. cbn [fst]. eapply json_ok; [exact Hf|exact Hd'].
  - destruct (String.eqb k "lz4").
    + destruct (dget fs path) as [f|] eqn:Hf; [|discriminate]. apply Hfs in Hf. destruct f; try discriminate. injection Hd as <-. exact Hf.
    + apply bindr_ok in Hd as (text & _ & Hd). unfold run_parse in Hd.
      refine (fold_inv (fun st : dict (dict R) * option string => dict2_ok (fst st)) _ _ _ _ _ _ Hd); [|apply dict2_ok_nil].
      intros s a s' Hs Hl. unfold run_parse_line in Hl.
      repeat match type of Hl with match ?l with [] => _ | _ => _ end = _ => destruct l; try discriminate end.
      apply bindr_ok in Hl as (v & _ & Hl). injection Hl as <-. cbn [fst]. now apply dset2_ok.
Qed.
Lemma q_file_inv fs path kind y : files_ok fs -> @Qrels_from_file NumR E fs path kind = Ok y -> qrels_inv y.
Proof.
  intros Hfs H. unfold Qrels_from_file in H. apply bindr_ok in H as (k & _ & H). apply bindr_ok in H as (d & Hd & H).
  apply q_init_inv in H; [exact H|]. destruct (String.eqb k "json").
  - destruct (dget fs path) as [f|] eqn:Hf; [|discriminate]. apply Hfs in Hf. destruct f; try discriminate.
    eapply json_ok; [exact Hf|exact Hd].
  - apply bindr_ok in Hd as (text & _ & Hd). unfold qrels_parse in Hd.
    refine (fold_inv (fun st : dict (dict Z) => dict2_ok st) _ _ _ _ _ _ Hd); [|apply dict2_ok_nil].
    intros s a s' Hs Hl. unfold qrels_parse_line in Hl.
    repeat match type of Hl with match ?l with [] => _ | _ => _ end = _ => destruct l; try discriminate end.
    apply bindr_ok in Hl as (v & _ & Hl). injection Hl as <-. now apply dset2_ok.
Qed.
Lemma run_df_inv df a b c name x : @Run_from_df NumR E df a b c name = Ok x -> inv x.
Proof. intros H. unfold Run_from_df in H. do 6 apply bindr_ok in H as (? & _ & H). apply init_inv in H; [exact H|apply group_ok]. Qed.
Lemma q_df_inv df a b c y : @Qrels_from_df NumR E df a b c = Ok y -> qrels_inv y.
Proof. intros H. unfold Qrels_from_df in H. do 6 apply bindr_ok in H as (? & _ & H). apply q_init_inv in H; [exact H|apply group_ok]. Qed.
Lemma hub_inv cd bytes x card : codec_ok cd -> hub_load E cd bytes = Ok (x, card) -> inv x.
Proof.
  intros Hc H. unfold hub_load in H. apply bindr_ok in H as (c & Hd & H). apply bindr_ok in H as (z & Hz & H). do 4 apply bindr_ok in H as (? & _ & H).
  match type of H with match ?t with _ => _ end = _ => destruct t; try discriminate end. injection H as <- _.
  apply init_inv in Hz; [exact Hz|]. eapply Hc. exact Hd.
Qed.
End Inv.
