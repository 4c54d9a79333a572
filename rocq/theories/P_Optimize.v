(** P_Optimize.v: the grid search loop *)
From Coq Require Import Lia Permutation.
From Verif Require Import Base Dict Num NumLaws Env M_Common M_Qrels M_Run M_Metrics M_Text M_Evaluate M_Norm M_Fusion M_Train M_Optimize
  Spec_DS Spec_Optimize P_Base P_Dict P_Common P_DS.
Open Scope string_scope.
Open Scope list_scope.
Open Scope nat_scope.

(** the running best of a list of (candidate, score) *)
Fixpoint run_best {N : Num} {B} (bs : @F N) (b : option B) (l : list (B * F)) : option B :=
  match l with
  | [] => b
  | (c, v) :: l' => if fleb bs v then run_best v (Some c) l' else run_best bs b l'
  end.

Lemma map_m_length {A B} (f : A -> result B) l : forall ys, map_m f l = Ok ys -> length ys = length l.
Proof.
  induction l as [|a l IH]; cbn; intros ys H; [now injection H as <-|]. destruct (f a); cbn in H; [|discriminate].
  destruct (map_m f l); cbn in H; [|discriminate]. injection H as <-. cbn. f_equal. now apply IH.
Qed.
Section Loop.
Context {N : Num} (HL : NumLaws N).

Lemma search_loop_ok {S T B} (f : S -> T -> S * result (B * F)) show (I : S -> Prop) (sc : T -> result (B * F)) :
  (forall s t, I s -> (is_Ok (snd (f s t)) = true -> I (fst (f s t))) /\ snd (f s t) = sc t) ->
  forall trials s bs b rep s' b' rep', I s ->
  search_loop f show s trials bs b rep = (s', Ok (b', rep')) ->
  I s' /\ exists bvs, Forall2 (fun t bv => sc t = Ok bv) trials bvs /\ b' = run_best bs b bvs /\
    rep' = fold_left (fun r tv => dset r (fst tv) (snd tv)) (combine (map show trials) (map snd bvs)) rep.
Proof.
  intros Hf. induction trials as [|t trials IH]; intros s bs b rep s' b' rep' Hs H; cbn [search_loop] in H.
  - injection H as <- <- <-. split; auto. exists []. repeat split; constructor.
  - destruct (Hf s t Hs) as [H1 H2]. destruct (f s t) as [s1 [[c v]|e]]; cbn [fst snd is_Ok] in *; [|discriminate]. specialize (H1 eq_refl).
    destruct (fleb bs v) eqn:Hle.
    + destruct (IH _ _ _ _ _ _ _ H1 H) as (I1 & bvs & I2 & I3 & I4). split; auto. exists ((c, v) :: bvs).
      split; [constructor; auto|]. split; [cbn [run_best]; now rewrite Hle|]. cbn. exact I4.
    + destruct (IH _ _ _ _ _ _ _ H1 H) as (I1 & bvs & I2 & I3 & I4). split; auto. exists ((c, v) :: bvs).
      split; [constructor; auto|]. split; [cbn [run_best]; now rewrite Hle|]. cbn. exact I4.
Qed.
(** the running best is the last of the largest *)
Lemma run_best_spec {B} : forall (l : list (B * F)) bs b, is_nan bs = false ->
  match run_best bs b l with
  | r =>
    (r = b /\ forall v, In v (map snd l) -> fleb bs v = false) \/
    exists i c v, r = Some c /\ nth_error l i = Some (c, v) /\ fleb bs v = true /\
      (forall j w, nth_error (map snd l) j = Some w -> is_nan w = false -> fleb w v = true) /\
      (forall j w, i < j -> nth_error (map snd l) j = Some w -> fleb v w = false)
  end.
Proof.
  induction l as [|[c v] l IH]; intros bs b Hb; cbn [run_best].
  - left. split; [reflexivity|]. intros v [].
  - destruct (fleb bs v) eqn:Hle.
    + assert (Hv : is_nan v = false) by exact (law_le_nan _ _ Hle). specialize (IH v (Some c) Hv). destruct IH as [[H1 H2]|(i & c' & v' & H1 & H2 & H3 & H4 & H5)].
      * right. exists 0, c, v. split; [exact H1|]. split; [reflexivity|]. split; [exact Hle|]. split.
        -- intros [|j] w Hw Hn; cbn in Hw.
           ++ injection Hw as <-. destruct (law_le_total v v Hv Hv); auto.
           ++ destruct (law_le_total w v Hn Hv) as [H|H]; auto. rewrite (H2 w (nth_error_In _ _ Hw)) in H. discriminate.
        -- intros [|j] w Hj Hw; [lia|]. cbn in Hw. apply H2. now apply nth_error_In in Hw.
      * right. exists (Datatypes.S i), c', v'. split; [exact H1|]. split; [exact H2|].
        assert (Hbv : fleb bs v' = true) by (eapply law_le_trans; eauto). split; [exact Hbv|]. split.
        -- intros [|j] w Hw Hn; cbn in Hw; [injection Hw as <-; exact H3|eapply H4; eauto].
        -- intros [|j] w Hj Hw; [lia|]. cbn in Hw. apply (H5 j w); [lia|exact Hw].
    + specialize (IH bs b Hb). destruct IH as [[H1 H2]|(i & c' & v' & H1 & H2 & H3 & H4 & H5)].
      * left. split; [exact H1|]. intros w [<-|Hw]; [exact Hle|now apply H2].
      * right. exists (Datatypes.S i), c', v'. split; [exact H1|]. split; [exact H2|]. split; [exact H3|]. split.
        -- intros [|j] w Hw Hn; cbn in Hw; [injection Hw as <-|eapply H4; eauto].
           destruct (law_le_total v bs Hn Hb) as [H|H]; [eapply law_le_trans; eauto|]. rewrite Hle in H. discriminate.
        -- intros [|j] w Hj Hw; [lia|]. cbn in Hw. apply (H5 j w); [lia|exact Hw].
Qed.
Lemma run_best_chosen {B} (l : list (B * F)) : chosen (map fst l) (map snd l) (run_best (fofZ 0) None l).
Proof.
  pose proof (run_best_spec l (fofZ 0) None (law_ofZ_nan 0)) as H. cbv zeta in H.
  destruct H as [[H1 H2]|(i & c & v & H1 & H2 & H3 & H4 & H5)]; rewrite H1; cbn [chosen]; [exact H2|].
  exists i. split; [|now rewrite nth_error_map, H2]. exists v. split; [now rewrite nth_error_map, H2|]. auto.
Qed.

(** a dict filled with distinct keys *)
Lemma fill_dict {V} : forall (ks : list string) (vs : list V) acc, NoDup (dkeys acc ++ ks) -> length ks = length vs ->
  fold_left (fun r tv => dset r (fst tv) (snd tv)) (combine ks vs) acc = acc ++ combine ks vs.
Proof.
  induction ks as [|k ks IH]; intros [|v vs] acc Hn Hl; cbn in Hl; try discriminate; cbn [combine fold_left]; [now rewrite app_nil_r|].
  cbn [fst snd].
  assert (Hd : dset acc k v = acc ++ [(k, v)]).
  { apply dset_nin. intros Hc. apply NoDup_remove_2 in Hn. apply Hn. apply in_or_app. now left. }
  rewrite Hd, IH; [now rewrite <- app_assoc| |lia]. unfold dkeys in *. rewrite map_app. cbn. rewrite <- app_assoc. exact Hn.
Qed.
End Loop.

Section Eval.
Context {N : Num} (E : env N).
(** sorting the qrels in place does not change what evaluate returns *)
Lemma typed_again y : @Qrels_to_typed_list N E (fst (@Qrels_to_typed_list N E y)) = @Qrels_to_typed_list N E y.
Proof.
  unfold Qrels_to_typed_list. destruct (q_sorted y) eqn:Hs; cbn [fst]; [now rewrite Hs|]. cbn [Qrels_sort q_sorted]. reflexivity.
Qed.
Lemma typed_keys y : dict_ok (q_map y) -> forall q, In q (dkeys (q_map (fst (@Qrels_to_typed_list N E y)))) <-> In q (dkeys (q_map y)).
Proof.
  intros Hy q. unfold Qrels_to_typed_list. destruct (q_sorted y); cbn [fst]; [reflexivity|]. unfold Qrels_sort. cbn [q_map].
  change (sort_dict_of_dict_by_value E q_negf (sort_dict_by_key (q_map y))) with (canon E q_negf (q_map y)). rewrite canon_keys by exact Hy.
  split; apply Permutation_in; [apply Permutation_sym|]; apply str_sort_perm.
Qed.
(** [y] is the given qrels, possibly sorted *)
Definition same_qrels (y0 y : Qrels) : Prop := y = y0 \/ y = fst (@Qrels_to_typed_list N E y0).
Lemma keys_eqb_typed {V} y (m : dict V) : dict_ok (q_map y) -> keys_eqb (q_map (fst (@Qrels_to_typed_list N E y))) m = keys_eqb (q_map y) m.
Proof.
  intros Hy. apply Bool.eq_iff_eq_true. rewrite !keys_eqb_spec. pose proof (typed_keys y Hy) as Hk.
  split; intros H k; rewrite <- (H k); [symmetry|]; apply Hk.
Qed.
Lemma trial_eval_same y0 y z metric : dict_ok (q_map y0) -> same_qrels y0 y ->
  same_qrels y0 (fst (trial_eval E y z metric)) /\ snd (trial_eval E y z metric) = snd (trial_eval E y0 z metric).
Proof.
  intros Hy [ -> | -> ].
  - split; [|reflexivity]. unfold trial_eval. cbn [fst]. unfold evaluate. cbn [check_keys].
    destruct (assertr (keys_eqb (q_map y0) (r_map z))) as [[]|e]; [|now left].
    cbn [convert_qrels]. destruct (Qrels_to_typed_list E y0) as [y1 tq] eqn:Ht. cbn [fst snd].
    assert (Hy1 : same_qrels y0 y1) by (right; now rewrite Ht).
    cbn [convert_run]. destruct (Run_to_typed_list E z) as [z1 tr].
    destruct (compute_scores E tq tr [metric]) as [[m d]|e]; exact Hy1.
  - unfold trial_eval. cbn [fst snd]. unfold evaluate. cbn [check_keys]. rewrite keys_eqb_typed by exact Hy.
    destruct (assertr (keys_eqb (q_map y0) (r_map z))) as [[]|e]; [|split; [now right|reflexivity]].
    cbn [convert_qrels]. rewrite typed_again. destruct (Qrels_to_typed_list E y0) as [y1 tq] eqn:Ht. cbn [fst snd].
    cbn [convert_run]. destruct (Run_to_typed_list E z) as [z1 tr].
    destruct (compute_scores E tq tr [metric]) as [[m d]|e]; (split; [right; now rewrite Ht|reflexivity]).
Qed.
Lemma trial_eval_to y z metric v : snd (trial_eval E y z metric) = Ok v -> evaluates_to E y z metric v.
Proof.
  unfold trial_eval, evaluates_to. cbn [snd]. destruct (ev_res _) as [[[l|m|m s]|d]|e]; cbn; intros H; try discriminate. now injection H as ->.
Qed.
Lemma evaluates_same y0 y z metric v : dict_ok (q_map y0) -> same_qrels y0 y -> evaluates_to E y z metric v -> evaluates_to E y0 z metric v.
Proof.
  intros Hy Hs He. apply trial_eval_to. rewrite <- (proj2 (trial_eval_same y0 y z metric Hy Hs)).
  unfold evaluates_to in He. unfold trial_eval. cbn [snd]. rewrite He. reflexivity.
Qed.
Lemma run_typed_again x : @Run_to_typed_list N E (fst (@Run_to_typed_list N E x)) = @Run_to_typed_list N E x.
Proof.
  unfold Run_to_typed_list. destruct (r_sorted x) eqn:Hs; cbn [fst]; [now rewrite Hs|]. cbn [Run_sort r_sorted]. reflexivity.
Qed.
(** training leaves the qrels as they are, possibly sorted *)
Lemma train_each_qrels {A} (f : Qrels -> Run N -> Qrels * Run N * result A) y0 :
  (forall y x, same_qrels y0 y -> same_qrels y0 (fst (fst (f y x)))) ->
  forall xs y, same_qrels y0 y -> same_qrels y0 (fst (fst (train_each f y xs))).
Proof.
  intros Hf. induction xs as [|x xs IH]; intros y Hy; [exact Hy|]. cbn [train_each]. specialize (Hf y x Hy).
  destruct (f y x) as [[y1 x1] [a|e]]; cbn [fst] in *; [|exact Hf].
  specialize (IH y1 Hf). destruct (train_each f y1 xs) as [[y2 xs2] [l|e]]; exact IH.
Qed.
Lemma same_qrels_typed y0 y : same_qrels y0 y -> fst (@Qrels_to_typed_list N E y) = fst (@Qrels_to_typed_list N E y0) /\
  snd (@Qrels_to_typed_list N E y) = snd (@Qrels_to_typed_list N E y0).
Proof. intros [ -> | -> ]; [auto|]. rewrite typed_again. auto. Qed.
Lemma slide_train_qrels y xs : same_qrels y (fst (fst (slidefuse_train E y xs))).
Proof.
  unfold slidefuse_train. apply train_each_qrels; [|now left]. intros y1 x Hy1. unfold estimate_probs, train_hits. cbn [fst].
  right. now apply same_qrels_typed.
Qed.
(** the runs are sorted *)
Definition sorted_run (x : Run N) : Run N := fst (@Run_to_typed_list N E x).
Lemma all_hits_eq y xs : all_hits E y xs =
  match all_hits E y xs with (_, _, Ok l) => (fst (@Qrels_to_typed_list N E y), map sorted_run xs, Ok l) | (a, b, Err e) => (fst (@Qrels_to_typed_list N E y), b, Err e) end /\
  snd (all_hits E y xs) = map_m (fun x => get_hit_lists E (snd (@Qrels_to_typed_list N E y)) (snd (@Run_to_typed_list N E x)) 0 1) xs.
Proof.
  unfold all_hits. generalize (snd (@Qrels_to_typed_list N E y)), (fst (@Qrels_to_typed_list N E y)). intros tq y1.
  induction xs as [|x xs [IH1 IH2]]; [split; reflexivity|]. cbn [train_each map_m map].
  destruct (get_hit_lists E tq (snd (Run_to_typed_list E x)) 0 1) as [h|e]; [|split; reflexivity]. cbn [bindr].
  destruct (train_each _ y1 xs) as [[y2 xs2] [l|e]]; cbn [snd] in IH2; rewrite <- IH2; cbn [bindr snd]; (split; [|reflexivity]); [injection IH1 as -> ->; reflexivity|injection IH1 as ->; reflexivity].
Qed.
Lemma sorted_hits y xs : snd (all_hits E y (map sorted_run xs)) = snd (all_hits E y xs).
Proof.
  rewrite !(proj2 (all_hits_eq y _)). induction xs as [|x xs IH]; [reflexivity|]. cbn [map map_m]. unfold sorted_run at 1. rewrite run_typed_again, IH. reflexivity.
Qed.
Lemma sorted_run_again x : sorted_run (sorted_run x) = sorted_run x.
Proof. unfold sorted_run. now rewrite run_typed_again. Qed.
Lemma prob_train_same y0 y xs n : same_qrels y0 y ->
  (snd (probfuse_train E y (map sorted_run xs) n) = snd (probfuse_train E y0 xs n)) /\
  (snd (probfuse_train E y xs n) = snd (probfuse_train E y0 xs n)) /\
  fst (fst (probfuse_train E y xs n)) = fst (@Qrels_to_typed_list N E y0) /\
  (is_Ok (snd (probfuse_train E y xs n)) = true -> snd (fst (probfuse_train E y xs n)) = map sorted_run xs).
Proof.
  intros Hs. destruct (same_qrels_typed y0 y Hs) as [T1 T2].
  assert (Hh : snd (all_hits E y xs) = snd (all_hits E y0 xs)) by (rewrite !(proj2 (all_hits_eq _ xs)), T2; reflexivity).
  pose proof (proj1 (all_hits_eq y xs)) as Hy1. pose proof (sorted_hits y xs) as Hso. unfold probfuse_train.
  destruct (all_hits E y xs) as [[y1 x1] r1], (all_hits E y0 xs) as [[y2 x2] r2], (all_hits E y (map sorted_run xs)) as [[y3 x3] r3].
  cbn [snd] in *. subst r2 r3. cbn [fst snd]. split; [reflexivity|]. split; [reflexivity|].
  destruct r1 as [l|e]; [injection Hy1 as -> ->|injection Hy1 as ->]; (split; [exact T1|]); [reflexivity|cbn; discriminate].
Qed.
Lemma normalize_length xs norm zs : normalize_runs E xs norm = Ok zs -> length zs = length xs.
Proof.
  unfold normalize_runs. destruct norm as [n|]; [|intros H; now injection H as ->].
  destruct (String.eqb n "borda").
  - unfold borda_norm. destruct (get_candidates E _); cbn [bindr]; [|discriminate]. apply map_m_length.
  - apply map_m_length.
Qed.
End Eval.
