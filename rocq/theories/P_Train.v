(** P_Train.v: lemmas about the training functions *)
From Coq Require Import Reals Lra Lia.
From Verif Require Import Base Dict Num NumLaws Env M_Common M_Qrels M_Run M_History M_Metrics M_Evaluate M_Norm M_Fusion M_Train
  Spec_DS Spec_Hist Spec_Strings Spec_Metrics Spec_MetricsAPI Spec_Eval Spec_Norm Spec_Fusion Spec_Train
  P_Base P_Dict P_Common P_History P_DS P_Metrics P_Metrics4 P_Metrics6 P_Metrics7 T_DS T_Metrics T_Metrics2 T_Parse P_Eval P_Eval2 P_Eval3 T_Evaluate.
Open Scope string_scope.
Open Scope list_scope.
Open Scope nat_scope.

(** the same judgments per query, in any order *)
Definition perm_of {V} (m m' : dict (dict V)) : Prop :=
  forall q, match dget m q, dget m' q with
            | Some r, Some r' => Permutation r r' | None, None => True | _, _ => False end.
Lemma perm_of_refl {V} (m : dict (dict V)) : perm_of m m.
Proof. intros q. now destruct (dget m q). Qed.
Lemma perm_of_trans {V} (a b c : dict (dict V)) : perm_of a b -> perm_of b c -> perm_of a c.
Proof.
  intros H1 H2 q. specialize (H1 q). specialize (H2 q).
  destruct (dget a q), (dget b q), (dget c q); try easy. now apply Permutation_trans with d0.
Qed.
Lemma perm_of_keys {V} (a b : dict (dict V)) : perm_of a b -> forall q, In q (dkeys a) <-> In q (dkeys b).
Proof.
  intros H q. specialize (H q).
  assert (Hn : forall m : dict (dict V), In q (dkeys m) <-> dget m q <> None).
  { intros m. rewrite dget_None. split; [tauto|]. intros H'. destruct (in_dec string_dec q (dkeys m)); tauto. }
  rewrite !Hn. destruct (dget a q), (dget b q); try easy; split; congruence.
Qed.
Lemma perm_of_dget2 {V} (a b : dict (dict V)) : dict2_ok a -> perm_of a b -> forall q d, dget2 b q d = dget2 a q d.
Proof.
  intros Ha H q d. specialize (H q). unfold dget2. destruct (dget a q) eqn:Hq, (dget b q); try easy.
  symmetry. apply dget_perm; auto. now apply (proj2 Ha q).
Qed.
Lemma of_query_ok {V} (m : dict (dict V)) q : dict2_ok m -> dict_ok (of_query m q).
Proof. intros H. unfold of_query. destruct (dget m q) eqn:Hd; [|constructor]. now apply (proj2 H q). Qed.

(** the hit lists, from the judgments and the rankings *)
Definition hl (jm : dict (dict Z)) (rk : string -> list string) : list (list R) :=
  map (fun q => indicator (rel jm q) (rk q)) (str_sort (dkeys jm)).

Section T.
Context (E : env NumR) (HE : env_ok E).

Lemma typed_inv y : qrels_inv y -> qrels_inv (fst (@Qrels_to_typed_list NumR E y)).
Proof.
  intros Hy. unfold Qrels_to_typed_list. cbn [fst]. destruct (q_sorted y); [exact Hy|].
  exact (canon_qinv E HE (q_map y) (q_name y) (proj1 Hy)).
Qed.

Lemma train_hits_spec y x : qrels_inv y -> @run_inv NumR x -> same_queries (q_map y) (r_map x) ->
  docs_distinct E (q_map y) (r_map x) ->
  exists x' rk,
    train_hits E y x = (fst (@Qrels_to_typed_list NumR E y), x', Ok (hl (q_map y) rk)) /\
    perm_of (q_map y) (q_map (fst (@Qrels_to_typed_list NumR E y))) /\
    r_name x' = r_name x /\ (forall q d, score_of x' q d = score_of x q d) /\
    (forall q, ranks (results_of x q) (rk q)).
Proof.
  intros Hy Hx Hsame Hids.
  destruct (qrels_typed E HE y Hy) as (Q1 & Q2 & Q3 & Q4 & Q5 & Q6 & Q7).
  destruct (run_typed E HE x Hx) as (R1 & R2 & R3 & R4 & R5 & R6 & R7 & R8 & R9 & R10).
  unfold train_hits.
  set (y' := fst (@Qrels_to_typed_list NumR E y)) in *. set (x' := fst (Run_to_typed_list E x)) in *.
  set (qs := str_sort (dkeys (q_map y))) in *.
  assert (Hqs : str_sort (dkeys (r_map x)) = qs).
  { symmetry. apply str_sort_set_eq; [apply Hy|apply Hx|exact Hsame]. }
  rewrite Hqs in R1.
  assert (Hpermy : forall q, Permutation (of_query (q_map y) q) (of_query (q_map y') q)) by exact (of_query_perm _ _ Q6).
  assert (Hpermx : forall q, Permutation (results_of x q) (results_of x' q)) by exact (of_query_perm _ _ R9).
  assert (Hinqs : forall q, In q qs <-> In q (dkeys (q_map y))).
  { intros q. unfold qs. split; apply Permutation_in; [apply Permutation_sym|]; apply str_sort_perm. }
  assert (Hal : aligned E (map (of_query (q_map y')) qs) (map (of_query (r_map x')) qs)).
  { unfold aligned. assert (Hi : incl qs qs) by (intros ? ?; auto). revert Hi. generalize qs at 1 3 4 as l.
    induction l as [|q l IH]; intros Hi; constructor.
    - split; [now apply of_query_ok|]. split; [apply (of_query_ok (r_map x') q R3)|].
      eapply ids_distinct_perm; [|apply (Hids q)].
      + apply Permutation_app; unfold dkeys; apply Permutation_map; [apply Hpermy|]. apply Hpermx.
      + apply Hinqs, Hi. now left.
    - apply IH. intros a Ha. apply Hi. now right. }
  destruct (C36_lists E HE _ _ 0%Z 1%Z Hal ltac:(lia)) as (H1 & _ & _).
  exists x', (fun q => dkeys (results_of x' q)).
  split; [|split; [exact Q6|split; [exact R5|split]]].
  - rewrite Q1, R1. rewrite H1. do 2 f_equal. unfold hl. fold qs. unfold per_query. clear - Hpermy Hy.
    induction qs as [|q l IH]; [reflexivity|]. cbn [map combine]. f_equal; [|exact IH].
    cbn [fst snd]. unfold indicator. unfold top. cbn [Z.to_nat]. apply map_ext. intros d.
    unfold rel, relevant.
    rewrite (dget_perm (of_query (q_map y) q) (of_query (q_map y') q)); auto. apply of_query_ok, Hy.
  - exact (perm_of_dget2 (r_map x) (r_map x') (proj1 Hx) R9).
  - intros q. exists (results_of x' q). split; [apply Hpermx|]. split; [exact (R10 q)|reflexivity].
Qed.

(** training over all runs *)
Definition ok_run y x := @run_inv NumR x /\ same_queries (q_map y) (r_map x) /\ docs_distinct E (q_map y) (r_map x).
Lemma ok_run_perm y y' x : perm_of (q_map y) (q_map y') -> ok_run y x -> ok_run y' x.
Proof.
  intros Hp (H1 & H2 & H3). split; [exact H1|]. split.
  - intros q. rewrite <- (perm_of_keys _ _ Hp q). apply H2.
  - intros q Hq. rewrite <- (perm_of_keys _ _ Hp q) in Hq. eapply ids_distinct_perm; [|apply (H3 q Hq)].
    apply Permutation_app_tail. apply Permutation_map. now apply of_query_perm.
Qed.
Lemma hl_perm y y' rk : qrels_inv y -> qrels_inv y' -> perm_of (q_map y) (q_map y') -> hl (q_map y') rk = hl (q_map y) rk.
Proof.
  intros Hy Hy' Hp. unfold hl.
  rewrite (str_sort_set_eq (dkeys (q_map y')) (dkeys (q_map y))); [|apply Hy'|apply Hy|intros q; symmetry; now apply perm_of_keys].
  apply map_ext. intros q. unfold indicator. apply map_ext. intros d. unfold rel, relevant.
  rewrite (dget_perm (of_query (q_map y) q) (of_query (q_map y') q)); auto; [apply of_query_ok, Hy|now apply of_query_perm].
Qed.
Lemma train_each_trained {A} (f : Qrels -> Run NumR -> Qrels * Run NumR * result A) y (P : (string -> list string) -> A -> Prop) xs :
  qrels_inv y -> (forall x, In x xs -> ok_run y x) ->
  (forall y1 x, qrels_inv y1 -> perm_of (q_map y) (q_map y1) -> ok_run y1 x ->
     exists y2 x' p rk, f y1 x = (y2, x', Ok p) /\ qrels_inv y2 /\ perm_of (q_map y1) (q_map y2) /\
       r_name x' = r_name x /\ (forall q d, score_of x' q d = score_of x q d) /\
       (forall q, has_query x q -> ranks (results_of x q) (rk q)) /\ P rk p) ->
  trained y xs (train_each f y xs) P.
Proof.
  intros Hy Hxs Hf.
  assert (Hgen : forall y1, qrels_inv y1 -> perm_of (q_map y) (q_map y1) ->
    exists y' xs' ps, train_each f y1 xs = (y', xs', Ok ps) /\ perm_of (q_map y) (q_map y') /\
    Forall2 (fun x x' => r_name x' = r_name x /\ forall q d, score_of x' q d = score_of x q d) xs xs' /\
    Forall2 (fun x p => exists rk, (forall q, has_query x q -> ranks (results_of x q) (rk q)) /\ P rk p) xs ps).
  { clear Hy. induction xs as [|x xs IH]; intros y1 H1 Hp; cbn [train_each].
    - exists y1, [], []. repeat split; auto; constructor.
    - destruct (Hf y1 x H1 Hp) as (y2 & x' & p & rk & F1 & F2 & F3 & F4 & F5 & F6 & F7).
      { apply (ok_run_perm y); auto. apply Hxs. now left. }
      rewrite F1. destruct (IH (fun x Hx => Hxs x (or_intror Hx)) y2 F2 (perm_of_trans _ _ _ Hp F3)) as (y' & xs' & ps & I1 & I2 & I3 & I4).
      rewrite I1. exists y', (x' :: xs'), (p :: ps). split; [reflexivity|]. split; [exact I2|].
      split; constructor; auto. eauto. }
  destruct (Hgen y Hy (perm_of_refl _)) as (y' & xs' & ps & I1 & I2 & I3 & I4).
  exists y', xs', ps. split; [exact I1|]. split; [|split; assumption].
  apply perm_of_dget2; [apply Hy|exact I2].
Qed.
Lemma trainable_ok y xs : trainable E y xs -> qrels_inv y /\ forall x, In x xs -> ok_run y x.
Proof.
  intros (Hy & _ & Hxs). split; [now apply qrels_reachable_inv with E|].
  intros x Hx. destruct (Hxs x Hx) as (H1 & H2 & H3). split; [now apply run_reachable_inv with E|]. now split.
Qed.
(** methods that learn from the hit lists of one run *)
Lemma hits_trained {A} (g : list (list R) -> result A) y xs (P : (string -> list string) -> A -> Prop) :
  trainable E y xs ->
  (forall rk, exists p, g (hl (q_map y) rk) = Ok p /\ P rk p) ->
  trained y xs (train_each (fun y x => let '(y', x', h) := train_hits E y x in (y', x', do l <- h; g l)) y xs) P.
Proof.
  intros Ht Hg. destruct (trainable_ok y xs Ht) as [Hy Hxs].
  apply train_each_trained; auto.
  intros y1 x H1 Hp (X1 & X2 & X3). destruct (train_hits_spec y1 x H1 X1 X2 X3) as (x' & rk & T1 & T2 & T3 & T4 & T5).
  destruct (Hg rk) as (p & G1 & G2).
  exists (fst (@Qrels_to_typed_list NumR E y1)), x', p, rk. rewrite T1. cbn [bindr].
  rewrite (hl_perm y y1 rk Hy H1 Hp), G1. split; [reflexivity|]. split; [now apply typed_inv|].
  repeat split; auto.
Qed.
(** methods that list the judgments once *)
Lemma typed_twice y : @Qrels_to_typed_list NumR E (fst (@Qrels_to_typed_list NumR E y)) = @Qrels_to_typed_list NumR E y.
Proof. unfold Qrels_to_typed_list. destruct (q_sorted y) eqn:H; cbn [fst]; [now rewrite H|reflexivity]. Qed.
Lemma all_hits_each y xs : all_hits E y xs = train_each (train_hits E) (fst (@Qrels_to_typed_list NumR E y)) xs.
Proof.
  unfold all_hits. induction xs as [|x xs IH]; [reflexivity|]. cbn [train_each]. unfold train_hits at 1.
  rewrite typed_twice. cbn [fst snd].
  set (y0 := fst (@Qrels_to_typed_list NumR E y)) in *.
  set (rows := snd (@Qrels_to_typed_list NumR E y)) in *.
  destruct (get_hit_lists E rows _ 0 1); [|reflexivity].
  rewrite IH. reflexivity.
Qed.
Lemma all_hits_trained y xs : trainable E y xs -> trained y xs (all_hits E y xs) (fun rk h => h = hl (q_map y) rk).
Proof.
  intros Ht. destruct (trainable_ok y xs Ht) as [Hy Hxs].
  rewrite all_hits_each.
  set (y0 := fst (@Qrels_to_typed_list NumR E y)).
  assert (Hy0 : qrels_inv y0) by now apply typed_inv.
  assert (Hp0 : perm_of (q_map y) (q_map y0)) by (destruct (qrels_typed E HE y Hy) as (_ & _ & _ & _ & _ & Q6 & _); exact Q6).
  assert (H : trained y0 xs (train_each (train_hits E) y0 xs) (fun rk h => h = hl (q_map y) rk)).
  { apply train_each_trained; auto.
    - intros x Hx. eapply ok_run_perm; [exact Hp0|auto].
    - intros y1 x H1 Hp (X1 & X2 & X3). destruct (train_hits_spec y1 x H1 X1 X2 X3) as (x' & rk & T1 & T2 & T3 & T4 & T5).
      exists (fst (@Qrels_to_typed_list NumR E y1)), x', (hl (q_map y1) rk), rk. split; [exact T1|]. split; [now apply typed_inv|].
      repeat split; auto. rewrite (hl_perm y0 y1 rk Hy0 H1 Hp). now apply hl_perm. }
  destruct H as (y' & xs' & ps & H1 & H2 & H3). exists y', xs', ps. split; [exact H1|]. split; [|exact H3].
  intros q d. rewrite H2. apply perm_of_dget2; [apply Hy|exact Hp0].
Qed.
End T.
