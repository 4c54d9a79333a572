(** T_Heap.v: objects do not share results; the dictionaries handed out are live (C92). *)
From Coq Require Import Reals Lra.
From Verif Require Import Base Dict Num NumLaws Env EnvEx M_Common M_Qrels M_Run M_History M_Evaluate M_Norm M_Fusion M_Heap
  Spec_DS Spec_Hist Spec_Heap P_Base P_Dict P_Common P_Heap P_Heap2.
Open Scope string_scope.
Open Scope list_scope.
Open Scope nat_scope.

Section T.
Context {N : Num} (E : env N) (HE : env_ok E) (pysort : (nat -> nat -> bool) -> list nat -> list nat).
Notation exec := (exec E pysort).
Lemma exec_app p c : exec (p ++ [c]) = step E pysort (exec p) c.
Proof. unfold exec. now rewrite fold_left_app. Qed.
Lemma last_ok p (c : call N) : Forall call_ok (p ++ [c]) -> Forall call_ok p /\ call_ok c.
Proof. intros H. apply Forall_app in H as [H1 H2]. inversion H2; auto. Qed.
Lemma only_exec i l p p' : Forall call_ok (p ++ p') ->
  only i l (rh (exec p)) (map (@hr_map N) (runs (exec p))) -> only i l (rh (exec (p ++ p'))) (map (@hr_map N) (runs (exec (p ++ p')))).
Proof.
  revert p'. apply (rev_ind (fun p' => Forall (@call_ok N) (p ++ p') -> only i l (rh (exec p)) (map (@hr_map N) (runs (exec p))) ->
     only i l (rh (exec (p ++ p'))) (map (@hr_map N) (runs (exec (p ++ p')))))); [intros; now rewrite app_nil_r|].
  intros c p' IH H H0. rewrite app_assoc in *. apply last_ok in H as [H1 H2]. rewrite exec_app.
  destruct (step_ok E HE pysort (exec (p ++ p')) c (exec_good E HE pysort _ H1) H2) as (A & _). eapply only_move; [exact A|]. now apply IH.
Qed.
Lemma eval_views t j i y x metrics mean std save mk : rviews (h_evaluate E t j i y x metrics mean std save mk) = rviews t.
Proof.
  unfold h_evaluate. match goal with |- context[if mk then ?a else ?b] => destruct (if mk then a else b) as [h1 x1] end.
  match goal with |- context[check_keys ?a ?b] => destruct (check_keys a b) end; [|reflexivity].
  destruct (hr_step E h1 x1 RToTypedList) as [h2 x2]. match goal with |- context[ev_r ?a] => destruct (ev_r a) end; reflexivity.
Qed.
Lemma rviews_step t c : exists l, rviews (step E pysort t c) = rviews t ++ l.
Proof.
  destruct c; cbn [step];
    repeat match goal with
    | |- context[match nth_error ?a ?b with _ => _ end] => destruct (nth_error a b)
    | |- context[match normalize ?a ?b ?c with _ => _ end] => destruct (normalize a b c)
    | |- context[match map_m ?a ?b with _ => _ end] => destruct (map_m a b)
    | |- context[match fuse ?a ?b ?c ?d ?e ?f with _ => _ end] => destruct (fuse a b c d e f)
    | |- context[push_run ?t ?x] => unfold push_run, r_fresh
    | |- context[let (_, _) := h_fresh ?a ?b in _] => destruct (h_fresh a b)
    | |- context[q_fresh ?a ?b] => destruct (q_fresh a b)
    end; rewrite ?eval_views; cbn [rviews]; try (exists []; now rewrite app_nil_r); try (eexists; reflexivity).
Qed.
Lemma rviews_exec p p' : exists l, rviews (exec (p ++ p')) = rviews (exec p) ++ l.
Proof.
  revert p'. apply (rev_ind (fun p' => exists l, rviews (exec (p ++ p')) = rviews (exec p) ++ l)); [exists []; now rewrite !app_nil_r|].
  intros c p' [l IH]. rewrite app_assoc, exec_app. destruct (rviews_step (exec (p ++ p')) c) as [l' H]. exists (l ++ l'). now rewrite H, IH, app_assoc.
Qed.
Lemma view_later p p' v l : nth_error (rviews (exec p)) v = Some l -> nth_error (rviews (exec (p ++ p'))) v = Some l.
Proof.
  intros H. destruct (rviews_exec p p') as [l' ->]. rewrite nth_error_app1; [exact H|]. apply nth_error_Some. congruence.
Qed.
Lemma value_at p i x : nth_error (run_values (exec p)) i = Some x ->
  exists o, nth_error (runs (exec p)) i = Some o /\ x = r_value (rh (exec p)) o.
Proof.
  unfold run_values. rewrite nth_map. destruct (nth_error (runs (exec p)) i) as [o|]; [|discriminate]. intros H. injection H as <-. eauto.
Qed.
(** the k-th dictionary handed out *)
Lemma view_place p i x k q : nth_error (run_values (exec p)) i = Some x -> nth_error (dkeys (r_map x)) k = Some q ->
  dict_ok (r_map x) -> exists o l, nth_error (runs (exec p)) i = Some o /\ x = r_value (rh (exec p)) o /\ dget (hr_map o) q = Some l /\
    nth_error (rviews (exec (p ++ [RunViews i]))) (length (rviews (exec p)) + k) = Some l.
Proof.
  intros Hx Hq Hk. destruct (value_at p i x Hx) as (o & Ho & ->). cbn [r_map r_value] in *. rewrite deref_mapv, mapv_keys in Hq.
  assert (Hko : dict_ok (hr_map o)) by (unfold dict_ok in *; now rewrite deref_mapv, mapv_keys in Hk).
  destruct (dget_nth_key _ _ _ Hko Hq) as (l & Hl & Hg). exists o, l. split; [exact Ho|]. split; [reflexivity|]. split; [exact Hg|].
  rewrite exec_app. cbn [step]. rewrite Ho. cbn [rviews]. rewrite nth_error_app2 by lia.
  replace (length (rviews (exec p)) + k - length (rviews (exec p))) with k by lia. unfold dvals. now rewrite nth_error_map, Hl.
Qed.

(** Whatever the program did before, also if it wrote into dictionaries that it got from objects: a call acts as if
    all objects were separate values. *)
Theorem C92_step : forall p c, Forall call_ok (p ++ [c]) -> is_write c = false ->
  observe (exec (p ++ [c])) = vstep E pysort (observe (exec p)) c.
Proof.
  intros p c H Hw. apply last_ok in H as [H1 H2]. rewrite exec_app.
  destruct (step_ok E HE pysort (exec p) c (exec_good E HE pysort _ H1) H2) as (_ & _ & _ & H). now apply H.
Qed.
(** Hence whole programs that do not write into these dictionaries. *)
Theorem C92_no_sharing : forall p, Forall call_ok p -> Forall (fun c => is_write c = false) p ->
  observe (exec p) = fold_left (vstep E pysort) p ([], []).
Proof.
  apply (rev_ind (fun p => Forall call_ok p -> Forall (fun c => is_write c = false) p -> observe (exec p) = fold_left (vstep E pysort) p ([], [])));
    [reflexivity|]. intros c p IH H Hw. apply Forall_app in Hw as [Hw1 Hw2]. inversion Hw2; subst.
  rewrite C92_step, fold_left_app by assumption. cbn [fold_left]. now rewrite IH by (try assumption; now apply last_ok in H).
Qed.

(** A write into a dictionary got from a run changes nothing, or the results of one query of one run and nothing else:
    in particular not the mark that the run is sorted. *)
Theorem C92_write_run : forall p v d s, Forall call_ok p ->
  let w := observe (exec p) in let w' := observe (exec (p ++ [RunWrite v d s])) in
  w' = w \/ exists i x q r, nth_error (fst w) i = Some x /\ dget (r_map x) q = Some r /\
    w' = (set_nth (fst w) i (mkRun (dset (r_map x) q (dset r d s)) (r_sorted x) (r_name x) (r_scores x) (r_mean x) (r_std x)), snd w).
Proof.
  intros p v d s H w w'. unfold w', w. rewrite exec_app. cbn [step]. pose proof (exec_good E HE pysort _ H) as (Gr & Gq & Gv & _).
  set (t := exec p) in *. destruct (nth_error (rviews t) v) as [l|] eqn:Hv; [|now left].
  assert (Hl : l < length (rh t)) by (apply Gv; eapply nth_error_In; exact Hv).
  destruct (write_cases (rh t) _ l d s Gr Hl) as [Hn|(i & m & q & Hi & Hg & Hd & Hn)].
  - left. unfold observe, run_values, qrels_values. cbn [rh runs qh qrelss]. f_equal. apply map_ext_in. intros x Hx. apply In_nth_error in Hx as [j Hj].
    apply r_value_deref. apply (Hn j). now rewrite nth_map, Hj.
  - right. rewrite nth_map in Hi. destruct (nth_error (runs t) i) as [o|] eqn:Ho; [|discriminate]. injection Hi as <-.
    exists i, (r_value (rh t) o), q, (hget (rh t) l). cbn [observe fst snd]. split; [unfold run_values; now rewrite nth_map, Ho|].
    split; [cbn [r_value r_map]; rewrite deref_mapv, mapv_get, Hg; reflexivity|].
    unfold observe, run_values, qrels_values. cbn [rh runs qh qrelss]. f_equal. apply nth_error_ext. intros j.
    assert (Hi2 : nth_error (map (r_value (rh t)) (runs t)) i = Some (r_value (rh t) o)) by now rewrite nth_map, Ho.
    rewrite (nth_set _ _ _ _ _ Hi2), nth_map. destruct (Nat.eqb_spec j i) as [ -> |Hne].
    + rewrite Ho. cbn [option_map]. unfold r_value at 1. rewrite Hd. reflexivity.
    + rewrite nth_map. destruct (nth_error (runs t) j) as [xj|] eqn:Hj; [|reflexivity]. cbn [option_map]. f_equal.
      apply r_value_deref. apply (Hn j); [now rewrite nth_map, Hj|exact Hne].
Qed.
Theorem C92_write_qrels : forall p v d s, Forall call_ok p ->
  let w := observe (exec p) in let w' := observe (exec (p ++ [QrelsWrite v d s])) in
  w' = w \/ exists j y q r, nth_error (snd w) j = Some y /\ dget (q_map y) q = Some r /\
    w' = (fst w, set_nth (snd w) j (mkQrels (dset (q_map y) q (dset r d s)) (q_sorted y) (q_name y))).
Proof.
  intros p v d s H w w'. unfold w', w. rewrite exec_app. cbn [step]. pose proof (exec_good E HE pysort _ H) as (Gr & Gq & _ & Gv).
  set (t := exec p) in *. destruct (nth_error (qviews t) v) as [l|] eqn:Hv; [|now left].
  assert (Hl : l < length (qh t)) by (apply Gv; eapply nth_error_In; exact Hv).
  destruct (write_cases (qh t) _ l d s Gq Hl) as [Hn|(i & m & q & Hi & Hg & Hd & Hn)].
  - left. unfold observe, run_values, qrels_values. cbn [rh runs qh qrelss]. f_equal. apply map_ext_in. intros x Hx. apply In_nth_error in Hx as [j Hj].
    apply q_value_deref. apply (Hn j). now rewrite nth_map, Hj.
  - right. rewrite nth_map in Hi. destruct (nth_error (qrelss t) i) as [o|] eqn:Ho; [|discriminate]. injection Hi as <-.
    exists i, (q_value (qh t) o), q, (hget (qh t) l). cbn [observe fst snd]. split; [unfold qrels_values; now rewrite nth_map, Ho|].
    split; [cbn [q_value q_map]; rewrite deref_mapv, mapv_get, Hg; reflexivity|].
    unfold observe, run_values, qrels_values. cbn [rh runs qh qrelss]. f_equal. apply nth_error_ext. intros j.
    assert (Hi2 : nth_error (map (q_value (qh t)) (qrelss t)) i = Some (q_value (qh t) o)) by now rewrite nth_map, Ho.
    rewrite (nth_set _ _ _ _ _ Hi2), nth_map. destruct (Nat.eqb_spec j i) as [ -> |Hne].
    + rewrite Ho. cbn [option_map]. unfold q_value at 1. rewrite Hd. reflexivity.
    + rewrite nth_map. destruct (nth_error (qrelss t) j) as [xj|] eqn:Hj; [|reflexivity]. cbn [option_map]. f_equal.
      apply q_value_deref. apply (Hn j); [now rewrite nth_map, Hj|exact Hne].
Qed.

Lemma write_place p v l d s o i q : Forall call_ok p -> nth_error (rviews (exec p)) v = Some l ->
  nth_error (runs (exec p)) i = Some o -> dget (hr_map o) q = Some l ->
  let x := r_value (rh (exec p)) o in
  observe (exec (p ++ [RunWrite v d s])) = (set_nth (run_values (exec p)) i
    (mkRun (dset (r_map x) q (dset (hget (rh (exec p)) l) d s)) (r_sorted x) (r_name x) (r_scores x) (r_mean x) (r_std x)), qrels_values (exec p)).
Proof.
  intros H Hv Ho Hg x. rewrite exec_app. cbn [step]. rewrite Hv. pose proof (exec_good E HE pysort _ H) as (Gr & Gq & Gv & _). set (t := exec p) in *.
  pose proof (proj1 Gr i (hr_map o)) as Hown. rewrite nth_map, Ho in Hown. specialize (Hown eq_refl).
  assert (Hu : upd (rh t) (hr_map o) (hput (rh t) l (dset (hget (rh t) l) d s)) (hr_map o) /\ _) by exact (put_ok _ _ q l _ Hown Hg). destruct Hu as [Hu Hd].
  set (h' := hput (rh t) l (dset (hget (rh t) l) d s)) in *. unfold observe, run_values, qrels_values. cbn [rh runs qh qrelss]. f_equal.
  pose proof (runs_upd (rh t) (runs t) i o h' o (r_value h' o) Gr Ho (conj Hu eq_refl)) as Hr.
  rewrite (set_nth_same (runs t) i o Ho) in Hr. rewrite Hr. f_equal. unfold x, r_value. rewrite Hd. reflexivity.
Qed.

(** A dictionary just handed out is live: writing into it changes the run. *)
Theorem C92_view_live : forall p i x k q r d s, Forall call_ok p ->
  nth_error (fst (observe (exec p))) i = Some x -> nth_error (dkeys (r_map x)) k = Some q -> dget (r_map x) q = Some r ->
  observe (exec (p ++ [RunViews i; RunWrite (length (rviews (exec p)) + k) d s])) =
  (set_nth (fst (observe (exec p))) i (mkRun (dset (r_map x) q (dset r d s)) (r_sorted x) (r_name x) (r_scores x) (r_mean x) (r_std x)), snd (observe (exec p))).
Proof.
  intros p i x k q r d s H Hx Hq Hr. cbn [observe fst snd] in *.
  assert (Hk : dict_ok (r_map x)).
  { destruct (value_at p i x Hx) as (o & Ho & ->). pose proof (exec_good E HE pysort _ H) as (Gr & _).
    pose proof (proj1 Gr i (hr_map o)) as Hown. rewrite nth_map, Ho in Hown. specialize (Hown eq_refl). destruct Hown as (_ & _ & Hown).
    unfold dict_ok in *. cbn [r_value r_map]. now rewrite deref_mapv, mapv_keys. }
  destruct (view_place p i x k q Hx Hq Hk) as (o & l & Ho & -> & Hg & Hv).
  assert (Hr' : r = hget (rh (exec p)) l).
  { cbn [r_value r_map] in Hr. rewrite deref_mapv, mapv_get, Hg in Hr. now injection Hr as <-. }
  change [RunViews i; RunWrite (length (rviews (exec p)) + k) d s] with ([RunViews i] ++ [RunWrite (length (rviews (exec p)) + k) d s : call N]).
  rewrite app_assoc. assert (H' : Forall (@call_ok N) (p ++ [RunViews i])) by (apply Forall_app; split; [exact H|repeat constructor]).
  assert (Hst : runs (exec (p ++ [RunViews i])) = runs (exec p) /\ rh (exec (p ++ [RunViews i])) = rh (exec p) /\ observe (exec (p ++ [RunViews i])) = observe (exec p)).
  { rewrite exec_app. cbn [step]. destruct (nth_error (runs (exec p)) i); auto. }
  destruct Hst as (S1 & S2 & S3). erewrite (write_place (p ++ [RunViews i])); [|exact H'|exact Hv|rewrite S1; exact Ho|exact Hg].
  pose proof (f_equal fst S3) as S4. pose proof (f_equal snd S3) as S5. cbn [observe fst snd] in S4, S5. rewrite S2, S4, S5, Hr'. reflexivity.
Qed.

(** A dictionary got from run [i] never reaches another object, whatever is done in between (fusing, normalising,
    evaluating, ...). *)
Theorem C92_view_owner : forall p p' i x k d s, Forall call_ok (p ++ RunViews i :: p') ->
  nth_error (fst (observe (exec p))) i = Some x -> k < length (r_map x) ->
  let w := observe (exec (p ++ RunViews i :: p')) in
  let w' := observe (exec ((p ++ RunViews i :: p') ++ [RunWrite (length (rviews (exec p)) + k) d s])) in
  snd w' = snd w /\ forall j, j <> i -> nth_error (fst w') j = nth_error (fst w) j.
Proof.
  intros p p' i x k d s H Hx Hk w w'. unfold w', w. clear w w'. cbn [observe fst snd] in Hx.
  change (p ++ RunViews i :: p') with (p ++ [RunViews i] ++ p') in *. rewrite (app_assoc p) in *.
  assert (Hp : Forall call_ok p) by (apply Forall_app in H as [H _]; now apply last_ok in H).
  pose proof (exec_good E HE pysort _ Hp) as (Gr & _).
  destruct (nth_error (dkeys (r_map x)) k) as [q|] eqn:Hq.
  2:{ apply nth_error_None in Hq. unfold dkeys in Hq. rewrite map_length in Hq. lia. }
  assert (Hkk : dict_ok (r_map x)).
  { destruct (value_at p i x Hx) as (o & Ho & ->). 
    pose proof (proj1 Gr i (hr_map o)) as Hown. rewrite nth_map, Ho in Hown. specialize (Hown eq_refl). destruct Hown as (_ & _ & Hown).
    unfold dict_ok in *. cbn [r_value r_map]. now rewrite deref_mapv, mapv_keys. }
  destruct (view_place p i x k q Hx Hq Hkk) as (o & l & Ho & -> & Hg & Hv).
  apply (view_later _ p') in Hv.
  assert (Hon : only i l (rh (exec (p ++ [RunViews i]))) (map (@hr_map N) (runs (exec (p ++ [RunViews i]))))).
  { apply only_exec; [apply Forall_app in H as [H _]; exact H|]. assert (Hi : nth_error (map (@hr_map N) (runs (exec p))) i = Some (hr_map o)) by now rewrite nth_map, Ho. split.
    - apply (proj1 (proj1 Gr _ _ Hi)). eapply dget_vals. exact Hg.
    - intros j mj Hj Hin. eapply (proj2 Gr); [exact Hj|exact Hi|exact Hin|eapply dget_vals; exact Hg]. }
  apply (only_exec i l _ p' H) in Hon. set (pp := (p ++ [RunViews i]) ++ p') in *.
  rewrite exec_app. cbn [step]. rewrite Hv. cbn [observe fst snd run_values qrels_values rh runs qh qrelss]. split; [reflexivity|].
  intros j Hj. unfold run_values. cbn [rh runs]. rewrite !nth_map. destruct (nth_error (runs (exec pp)) j) as [oj|] eqn:Hoj; [|reflexivity]. cbn [option_map]. f_equal.
  apply r_value_deref. rewrite !deref_mapv. apply mapv_ext. intros l' Hl'. apply hget_hput_ne. intros ->. apply Hj.
  eapply (proj2 Hon); [|exact Hl']. now rewrite nth_map, Hoj.
Qed.

(** After the run is sorted (or aligned with qrels, which sorts) the dictionaries handed out before are detached: writing into them changes no object, ever. *)
Theorem C92_view_detached : forall p o p' i x k d s, Forall call_ok (p ++ RunViews i :: RunCall i o :: p') ->
  (o = RSort \/ exists y, o = RMakeComparable y) ->
  nth_error (fst (observe (exec p))) i = Some x -> k < length (r_map x) ->
  observe (exec ((p ++ RunViews i :: RunCall i o :: p') ++ [RunWrite (length (rviews (exec p)) + k) d s])) =
  observe (exec (p ++ RunViews i :: RunCall i o :: p')).
Proof.
  intros p o p' i x k d s H Hso Hx Hk. cbn [observe fst snd] in Hx.
  change (p ++ RunViews i :: RunCall i o :: p') with (p ++ [RunViews i] ++ [RunCall i o] ++ p') in *. rewrite !(app_assoc p), !(app_assoc (p ++ [RunViews i])) in *.
  assert (H2 : Forall (@call_ok N) ((p ++ [RunViews i]) ++ [RunCall i o])) by (apply Forall_app in H as [H _]; exact H).
  assert (H1 : Forall (@call_ok N) (p ++ [RunViews i])) by now apply last_ok in H2.
  assert (Hp : Forall call_ok p) by now apply last_ok in H1.
  pose proof (exec_good E HE pysort _ Hp) as (Gr & _).
  destruct (nth_error (dkeys (r_map x)) k) as [q|] eqn:Hq.
  2:{ apply nth_error_None in Hq. unfold dkeys in Hq. rewrite map_length in Hq. lia. }
  assert (Hkk : dict_ok (r_map x)).
  { destruct (value_at p i x Hx) as (ob & Ho & ->). 
    pose proof (proj1 Gr i (hr_map ob)) as Hown. rewrite nth_map, Ho in Hown. specialize (Hown eq_refl). destruct Hown as (_ & _ & Hown).
    unfold dict_ok in *. cbn [r_value r_map]. now rewrite deref_mapv, mapv_keys. }
  destruct (view_place p i x k q Hx Hq Hkk) as (ob & l & Ho & -> & Hg & Hv).
  apply (view_later _ [RunCall i o]) in Hv. apply (view_later _ p') in Hv.
  assert (Hst : runs (exec (p ++ [RunViews i])) = runs (exec p) /\ rh (exec (p ++ [RunViews i])) = rh (exec p)).
  { rewrite exec_app. cbn [step]. destruct (nth_error (runs (exec p)) i); auto. }
  destruct Hst as [S1 S2].
  assert (Hi : nth_error (map (@hr_map N) (runs (exec p))) i = Some (hr_map ob)) by now rewrite nth_map, Ho.
  assert (Hown := proj1 Gr _ _ Hi).
  assert (Hl : l < length (rh (exec p))) by (apply (proj1 Hown); eapply dget_vals; exact Hg).
  (* after the call no object owns the place *)
  assert (Hno : forall k, only k l (rh (exec ((p ++ [RunViews i]) ++ [RunCall i o]))) (map (@hr_map N) (runs (exec ((p ++ [RunViews i]) ++ [RunCall i o]))))).
  { intros k'. rewrite (exec_app (p ++ [RunViews i])). cbn [step]. rewrite S1, Ho, S2.
    set (t1 := exec (p ++ [RunViews i])) in *.
    assert (Hfr : exists h' x', hr_step E (rh (exec p)) ob o = (h', x') /\ length (rh (exec p)) <= length h' /\ forall l', In l' (dvals (hr_map x')) -> length (rh (exec p)) <= l').
    { destruct Hso as [ -> |[y -> ]]; cbn [hr_step].
      - unfold hr_sort. pose proof (sort_fresh E r_negf (rh (exec p)) (hr_map ob) Hown) as Hf. destruct (h_sort E r_negf (rh (exec p)) (hr_map ob)) as [h' m'].
        do 2 eexists. split; [reflexivity|]. cbn [fst snd hr_map hr_with] in *. split; [apply Hf|]. intros l' Hl'. destruct (proj1 (proj2 (proj2 Hf)) l' Hl') as [_ [[]|?]]. assumption.
      - unfold hr_make_comparable. pose proof (align_ok (rh (exec p)) (hr_map ob) (q_map y) Hown) as Ha. destruct (h_align (rh (exec p)) (hr_map ob) (q_map y)) as [h1 m1]. destruct Ha as [Ha _].
        unfold hr_sort. cbn [hr_map hr_with]. pose proof (sort_fresh E r_negf h1 m1 (upd_own _ _ _ _ Ha)) as Hf. destruct (h_sort E r_negf h1 m1) as [h' m'].
        do 2 eexists. split; [reflexivity|]. cbn [fst snd hr_map hr_with] in *. pose proof (proj1 Ha). split; [pose proof (proj1 Hf); lia|]. intros l' Hl'. destruct (proj1 (proj2 (proj2 Hf)) l' Hl') as [_ [[]|?]]. lia. }
    destruct Hfr as (h' & x' & -> & Hlen & Hfr). unfold set_run. cbn [rh runs fst snd]. rewrite S1, map_set_nth. split; [lia|].
    intros j mj. rewrite (nth_set _ _ _ _ _ Hi). destruct (Nat.eqb_spec j i) as [ -> |Hne].
    - intros A Hin. injection A as <-. apply Hfr in Hin. lia.
    - intros A Hin. exfalso. apply Hne. eapply (proj2 Gr); [exact A|exact Hi|exact Hin|eapply dget_vals; exact Hg]. }
  pose proof (only_exec 0 l _ p' H (Hno 0)) as O1. pose proof (only_exec 1 l _ p' H (Hno 1)) as O2.
  set (pp := ((p ++ [RunViews i]) ++ [RunCall i o]) ++ p') in *. rewrite exec_app. cbn [step]. rewrite Hv.
  unfold observe, run_values, qrels_values. cbn [rh runs qh qrelss]. f_equal. apply map_ext_in. intros oj Hoj. apply In_nth_error in Hoj as [j Hj].
  apply r_value_deref. rewrite !deref_mapv. apply mapv_ext. intros l' Hl'. apply hget_hput_ne. intros ->.
  assert (Hj' : nth_error (map (@hr_map N) (runs (exec pp))) j = Some (hr_map oj)) by now rewrite nth_map, Hj.
  pose proof (proj2 O1 _ _ Hj' Hl'). pose proof (proj2 O2 _ _ Hj' Hl'). congruence.
Qed.
End T.

(** The mark "sorted" is then no longer true: it is kept by the write, so that evaluate does not sort again. *)
Theorem C92_order_refuted : forall (E : env NumR) pysort, exists p, Forall call_ok p /\
  exists x, fst (observe (exec E pysort p)) = [x] /\ r_sorted x = true /\ ~ @run_in_order NumR (r_map x).
Proof.
  intros E pysort.
  set (x0 := @mkRun NumR [("q", [("a", 2%R); ("b", 1%R)])] true None [] [] [] : Run NumR).
  exists [NewRun x0; RunViews 0; RunWrite 0 "b" (3%R : @F NumR)]. split.
  - repeat constructor. intros [].
  - exists (@mkRun NumR [("q", [("a", 2%R); ("b", 3%R)])] true None [] [] [] : Run NumR). split; [reflexivity|]. split; [reflexivity|].
    intros [_ H]. specialize (H "q" _ eq_refl). inversion H as [|? ? _ Hf]; subst. inversion Hf as [|? ? Hle _]; subst.
    cbn [snd] in Hle. change (Rleb 3 2 = true) in Hle. unfold Rleb in Hle. destruct (Rle_dec 3 2) as [Hc|]; [lra|discriminate Hle].
Qed.

(** two runs, judgments, an edit and two calls that return or change objects *)
Definition ex_heap_run : Run NumR := @mkRun NumR [("q1", [("a", 2%R); ("b", 1%R)]); ("q2", [("c", 3%R)])] true None [] [] [].
Definition ex_heap_program : list (call NumR) :=
  [NewRun ex_heap_run; NewRun ex_heap_run; NewQrels (mkQrels [("q1", [("a", 1%Z)])] true None);
   RunCall 0 (RAddScore "q1" "z" (5%R : @F NumR)); Normalize 0 "min_max"; Fuse [0; 1] None "sum" []; RunViews 1;
   Evaluate 0 1 ["mrr"] true false true true; Align 0 0].
Example ex_C92_program : Forall call_ok ex_heap_program /\ Forall (fun c => is_write c = false) ex_heap_program.
Proof.
  split; [|repeat constructor]. unfold ex_heap_program.
  repeat (apply Forall_cons; [cbn; try exact I|]); try apply Forall_nil; repeat constructor; cbn; intuition discriminate.
Qed.
Example ex_C92 : observe (exec env_ex (fun _ l => l) ex_heap_program) = fold_left (vstep env_ex (fun _ l => l)) ex_heap_program ([], []).
Proof. apply C92_no_sharing; [apply env_ex_ok, NumR_laws|apply ex_C92_program..]. Qed.
(** editing one of two runs with the same contents leaves the other *)
Example ex_C92_edit : forall E pysort,
  observe (exec E pysort [NewRun ex_heap_run; NewRun ex_heap_run; RunCall 0 (RAddScore "q2" "d" (5%R : @F NumR)); RunViews 0; RunWrite 1 "e" (7%R : @F NumR)]) =
  ([@mkRun NumR [("q1", [("a", 2%R); ("b", 1%R)]); ("q2", [("c", 3%R); ("d", 5%R); ("e", 7%R)])] false None [] [] []; ex_heap_run], []).
Proof. reflexivity. Qed.
Example ex_C92_owner : exists x : Run NumR, nth_error (fst (observe (exec env_ex (fun _ l => l) [NewRun ex_heap_run; NewRun ex_heap_run]))) 0 = Some x /\ (1 < length (r_map x)) /\ Forall (@call_ok NumR) ([NewRun ex_heap_run; NewRun ex_heap_run] ++ RunViews 0 :: RunCall 0 RSort :: [Fuse [0; 1] None "max" []]).
Proof.
  exists ex_heap_run. split; [reflexivity|]. split; [cbn; lia|].
  repeat (apply Forall_cons; [cbn; try exact I|]); try apply Forall_nil; repeat constructor; cbn; intuition discriminate.
Qed.

Print Assumptions C92_step.
Print Assumptions C92_no_sharing.
Print Assumptions C92_write_run.
Print Assumptions C92_write_qrels.
Print Assumptions C92_view_live.
Print Assumptions C92_view_owner.
Print Assumptions C92_view_detached.
Print Assumptions C92_order_refuted.
