(** P_Heap2.v: programs with several objects in one memory *)
From Verif Require Import Base Dict Num Env M_Common M_Qrels M_Run M_History M_Evaluate M_Norm M_Fusion M_Heap Spec_Heap
  NumLaws P_Base P_Dict P_Common P_Fusion3 P_Closure P_Heap.
Open Scope list_scope.
Open Scope nat_scope.

Lemma map_set_nth {A B} (f : A -> B) (l : list A) : forall i a, map f (set_nth l i a) = set_nth (map f l) i (f a).
Proof. induction l as [|b l IH]; intros [|i] a; cbn; [reflexivity..|]. f_equal. apply IH. Qed.
Lemma set_nth_twice {A} (l : list A) : forall i a b, set_nth (set_nth l i a) i b = set_nth l i b.
Proof. induction l as [|c l IH]; intros [|i] a b; cbn; [reflexivity..|]. f_equal. apply IH. Qed.
Lemma nth_set {A} (l : list A) i a b j : nth_error l i = Some a -> nth_error (set_nth l i b) j = if j =? i then Some b else nth_error l j.
Proof.
  intros H. destruct (Nat.eqb_spec j i) as [ -> |Hn].
  - apply nth_error_set_nth_eq. apply nth_error_Some. congruence.
  - apply nth_error_set_nth_neq. congruence.
Qed.
Lemma set_nth_same {A} (l : list A) : forall i a, nth_error l i = Some a -> set_nth l i a = l.
Proof. induction l as [|b l IH]; intros [|i] a H; cbn in *; try congruence. f_equal. now apply IH. Qed.
Lemma nth_push {A} (l : list A) a j : nth_error (l ++ [a]) j = if j =? length l then Some a else nth_error l j.
Proof.
  destruct (Nat.eqb_spec j (length l)) as [ -> |Hn].
  - rewrite nth_error_app2 by lia. now rewrite Nat.sub_diag.
  - destruct (Nat.lt_ge_cases j (length l)); [now apply nth_error_app1|].
    transitivity (@None A); [|symmetry]; apply nth_error_None; [rewrite app_length; cbn|]; lia.
Qed.

Section S.
Context {V : Type}.
(** the objects own disjoint places *)
Definition sep (h : heap V) (ms : list hmap) : Prop :=
  (forall i m, nth_error ms i = Some m -> own h m) /\
  (forall i j mi mj l, nth_error ms i = Some mi -> nth_error ms j = Some mj -> In l (dvals mi) -> In l (dvals mj) -> i = j).
(** place [l] exists and no object other than [i] owns it *)
Definition only (i : nat) (l : nat) (h : heap V) (ms : list hmap) : Prop :=
  l < length h /\ forall j mj, nth_error ms j = Some mj -> In l (dvals mj) -> j = i.
Inductive move (h : heap V) (ms : list hmap) : heap V -> list hmap -> Prop :=
| MSame : move h ms h ms
| MUpd i m h' m' : nth_error ms i = Some m -> upd h m h' m' -> move h ms h' (set_nth ms i m')
| MPush h' m' : upd h [] h' m' -> move h ms h' (ms ++ [m'])
| MWrite l r : move h ms (hput h l r) ms.

Lemma own_out (h : heap V) m (h' : heap V) : own h m -> length h <= length h' -> own h' m.
Proof. intros (Hb & H) Hl. split; [|exact H]. intros l Hi. pose proof (Hb l Hi). lia. Qed.
Lemma sep_move h ms h' ms' : move h ms h' ms' -> sep h ms -> sep h' ms'.
Proof.
  intros Hm [H1 H2]. destruct Hm as [|i m h' m' Hi Hu|h' m' Hu|l r].
  - now split.
  - assert (Hl : length h <= length h') by apply Hu. split.
    + intros j mj. rewrite (nth_set _ _ _ _ _ Hi). destruct (j =? i).
      * intros H. injection H as <-. eapply upd_own. exact Hu.
      * intros H. eapply own_out; [eapply H1; exact H|exact Hl].
    + intros j k mj mk l. rewrite !(nth_set _ _ _ _ _ Hi). destruct (Nat.eqb_spec j i) as [ -> |Hj], (Nat.eqb_spec k i) as [ -> |Hk]; auto.
      * intros A B Ha Hb. injection A as <-. destruct (proj1 (proj2 (proj2 Hu)) l Ha) as [_ [Hl'|Hl']]; [eapply H2; eassumption|].
        pose proof (proj1 (H1 _ _ B) l Hb). lia.
      * intros A B Ha Hb. injection B as <-. destruct (proj1 (proj2 (proj2 Hu)) l Hb) as [_ [Hl'|Hl']]; [eapply H2; eassumption|].
        pose proof (proj1 (H1 _ _ A) l Ha). lia.
      * intros A B. eapply H2; eassumption.
  - assert (Hl : length h <= length h') by apply Hu.
    assert (Hf : forall l, In l (dvals m') -> length h <= l) by (intros l Hi; destruct (proj1 (proj2 (proj2 Hu)) l Hi) as [_ [[]|?]]; assumption).
    split.
    + intros j mj. rewrite nth_push. destruct (j =? length ms).
      * intros H. injection H as <-. eapply upd_own. exact Hu.
      * intros H. eapply own_out; [eapply H1; exact H|exact Hl].
    + intros j k mj mk l. rewrite !nth_push. destruct (Nat.eqb_spec j (length ms)) as [Ej|Hj], (Nat.eqb_spec k (length ms)) as [Ek|Hk].
      * congruence.
      * intros A B Ha Hb. injection A as <-. pose proof (Hf l Ha). pose proof (proj1 (H1 _ _ B) l Hb). lia.
      * intros A B Ha Hb. injection B as <-. pose proof (Hf l Hb). pose proof (proj1 (H1 _ _ A) l Ha). lia.
      * intros A B. eapply H2; eassumption.
  - split; [|exact H2]. intros j m Hj. eapply own_out; [eapply H1; exact Hj|]. rewrite hput_length. lia.
Qed.
Lemma only_move i l h ms h' ms' : move h ms h' ms' -> only i l h ms -> only i l h' ms'.
Proof.
  intros Hm [H1 H2]. destruct Hm as [|k m h' m' Hk Hu|h' m' Hu|l' r].
  - now split.
  - split; [pose proof (proj1 Hu); lia|]. intros j mj. rewrite (nth_set _ _ _ _ _ Hk). destruct (Nat.eqb_spec j k) as [ -> |Hj]; [|apply H2].
    intros A Ha. injection A as <-. destruct (proj1 (proj2 (proj2 Hu)) l Ha) as [_ [Hl|Hl]]; [eapply H2; eassumption|lia].
  - split; [pose proof (proj1 Hu); lia|]. intros j mj. rewrite nth_push. destruct (Nat.eqb_spec j (length ms)) as [ -> |Hj]; [|apply H2].
    intros A Ha. injection A as <-. destruct (proj1 (proj2 (proj2 Hu)) l Ha) as [_ [[]|Hl]]. lia.
  - split; [now rewrite hput_length|exact H2].
Qed.
Lemma move_length h ms h' ms' : move h ms h' ms' -> length h <= length h'.
Proof. intros [|i m h1 m' Hi Hu|h1 m' Hu|l r]; [lia|apply Hu|apply Hu|rewrite hput_length; lia]. Qed.
(** what the other objects see *)
Lemma upd_other h ms i m h' m' j mj : sep h ms -> nth_error ms i = Some m -> upd h m h' m' -> nth_error ms j = Some mj -> j <> i -> deref h' mj = deref h mj.
Proof.
  intros [H1 H2] Hi Hu Hj Hn. rewrite !deref_mapv. apply mapv_ext. intros l Hl. apply (proj1 (proj2 Hu)).
  - now apply (proj1 (H1 _ _ Hj)).
  - intros Hc. apply Hn. eapply H2; eassumption.
Qed.
Lemma push_other h ms h' m' j mj : sep h ms -> upd h [] h' m' -> nth_error ms j = Some mj -> deref h' mj = deref h mj.
Proof.
  intros [H1 H2] Hu Hj. rewrite !deref_mapv. apply mapv_ext. intros l Hl. apply (proj1 (proj2 Hu)); [|easy].
  now apply (proj1 (H1 _ _ Hj)).
Qed.
(** a write through a reference *)
Lemma write_cases (h : heap V) ms l d s : sep h ms -> l < length h ->
  (forall j mj, nth_error ms j = Some mj -> deref (hput h l (dset (hget h l) d s)) mj = deref h mj) \/
  exists i m q, nth_error ms i = Some m /\ dget m q = Some l /\
    deref (hput h l (dset (hget h l) d s)) m = dset (deref h m) q (dset (hget h l) d s) /\
    forall j mj, nth_error ms j = Some mj -> j <> i -> deref (hput h l (dset (hget h l) d s)) mj = deref h mj.
Proof.
  intros [H1 H2] Hl.
  assert (Hdec : (exists i m, nth_error ms i = Some m /\ In l (dvals m)) \/ forall i m, nth_error ms i = Some m -> ~ In l (dvals m)).
  { clear. induction ms as [|m ms IH]; [right; intros [|i] m; discriminate|].
    destruct (in_dec Nat.eq_dec l (dvals m)) as [Hi|Hi]; [left; exists 0, m; auto|]. destruct IH as [(i & m' & H)|H].
    - left. exists (S i), m'. exact H.
    - right. intros [|i] m'; cbn; [intros A; now injection A as <-|apply H]. }
  assert (Hne : forall m, ~ In l (dvals m) -> deref (hput h l (dset (hget h l) d s)) m = deref h m).
  { intros m Hm. rewrite !deref_mapv. apply mapv_ext. intros l' Hl'. apply hget_hput_ne. intros ->. contradiction. }
  destruct Hdec as [(i & m & Hi & Hm)|Hno].
  - right. pose proof (H1 _ _ Hi) as Ho. pose proof Ho as (Hb & Hnd & Hk). unfold dvals in Hm. apply in_map_iff in Hm as ([q l0] & Hq & Hin). cbn in Hq. subst l0.
    apply (in_dget m q l Hk) in Hin as Hg. exists i, m, q. split; [exact Hi|]. split; [exact Hg|]. split; [now apply deref_hput|].
    intros j mj Hj Hn. apply Hne. intros Hc. apply Hn. eapply H2; try eassumption. eapply dget_vals. exact Hg.
  - left. intros j mj Hj. apply Hne. eapply Hno. exact Hj.
Qed.
Lemma fresh_ok h (m : dict (dict V)) : dict_ok m -> upd h [] (fst (h_fresh h m)) (snd (h_fresh h m)) /\ deref (fst (h_fresh h m)) (snd (h_fresh h m)) = m.
Proof.
  intros Hk. unfold h_fresh. cbn [fst snd]. assert (Hl : length (dkeys m) = length (dvals m)) by (unfold dkeys, dvals; now rewrite !map_length).
  destruct (block_ok h [] (dkeys m) (dvals m) Hk Hl) as [H1 H2].
  replace (length m) with (length (dvals m)) by (unfold dvals; now rewrite map_length). split; [exact H1|]. rewrite H2.
  clear. induction m as [|[k v] m IH]; cbn; [reflexivity|]. f_equal. exact IH.
Qed.
End S.

Section M.
Context {N : Num} (E : env N) (HE : env_ok E) (pysort : (nat -> nat -> bool) -> list nat -> list nat).

Notation rmaps t := (map (@hr_map N) (runs t)).
Notation qmaps t := (map hq_map (qrelss t)).
Definition good (t : state N) : Prop :=
  sep (rh t) (rmaps t) /\ sep (qh t) (qmaps t) /\
  (forall l, In l (rviews t) -> l < length (rh t)) /\ (forall l, In l (qviews t) -> l < length (qh t)).

Lemma r_value_deref h h' (x : hrun N) : deref h' (hr_map x) = deref h (hr_map x) -> r_value h' x = r_value h x.
Proof. unfold r_value. now intros ->. Qed.
Lemma q_value_deref h h' (y : hqrels) : deref h' (hq_map y) = deref h (hq_map y) -> q_value h' y = q_value h y.
Proof. unfold q_value. now intros ->. Qed.
Lemma nth_map {A B} (f : A -> B) l i : nth_error (map f l) i = option_map f (nth_error l i).
Proof. apply nth_error_map. Qed.

Lemma runs_upd h rs i x h' x' v : sep h (map (@hr_map N) rs) -> nth_error rs i = Some x -> r_upd h x h' x' v ->
  map (r_value h') (set_nth rs i x') = set_nth (map (r_value h) rs) i v.
Proof.
  intros Hs Hi [Hu Hv]. rewrite map_set_nth, Hv. apply nth_error_ext. intros j.
  assert (Hi1 : nth_error (map (r_value h') rs) i = Some (r_value h' x)) by now rewrite nth_map, Hi.
  assert (Hi2 : nth_error (map (r_value h) rs) i = Some (r_value h x)) by now rewrite nth_map, Hi.
  rewrite (nth_set _ _ _ _ _ Hi1), (nth_set _ _ _ _ _ Hi2). destruct (Nat.eqb_spec j i) as [|Hn]; [reflexivity|].
  rewrite !nth_map. destruct (nth_error rs j) as [xj|] eqn:Hj; cbn [option_map]; [|reflexivity]. f_equal. apply r_value_deref.
  eapply upd_other; [exact Hs| |exact Hu| |exact Hn]; now rewrite nth_map, ?Hi, ?Hj.
Qed.
Lemma qrels_upd h ys j y h' y' v : sep h (map hq_map ys) -> nth_error ys j = Some y -> q_upd h y h' y' v ->
  map (q_value h') (set_nth ys j y') = set_nth (map (q_value h) ys) j v.
Proof.
  intros Hs Hi [Hu Hv]. rewrite map_set_nth, Hv. apply nth_error_ext. intros k.
  assert (Hi1 : nth_error (map (q_value h') ys) j = Some (q_value h' y)) by now rewrite nth_map, Hi.
  assert (Hi2 : nth_error (map (q_value h) ys) j = Some (q_value h y)) by now rewrite nth_map, Hi.
  rewrite (nth_set _ _ _ _ _ Hi1), (nth_set _ _ _ _ _ Hi2). destruct (Nat.eqb_spec k j) as [|Hn]; [reflexivity|].
  rewrite !nth_map. destruct (nth_error ys k) as [xj|] eqn:Hj; cbn [option_map]; [|reflexivity]. f_equal. apply q_value_deref.
  eapply upd_other; [exact Hs| |exact Hu| |exact Hn]; now rewrite nth_map, ?Hi, ?Hj.
Qed.

(** the two halves of a step *)
Definition rmove (t t' : state N) : Prop := move (rh t) (rmaps t) (rh t') (rmaps t').
Definition qmove (t t' : state N) : Prop := move (qh t) (qmaps t) (qh t') (qmaps t').
Definition views_kept (t t' : state N) : Prop := 
  (forall l, In l (rviews t') -> In l (rviews t) \/ l < length (rh t)) /\ (forall l, In l (qviews t') -> In l (qviews t) \/ l < length (qh t)).
Definition step_fine (c : call N) (t t' : state N) : Prop :=
  rmove t t' /\ qmove t t' /\ views_kept t t' /\ (is_write c = false -> observe t' = vstep E pysort (observe t) c).
Lemma views_same t t' : rviews t' = rviews t -> qviews t' = qviews t -> views_kept t t'.
Proof. unfold views_kept. intros -> ->. auto. Qed.
Lemma same_fine c t : vstep E pysort (observe t) c = observe t -> step_fine c t t.
Proof. intros H. split; [apply MSame|]. split; [apply MSame|]. split; [now apply views_same|]. intros _. now rewrite H. Qed.

Lemma push_fine t x : good t -> dict_ok (r_map x) -> 
  rmove t (push_run t x) /\ qmove t (push_run t x) /\ views_kept t (push_run t x) /\
  observe (push_run t x) = (run_values t ++ [x], qrels_values t).
Proof.
  intros (Hs & _) Hk. unfold push_run, r_fresh. destruct (fresh_ok (rh t) (r_map x) Hk) as [H1 H2].
  destruct (h_fresh (rh t) (r_map x)) as [h' m']. cbn [fst snd] in H1, H2. split; [|split; [apply MSame|split; [now apply views_same|]]].
  - unfold rmove. cbn [rh runs]. rewrite map_app. cbn [map hr_map]. apply MPush. exact H1.
  - unfold observe, run_values, qrels_values. cbn [rh runs qh qrelss]. f_equal. rewrite map_app. f_equal.
    + apply map_ext_in. intros xj Hj. apply In_nth_error in Hj as [j Hj]. apply r_value_deref.
      eapply push_other; [exact Hs|exact H1|]. now rewrite nth_map, Hj.
    + cbn [map]. unfold r_value. cbn [hr_map hr_sorted hr_name hr_scores hr_mean hr_std]. rewrite H2. now destruct x.
Qed.
Lemma set_run_fine t i x h' x' v : good t -> nth_error (runs t) i = Some x -> r_upd (rh t) x h' x' v ->
  rmove t (set_run t i (h', x')) /\ qmove t (set_run t i (h', x')) /\ views_kept t (set_run t i (h', x')) /\
  observe (set_run t i (h', x')) = (set_nth (run_values t) i v, qrels_values t).
Proof.
  intros (Hs & _) Hi Hu. split; [|split; [apply MSame|split; [now apply views_same|]]].
  - unfold rmove, set_run. cbn [rh runs fst snd]. rewrite map_set_nth. apply MUpd with (m := hr_map x); [now rewrite nth_map, Hi|apply Hu].
  - unfold observe, set_run, run_values, qrels_values. cbn [rh runs qh qrelss fst snd]. f_equal. eapply runs_upd; eassumption.
Qed.
Lemma set_qrels_fine t j y h' y' v : good t -> nth_error (qrelss t) j = Some y -> q_upd (qh t) y h' y' v ->
  rmove t (set_qrels t j (h', y')) /\ qmove t (set_qrels t j (h', y')) /\ views_kept t (set_qrels t j (h', y')) /\
  observe (set_qrels t j (h', y')) = (run_values t, set_nth (qrels_values t) j v).
Proof.
  intros (_ & Hs & _) Hi Hu. split; [apply MSame|split; [|split; [now apply views_same|]]].
  - unfold qmove, set_qrels. cbn [qh qrelss fst snd]. rewrite map_set_nth. apply MUpd with (m := hq_map y); [now rewrite nth_map, Hi|apply Hu].
  - unfold observe, set_qrels, run_values, qrels_values. cbn [rh runs qh qrelss fst snd]. f_equal. eapply qrels_upd; eassumption.
Qed.
Lemma good_step t t' : good t -> rmove t t' -> qmove t t' -> views_kept t t' -> good t'.
Proof.
  intros (G1 & G2 & G3 & G4) Hr Hq [Hv1 Hv2]. split; [eapply sep_move; eassumption|]. split; [eapply sep_move; eassumption|].
  pose proof (move_length _ _ _ _ Hr). pose proof (move_length _ _ _ _ Hq). split; intros l Hl.
  - destruct (Hv1 l Hl) as [Hi|Hi]; [apply G3 in Hi|]; lia.
  - destruct (Hv2 l Hl) as [Hi|Hi]; [apply G4 in Hi|]; lia.
Qed.

(** evaluate on two objects *)
Lemma save_metric_keeps std (x : Run N) m s : r_map (fst (save_metric std x m s)) = r_map x /\ r_sorted (fst (save_metric std x m s)) = r_sorted x.
Proof. unfold save_metric. destruct (save_queries _ _ _ _). split; reflexivity. Qed.
Lemma save_results_keeps std d : forall x : Run N, r_map (fst (save_results std x d)) = r_map x /\ r_sorted (fst (save_results std x d)) = r_sorted x.
Proof.
  induction d as [|[m s] d IH]; intros x; cbn [save_results]; [auto|].
  destruct (save_metric_keeps std x m s) as [H1 H2]. destruct (save_metric std x m s) as [x' [e|]]; cbn [fst] in *; [auto|].
  destruct (IH x') as [H3 H4]. split; congruence.
Qed.
Lemma evaluate_objects y (x : Run N) metrics mean std save mk :
  let out := evaluate E (QObj y) (RObj x) metrics mean std save mk in
  let x1 := if mk then Run_make_comparable E x y else x in
  match check_keys (QObj y) (RObj x1) with
  | Err _ => ev_q out = QObj y /\ ev_r out = RObj x1
  | Ok _ => ev_q out = QObj (fst (Qrels_to_typed_list E y)) /\ exists x', ev_r out = RObj x' /\
      r_map x' = r_map (fst (Run_to_typed_list E x1)) /\ r_sorted x' = r_sorted (fst (Run_to_typed_list E x1))
  end.
Proof.
  unfold evaluate.
  replace (if mk then RObj (Run_make_comparable E x y) else RObj x) with (RObj (if mk then Run_make_comparable E x y else x)) by now destruct mk.
  cbn zeta. set (x1 := if mk then Run_make_comparable E x y else x).
  destruct (check_keys (QObj y) (RObj x1)); [|split; reflexivity].
  cbn [convert_qrels convert_run]. destruct (Qrels_to_typed_list E y) as [y1 tq]. destruct (Run_to_typed_list E x1) as [x2 tr]. cbn [fst].
  destruct (compute_scores E tq tr metrics) as [[m d]|e]; [|split; [reflexivity|exists x2; auto]].
  destruct save.
  - destruct (save_results_keeps (if mean then std else false) d x2) as [H1 H2].
    destruct (save_results (if mean then std else false) x2 d) as [x3 [e|]]; cbn [fst] in *; (split; [reflexivity|exists x3; auto]).
  - split; [reflexivity|exists x2; auto].
Qed.

Lemma evaluate_fine t j i y x metrics mean std save mk : good t -> nth_error (qrelss t) j = Some y -> nth_error (runs t) i = Some x ->
  step_fine (Evaluate j i metrics mean std save mk) t (h_evaluate E t j i y x metrics mean std save mk).
Proof.
  intros Hg Hj Hi. pose proof Hg as (Gr & Gq & _). unfold h_evaluate.
  set (yv := q_value (qh t) y). set (xv := r_value (rh t) x).
  pose proof (evaluate_objects yv xv metrics mean std save mk) as Hev.
  assert (Hox : own (rh t) (hr_map x)) by (apply (proj1 Gr i); now rewrite nth_map, Hi).
  assert (Hoy : own (qh t) (hq_map y)) by (apply (proj1 Gq j); now rewrite nth_map, Hj).
  set (out := evaluate E (QObj yv) (RObj xv) metrics mean std save mk) in *. cbn zeta in Hev.
  assert (Hvs : vstep E pysort (observe t) (Evaluate j i metrics mean std save mk) =
     match ev_q out, ev_r out with QObj y', RObj x' => (set_nth (run_values t) i x', set_nth (qrels_values t) j y') | _, _ => observe t end).
  { unfold vstep, observe, run_values, qrels_values. rewrite (nth_map (q_value (qh t)) (qrelss t) j), Hj, (nth_map (r_value (rh t)) (runs t) i), Hi. reflexivity. }
  set (x1v := if mk then Run_make_comparable E xv yv else xv) in *.
  assert (H1 : let '(h1, x1) := if mk then hr_make_comparable E (rh t) x (q_map yv) else (rh t, x) in r_upd (rh t) x h1 x1 x1v).
  { unfold x1v. destruct mk; [now apply hr_make_comparable_ok|]. split; [now apply upd_refl|reflexivity]. }
  destruct (if mk then hr_make_comparable E (rh t) x (q_map yv) else (rh t, x)) as [h1 x1].
  replace (r_value h1 x1) with x1v by (symmetry; apply H1).
  destruct (check_keys (QObj yv) (RObj x1v)).
  2:{ destruct Hev as [Hq Hr]. destruct (set_run_fine t i x h1 x1 x1v Hg Hi H1) as (A & B & C & D).
      split; [exact A|]. split; [exact B|]. split; [exact C|]. intros _. rewrite Hvs, Hq, Hr, D. f_equal. symmetry. apply set_nth_same.
      unfold qrels_values. now rewrite nth_map, Hj. }
  destruct Hev as [Hq (x' & Hr & Hm & Hso)].
  pose proof (hq_step_ok E HE (qh t) y QToTypedList Hoy) as HY. destruct (hq_step E (qh t) y QToTypedList) as [hq yq].
  cbn [qrels_step fst] in HY.
  pose proof (hr_step_ok E h1 x1 RToTypedList (upd_own _ _ _ _ (proj1 H1))) as HX. destruct (hr_step E h1 x1 RToTypedList) as [h2 x2].
  cbn [run_step fst] in HX. rewrite Hr. replace (r_value h1 x1) with x1v in HX by (symmetry; apply H1).
  set (x3 := mkHR (hr_map x2) (hr_sorted x2) (r_name x') (r_scores x') (r_mean x') (r_std x')).
  assert (Hu3 : r_upd (rh t) x h2 x3 x').
  { split; [eapply upd_trans; [apply H1|apply HX]|]. destruct HX as [_ HX].
    rewrite <- HX in Hm, Hso. destruct x' as [xa xb xc xd xe xf]. cbn [r_map r_sorted r_value] in Hm, Hso. subst xa xb. reflexivity. }
  assert (Heq : set_run (set_qrels (set_run t i (h1, x1)) j (hq, yq)) i (h2, x3) = set_qrels (set_run t i (h2, x3)) j (hq, yq)).
  { unfold set_run, set_qrels. cbn [rh runs rviews qh qrelss qviews fst snd]. now rewrite set_nth_twice. }
  rewrite Heq. destruct (set_run_fine t i x h2 x3 x' Hg Hi Hu3) as (A & B & C & D).
  assert (Hg' : good (set_run t i (h2, x3))) by (eapply good_step; eassumption).
  destruct (set_qrels_fine (set_run t i (h2, x3)) j y hq yq (fst (Qrels_to_typed_list E yv)) Hg' Hj HY) as (A' & B' & C' & D').
  split; [exact A|]. split; [exact B'|]. split; [now apply views_same|]. intros _. rewrite Hvs, Hq, Hr, D'.
  pose proof (f_equal fst D) as D1. pose proof (f_equal snd D) as D2. cbn [fst snd observe] in D1, D2. now rewrite D1, D2.
Qed.

Lemma sort_dict_ok (m : dict (dict F)) : dict2_ok m -> dict_ok (sort_dict_of_dict_by_value E r_negf (sort_dict_by_key m)).
Proof. intros [H _]. unfold dict_ok. pose proof (canon_keys E r_negf m H) as Hk. unfold canon in Hk. rewrite Hk. now apply str_sort_nodup. Qed.
Lemma normalized_ok x norm y : normalize E x norm = Ok y -> dict_ok (r_map y).
Proof. intros H. apply normalize_normed in H as (name & m & Hm & [ -> | -> ]); [now apply sort_dict_ok|apply Hm]. Qed.
Lemma fused_ok xs norm method ps y : fuse E pysort xs norm method ps = Ok y -> dict_ok (r_map y).
Proof. intros H. apply fuse_fused in H as (name & m & Hm & [ -> | -> ]); [now apply sort_dict_ok|apply Hm]. Qed.

Lemma step_ok t c : good t -> call_ok c -> step_fine c t (step E pysort t c).
Proof.
  intros Hg Hc. pose proof Hg as (Gr & Gq & Gv & Gw).
  assert (Hox : forall i x, nth_error (runs t) i = Some x -> own (rh t) (hr_map x)) by (intros i x Hi; apply (proj1 Gr i); now rewrite nth_map, Hi).
  assert (Hoy : forall i x, nth_error (qrelss t) i = Some x -> own (qh t) (hq_map x)) by (intros i x Hi; apply (proj1 Gq i); now rewrite nth_map, Hi).
  assert (Nr : forall i, nth_error (run_values t) i = option_map (r_value (rh t)) (nth_error (runs t) i)) by (intros i; apply nth_map).
  assert (Nq : forall i, nth_error (qrels_values t) i = option_map (q_value (qh t)) (nth_error (qrelss t) i)) by (intros i; apply nth_map).
  destruct c as [x|y|i o|j o|i j|i name|i norm|is norm method ps|j i metrics mean std save mk|i|j|v d s|v d s]; cbn [step].
  - destruct (push_fine t x Hg Hc) as (A & B & C & D). split; [exact A|]. split; [exact B|]. split; [exact C|]. intros _. exact D.
  - unfold q_fresh. destruct (fresh_ok (qh t) (q_map y) Hc) as [H1 H2]. destruct (h_fresh (qh t) (q_map y)) as [h' m']. cbn [fst snd] in H1, H2.
    split; [apply MSame|]. split; [|split; [now apply views_same|intros _]].
    + unfold qmove. cbn [qh qrelss]. rewrite map_app. cbn [map hq_map]. apply MPush. exact H1.
    + unfold observe, run_values, qrels_values. cbn [rh runs qh qrelss vstep]. f_equal. rewrite map_app. f_equal.
      * apply map_ext_in. intros xj Hj. apply In_nth_error in Hj as [j Hj]. apply q_value_deref.
        eapply push_other; [exact Gq|exact H1|]. now rewrite nth_map, Hj.
      * cbn [map]. unfold q_value. cbn [hq_map hq_sorted hq_name]. rewrite H2. now destruct y.
  - destruct (nth_error (runs t) i) as [x|] eqn:Hi; [|apply same_fine; cbn [vstep observe]; now rewrite Nr, Hi].
    pose proof (hr_step_ok E (rh t) x o (Hox i x Hi)) as H. destruct (hr_step E (rh t) x o) as [h' x'].
    destruct (set_run_fine t i x h' x' _ Hg Hi H) as (A & B & C & D). split; [exact A|]. split; [exact B|]. split; [exact C|]. intros _. rewrite D. cbn [vstep observe]. now rewrite Nr, Hi.
  - destruct (nth_error (qrelss t) j) as [y|] eqn:Hi; [|apply same_fine; cbn [vstep observe]; now rewrite Nq, Hi].
    pose proof (hq_step_ok E HE (qh t) y o (Hoy j y Hi)) as H. destruct (hq_step E (qh t) y o) as [h' y'].
    destruct (set_qrels_fine t j y h' y' _ Hg Hi H) as (A & B & C & D). split; [exact A|]. split; [exact B|]. split; [exact C|]. intros _. rewrite D. cbn [vstep observe]. now rewrite Nq, Hi.
  - destruct (nth_error (runs t) i) as [x|] eqn:Hi; [|apply same_fine; cbn [vstep observe]; now rewrite Nr, Hi].
    destruct (nth_error (qrelss t) j) as [y|] eqn:Hj; [|apply same_fine; cbn [vstep observe]; now rewrite Nr, Hi, Nq, Hj].
    pose proof (hr_step_ok E (rh t) x (RMakeComparable (q_value (qh t) y)) (Hox i x Hi)) as H. destruct (hr_step E (rh t) x _) as [h' x'].
    destruct (set_run_fine t i x h' x' _ Hg Hi H) as (A & B & C & D). split; [exact A|]. split; [exact B|]. split; [exact C|]. intros _. rewrite D. cbn [vstep observe]. now rewrite Nr, Hi, Nq, Hj.
  - destruct (nth_error (runs t) i) as [x|] eqn:Hi; [|apply same_fine; cbn [vstep observe]; now rewrite Nr, Hi].
    set (x' := mkHR (hr_map x) (hr_sorted x) name (hr_scores x) (hr_mean x) (hr_std x)).
    destruct (set_run_fine t i x (rh t) x' (r_value (rh t) x') Hg Hi) as (A & B & C & D).
    { split; [apply upd_refl; exact (Hox i x Hi)|reflexivity]. }
    split; [exact A|]. split; [exact B|]. split; [exact C|]. intros _. rewrite D. cbn [vstep observe]. now rewrite Nr, Hi.
  - destruct (nth_error (runs t) i) as [x|] eqn:Hi; [|apply same_fine; cbn [vstep observe]; now rewrite Nr, Hi].
    destruct (normalize E (r_value (rh t) x) norm) as [y|e] eqn:Hn; [|apply same_fine; cbn [vstep observe]; rewrite Nr, Hi; cbn [option_map]; now rewrite Hn].
    destruct (push_fine t y Hg (normalized_ok _ _ _ Hn)) as (A & B & C & D). split; [exact A|]. split; [exact B|]. split; [exact C|]. intros _. rewrite D. cbn [vstep observe]. rewrite Nr, Hi. cbn [option_map]. now rewrite Hn.
  - destruct (map_m (nth_r (run_values t)) is) as [xs|e] eqn:Hm; [|apply same_fine; cbn [vstep observe]; now rewrite Hm].
    destruct (fuse E pysort xs norm method ps) as [y|e] eqn:Hn; [|apply same_fine; cbn [vstep observe]; now rewrite Hm, Hn].
    destruct (push_fine t y Hg (fused_ok _ _ _ _ _ Hn)) as (A & B & C & D). split; [exact A|]. split; [exact B|]. split; [exact C|]. intros _. rewrite D. cbn [vstep observe]. now rewrite Hm, Hn.
  - destruct (nth_error (qrelss t) j) as [y|] eqn:Hj; [|apply same_fine; cbn [vstep observe]; now rewrite Nq, Hj].
    destruct (nth_error (runs t) i) as [x|] eqn:Hi; [|apply same_fine; cbn [vstep observe]; now rewrite Nq, Hj, Nr, Hi].
    now apply evaluate_fine.
  - destruct (nth_error (runs t) i) as [x|] eqn:Hi; [|now apply same_fine].
    split; [apply MSame|]. split; [apply MSame|]. split; [|reflexivity]. split; cbn [rviews qviews]; intros l Hl; [|now left].
    apply in_app_or in Hl as [Hl|Hl]; [now left|]. right. now apply (proj1 (Hox i x Hi)).
  - destruct (nth_error (qrelss t) j) as [y|] eqn:Hi; [|now apply same_fine].
    split; [apply MSame|]. split; [apply MSame|]. split; [|reflexivity]. split; cbn [rviews qviews]; intros l Hl; [now left|].
    apply in_app_or in Hl as [Hl|Hl]; [now left|]. right. now apply (proj1 (Hoy j y Hi)).
  - destruct (nth_error (rviews t) v) as [l|] eqn:Hv; [|now apply same_fine].
    split; [apply MWrite|]. split; [apply MSame|]. split; [now apply views_same|discriminate].
  - destruct (nth_error (qviews t) v) as [l|] eqn:Hv; [|now apply same_fine].
    split; [apply MSame|]. split; [apply MWrite|]. split; [now apply views_same|discriminate].
Qed.
Lemma good_start : good start.
Proof. split; [|split; [|split; intros ? []]]; (split; [intros [|i] m H; discriminate|intros [|i] j mi mj l H; discriminate]). Qed.
Lemma exec_good p : Forall call_ok p -> good (exec E pysort p).
Proof.
  unfold exec. revert p. apply (rev_ind (fun p => Forall (@call_ok N) p -> good (fold_left (step E pysort) p start))); [intros _; apply good_start|].
  intros c p IH H. rewrite fold_left_app. cbn [fold_left]. apply Forall_app in H as [H1 H2]. inversion H2; subst.
  destruct (step_ok (fold_left (step E pysort) p start) c (IH H1) H3) as (A & B & C & _). eapply good_step; [apply IH; exact H1|eassumption..].
Qed.
End M.
