(** T_Sched.v: the order in which the threads of the parallel loops run has no observable effect (C95). *)
From Verif Require Import Base Dict Num NumLaws Env EnvEx M_Common M_Qrels M_Run M_History M_Metrics M_Strings M_Text M_Evaluate M_Norm M_Fusion M_Train
  M_Optimize M_Compare M_Plot M_Heap Spec_Sched Spec_Heap Spec_DS P_Base P_Dict P_Common P_DS P_History P_Fusion3 P_Heap P_Heap2 P_Sched.
Open Scope string_scope.
Open Scope list_scope.
Open Scope nat_scope.

Section T.
Context (N : Num) (E : env N) (s1 s2 : schedule) (V1 : possible s1) (V2 : possible s2).
Notation E1 := (threads_run E s1).
Notation E2 := (threads_run E s2).

(** evaluate, on objects, dicts or prepared lists: the same value is returned (or both raise) and the arguments
    are left the same, including the saved scores. *)
Theorem C95_evaluate : forall q r metrics mean std save mk,
  let out1 := evaluate E1 q r metrics mean std save mk in
  let out2 := evaluate E2 q r metrics mean std save mk in
  same_outcome (ev_res out1) (ev_res out2) /\ ev_q out1 = ev_q out2 /\ ev_r out1 = ev_r out2.
Proof.
  intros q r ms mean std save mk out1 out2. destruct (so_evaluate E s1 s2 V1 V2 q r ms mean std save mk) as (H1 & H2 & H3).
  split; [exact H3|]. split; [exact H1|exact H2].
Qed.
Theorem C95_normalize : forall x norm, same_outcome (normalize E1 x norm) (normalize E2 x norm).
Proof. exact (so_normalize E s1 s2 V1 V2). Qed.
Theorem C95_fuse : forall pysort xs norm method ps, same_outcome (fuse E1 pysort xs norm method ps) (fuse E2 pysort xs norm method ps).
Proof. exact (so_fuse E s1 s2 V1 V2). Qed.
(** optimize_fusion: also the qrels and the runs are left the same *)
Theorem C95_optimize : forall pysort sh y xs norm method metric report kws,
  let out1 := optimize_fusion E1 pysort sh y xs norm method metric report kws in
  let out2 := optimize_fusion E2 pysort sh y xs norm method metric report kws in
  same_outcome (snd out1) (snd out2) /\ fst out1 = fst out2.
Proof.
  intros pysort sh y xs norm method metric rep kws out1 out2. destruct (so_optimize E s1 s2 V1 V2 pysort sh y xs norm method metric rep kws) as [H1 H2].
  split; [exact H2|exact H1].
Qed.
(** compare: given the outcomes [draws] of the random permutations of Fisher's test *)
Theorem C95_compare : forall (T : tests N) y xs metrics test n max_p digits percent mk,
  let out1 := compare E1 T y xs metrics test n max_p digits percent mk in
  let out2 := compare E2 T y xs metrics test n max_p digits percent mk in
  same_outcome (snd out1) (snd out2) /\ fst out1 = fst out2.
Proof.
  intros T y xs ms test n p dg pc mk out1 out2. destruct (so_compare E s1 s2 V1 V2 T y xs ms test n p dg pc mk) as [H1 H2].
  split; [exact H2|exact H1].
Qed.
Theorem C95_plot : forall y runs, same_outcome (snd (plot E1 y runs)) (snd (plot E2 y runs)) /\ fst (plot E1 y runs) = fst (plot E2 y runs).
Proof. intros y a. destruct (so_plot E s1 s2 V1 V2 y a) as [H1 H2]. split; [exact H2|exact H1]. Qed.

(** ** set_relevance_level *)
Lemma fold_perm {A B} (f : A -> B -> A) o o' : Permutation o o' -> (forall a i j, f (f a i) j = f (f a j) i) ->
  forall a, fold_left f o a = fold_left f o' a.
Proof.
  intros Hp Hc. induction Hp as [|x o o' _ IH|x y o|o o' o'' _ IH1 _ IH2]; intros a; cbn [fold_left]; auto.
  - now rewrite Hc.
  - now rewrite IH1, IH2.
Qed.
Lemma fold_ext {A B} (f g : A -> B -> A) o : (forall a i, f a i = g a i) -> forall a, fold_left f o a = fold_left g o a.
Proof. intros H. induction o as [|i o IH]; intros a; cbn [fold_left]; [reflexivity|]. now rewrite H, IH. Qed.
Lemma dset_comm {W} (d : dict W) k k' a b : k <> k' -> In k (dkeys d) -> In k' (dkeys d) -> dset (dset d k a) k' b = dset (dset d k' b) k a.
Proof.
  intros Hne. induction d as [|[c w] d IH]; cbn [dkeys map fst In]; intros Hk Hk'; [easy|]. cbn [dset].
  destruct (String.eqb_spec k c) as [->|H1], (String.eqb_spec k' c) as [->|H2]; try congruence; cbn [dset]; rewrite ?String.eqb_refl.
  - destruct (String.eqb_spec k' c); [congruence|]. reflexivity.
  - destruct (String.eqb_spec k c); [congruence|]. reflexivity.
  - destruct (String.eqb_spec k c); [congruence|]. destruct (String.eqb_spec k' c); [congruence|]. f_equal. apply IH; [destruct Hk|destruct Hk']; congruence || assumption.
Qed.
Lemma dset_dset {W} (d : dict W) k a b : dset (dset d k a) k b = dset d k b.
Proof.
  induction d as [|[c w] d IH]; cbn [dset]; [now rewrite String.eqb_refl|]. destruct (String.eqb k c) eqn:Hc; cbn [dset]; rewrite Hc; [reflexivity|]. now rewrite IH.
Qed.
(** one query: its judgments are replaced, if it is there *)
Definition shift (l : Z) (r inner : dict Z) : dict Z := fold_left (fun inner ds => dset inner (fst ds) (snd ds - (l - 1))%Z) r inner.
Definition shift_at (l : Z) (q : string) (r : dict Z) (acc : dict (dict Z)) : dict (dict Z) :=
  match dget acc q with Some inner => dset acc q (shift l r inner) | None => acc end.
Lemma shift_at_fold l q r : forall acc, fold_left (fun acc' ds => match dget acc' q with
                | Some inner => dset acc' q (dset inner (fst ds) (snd ds - (l - 1))%Z) | None => acc' end) r acc = shift_at l q r acc.
Proof.
  induction r as [|ds r IH]; intros acc; cbn [fold_left].
  - unfold shift_at. destruct (dget acc q) as [v|] eqn:Hq; [|reflexivity]. symmetry. now apply dset_same.
  - rewrite IH. unfold shift_at. destruct (dget acc q) as [v|] eqn:Hq; [|now rewrite Hq]. rewrite dget_dset_eq, dset_dset. reflexivity.
Qed.
Lemma shift_at_comm l q q' r r' acc : q <> q' -> shift_at l q' r' (shift_at l q r acc) = shift_at l q r (shift_at l q' r' acc).
Proof.
  intros Hne. unfold shift_at.
  destruct (dget acc q) as [v|] eqn:Hq, (dget acc q') as [v'|] eqn:Hq'; rewrite ?Hq, ?Hq', ?dget_dset_neq, ?Hq, ?Hq' by congruence; try reflexivity.
  apply dset_comm; [congruence|apply dget_Some_in in Hq; now apply (in_map fst) in Hq|apply dget_Some_in in Hq'; now apply (in_map fst) in Hq'].
Qed.
Theorem C95_set_relevance_level : forall y lvl, dict_ok (q_map y) -> Qrels_set_relevance_level E1 y lvl = Qrels_set_relevance_level E2 y lvl.
Proof.
  intros y lvl Hok. unfold Qrels_set_relevance_level. f_equal. unfold set_relevance_level_map. set (m := q_map y) in *. cbv zeta.
  transitivity (fold_left (fun acc i => match nth_error m i with Some (q, r) => shift_at lvl q r acc | None => acc end) (seq 0 (length (dkeys m))) m).
  2: symmetry.
  all: match goal with |- fold_left ?f ?o ?a = fold_left ?g ?o' ?a => rewrite (fold_ext f g o); [apply fold_perm|] end;
    [first [apply V1|apply V2]| |
     intros acc i; unfold dkeys, dvals; rewrite !nth_error_map; destruct (nth_error m i) as [[q r]|]; cbn [option_map fst snd]; [apply shift_at_fold|reflexivity]].
  all: intros acc i j; destruct (nth_error m i) as [[q r]|] eqn:Hi, (nth_error m j) as [[q' r']|] eqn:Hj; try reflexivity;
    destruct (Nat.eq_dec i j) as [->|Hij]; [assert ((q, r) = (q', r')) as Hqr by congruence; injection Hqr as <- <-; reflexivity|];
    apply shift_at_comm; intros ->; apply Hij;
    refine (proj1 (NoDup_nth_error (dkeys m)) Hok i j _ _);
    [unfold dkeys; rewrite map_length; apply nth_error_Some; congruence|unfold dkeys; now rewrite !nth_error_map, Hi, Hj].
Qed.

(** ** programs *)
Lemma hput_comm {V} (h : heap V) : forall l l' a b, l <> l' -> hput (hput h l a) l' b = hput (hput h l' b) l a.
Proof. induction h as [|x h IH]; intros [|l] [|l'] a b Hl; cbn [hput]; try reflexivity; try congruence. f_equal. apply IH. congruence. Qed.
Lemma hput_hput {V} (h : heap V) : forall l a b, hput (hput h l a) l b = hput h l b.
Proof. induction h as [|x h IH]; intros [|l] a b; cbn [hput]; try reflexivity. f_equal. apply IH. Qed.
Lemma hget_hput_same {V} (h : heap V) : forall l a, l < length h -> hget (hput h l a) l = a.
Proof. unfold hget. induction h as [|x h IH]; intros [|l] a Hl; cbn in *; try lia; [reflexivity|]. apply IH. lia. Qed.
Lemma hget_hput_other {V} (h : heap V) : forall l l' a, l <> l' -> hget (hput h l a) l' = hget h l'.
Proof. unfold hget. induction h as [|x h IH]; intros [|l] [|l'] a Hl; cbn; try reflexivity; try congruence. apply IH. congruence. Qed.
Lemma hput_len {V} (h : heap V) : forall l a, length (hput h l a) = length h.
Proof. induction h as [|x h IH]; intros [|l] a; cbn; auto. Qed.
Lemma hput_out {V} (h : heap V) : forall l a, length h <= l -> hput h l a = h.
Proof. induction h as [|x h IH]; intros [|l] a Hl; cbn in *; try reflexivity; try lia. f_equal. apply IH. lia. Qed.
Lemma hput_same {V} (h : heap V) : forall l, hput h l (hget h l) = h.
Proof. unfold hget. induction h as [|x h IH]; intros [|l]; cbn; auto. now rewrite IH. Qed.
Lemma level_fold lvl l r : forall h : heap Z,
  fold_left (fun h ds => hput h l (dset (hget h l) (fst ds) (snd ds - (lvl - 1))%Z)) r h = hput h l (shift lvl r (hget h l)).
Proof.
  induction r as [|ds r IH]; intros h; cbn [fold_left].
  - unfold shift. cbn [fold_left]. now rewrite hput_same.
  - rewrite IH, hput_hput. destruct (Nat.lt_ge_cases l (length h)) as [Hl|Hl]; [now rewrite hget_hput_same|]. now rewrite !hput_out by exact Hl.
Qed.
Lemma set_level_eq (h : heap Z) m lvl : own h m -> h_set_level E1 h m lvl = h_set_level E2 h m lvl.
Proof.
  intros (Hb & Hn & Hk). unfold h_set_level. cbv zeta.
  transitivity (fold_left (fun h i => match nth_error (dvals m) i with Some l => hput h l (shift lvl (hget h l) (hget h l)) | None => h end) (seq 0 (length (dkeys m))) h).
  2: symmetry.
  all: match goal with |- fold_left ?f ?o ?a = fold_left ?g ?o' ?a => rewrite (fold_ext f g o); [apply fold_perm|] end;
    [first [apply V1|apply V2]| |].
  1,3: intros h0 i j; destruct (nth_error (dvals m) i) as [l|] eqn:Hi, (nth_error (dvals m) j) as [l'|] eqn:Hj; try reflexivity;
    destruct (Nat.eq_dec i j) as [->|Hij]; [assert (l = l') as <- by congruence; reflexivity|];
    assert (Hl : l <> l') by (intros ->; apply Hij; refine (proj1 (NoDup_nth_error (dvals m)) Hn i j _ _); [apply nth_error_Some; congruence|congruence]);
    rewrite !hget_hput_other by congruence; apply hput_comm; congruence.
  all: intros h0 i; destruct (nth_error (dkeys m) i) as [q|] eqn:Hq;
    [destruct (dget_nth_key m i q Hk Hq) as (l & Hi & Hg); rewrite Hg; unfold dvals; rewrite nth_error_map, Hi; cbn [option_map snd]; apply level_fold
    |unfold dkeys in Hq; unfold dvals; rewrite nth_error_map in *; destruct (nth_error m i); [discriminate|reflexivity]].
Qed.
Lemma so_push (t : state N) (r1 r2 : result (Run N)) : same_outcome r1 r2 ->
  match r1 with Ok y => push_run t y | Err _ => t end = match r2 with Ok y => push_run t y | Err _ => t end.
Proof. destruct r1, r2; cbn [same_outcome]; intros H; try (destruct H; fail); [now subst|reflexivity]. Qed.
Lemma step_eq pysort (t : state N) c : good t -> step E1 pysort t c = step E2 pysort t c.
Proof.
  intros (_ & Gq & _). destruct c as [x|y|i o|j o|i j|i name|i norm|is norm method ps|j i metrics mean std save mk|i|j|v d s|v d s].
  - reflexivity.
  - reflexivity.
  - reflexivity.
  - cbn [step]. destruct (nth_error (qrelss t) j) as [y|] eqn:Hj; [|reflexivity].
    assert (Hs : hq_step E1 (qh t) y o = hq_step E2 (qh t) y o).
    { destruct o; try reflexivity. cbn [hq_step]. rewrite set_level_eq; [reflexivity|]. apply (proj1 Gq j). now rewrite nth_map, Hj. }
    rewrite Hs. reflexivity.
  - reflexivity.
  - reflexivity.
  - cbn [step]. destruct (nth_error (runs t) i) as [x|]; [|reflexivity]. apply so_push, (so_normalize E s1 s2 V1 V2).
  - cbn [step]. destruct (map_m (nth_r (run_values t)) is) as [xs|]; [|reflexivity]. apply so_push, (so_fuse E s1 s2 V1 V2).
  - cbn [step]. destruct (nth_error (qrelss t) j) as [y|]; [|reflexivity]. destruct (nth_error (runs t) i) as [x|]; [|reflexivity].
    destruct (so_evaluate E s1 s2 V1 V2 (QObj (q_value (qh t) y)) (RObj (r_value (rh t) x)) metrics mean std save mk) as (H1 & H2 & H3).
    unfold h_evaluate. cbv zeta. rewrite H2. reflexivity.
  - reflexivity.
  - reflexivity.
  - reflexivity.
  - reflexivity.
Qed.
End T.

(** Whole programs, with any number of objects, also if they write into the dictionaries handed out by
    get_doc_ids_and_scores: the objects (and all references) at the end are the same whatever the interleavings
    of the threads inside each call. *)
Theorem C95_program : forall (N : Num) (E : env N) pysort, env_ok E ->
  forall p1 p2, Forall (fun sc => possible (fst sc)) p1 -> Forall (fun sc => possible (fst sc)) p2 ->
  map snd p1 = map snd p2 -> Forall call_ok (map snd p1) ->
  exec_threads E pysort p1 = exec_threads E pysort p2.
Proof.
  intros N E pysort HE p1 p2 H1 H2 Heq Hok.
  assert (Hen : forall s, possible s -> env_ok (threads_run E s)) by (intros s Hs; destruct HE; constructor; assumption).
  unfold exec_threads. pose proof (@good_start N) as Hg. revert Hg. generalize (@start N). revert p2 H2 Heq Hok.
  induction H1 as [|[s1 c1] p1 Hs1 _ IH]; intros [|[s2 c2] p2] H2 Heq Hok t Hg; try discriminate; [reflexivity|].
  cbn [map snd] in Heq. injection Heq as <- Heq. apply Forall_cons_iff in H2 as [Hs2 H2]. cbn [map snd] in Hok. apply Forall_cons_iff in Hok as [Hc Hok]. cbn [fold_left fst snd] in *.
  rewrite (step_eq N E s1 s2 Hs1 Hs2 pysort t c1 Hg). apply (IH p2 H2 Heq Hok).
  destruct (step_ok (threads_run E s2) (Hen s2 Hs2) pysort t c1 Hg Hc) as (A & B & C & _). eapply good_step; eassumption.
Qed.

(** two interleavings that differ: forwards and backwards *)
Definition forwards : schedule := fun _ n => seq 0 n.
Definition backwards : schedule := fun _ n => rev (seq 0 n).
Example ex_possible : possible forwards /\ possible backwards /\ forwards "hits" 3 <> backwards "hits" 3.
Proof.
  split; [intros l n; apply Permutation_refl|]. split; [intros l n; unfold backwards; apply Permutation_sym, Permutation_rev|]. discriminate.
Qed.

Print Assumptions C95_evaluate.
Print Assumptions C95_normalize.
Print Assumptions C95_fuse.
Print Assumptions C95_optimize.
Print Assumptions C95_compare.
Print Assumptions C95_plot.
Print Assumptions C95_set_relevance_level.
Print Assumptions C95_program.
