(** P_Judgments.v: the metrics that do not use grades see only the sides of the level. *)
From Coq Require Import Lia.
From Verif Require Import Base Dict Num Env M_Common M_Qrels M_Run M_Metrics M_Evaluate
  Spec_Judgments P_Base P_Dict P_Common P_Metrics P_Eval4.
Open Scope string_scope.
Open Scope list_scope.
Open Scope nat_scope.

Section K.
Context {N : Num} (lvl : Z).
Definition side (r : Z * F) : Z * (bool * bool) :=
  (fst r, (fleb (fofZ lvl) (snd r), fltb (snd r) (fofZ lvl))).
Definition alike (q q' : rows) : Prop := Permutation (map side q) (map side q').

Lemma alike_fst q q' : alike q q' -> Permutation (map fst q) (map fst q').
Proof.
  intros H. apply (Permutation_map fst) in H. rewrite !map_map in H. exact H.
Qed.
Lemma filter_perm {A} (f : A -> bool) l l' : Permutation l l' -> Permutation (filter f l) (filter f l').
Proof.
  induction 1; cbn; auto.
  - destruct (f x); auto.
  - destruct (f x), (f y); auto. apply perm_swap.
  - etransitivity; eauto.
Qed.
Lemma filter_map_side (g : Z * (bool * bool) -> bool) (q : rows) :
  map side (filter (fun r => g (side r)) q) = filter g (map side q).
Proof. induction q as [|r q IH]; [reflexivity|]. cbn. destruct (g (side r)); cbn; now rewrite IH. Qed.
Lemma alike_clean q q' : alike q q' -> alike (clean_qrels q lvl) (clean_qrels q' lvl).
Proof.
  intros H. unfold alike.
  assert (A : forall p, map side (clean_qrels p lvl) = filter (fun s => fst (snd s)) (map side p))
    by exact (filter_map_side (fun s => fst (snd s))).
  rewrite !A.
  now apply filter_perm.
Qed.
Lemma alike_length q q' : alike q q' -> length q = length q'.
Proof. intros H. apply Permutation_length in H. now rewrite !map_length in H. Qed.
Lemma alike_scan {A} q q' id (a b : A) : alike q q' ->
  match scan q id with Some _ => a | None => b end = match scan q' id with Some _ => a | None => b end.
Proof.
  intros H. rewrite !scan_first_match. apply alike_fst in H.
  destruct (first_match id q) eqn:E1, (first_match id q') eqn:E2; auto; exfalso.
  - apply first_match_none in E2. apply E2. apply (Permutation_in _ H).
    apply first_match_in in E1. change id with (fst (id, f)). now apply in_map.
  - apply first_match_none in E1. apply E1. apply (Permutation_in _ (Permutation_sym H)).
    apply first_match_in in E2. change id with (fst (id, f)). now apply in_map.
Qed.
Lemma fold_left_ext2 {A B} (f g : A -> B -> A) l : (forall a b, f a b = g a b) -> forall a, fold_left f l a = fold_left g l a.
Proof. intros H. induction l as [|x l IH]; intros a; [reflexivity|]. cbn. now rewrite H, IH. Qed.
Lemma existsb_ext2 {A} (f g : A -> bool) l : (forall a, f a = g a) -> existsb f l = existsb g l.
Proof. intros H. induction l as [|x l IH]; [reflexivity|]. cbn. now rewrite H, IH. Qed.

Section Q.
Context (q q' run : rows) (H : alike q q').

Lemma alike_hits k : _hits q run k lvl = _hits q' run k lvl.
Proof.
  assert (Hc := alike_clean _ _ H). unfold _hits. rewrite (alike_length _ _ Hc).
  destruct (length (clean_qrels q' lvl) =? 0); [reflexivity|].
  apply fold_left_ext2. intros h r. now apply (alike_scan (A := F)).
Qed.
Lemma alike_hit_rate k : _hit_rate q run k lvl = _hit_rate q' run k lvl.
Proof.
  assert (Hc := alike_clean _ _ H). unfold _hit_rate. rewrite (alike_length _ _ Hc).
  destruct (length (clean_qrels q' lvl) =? 0); [reflexivity|].
  rewrite (existsb_ext2 _ (fun r => match scan (clean_qrels q' lvl) (fst r) with Some _ => true | None => false end)); [reflexivity|].
  intros r. now apply (alike_scan (A := bool)).
Qed.
Lemma alike_precision k : _precision q run k lvl = _precision q' run k lvl.
Proof. unfold _precision. destruct ((if k =? 0 then length run else k) =? 0); [reflexivity|]. now rewrite alike_hits. Qed.
End Q.

Lemma alike_recall q q' run k : alike q q' -> _recall q run k lvl = _recall q' run k lvl.
Proof.
  intros H. assert (Hc := alike_clean _ _ H). unfold _recall. rewrite (alike_length _ _ Hc).
  destruct (length (clean_qrels q' lvl) =? 0); [reflexivity|].
  destruct ((if k =? 0 then length run else k) =? 0); [reflexivity|]. now rewrite (alike_hits _ _ run Hc).
Qed.
Lemma alike_f1 q q' run k : alike q q' -> _f1 q run k lvl = _f1 q' run k lvl.
Proof.
  intros H. assert (Hc := alike_clean _ _ H). unfold _f1. rewrite (alike_length _ _ Hc).
  destruct (length (clean_qrels q' lvl) =? 0); [reflexivity|].
  destruct ((if k =? 0 then length run else k) =? 0); [reflexivity|]. now rewrite (alike_hits _ _ run Hc).
Qed.
Lemma alike_r_precision q q' run : alike q q' -> _r_precision q run lvl = _r_precision q' run lvl.
Proof.
  intros H. assert (Hc := alike_clean _ _ H). unfold _r_precision. rewrite (alike_length _ _ Hc).
  destruct (length (clean_qrels q' lvl) =? 0); [reflexivity|]. now apply alike_precision.
Qed.
Lemma existsb_perm {A} (f : A -> bool) l l' : Permutation l l' -> existsb f l = existsb f l'.
Proof.
  induction 1; cbn; auto; try congruence. now destruct (f x), (f y).
Qed.
Lemma alike_rr q q' run : alike q q' -> forall i, rr_loop i q run = rr_loop i q' run.
Proof.
  intros H. induction run as [|r run IH]; intros i; [reflexivity|]. cbn.
  assert (He : forall p : rows, existsb (fun x => (fst r =? fst x)%Z) p = existsb (Z.eqb (fst r)) (map fst p)).
  { intros p. induction p as [|x p IHp]; [reflexivity|]. cbn. now rewrite IHp. }
  rewrite !He, (existsb_perm _ _ _ (alike_fst _ _ H)). now rewrite IH.
Qed.
Lemma alike_reciprocal_rank q q' run k : alike q q' -> _reciprocal_rank q run k lvl = _reciprocal_rank q' run k lvl.
Proof.
  intros H. assert (Hc := alike_clean _ _ H). unfold _reciprocal_rank. rewrite (alike_length _ _ Hc).
  destruct (length (clean_qrels q' lvl) =? 0); [reflexivity|]. now apply alike_rr.
Qed.
Lemma alike_hit_list q q' run k : alike q q' -> hit_list_of q run k = hit_list_of q' run k.
Proof. intros H. unfold hit_list_of. apply map_ext. intros r. now apply (alike_scan (A := F)). Qed.
Lemma alike_average_precision q q' run k : alike q q' -> _average_precision q run k lvl = _average_precision q' run k lvl.
Proof.
  intros H. assert (Hc := alike_clean _ _ H). unfold _average_precision. rewrite (alike_length _ _ Hc).
  destruct (length (clean_qrels q' lvl) =? 0); [reflexivity|]. now rewrite (alike_hit_list _ _ run (fix_k k run) Hc).
Qed.
Lemma alike_interpolated q q' run : alike q q' -> _interpolated_precision q run lvl = _interpolated_precision q' run lvl.
Proof.
  intros H. assert (Hc := alike_clean _ _ H). unfold _interpolated_precision. rewrite (alike_length _ _ Hc).
  destruct (length (clean_qrels q' lvl) =? 0); [reflexivity|]. now rewrite (alike_hit_list _ _ run (length run) Hc).
Qed.
Lemma count_perm {A} (f : A -> bool) l l' : Permutation l l' -> count f l = count f l'.
Proof. induction 1; cbn; try lia. Qed.
Lemma count_map_side (g : Z * (bool * bool) -> bool) (q : rows) : count (fun r => g (side r)) q = count g (map side q).
Proof. induction q as [|r q IH]; [reflexivity|]. cbn. now rewrite IH. Qed.
Lemma alike_count (g : Z * (bool * bool) -> bool) q q' : alike q q' -> count (fun r => g (side r)) q = count (fun r => g (side r)) q'.
Proof. intros H. rewrite !count_map_side. now apply count_perm. Qed.
Lemma alike_bpref q q' run : alike q q' -> _bpref q run lvl = _bpref q' run lvl.
Proof.
  intros H. assert (Hc := alike_clean _ _ H). unfold _bpref.
  assert (Hn1 : count (fun r : Z * F => fleb (fofZ lvl) (snd r)) q = count (fun r : Z * F => fleb (fofZ lvl) (snd r)) q')
    by exact (alike_count (fun s => fst (snd s)) q q' H).
  assert (Hn2 : count (fun r : Z * F => fltb (snd r) (fofZ lvl)) q = count (fun r : Z * F => fltb (snd r) (fofZ lvl)) q')
    by exact (alike_count (fun s => snd (snd s)) q q' H).
  assert (Hl : _get_hit_list q run 0 lvl = _get_hit_list q' run 0 lvl).
  { unfold _get_hit_list. rewrite (alike_length _ _ Hc). destruct (length (clean_qrels q' lvl) =? 0); [reflexivity|]. now apply alike_hit_list. }
  assert (Hu : _get_unjudged_list q run 0 = _get_unjudged_list q' run 0).
  { unfold _get_unjudged_list. rewrite (alike_length _ _ H). destruct (length q' =? 0); [reflexivity|].
    apply map_ext. intros r. now apply (alike_scan (A := F)). }
  now rewrite Hn1, Hn2, Hl, Hu.
Qed.
End K.

(** ** typed lists *)
Section L.
Context {N : Num} (E : env N).

Lemma foldl_m_ext {A B} (f g : A -> B -> result A) l : (forall s b, In b l -> f s b = g s b) -> forall s,
  foldr_m f l s = foldr_m g l s.
Proof.
  induction l as [|b l IH]; intros H s; [reflexivity|]. cbn. rewrite H by (now left). destruct (g s b); cbn; [|reflexivity].
  apply IH. intros; apply H; now right.
Qed.
Lemma prange_r_ext2 {A} order n (init : A) f g : (forall i, f i = g i) -> prange_r order n init f = prange_r order n init g.
Proof.
  intros H. unfold prange_r. apply foldl_m_ext. intros s i _. now rewrite H.
Qed.
Lemma parallel_alike {A} tag (init : A) lvl tq tq' tr (f : rows -> rows -> result A) :
  Forall2 (alike lvl) tq tq' -> (forall q q' r, alike lvl q q' -> f q r = f q' r) ->
  parallel E tag init tq tr f = parallel E tag init tq' tr f.
Proof.
  intros H Hf. unfold parallel. assert (Hl : length tq = length tq') by (clear -H; induction H; cbn; congruence).
  rewrite Hl. apply prange_r_ext2. intros i.
  assert (Hi : (exists q q', nth_r tq i = Ok q /\ nth_r tq' i = Ok q' /\ alike lvl q q') \/
               (exists e, nth_r tq i = Err e /\ nth_r tq' i = Err e)).
  { clear -H. revert i. induction H as [|q q' tq tq' Hq H IH]; intros i.
    - right. exists IndexError. unfold nth_r. destruct i; auto.
    - destruct i as [|i]; [left; exists q, q'; auto|]. destruct (IH i) as [Hx|Hx]; [left|right]; exact Hx. }
  destruct Hi as [(q & q' & -> & -> & Hq)|(e & -> & ->)]; [|reflexivity]. cbn [bindr].
  destruct (nth_r tr i); cbn [bindr]; [now apply Hf|reflexivity].
Qed.

Lemma switch_alike m f lvl tq tq' tr k : metric_switch E m = Ok f -> ~ In m graded_metrics ->
  Forall2 (alike lvl) tq tq' -> f tq tr k lvl = f tq' tr k lvl.
Proof.
  intros Hs Hg H. unfold metric_switch in Hs.
  assert (H4 : forall tag (h : rows -> rows -> nat -> Z -> F), (forall q q' r n, alike lvl q q' -> h q r n lvl = h q' r n lvl) ->
     int_k (lift4 E h tag) tq tr k lvl = int_k (lift4 E h tag) tq' tr k lvl).
  { intros tag h Hh. unfold int_k. destruct k as [z|]; [|reflexivity]. unfold lift4, with_k. destruct (assertr (0 <=? z)%Z); [|reflexivity].
    cbn [bindr]. apply (parallel_alike tag _ lvl); [exact H|]. intros q q' r Hq. now rewrite (Hh q q' r _ Hq). }
  repeat match type of Hs with (if String.eqb m ?s then _ else _) = _ => destruct (String.eqb_spec m s) as [ -> |_] end;
    try discriminate; try (exfalso; apply Hg; cbn; tauto); injection Hs as <-.
  - apply H4. intros. now apply alike_hits.
  - apply H4. intros. now apply alike_hit_rate.
  - apply H4. intros. now apply alike_precision.
  - apply H4. intros. now apply alike_recall.
  - apply H4. intros. now apply alike_f1.
  - unfold int_k. destruct k; [|reflexivity]. apply (parallel_alike _ _ lvl); [exact H|]. intros. now rewrite (alike_r_precision lvl q q' r).
  - apply H4. intros. now apply alike_reciprocal_rank.
  - apply H4. intros. now apply alike_average_precision.
  - unfold int_k. destruct k; [|reflexivity]. apply (parallel_alike _ _ lvl); [exact H|]. intros. now apply alike_bpref.
Qed.

Lemma compute_alike tq tq' tr metrics :
  (forall s m k lvl, In s metrics -> extract_metric_and_params s = Ok (m, k, lvl) ->
     ~ In m graded_metrics /\ Forall2 (alike lvl) tq tq') ->
  compute_scores E tq tr metrics = compute_scores E tq' tr metrics.
Proof.
  intros H. unfold compute_scores. apply foldl_m_ext. intros st s Hs.
  destruct (extract_metric_and_params s) as [[[m k] lvl]|] eqn:Ex; [|reflexivity]. cbn [bindr].
  destruct (H s m k lvl Hs Ex) as [Hg Hf].
  destruct (metric_switch E m) as [f|] eqn:Em; [|reflexivity]. cbn [bindr].
  now rewrite (switch_alike m f lvl tq tq' tr k Em Hg Hf).
Qed.
End L.
