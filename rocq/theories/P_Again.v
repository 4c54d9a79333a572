(** P_Again.v: lemmas for C97. *)
From Verif Require Import Base Dict Num Env M_Common M_Qrels M_Run M_Metrics M_Strings M_Evaluate Spec_DS P_Base P_Dict P_Common M_Optimize P_Optimize Spec_Again.
Open Scope string_scope.
Open Scope list_scope.
Open Scope nat_scope.

Section Again.
Context {N : Num} (E : env N).
Notation evaluate := (@evaluate N E).

Lemma run_typed_keys (x : Run N) : dict_ok (r_map x) -> forall q, In q (dkeys (r_map (fst (Run_to_typed_list E x)))) <-> In q (dkeys (r_map x)).
Proof.
  intros Hy q. unfold Run_to_typed_list. destruct (r_sorted x); cbn [fst]; [reflexivity|]. unfold Run_sort. cbn [r_map Run_with_map].
  change (sort_dict_of_dict_by_value E r_negf (sort_dict_by_key (r_map x))) with (canon E r_negf (r_map x)). rewrite canon_keys by exact Hy.
  split; apply Permutation_in; [apply Permutation_sym|]; apply str_sort_perm.
Qed.
Lemma keys_eqb_run {V} (m : dict V) (x x' : Run N) : (forall q, In q (dkeys (r_map x')) <-> In q (dkeys (r_map x))) ->
  keys_eqb m (r_map x') = keys_eqb m (r_map x).
Proof.
  intros Hk. apply Bool.eq_iff_eq_true. rewrite !keys_eqb_spec. split; intros H k; rewrite (H k); [|symmetry]; apply Hk.
Qed.

(** an argument as the caller gave it, possibly sorted, possibly with saved results *)
Definition same_q (q0 q : @qarg N) : Prop := q = q0 \/ q = fst (convert_qrels E q0).
Definition same_core (x y : Run N) : Prop := r_map x = r_map y /\ r_sorted x = r_sorted y.
Definition same_r (r0 r : @rarg N) : Prop :=
  match r0 with
  | RObj x0 => exists x, r = RObj x /\ (same_core x x0 \/ same_core x (fst (Run_to_typed_list E x0)))
  | _ => r = r0
  end.
Lemma same_r_refl r : same_r r r.
Proof. destruct r; cbn; auto. exists r. split; [reflexivity|]. left. now split. Qed.

Lemma typed_core (x y : Run N) : same_core x y -> same_core (fst (Run_to_typed_list E x)) (fst (Run_to_typed_list E y)) /\
  snd (Run_to_typed_list E x) = snd (Run_to_typed_list E y).
Proof.
  intros [H1 H2]. unfold Run_to_typed_list. rewrite H2. destruct (r_sorted y) eqn:Hs; cbn [fst snd].
  - rewrite H1. split; [split; congruence|reflexivity].
  - unfold Run_sort, Run_with_map, same_core. cbn. rewrite H1. auto.
Qed.
Lemma convert_q_same q0 q : same_q q0 q -> convert_qrels E q = convert_qrels E q0.
Proof.
  intros [ -> | -> ]; [reflexivity|]. destruct q0; cbn [convert_qrels fst]; try reflexivity.
  destruct (Qrels_to_typed_list E q) as [y1 tq] eqn:H. cbn [fst convert_qrels].
  pose proof (typed_again E q) as Ha. rewrite H in Ha. cbn [fst] in Ha. rewrite Ha. reflexivity.
Qed.
Definition core_r (r1 r2 : @rarg N) : Prop :=
  match r1, r2 with RObj x, RObj y => same_core x y | RObj _, _ => False | _, RObj _ => False | _, _ => r1 = r2 end.
Lemma convert_r_same r0 r : same_r r0 r -> core_r (fst (convert_run E r)) (fst (convert_run E r0)) /\ snd (convert_run E r) = snd (convert_run E r0).
Proof.
  destruct r0 as [x0|d|d|l]; intros H; [|cbn in H; subst r; cbn [convert_run]; split; reflexivity ..].
  destruct H as (x & -> & H). cbn [convert_run].
  assert (H' : same_core (fst (Run_to_typed_list E x)) (fst (Run_to_typed_list E x0)) /\ snd (Run_to_typed_list E x) = snd (Run_to_typed_list E x0)).
  { destruct H as [H|H]; [now apply typed_core|]. apply typed_core in H. rewrite (run_typed_again E x0) in H. exact H. }
  destruct (Run_to_typed_list E x) as [x1 l1], (Run_to_typed_list E x0) as [x2 l2]. cbn [fst snd] in H' |- *.
  destruct H' as [H1 ->]. split; [exact H1|reflexivity].
Qed.
Lemma core_same r0 r : core_r r (fst (convert_run E r0)) -> same_r r0 r.
Proof.
  destruct r0 as [x0|d|d|l]; cbn [convert_run].
  - destruct (Run_to_typed_list E x0) as [x1 l1] eqn:Hx. cbn [fst]. destruct r; cbn [core_r same_r]; try tauto. intros H. exists r. split; [reflexivity|]. right. now rewrite Hx.
  - cbn [fst]. destruct r; cbn; try tauto.
  - cbn [fst]. destruct r; cbn; try tauto.
  - cbn [fst]. destruct r; cbn; try tauto.
Qed.
Lemma same_r_keys x0 x : NoDup (dkeys (r_map x0)) -> same_core x x0 \/ same_core x (fst (Run_to_typed_list E x0)) ->
  forall q, In q (dkeys (r_map x)) <-> In q (dkeys (r_map x0)).
Proof.
  intros Hx [[H _]|[H _]] q; rewrite H; [reflexivity|]. now apply run_typed_keys.
Qed.
Lemma check_same q0 q r0 r : qarg_ok q0 -> rarg_ok r0 -> same_q q0 q -> same_r r0 r -> check_keys q r = check_keys q0 r0.
Proof.
  intros Hq Hr Sq Sr.
  assert (H1 : check_keys q r = check_keys q0 r).
  { destruct Sq as [ -> | -> ]; [reflexivity|]. destruct q0 as [y0|d|d|l]; cbn [convert_qrels fst]; try reflexivity.
    destruct (Qrels_to_typed_list E y0) as [y1 tq] eqn:H. cbn [fst].
    assert (Hk : forall V (m : dict V), keys_eqb (q_map y1) m = keys_eqb (q_map y0) m).
    { intros V m. pose proof (keys_eqb_typed E y0 m Hq) as Hk. rewrite H in Hk. exact Hk. }
    destruct r; cbn [check_keys]; try reflexivity; now rewrite Hk. }
  rewrite H1. clear q Sq H1. destruct r0 as [x0|d|d|l]; cbn [same_r] in Sr; try (subst r; reflexivity).
  destruct Sr as (x & -> & Sr). pose proof (same_r_keys x0 x Hr Sr) as Hk.
  destruct q0; cbn [check_keys]; try reflexivity; now rewrite (keys_eqb_run _ x0 x Hk).
Qed.

(** saving raises the same exceptions on runs with the same results *)
Lemma save_queries_err qs : forall sm sm' i (scores : list F), snd (save_queries sm i qs scores) = snd (save_queries sm' i qs scores).
Proof. induction qs as [|q qs IH]; intros; cbn [save_queries]; [reflexivity|]. destruct (nth_error scores i); [apply IH|reflexivity]. Qed.
Lemma save_metric_core std (x : Run N) m s : same_core (fst (save_metric std x m s)) x.
Proof. unfold save_metric. destruct (save_queries _ _ _ _) as [sm e]. cbn. now split. Qed.
Lemma save_metric_err std (x y : Run N) m s : same_core x y -> snd (save_metric std x m s) = snd (save_metric std y m s).
Proof.
  intros [H _]. unfold save_metric. rewrite H.
  pose proof (save_queries_err (dkeys (r_map y)) (match dget (r_scores x) m with Some s => s | None => [] end)
    (match dget (r_scores y) m with Some s => s | None => [] end) 0 s) as He.
  destruct (save_queries _ _ _ _) as [s1 e1]. destruct (save_queries _ _ _ _) as [s2 e2]. exact He.
Qed.
Lemma core_trans x y z : same_core x y -> same_core y z -> same_core x z.
Proof. intros [? ?] [? ?]. split; congruence. Qed.
Lemma core_sym x y : same_core x y -> same_core y x.
Proof. intros [? ?]. split; congruence. Qed.
Lemma save_results_core std d : forall x : Run N, same_core (fst (save_results std x d)) x.
Proof.
  induction d as [|[m s] d IH]; intros x; cbn [save_results]; [now split|].
  pose proof (save_metric_core std x m s) as H. destruct (save_metric std x m s) as [x' [e|]]; [exact H|].
  eapply core_trans; [apply IH|exact H].
Qed.
Lemma save_results_err std d : forall x y : Run N, same_core x y -> snd (save_results std x d) = snd (save_results std y d).
Proof.
  induction d as [|[m s] d IH]; intros x y H; cbn [save_results]; [reflexivity|].
  pose proof (save_metric_err std x y m s H) as He. pose proof (save_metric_core std x m s) as H1. pose proof (save_metric_core std y m s) as H2.
  destruct (save_metric std x m s) as [x' [e|]], (save_metric std y m s) as [y' [e'|]]; cbn [fst snd] in *; try congruence.
  apply IH. eapply core_trans; [exact H1|]. eapply core_trans; [exact H|]. now apply core_sym.
Qed.

(** one call *)
Lemma asked_same q0 r0 q r a : qarg_ok q0 -> rarg_ok r0 -> same_q q0 q -> same_r r0 r ->
  ev_res (asked E q r a) = ev_res (asked E q0 r0 a) /\ same_q q0 (ev_q (asked E q r a)) /\ same_r r0 (ev_r (asked E q r a)).
Proof.
  intros Hq Hr Sq Sr. unfold asked, M_Evaluate.evaluate. rewrite (check_same q0 q r0 r Hq Hr Sq Sr).
  destruct (check_keys q0 r0) as [[]|e]; [|cbn [ev_res ev_q ev_r]; auto].
  rewrite (convert_q_same q0 q Sq). destruct (convert_qrels E q0) as [q1 rq] eqn:Hcq.
  assert (Sq1 : same_q q0 q1) by (right; now rewrite Hcq).
  destruct rq as [tq|e]; [|cbn [ev_res ev_q ev_r]; auto].
  destruct (convert_r_same r0 r Sr) as [C1 C2].
  assert (S1 : same_r r0 (fst (convert_run E r))) by now apply core_same.
  destruct (convert_run E r) as [r1 rr], (convert_run E r0) as [r2 rr2]. cbn [fst snd] in C1, C2, S1. subst rr2.
  destruct rr as [tr|e]; [|cbn [ev_res ev_q ev_r]; auto].
  destruct (compute_scores E tq tr (a_metrics a)) as [[m d]|e]; [|cbn [ev_res ev_q ev_r]; auto].
  destruct r1 as [x1|d1|d1|l1], r2 as [x2|d2|d2|l2]; try (exfalso; exact C1); try discriminate C1;
    try (cbn [ev_res ev_q ev_r]; split; [reflexivity|auto]; fail).
  destruct (a_save a); [|cbn [ev_res ev_q ev_r]; split; [reflexivity|auto]].
  pose proof (save_results_err (if a_mean a then a_std a else false) d x1 x2 C1) as He.
  pose proof (save_results_core (if a_mean a then a_std a else false) d x1) as Hc.
  assert (S2 : same_r r0 (RObj (fst (save_results (if a_mean a then a_std a else false) x1 d)))).
  { destruct r0; cbn in S1; try discriminate S1. destruct S1 as (z & Hz & S1). injection Hz as <-. cbn. eexists. split; [reflexivity|].
    destruct S1 as [S1|S1]; [left|right]; eapply core_trans; eauto. }
  destruct (save_results _ x1 d) as [y1 e1], (save_results _ x2 d) as [y2 e2]. cbn [fst snd] in *. subst e2.
  destruct e1 as [e|]; cbn [ev_res ev_q ev_r]; (split; [reflexivity|auto]).
Qed.

Lemma after_same cs : forall q0 r0 q r, qarg_ok q0 -> rarg_ok r0 -> same_q q0 q -> same_r r0 r ->
  same_q q0 (fst (after E q r cs)) /\ same_r r0 (snd (after E q r cs)).
Proof.
  induction cs as [|a cs IH]; intros q0 r0 q r Hq Hr Sq Sr; cbn [after fst snd]; [auto|].
  destruct (asked_same q0 r0 q r a Hq Hr Sq Sr) as (_ & S1 & S2). now apply IH.
Qed.

Lemma Forall2_nth_error_l {A B} (P : A -> B -> Prop) l l' i a : Forall2 P l l' -> nth_error l i = Some a -> exists b, nth_error l' i = Some b /\ P a b.
Proof.
  intros H. revert i. induction H as [|x y l l' Hxy H IH]; intros [|i] Hi; try discriminate; cbn in *; [|now apply IH]. injection Hi as <-. eauto.
Qed.
Lemma Forall2_nth_error_r {A B} (P : A -> B -> Prop) l l' i b : Forall2 P l l' -> nth_error l' i = Some b -> exists a, nth_error l i = Some a /\ P a b.
Proof.
  intros H. revert i. induction H as [|x y l l' Hxy H IH]; intros [|i] Hi; try discriminate; cbn in *; [|now apply IH]. injection Hi as <-. eauto.
Qed.
Lemma Forall2_set {A B} (P : A -> B -> Prop) l l' i b : Forall2 P l l' -> (forall a, nth_error l i = Some a -> P a b) -> Forall2 P l (set_nth l' i b).
Proof.
  intros H. revert i. induction H as [|x y l l' Hxy H IH]; intros [|i] Hi; cbn in *; constructor; auto.
Qed.
Lemma Forall2_same_r rs : Forall2 same_r rs rs.
Proof. induction rs; constructor; auto using same_r_refl. Qed.
Lemma pool_same q0 rs0 : qarg_ok q0 -> Forall rarg_ok rs0 -> forall cs q rs, same_q q0 q -> Forall2 same_r rs0 rs ->
  same_q q0 (fst (after_pool E q rs cs)) /\ Forall2 same_r rs0 (snd (after_pool E q rs cs)).
Proof.
  intros Hq Hr. induction cs as [|[i a] cs IH]; intros q rs Sq Sr; cbn [after_pool fst snd]; [auto|].
  destruct (nth_error rs i) as [r|] eqn:Hi; [|now apply IH].
  destruct (Forall2_nth_error_r _ _ _ i r Sr Hi) as (r0 & H0 & H1).
  assert (Hr0 : rarg_ok r0) by (rewrite Forall_forall in Hr; apply Hr; now apply nth_error_In with i).
  destruct (asked_same q0 r0 q r a Hq Hr0 Sq H1) as (_ & S1 & S2). apply IH; [exact S1|]. apply Forall2_set; [exact Sr|].
  intros r1 Hr1. rewrite H0 in Hr1. injection Hr1 as <-. exact S2.
Qed.

(** ** several metrics *)
Definition one (tq tr : list rows) (metric : string) : result (string * list F) :=
  do mkl <- extract_metric_and_params metric;
  let '(m, k, lvl) := mkl in
  do f <- metric_switch E m; do s <- f tq tr k lvl; Ok (m, s).
Lemma compute_step tq tr (st : string * dict (list F)) metric :
  (do mkl <- extract_metric_and_params metric;
   let '(m, k, lvl) := mkl in
   do f <- metric_switch E m; do s <- f tq tr k lvl; Ok (m, dset (snd st) metric s)) =
  (do ms <- one tq tr metric; Ok (fst ms, dset (snd st) metric (snd ms))).
Proof.
  unfold one. destruct (extract_metric_and_params metric) as [[[m k] lvl]|e]; cbn; [|reflexivity].
  destruct (metric_switch E m) as [f|e]; cbn; [|reflexivity]. destruct (f tq tr k lvl); reflexivity.
Qed.
Definition scores_of (tq tr : list rows) (ms : list string) (st : string * dict (list F)) : result (string * dict (list F)) :=
  foldr_m (fun st metric => do b <- one tq tr metric; Ok (fst b, dset (snd st) metric (snd b))) ms st.
Lemma compute_scores_from tq tr ms : forall st, 
  foldr_m (fun st metric => do mkl <- extract_metric_and_params metric;
             let '(m, k, lvl) := mkl in
             do f <- metric_switch E m; do s <- f tq tr k lvl; Ok (m, dset (snd st) metric s)) ms st = scores_of tq tr ms st.
Proof.
  unfold scores_of. induction ms as [|m ms IH]; intros st; cbn [foldr_m]; [reflexivity|].
  rewrite compute_step. destruct (one tq tr m) as [b|e]; cbn [bindr]; [apply IH|reflexivity].
Qed.
Lemma compute_scores_of tq tr ms : compute_scores E tq tr ms = scores_of tq tr ms ("", []).
Proof. apply compute_scores_from. Qed.
Lemma firsts_ext ms : forall s s', (forall k, In k s <-> In k s') -> firsts s ms = firsts s' ms.
Proof.
  induction ms as [|m ms IH]; intros s s' H; cbn [firsts]; [reflexivity|].
  destruct (in_dec string_dec m s) as [Hi|Hi], (in_dec string_dec m s') as [Hj|Hj]; try (apply IH; exact H); try (exfalso; apply H in Hi || apply H in Hj; tauto).
  f_equal. apply IH. intros k. cbn. rewrite H. tauto.
Qed.
Lemma scores_ok tq tr ms : forall m0 d0 m1 d1, scores_of tq tr ms (m0, d0) = Ok (m1, d1) ->
  (forall m, In m ms -> exists b s, one tq tr m = Ok (b, s) /\ dget d1 m = Some s) /\
  (forall k, ~ In k ms -> dget d1 k = dget d0 k) /\ dkeys d1 = dkeys d0 ++ firsts (dkeys d0) ms.
Proof.
  induction ms as [|m ms IH]; intros m0 d0 m1 d1 H; unfold scores_of in H; cbn [foldr_m] in H.
  - injection H as <- <-. split; [intros ? []|]. split; [auto|]. cbn. now rewrite app_nil_r.
  - destruct (one tq tr m) as [[b s]|e] eqn:Hm; cbn [bindr fst snd] in H; [|discriminate].
    destruct (IH b (dset d0 m s) m1 d1 H) as (I1 & I2 & I3). split; [|split].
    + intros m' [ -> |Hin]; [|now apply I1].
      destruct (in_dec string_dec m' ms) as [Hi|Hi]; [now apply I1|]. exists b, s. split; [exact Hm|]. rewrite I2 by exact Hi. apply dget_dset_eq.
    + intros k Hk. cbn in Hk. rewrite I2 by tauto. apply dget_dset_neq. tauto.
    + rewrite I3. cbn [firsts]. destruct (in_dec string_dec m (dkeys d0)) as [Hi|Hi].
      * rewrite dkeys_dset_in by exact Hi. reflexivity.
      * rewrite dset_nin by exact Hi. unfold dkeys. rewrite map_app. cbn [map fst]. fold (dkeys d0). rewrite <- app_assoc. cbn. f_equal.
        f_equal. apply firsts_ext. intros k. rewrite in_app_iff. cbn. tauto.
Qed.
Lemma scores_err tq tr ms e : forall st, scores_of tq tr ms st = Err e <->
  exists pre m post, ms = pre ++ m :: post /\ one tq tr m = Err e /\ (forall p, In p pre -> exists v, one tq tr p = Ok v).
Proof.
  induction ms as [|m ms IH]; intros st; unfold scores_of; cbn [foldr_m].
  - split; [discriminate|]. intros (pre & m & post & H & _). destruct pre; discriminate.
  - destruct (one tq tr m) as [b|e'] eqn:Hm; cbn [bindr].
    + fold (scores_of tq tr ms (fst b, dset (snd st) m (snd b))). rewrite IH. split.
      * intros (pre & m' & post & -> & H1 & H2). exists (m :: pre), m', post. split; [reflexivity|]. split; [exact H1|].
        intros p [ <- |Hp]; [eauto|now apply H2].
      * intros ([|p pre] & m' & post & Heq & H1 & H2); cbn in Heq; injection Heq as <- ->; [congruence|].
        exists pre, m', post. split; [reflexivity|]. split; [exact H1|]. intros; apply H2; now right.
    + split.
      * intros H. injection H as <-. exists [], m, ms. split; [reflexivity|]. split; [exact Hm|]. intros p [].
      * intros ([|p pre] & m' & post & Heq & H1 & H2); cbn in Heq; injection Heq as <- ->; [congruence|].
        destruct (H2 m (or_introl eq_refl)). congruence.
Qed.
Lemma scores_single tq tr m : compute_scores E tq tr [m] = do b <- one tq tr m; Ok (fst b, [(m, snd b)]).
Proof. rewrite compute_scores_of. unfold scores_of. cbn [foldr_m]. destruct (one tq tr m); reflexivity. Qed.

(** the part of evaluate before the metrics *)
Lemma evaluate_shape q r std mk : exists p : result (list rows * list rows), forall ms,
  match p with
  | Err e => ev_res (evaluate q r ms true std false mk) = Err e
  | Ok (tq, tr) => ev_res (evaluate q r ms true std false mk) =
      do md <- scores_of tq tr ms ("", []);
      let out := map (fun kv => (fst kv, summarise true std (snd kv))) (snd md) in
      if length ms =? 1 then do v <- dget_r out (last_key (snd md) (fst md)); Ok (OutOne v) else Ok (OutDict out)
  end.
Proof.
  unfold M_Evaluate.evaluate. set (r1 := if mk then _ else r). clearbody r1.
  destruct (check_keys q r1) as [[]|e]; [|exists (Err e); reflexivity].
  destruct (convert_qrels E q) as [q1 [tq|e]]; [|exists (Err e); reflexivity].
  destruct (convert_run E r1) as [r2 [tr|e]]; [|exists (Err e); reflexivity].
  exists (Ok (tq, tr)). intros ms. rewrite compute_scores_of. destruct (scores_of tq tr ms ("", [])) as [[m d]|e]; [|reflexivity].
  cbn [bindr fst snd]. destruct r2; reflexivity.
Qed.

Lemma scores_list tq tr ms : forall m0 d0 m1 d1, NoDup ms -> (forall k, In k ms -> ~ In k (dkeys d0)) -> scores_of tq tr ms (m0, d0) = Ok (m1, d1) ->
  exists d, d1 = d0 ++ d /\ Forall2 (fun m kv => fst kv = m /\ exists b, one tq tr m = Ok (b, snd kv)) ms d.
Proof.
  induction ms as [|m ms IH]; intros m0 d0 m1 d1 Hnd Hd H; unfold scores_of in H; cbn [foldr_m] in H.
  - injection H as <- <-. exists []. rewrite app_nil_r. split; [reflexivity|constructor].
  - destruct (one tq tr m) as [[b s]|e] eqn:Hm; cbn [bindr fst snd] in H; [|discriminate]. inversion Hnd as [|? ? Hn1 Hn2]; subst.
    destruct (IH b (dset d0 m s) m1 d1 Hn2) as (d & -> & Hf); [|exact H|].
    { intros k Hk Hin. apply in_dkeys_dset in Hin as [ -> |Hin]; [contradiction|]. apply (Hd k); [now right|exact Hin]. }
    exists ((m, s) :: d). split; [|constructor; [cbn; eauto|exact Hf]].
    rewrite dset_nin by (apply Hd; now left). rewrite <- app_assoc. reflexivity.
Qed.
Lemma eval_one_save (mean std : bool) y y1 (x x1 : Run N) tq tr m b s x2 :
  check_keys (QObj y) (RObj x) = Ok tt -> Qrels_to_typed_list E y = (y1, tq) -> Run_to_typed_list E x = (x1, tr) ->
  one tq tr m = Ok (b, s) -> save_metric (if mean then std else false) x1 m s = (x2, None) ->
  ev_q (evaluate (QObj y) (RObj x) [m] mean std true false) = QObj y1 /\ ev_r (evaluate (QObj y) (RObj x) [m] mean std true false) = RObj x2.
Proof.
  intros Hc Ty Tx Ho Hsv. unfold M_Evaluate.evaluate. rewrite Hc. cbn [convert_qrels]. rewrite Ty. cbn [convert_run]. rewrite Tx.
  rewrite scores_single, Ho. cbn [bindr fst snd save_results]. rewrite Hsv. cbn [ev_q ev_r]. auto.
Qed.
Lemma typed_sorted (x x1 : Run N) tr : Run_to_typed_list E x = (x1, tr) -> r_sorted x1 = true /\ tr = to_typed_list E r_tof (r_map x1).
Proof. unfold Run_to_typed_list. destruct (r_sorted x) eqn:Hs; intros H; injection H as <- <-; auto. Qed.
Lemma saved_together (mean std : bool) y1 tq tr ms : forall d x1 x2 m1 y x, NoDup (dkeys (q_map y)) -> NoDup (dkeys (r_map x)) -> ms <> [] -> NoDup ms ->
  check_keys (@QObj N y) (RObj x) = Ok tt -> Qrels_to_typed_list E y = (y1, tq) -> Run_to_typed_list E x = (x1, tr) ->
  scores_of tq tr ms ("", []) = Ok (m1, d) -> save_results (if mean then std else false) x1 d = (x2, None) ->
  one_by_one E y x ms mean std = (QObj y1, RObj x2).
Proof.
  intros d x1 x2 m1 y x Hy Hx Hne Hnd Hc Ty Tx Hs Hsv.
  destruct (scores_list tq tr ms "" [] m1 d Hnd (fun _ _ H => H) Hs) as (d' & Hd & Hf). cbn [app] in Hd. subst d'. clear Hs Hnd.
  unfold one_by_one. revert y x x1 Hy Hx Hc Ty Tx Hsv. clear m1.
  induction Hf as [|m [m' s] ms d [Hm (b & Ho)] Hf IH]; intros y x x1 Hy Hx Hc Ty Tx Hsv; [contradiction|]. cbn [fst snd] in Hm, Ho. subst m'.
  cbn [save_results] in Hsv. destruct (save_metric (if mean then std else false) x1 m s) as [x' [e|]] eqn:Hm; [discriminate|].
  destruct (eval_one_save mean std y y1 x x1 tq tr m b s x' Hc Ty Tx Ho Hm) as [Eq Er].
  cbn [map after]. unfold asked. cbn [a_metrics a_mean a_std a_save]. rewrite Eq, Er.
  destruct Hf as [|m2 [m2' s2] ms d H2 Hf].
  { cbn [map after]. cbn [save_results] in Hsv. injection Hsv as <-. reflexivity. }
  assert (Ty1 : Qrels_to_typed_list E y1 = (y1, tq)).
  { pose proof (typed_again E y) as H. rewrite Ty in H. exact H. }
  destruct (typed_sorted x x1 tr Tx) as [Hx1 Htr].
  pose proof (save_metric_core (if mean then std else false) x1 m s) as Hcore. rewrite Hm in Hcore. cbn [fst] in Hcore. destruct Hcore as [C1 C2].
  assert (Tx' : Run_to_typed_list E x' = (x', tr)).
  { unfold Run_to_typed_list. rewrite C2, Hx1, C1, Htr. reflexivity. }
  assert (Kx : forall q, In q (dkeys (r_map x1)) <-> In q (dkeys (r_map x))).
  { pose proof (run_typed_keys x Hx) as K. rewrite Tx in K. exact K. }
  apply (IH ltac:(discriminate) y1 x' x').
  - assert (Hq : q_map y1 = q_map y \/ q_map y1 = canon E q_negf (q_map y)).
    { unfold Qrels_to_typed_list in Ty. destruct (q_sorted y); injection Ty as <-; [now left|now right]. }
    destruct Hq as [ -> | -> ]; [exact Hy|]. rewrite canon_keys by exact Hy. now apply str_sort_nodup.
  - rewrite C1. unfold Run_to_typed_list in Tx. destruct (r_sorted x); injection Tx as <-; [exact Hx|].
    change (NoDup (dkeys (canon E r_negf (r_map x)))). rewrite canon_keys by exact Hx. now apply str_sort_nodup.
  - rewrite <- Hc. apply check_same; [exact Hy|exact Hx| |].
    + right. cbn [convert_qrels]. rewrite Ty. reflexivity.
    + exists x'. split; [reflexivity|]. right. rewrite Tx. split; [exact C1|exact C2].
  - exact Ty1.
  - exact Tx'.
  - exact Hsv.
Qed.
Lemma dget_map {V W} (f : V -> W) (d : dict V) k : dget (map (fun kv => (fst kv, f (snd kv))) d) k = option_map f (dget d k).
Proof. induction d as [|[a v] d IH]; [reflexivity|]. cbn. destruct (String.eqb k a) eqn:He; cbn; rewrite ?He; auto. Qed.
End Again.
