(** T_Evaluate2.v: more theorems about ranx.evaluate (C07, C19, C20). *)
From Coq Require Import Reals Lra.
From Verif Require Import Base Dict Num NumLaws Env EnvEx M_Common M_Qrels M_Run M_History M_Metrics M_Evaluate
  Spec_DS Spec_Hist Spec_Strings Spec_Metrics Spec_MetricsAPI Spec_Eval
  P_Base P_Dict P_Common P_History P_DS P_Metrics P_Metrics4 P_Metrics6 P_Metrics7 P_Strings T_DS T_Metrics T_Parse
  P_Eval P_Eval2 P_Eval3 P_Eval4 P_Eval5 T_Evaluate.
Open Scope string_scope.
Open Scope list_scope.
Open Scope nat_scope.

(** ** C19 *)
Theorem C19_array_when_saved : forall (E : env NumR), env_ok E ->
  forall q jm qs x s std,
  qrels_input E q jm qs -> run_reachable E x -> same_queries jm (r_map x) ->
  match q with QObj _ => True | _ => qs = str_sort (dkeys (r_map x)) end ->
  docs_distinct E jm (r_map x) -> metrics_ok [s] jm ->
  exists ranking scores,
    (forall b, In b qs -> ranks (of_query (r_map x) b) (ranking b)) /\
    are_scores [s] jm qs ranking scores /\
    ev_res (@evaluate NumR E q (RObj x) [s] false std true false) = Ok (@OutOne NumR (@OArr NumR (scores s))).
Proof.
  intros E HE q jm qs x s std Hq Hx Hs Ho Hids Hmet.
  destruct (C15_own_judgments E HE q jm qs (RObj x) (r_map x) (str_sort (dkeys (r_map x))) [s] false std true)
    as (ranking & scores & H1 & H2 & H3); auto.
  - now apply RI_obj.
  - exists ranking, scores. split; [|split; [exact H2|exact H3]].
    intros b Hb. apply H1. destruct (convert_qrels_spec E HE q jm qs Hq) as (_ & _ & _ & _ & _ & Hp).
    apply (Permutation_in _ Hp) in Hb. apply Hs in Hb. now apply (Permutation_in _ (str_sort_perm _)).
Qed.
Print Assumptions C19_array_when_saved.

(** Without saving, the array is returned only if the string is a bare metric name;
    otherwise KeyError. *)
Theorem C19_unsaved : forall (E : env NumR), env_ok E ->
  forall q jm qs r rm rs s name k lvl std save,
  qrels_input E q jm qs -> run_input E r rm rs -> same_queries jm rm ->
  (forall a b, In (a, b) (combine qs rs) ->
     ids_distinct (doc_key E) (dkeys (of_query jm a) ++ dkeys (of_query rm b))) ->
  denotes s name k lvl -> (forall q, In q (dkeys jm) -> metric_defined name (of_query jm q) lvl) ->
  save = false \/ is_run_object r = false ->
  if String.eqb name s
  then exists l, ev_res (@evaluate NumR E q r [s] false std save false) = Ok (@OutOne NumR (@OArr NumR l))
  else ev_res (@evaluate NumR E q r [s] false std save false) = Err KeyError.
Proof.
  intros E HE q jm qs r rm rs s name k lvl std save Hq Hr Hs Hids Hden Hdef Hsave.
  assert (Hmet : metrics_ok [s] jm) by (intros s' [<-|[]]; exists name, k, lvl; auto).
  destruct (evaluate_pairs E HE q jm qs r rm rs [s] false std save false Hq Hr Hs Hids Hmet (or_introl eq_refl)) as (ranking & scores & _ & _ & H3).
  cbn [eval_result] in H3. destruct H3 as (name' & k' & lvl' & He & H3).
  destruct Hden as (Hd & _). assert (Heq : Ok (name', k', lvl') = Ok (name, k, lvl)) by (rewrite <- He; exact Hd).
  injection Heq as <- <- <-.
  assert (Hsv : save && is_run_object r = false) by (apply andb_false_iff; exact Hsave).
  rewrite Hsv in H3.
  cbn [orb] in H3. rewrite H3. destruct (String.eqb name' s); [exists (scores s); reflexivity|reflexivity].
Qed.
Print Assumptions C19_unsaved.

(** In particular "name@k" (any supported metric, any cut-off) raises KeyError. *)
Theorem C19_array_refuted : forall (E : env NumR), env_ok E ->
  forall q jm qs r rm rs name ks k std save,
  qrels_input E q jm qs -> run_input E r rm rs -> same_queries jm rm ->
  (forall a b, In (a, b) (combine qs rs) ->
     ids_distinct (doc_key E) (dkeys (of_query jm a) ++ dkeys (of_query rm b))) ->
  In name cutoff_metrics -> name <> "bpref" -> numeral ks k -> (0 <= k)%Z ->
  save = false \/ is_run_object r = false ->
  ev_res (@evaluate NumR E q r [(name ++ "@" ++ ks)%string] false std save false) = Err KeyError.
Proof.
  intros E HE q jm qs r rm rs name ks k std save Hq Hr Hs Hids Hn Hb Hk Hk0 Hsave.
  destruct (C13_metric_strings NumR name ks k ks k Hn Hk Hk) as (_ & He & _).
  assert (H := C19_unsaved E HE q jm qs r rm rs (name ++ "@" ++ ks)%string name (KInt k) 1%Z std save Hq Hr Hs Hids).
  assert (Hneq : String.eqb name (name ++ "@" ++ ks)%string = false).
  { apply String.eqb_neq. intros Heq. assert (Hl := f_equal String.length Heq).
    assert (Hla : forall a b, String.length (a ++ b)%string = String.length a + String.length b).
    { clear. induction a as [|c a IH]; intros b; cbn; [reflexivity|]. now rewrite IH. }
    rewrite Hla in Hl. cbn in Hl. lia. }
  rewrite Hneq in H. apply H; auto.
  - split; [exact He|]. split; [unfold all_metrics; apply in_or_app; now left|]. split; [cbn; auto|lia].
  - intros a _ Hbp. contradiction.
Qed.
Print Assumptions C19_array_refuted.

(** ** C20 *)
(** Two sorted listings without ties of the same results are equal. *)
Lemma sorted_unique (l1 l2 : dict R) : Permutation l1 l2 -> NoDup (dvals l1) ->
  StronglySorted (fun a b : string * R => (snd b <= snd a)%R) l1 ->
  StronglySorted (fun a b : string * R => (snd b <= snd a)%R) l2 -> l1 = l2.
Proof.
  revert l2. induction l1 as [|[k v] l1 IH]; intros l2 Hp Hn H1 H2.
  - apply Permutation_nil in Hp. now subst.
  - destruct l2 as [|[k' v'] l2]; [apply Permutation_sym, Permutation_nil in Hp; discriminate|].
    cbn in Hn. inversion Hn as [|? ? Hn1 Hn2]; subst. inversion H1 as [|? ? S1 F1]; subst. inversion H2 as [|? ? S2 F2]; subst.
    rewrite Forall_forall in F1, F2.
    assert (Hkv : (k, v) = (k', v')).
    { assert (Hin : In (k, v) ((k', v') :: l2)) by (apply (Permutation_in _ Hp); now left).
      assert (Hin' : In (k', v') ((k, v) :: l1)) by (apply (Permutation_in _ (Permutation_sym Hp)); now left).
      destruct Hin as [Hin|Hin]; [congruence|]. destruct Hin' as [Hin'|Hin']; [congruence|].
      specialize (F2 _ Hin). specialize (F1 _ Hin'). cbn in F1, F2. assert (v = v') by lra. subst v'.
      exfalso. apply Hn1. apply in_map_iff. exists (k', v). auto. }
    inversion Hkv; subst. f_equal. apply IH; auto. now apply Permutation_cons_inv in Hp.
Qed.
Lemma ranks_unique r ds ds' : NoDup (dvals r) -> ranks r ds -> ranks r ds' -> ds = ds'.
Proof.
  intros Hn (k1 & P1 & S1 & ->) (k2 & P2 & S2 & ->). f_equal. apply sorted_unique; auto.
  - eapply Permutation_trans; [apply Permutation_sym, P1|exact P2].
  - unfold dvals in *. eapply Permutation_NoDup; [apply Permutation_map, P1|exact Hn].
Qed.
Lemma ranks_perm r r' ds : Permutation r r' -> ranks r ds -> ranks r' ds.
Proof. intros Hp (k & P1 & S1 & ->). exists k. split; [|auto]. eapply Permutation_trans; [apply Permutation_sym, Hp|exact P1]. Qed.
Definition map_scores (f : R -> R) (r : dict R) : dict R := map (fun kv => (fst kv, f (snd kv))) r.
Lemma ranks_map f r ds : (forall a b, (a < b)%R -> (f a < f b)%R) -> ranks r ds -> ranks (map_scores f r) ds.
Proof.
  intros Hf (k & P1 & S1 & ->). exists (map_scores f k). split; [now apply Permutation_map|]. split.
  - unfold map_scores. apply StronglySorted_map. eapply StronglySorted_impl; [|exact S1]. intros a b. cbn.
    intros H. destruct (Rle_lt_or_eq_dec _ _ H) as [H'|H']; [left; now apply Hf|rewrite H'; lra].
  - unfold map_scores, dkeys. now rewrite map_map.
Qed.

(** [x'] has the results of [x] with every score s replaced by f(s); the two runs may have
    been built in different ways and list things in different orders. *)
Definition rescored (f : R -> R) (x x' : dict (dict R)) : Prop :=
  same_queries x x' /\ forall q, Permutation (of_query x' q) (map_scores f (of_query x q)).
Definition no_ties (x : dict (dict R)) : Prop := forall q, NoDup (dvals (of_query x q)).

Theorem C20_only_ranking_matters : forall (E : env NumR), env_ok E ->
  forall y x x' f metrics mean std save,
  qrels_reachable E y -> run_reachable E x -> run_reachable E x' ->
  (forall a b, (a < b)%R -> (f a < f b)%R) -> rescored f (r_map x) (r_map x') -> no_ties (r_map x) ->
  same_queries (q_map y) (r_map x) -> docs_distinct E (q_map y) (r_map x) -> metrics_ok metrics (q_map y) ->
  same_result (ev_res (@evaluate NumR E (QObj y) (RObj x) metrics mean std save false))
              (ev_res (@evaluate NumR E (QObj y) (RObj x') metrics mean std save false)).
Proof.
  intros E HE y x x' f metrics mean std save Hy Hx Hx' Hf [Hsq Hre] Hnt Hs Hids Hmet.
  assert (Hs' : same_queries (q_map y) (r_map x')) by (intros q; etransitivity; [apply Hs|apply Hsq]).
  assert (Hids' : docs_distinct E (q_map y) (r_map x')).
  { intros q Hq. eapply ids_distinct_perm; [|apply (Hids q Hq)]. apply Permutation_app_head.
    assert (Hk : dkeys (map_scores f (of_query (r_map x) q)) = dkeys (of_query (r_map x) q)) by (unfold map_scores, dkeys; now rewrite map_map).
    refine (eq_ind _ (fun l => Permutation l _) _ _ Hk). unfold dkeys. apply Permutation_map, Permutation_sym, Hre. }
  assert (Hy' := qrels_reachable_inv E HE y Hy).
  destruct (evaluate_objects E HE y x metrics mean std save false Hy' (run_reachable_inv E HE x Hx) (fun _ => Hs) Hids Hmet)
    as (rk1 & sc1 & y1 & x1 & _ & _ & _ & _ & _ & _ & _ & A10 & A11 & A12 & _).
  destruct (evaluate_objects E HE y x' metrics mean std save false Hy' (run_reachable_inv E HE x' Hx') (fun _ => Hs') Hids' Hmet)
    as (rk2 & sc2 & y2 & x2 & _ & _ & _ & _ & _ & _ & _ & B10 & B11 & B12 & _).
  set (qs := str_sort (dkeys (q_map y))) in *.
  assert (Hrk : forall q, In q qs -> rk1 q = rk2 q).
  { intros q Hq. apply ranks_unique with (map_scores f (of_query (r_map x) q)).
    - unfold map_scores, dvals. rewrite map_map. cbn [snd]. rewrite <- (map_map snd f).
      assert (Hi : forall l, NoDup l -> NoDup (map f l)).
      { induction l as [|a l IH]; intros H; cbn; [constructor|]. inversion H; subst. constructor; auto.
        intros Hin. apply in_map_iff in Hin as (b & Hb & Hin).
        destruct (Rtotal_order a b) as [Hab|[Hab|Hab]]; [apply Hf in Hab; lra|subst; contradiction|apply Hf in Hab; lra]. }
      apply Hi. exact (Hnt q).
    - now apply ranks_map, A10.
    - eapply ranks_perm; [apply Hre|]. now apply B10. }
  assert (Hsc : forall s, In s metrics -> sc1 s = sc2 s).
  { intros s Hin. destruct (Hmet s Hin) as (name & k & lvl & Hden & _).
    assert (F1 := A11 s name k lvl Hin Hden). assert (F2 := B11 s name k lvl Hin Hden).
    clear - F1 F2 Hrk. revert F1 F2 Hrk. generalize (sc1 s) as l1, (sc2 s) as l2. induction qs as [|q l IH]; intros l1 l2 F1 F2 Hrk.
    - inversion F1; inversion F2; congruence.
    - inversion F1 as [|? v1 ? t1 V1 T1]; inversion F2 as [|? v2 ? t2 V2 T2]; subst. f_equal.
      + rewrite (Hrk q (or_introl eq_refl)) in V1. exact (metric_value_unique _ _ _ _ _ _ _ V1 V2).
      + apply IH; auto. intros; apply Hrk; now right. }
  unfold eval_result in A12, B12. destruct metrics as [|s [|s2 ms]].
  - destruct A12 as (d1 & -> & A13), B12 as (d2 & -> & B13). cbn. intros s. destruct (A13 s), (B13 s). rewrite H0, H2; auto.
  - destruct A12 as (n1 & k1 & l1 & E1 & ->), B12 as (n2 & k2 & l2 & E2 & ->).
    assert (Heq : Ok (n1, k1, l1) = Ok (n2, k2, l2)) by (rewrite <- E1; exact E2). injection Heq as <- <- <-.
    rewrite (Hsc s (or_introl eq_refl)). destruct (mean || save || String.eqb n1 s); reflexivity.
  - destruct A12 as (d1 & -> & A13), B12 as (d2 & -> & B13). cbn. intros a. destruct (A13 a) as [A1 A2], (B13 a) as [B1 B2].
    destruct (in_dec string_dec a (s :: s2 :: ms)) as [Hin|Hin].
    + rewrite A1, B1, Hsc by assumption. reflexivity.
    + rewrite A2, B2 by assumption. reflexivity.
Qed.
Print Assumptions C20_only_ranking_matters.
