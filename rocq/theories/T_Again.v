(** T_Again.v: C97 — evaluations of the same objects do not disturb one another. *)
From Coq Require Import Reals Lra.
From Verif Require Import Base Dict Num NumLaws Env EnvEx M_Common M_Qrels M_Run M_History M_Metrics M_Strings M_Evaluate Spec_DS P_Base P_Dict P_Common M_Optimize P_Optimize Spec_Again P_Again.
Open Scope string_scope.
Open Scope list_scope.
Open Scope nat_scope.

(** After any series of calls on the same qrels and run, with any metrics and options
    (make_comparable=False) and whether they return or raise, a call returns or raises what
    it would have on the untouched objects — although the calls sort the objects in place
    and save results in the run. *)
Theorem C97_any_history : forall (N : Num) (E : env N) (q : qarg) (r : rarg) (calls : list ask) (a : ask),
  qarg_ok q -> rarg_ok r ->
  ev_res (asked E (fst (after E q r calls)) (snd (after E q r calls)) a) = ev_res (asked E q r a).
Proof.
  intros N E q r calls a Hq Hr.
  destruct (after_same E calls q r q r Hq Hr (or_introl eq_refl) (same_r_refl E r)) as [S1 S2].
  exact (proj1 (asked_same E q r _ _ a Hq Hr S1 S2)).
Qed.
Print Assumptions C97_any_history.

(** The same for one qrels and several runs: whatever was evaluated before, on whichever
    of the runs, a call on any of them gives what it gives on the untouched objects. *)
Theorem C97_any_pool_history : forall (N : Num) (E : env N) (q : qarg) (rs : list rarg) (calls : list (nat * ask)) (i : nat) (r : rarg) (a : ask),
  qarg_ok q -> Forall rarg_ok rs -> nth_error rs i = Some r ->
  exists r', nth_error (snd (after_pool E q rs calls)) i = Some r' /\
    ev_res (asked E (fst (after_pool E q rs calls)) r' a) = ev_res (asked E q r a).
Proof.
  intros N E q rs calls i r a Hq Hrs Hi.
  destruct (pool_same E q rs Hq Hrs calls q rs) as [S1 S2]; [now left|apply Forall2_same_r; auto|].
  destruct (Forall2_nth_error_l _ _ _ i r S2 Hi) as (r' & H1 & H2). exists r'. split; [exact H1|].
  apply asked_same; [exact Hq| |exact S1|exact H2]. rewrite Forall_forall in Hrs. apply Hrs. now apply nth_error_In with i.
Qed.
Print Assumptions C97_any_pool_history.

(** Asking for several metrics at once gives, for each, what asking for it alone gives. *)
Theorem C97_several_metrics : forall (N : Num) (E : env N) (q : qarg) (r : rarg) (metrics : list string) (std mk : bool) d,
  ev_res (@evaluate N E q r metrics true std false mk) = Ok (OutDict d) ->
  dkeys d = firsts [] metrics /\
  (forall m, In m metrics -> exists v, dget d m = Some v /\ ev_res (@evaluate N E q r [m] true std false mk) = Ok (OutOne v)).
Proof.
  intros N E q r metrics std mk d H. destruct (evaluate_shape E q r std mk) as [[[tq tr]|e] Hp].
  - pose proof (Hp metrics) as Hm. cbn in Hm. rewrite Hm in H. clear Hm.
    destruct (scores_of E tq tr metrics ("", [])) as [[m1 d1]|e] eqn:Hs; [|discriminate]. cbn [bindr fst snd] in H.
    destruct (length metrics =? 1) eqn:Hl.
    { destruct (dget_r _ _) in H; discriminate. }
    injection H as <-. destruct (scores_ok E tq tr metrics "" [] m1 d1 Hs) as (S1 & S2 & S3). split.
    + unfold dkeys in *. rewrite map_map. cbn [fst]. exact S3.
    + intros m Hm. destruct (S1 m Hm) as (b & s & H1 & H2). exists (summarise true std s). split; [refine (eq_trans (dget_map (summarise true std) d1 m) _); rewrite H2; reflexivity|].
      pose proof (Hp [m]) as H'. cbn [length Nat.eqb] in H'. rewrite H'. unfold scores_of. cbn [foldr_m]. rewrite H1. cbn [bindr fst snd dset map].
      unfold last_key. cbn [fold_left fst]. unfold dget_r. cbn [dget]. rewrite String.eqb_refl. reflexivity.
  - rewrite (Hp metrics) in H. discriminate.
Qed.
Print Assumptions C97_several_metrics.

(** It raises exactly when one of them alone raises: the exception of the first that does. *)
Theorem C97_several_raise : forall (N : Num) (E : env N) (q : qarg) (r : rarg) (metrics : list string) (std mk : bool) e,
  metrics <> [] ->
  (ev_res (@evaluate N E q r metrics true std false mk) = Err e <->
   exists pre m post, metrics = pre ++ m :: post /\ ev_res (@evaluate N E q r [m] true std false mk) = Err e /\
     forall p, In p pre -> exists v, ev_res (@evaluate N E q r [p] true std false mk) = Ok v).
Proof.
  intros N E q r metrics std mk e Hne. destruct (evaluate_shape E q r std mk) as [[[tq tr]|e'] Hp].
  - assert (H1 : forall m, ev_res (@evaluate N E q r [m] true std false mk) = do b <- one E tq tr m; Ok (OutOne (summarise true std (snd b)))).
    { intros m. pose proof (Hp [m]) as H. cbn [length Nat.eqb] in H. rewrite H. unfold scores_of. cbn [foldr_m].
      destruct (one E tq tr m) as [b|e']; [|reflexivity]. cbn [bindr fst snd dset map]. unfold last_key. cbn [fold_left fst]. unfold dget_r. cbn [dget].
      rewrite String.eqb_refl. reflexivity. }
    assert (H2 : ev_res (@evaluate N E q r metrics true std false mk) = Err e <-> scores_of E tq tr metrics ("", []) = Err e).
    { destruct (length metrics =? 1) eqn:Hl.
      - destruct metrics as [|m [|? ?]]; try discriminate. rewrite H1. unfold scores_of. cbn [foldr_m].
        destruct (one E tq tr m) as [b|e']; cbn [bindr]; split; intros H; try discriminate; exact H || (injection H as ->; reflexivity).
      - pose proof (Hp metrics) as H. cbn in H. rewrite H, Hl. destruct (scores_of E tq tr metrics ("", [])) as [[m1 d1]|e1]; cbn [bindr]; split; intros He; try discriminate; exact He || (injection He as ->; reflexivity). }
    rewrite H2, scores_err. split; intros (pre & m & post & -> & A & B); exists pre, m, post; (split; [reflexivity|]); split.
    + rewrite H1, A. reflexivity.
    + intros p Hin. destruct (B p Hin) as [v Hv]. rewrite H1, Hv. cbn [bindr]. eauto.
    + rewrite H1 in A. destruct (one E tq tr m); [discriminate|]. cbn in A. injection A as ->. reflexivity.
    + intros p Hin. destruct (B p Hin) as [v Hv]. rewrite H1 in Hv. destruct (one E tq tr p) as [b|]; [eauto|discriminate].
  - split.
    + intros H. rewrite (Hp metrics) in H. injection H as ->. destruct metrics as [|m ms]; [contradiction|].
      exists [], m, ms. split; [reflexivity|]. split; [apply (Hp [m])|]. intros p [].
    + intros (pre & m & post & _ & A & _). rewrite (Hp [m]) in A. rewrite (Hp metrics). exact A.
Qed.
Print Assumptions C97_several_raise.

(** Saving: evaluating the metrics in one call leaves the run (its results, its saved
    scores, means and standard deviations) and the qrels exactly as evaluating them one
    after the other does. *)
Theorem C97_saved_together : forall (N : Num) (E : env N) (y : Qrels) (x : Run N) (metrics : list string) (mean std : bool) v,
  NoDup (dkeys (q_map y)) -> NoDup (dkeys (r_map x)) -> metrics <> [] -> NoDup metrics ->
  ev_res (@evaluate N E (QObj y) (RObj x) metrics mean std true false) = Ok v ->
  one_by_one E y x metrics mean std =
    (ev_q (@evaluate N E (QObj y) (RObj x) metrics mean std true false),
     ev_r (@evaluate N E (QObj y) (RObj x) metrics mean std true false)).
Proof.
  intros N E y x metrics mean std v Hy Hx Hne Hnd H.
  unfold M_Evaluate.evaluate in H |- *. destruct (check_keys (QObj y) (RObj x)) as [[]|e] eqn:Hc; [|discriminate].
  cbn [convert_qrels] in H |- *. destruct (Qrels_to_typed_list E y) as [y1 tq] eqn:Ty. cbn [convert_run] in H |- *.
  destruct (Run_to_typed_list E x) as [x1 tr] eqn:Tx. destruct (compute_scores E tq tr metrics) as [[m d]|e] eqn:Hs; [|discriminate].
  destruct (save_results (if mean then std else false) x1 d) as [x2 [e|]] eqn:Hsv; [discriminate|]. cbn [ev_q ev_r]. clear H v.
  rewrite compute_scores_of in Hs. exact (saved_together E mean std y1 tq tr metrics d x1 x2 m y x Hy Hx Hne Hnd Hc Ty Tx Hs Hsv).
Qed.
Print Assumptions C97_saved_together.

(** ** With make_comparable=True *)
(** The documentation says evaluating is read-only up to sorting; with make_comparable=True
    the run is sorted again at each call, and [np.argsort] (not stable) may place tied
    documents otherwise.  An environment whose argsort puts later ties first: *)
Section Ties.
Context {N : Num}.
Definition ties_argsort (l : list F) : list nat := map (fun i => length l - 1 - i) (ex_argsort (rev l)).
Definition env_ties : env N := Env N (e_hash env_ex) ties_argsort (e_sched env_ex) (e_setorder env_ex).
Context (HL : NumLaws N).
Lemma map_nodup (f : nat -> nat) l : (forall a b, In a l -> In b l -> f a = f b -> a = b) -> NoDup l -> NoDup (map f l).
Proof.
  intros Hf H. induction H as [|a l Ha H IH]; cbn [map]; constructor.
  - intros Hin. apply in_map_iff in Hin as (b & Hb & Hin). apply Ha. rewrite <- (Hf b a); auto; now (left + right).
  - apply IH. intros; apply Hf; auto; now right.
Qed.
Lemma seq_mirror n : Permutation (map (fun i => n - 1 - i) (seq 0 n)) (seq 0 n).
Proof.
  apply NoDup_Permutation.
  - apply map_nodup; [|apply seq_NoDup]. intros a b Ha Hb Hab. apply in_seq in Ha, Hb. lia.
  - apply seq_NoDup.
  - intros i. rewrite in_map_iff, in_seq. split; [intros (j & <- & Hj); apply in_seq in Hj; lia|].
    intros Hi. exists (n - 1 - i). split; [lia|]. apply in_seq. lia.
Qed.
Lemma env_ties_ok : env_ok env_ties.
Proof.
  pose proof (env_ex_ok HL) as HE. split; cbn [env_ties e_hash e_argsort e_sched e_setorder].
  - intros l. unfold ties_argsort. eapply Permutation_trans; [apply Permutation_map, (argsort_perm _ HE (rev l))|]. rewrite rev_length. apply seq_mirror.
  - intros l Hl. unfold ties_argsort. rewrite map_map.
    assert (Hr : Forall (fun x => is_nan x = false) (rev l)) by (apply Forall_forall; intros a Ha; rewrite Forall_forall in Hl; apply Hl, in_rev, Ha).
    pose proof (argsort_sorted _ HE (rev l) Hr) as Hs. cbn [env_ex e_argsort] in Hs.
    erewrite map_ext_in; [exact Hs|]. intros i Hi. cbn beta.
    apply (Permutation_in _ (argsort_perm _ HE (rev l))) in Hi. apply in_seq in Hi. rewrite rev_length in Hi.
    rewrite rev_nth by lia. f_equal. lia.
  - apply (sched_perm _ HE).
  - apply (setorder_nodup _ HE).
  - apply (setorder_in _ HE).
Qed.
End Ties.

(** [evaluate(q, r, "mrr", make_comparable=True)] twice on the same objects. *)
Theorem C97_comparable_refuted : exists (E : env NumSF) (y : Qrels) (x : Run NumSF),
  env_ok E /\ NoDup (dkeys (q_map y)) /\ NoDup (dkeys (r_map x)) /\
  let o := @evaluate NumSF E (QObj y) (RObj x) ["mrr"] true false false true in
  exists v v', ev_res o = Ok v /\ ev_res (@evaluate NumSF E (ev_q o) (ev_r o) ["mrr"] true false false true) = Ok v' /\ v <> v'.
Proof.
  exists env_ties, (mkQrels [("q1", [("a", 1%Z)])] false None),
    (@mkRun NumSF [("q1", [("a", fone); ("b", fone)])] false None [] [] []).
  split; [exact (env_ties_ok NumSF_ok)|]. split; [repeat constructor; intros []|]. split; [repeat constructor; intros []|].
  cbn zeta. exists (OutOne (OMean (@fdec NumSF 5 1))), (OutOne (OMean (@fone NumSF))).
  split; [vmr|]. split; [vmr|].
  set (f := fun o : @outcome NumSF => match o with OutOne (OMean m) => @feqb NumSF m (@fone NumSF) | _ => false end).
  assert (Hb : f (OutOne (OMean (@fdec NumSF 5 1))) = false) by vmr. assert (Ht : f (OutOne (OMean (@fone NumSF))) = true) by vmr.
  clearbody f. intros H. rewrite H in Hb. congruence.
Qed.
Print Assumptions C97_comparable_refuted.

(** ** The theorems apply *)
Definition a_y : Qrels := mkQrels [("q2", [("b", 1%Z)]); ("q1", [("a", 2%Z); ("c", 1%Z)])] false None.
Definition a_x : Run NumSF := @mkRun NumSF [("q1", [("a", @fdec NumSF 5 1); ("b", @fone NumSF)]); ("q2", [("b", @fone NumSF); ("c", @fdec NumSF 2 1)])] false None [] [] [].
Definition a_calls : list ask := [Ask ["precision@1"; "nope"] true false true; Ask ["recall"; "mrr@1"] false false true; Ask ["mrr"] true true true].
Example ex_C97_history : @qarg_ok NumSF (QObj a_y) /\ @rarg_ok NumSF (RObj a_x) /\
  (exists e, ev_res (asked env_ex (QObj a_y) (RObj a_x) (Ask ["precision@1"; "nope"] true false true)) = Err e) /\
  snd (after env_ex (QObj a_y) (RObj a_x) a_calls) <> RObj a_x /\
  fst (after env_ex (QObj a_y) (RObj a_x) a_calls) <> QObj a_y /\
  ev_res (asked env_ex (QObj a_y) (RObj a_x) (Ask ["hits"] true false false)) = Ok (OutOne (OMean (@fone NumSF))).
Proof.
  split; [repeat (constructor; [intros H; cbn in H; intuition discriminate|]); constructor|].
  split; [repeat (constructor; [intros H; cbn in H; intuition discriminate|]); constructor|].
  split; [exists ValueError; vmr|].
  split; [|split; [|vmr]].
  - intros H. assert (Hn : match snd (after env_ex (QObj a_y) (RObj a_x) a_calls) with RObj x => length (r_mean x) | _ => 0 end = 3) by vmr.
    rewrite H in Hn. discriminate.
  - intros H. assert (Hn : match fst (after env_ex (QObj a_y) (RObj a_x) a_calls) with QObj x => q_sorted x | _ => false end = true) by vmr.
    rewrite H in Hn. discriminate.
Qed.
Example ex_C97_pool : Forall (@rarg_ok NumSF) [RObj a_x; RDict (r_map a_x)] /\
  match snd (after_pool env_ex (QObj a_y) [RObj a_x; RDict (r_map a_x)] [(0, Ask ["mrr"] true false true); (1, Ask ["mrr"] true false true)]) with
  | [RObj x; _] => length (r_mean x) | _ => 0 end = 1.
Proof.
  split; [|vmr]. constructor; [|constructor; [exact I|constructor]].
  repeat (constructor; [intros H; cbn in H; intuition discriminate|]); constructor.
Qed.
Example ex_C97_several :
  ev_res (@evaluate NumSF env_ex (QObj a_y) (RObj a_x) ["hits"; "mrr"; "hits"] true false false false) =
    Ok (OutDict [("hits", OMean (@fone NumSF)); ("mrr", OMean (@fdec NumSF 75 2))]) /\
  firsts [] ["hits"; "mrr"; "hits"] = ["hits"; "mrr"] /\
  (exists e, ev_res (@evaluate NumSF env_ex (QObj a_y) (RObj a_x) ["hits"; "nope"] true false false false) = Err e).
Proof. split; [vmr|]. split; [reflexivity|]. exists ValueError. vmr. Qed.
Example ex_C97_saved : NoDup ["hits"; "mrr"; "recall@1"] /\ exists v,
  ev_res (@evaluate NumSF env_ex (QObj a_y) (RObj a_x) ["hits"; "mrr"; "recall@1"] true true true false) = Ok v.
Proof. split; [repeat (constructor; [intros H; cbn in H; intuition discriminate|]); constructor|].
  assert (H : match ev_res (@evaluate NumSF env_ex (QObj a_y) (RObj a_x) ["hits"; "mrr"; "recall@1"] true true true false) with Ok _ => true | Err _ => false end = true) by vmr.
  destruct (ev_res (@evaluate NumSF env_ex (QObj a_y) (RObj a_x) ["hits"; "mrr"; "recall@1"] true true true false)) as [v|e]; [now exists v|discriminate].
Qed.
