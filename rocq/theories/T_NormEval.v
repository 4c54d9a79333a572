(** T_NormEval.v: normalising a run does not change its metrics (C102) *)
From Coq Require Import Reals Lra Lia Permutation.
From Verif Require Import Base Dict Num NumLaws Env EnvEx M_Common M_Qrels M_Run M_History M_Metrics M_Strings M_Evaluate M_Norm M_Fusion
  Spec_DS Spec_Hist Spec_Metrics Spec_Eval Spec_Norm Spec_Fusion Spec_Weights Spec_NormEval
  P_Base P_Dict P_Common P_History P_DS P_Metrics P_Eval P_Eval2 P_Eval3 P_Eval4 P_Eval5 P_Norm T_Norm T_Norm2 T_Norm3 P_Fusion
  Ex_Metrics T_Evaluate Spec_Closure P_Closure T_Evaluate2 T_Closure T_Fusion6 Spec_Alike P_Alike T_Alike T_Weights.
Open Scope string_scope.
Open Scope list_scope.
Open Scope nat_scope.

(** ** Same order, same ranking *)
Lemma perm_by_keys (r r' : dict R) : NoDup (dkeys r) -> NoDup (dkeys r') -> (forall d, In d (dkeys r') <-> In d (dkeys r)) -> Permutation (dkeys r) (dkeys r').
Proof. intros H H' Hk. apply NoDup_Permutation; auto. intros d. symmetry. apply Hk. Qed.
Lemma order_ranks (r r' : dict R) l l' : dict_ok r -> dict_ok r' -> (forall d, In d (dkeys r') <-> In d (dkeys r)) ->
  (forall d d' s, In (d, s) r -> In (d', s) r -> d = d') ->
  (forall d d' s s' v v', In (d, s) r -> In (d', s') r -> In (d, v) r' -> In (d', v') r' -> (s < s')%R -> (v < v')%R) ->
  ranks r l -> ranks r' l' -> l = l'.
Proof.
  intros Hr Hr' Hk Hd Hlt (k1 & P1 & S1 & ->) H2.
  set (f := fun kv : string * R => (fst kv, match dget r' (fst kv) with Some v => v | None => 0%R end)).
  assert (Hf : forall d s, In (d, s) r -> In (f (d, s)) r').
  { intros d s Hin. unfold f. cbn [fst]. destruct (dget r' d) as [v|] eqn:Hg; [now apply P_Dict.dget_Some_in|].
    exfalso. assert (Hin' : In d (dkeys r')) by (apply Hk; apply in_map_iff; exists (d, s); auto).
    apply in_map_iff in Hin' as ([d2 v] & Heq & Hin'). cbn in Heq. subst d2. apply (P_Dict.in_dget _ _ _ Hr') in Hin'. congruence. }
  assert (Hkeys : dkeys (map f k1) = dkeys k1) by (unfold dkeys; now rewrite map_map).
  assert (Hnd : NoDup (dkeys k1)) by (eapply Permutation_NoDup; [apply Permutation_map; exact P1|exact Hr]).
  assert (Hp : Permutation r' (map f k1)).
  { apply NoDup_Permutation; [apply (NoDup_map_inv fst); exact Hr'|apply (NoDup_map_inv fst); change (NoDup (dkeys (map f k1))); now rewrite Hkeys|].
    intros [d v]. split; intros Hin.
    - assert (Hin' : In d (dkeys r)) by (apply Hk; apply in_map_iff; exists (d, v); auto). apply in_map_iff in Hin' as ([d2 s] & Heq & Hin'). cbn in Heq. subst d2.
      apply in_map_iff. exists (d, s). split; [|now apply (Permutation_in _ P1)]. unfold f. cbn [fst]. now rewrite (P_Dict.in_dget _ _ _ Hr' Hin).
    - apply in_map_iff in Hin as ([d2 s] & Heq & Hin). rewrite <- Heq. apply Hf. now apply (Permutation_in _ (Permutation_sym P1)). }
  assert (Hcmp : forall a b : string * R, In a r -> In b r -> (snd b <= snd a)%R -> (snd (f b) <= snd (f a))%R).
  { intros [d s] [d' s'] Ha Hb Hle. cbn [snd] in Hle. destruct (Rle_lt_or_eq_dec _ _ Hle) as [H|H].
    - left. apply (Hlt d' d s' s); auto; apply Hf in Ha, Hb; auto.
    - subst s'. rewrite (Hd d d' s Ha Hb). apply Rle_refl. }
  rewrite <- Hkeys. eapply ranks_unique; [| |exact H2].
  - assert (Hinj : forall d d' v, In (d, v) r' -> In (d', v) r' -> d = d').
    { intros d d' v Ha Hb. assert (Ha' : In d (dkeys r)) by (apply Hk; apply in_map_iff; exists (d, v); auto). assert (Hb' : In d' (dkeys r)) by (apply Hk; apply in_map_iff; exists (d', v); auto).
      apply in_map_iff in Ha' as ([d1 s] & E1 & Ha'). apply in_map_iff in Hb' as ([d2 s'] & E2 & Hb'). cbn in E1, E2. subst d1 d2.
      destruct (Rtotal_order s s') as [H|[H|H]].
      - pose proof (Hlt d d' s s' v v Ha' Hb' Ha Hb H). lra.
      - subst s'. exact (Hd d d' s Ha' Hb').
      - pose proof (Hlt d' d s' s v v Hb' Ha' Hb Ha H). lra. }
    clear - Hr' Hinj. unfold dict_ok in Hr'. induction r' as [|[d s] r IH]; [constructor|]. inversion Hr' as [|? ? Hni Hnd]; subst. cbn [dvals map snd]. constructor.
    + intros Hin. apply in_map_iff in Hin as ([d' s'] & Heq & Hin). cbn in Heq. subst s'. apply Hni.
      rewrite (Hinj d d' s (or_introl eq_refl) (or_intror Hin)). apply in_map_iff. exists (d', s). auto.
    + apply IH; auto. intros; eapply Hinj; right; eauto.
  - exists (map f k1). split; [exact Hp|]. split; [|reflexivity].
    assert (Hin : forall a, In a k1 -> In a r) by (intros a; apply Permutation_in; now apply Permutation_sym). clear - S1 Hcmp Hin.
    induction S1 as [|a k S IH F]; [constructor|]. cbn [map]. constructor; [apply IH; intros; apply Hin; now right|].
    rewrite Forall_forall in F |- *. intros b Hb. apply in_map_iff in Hb as (b' & <- & Hb). apply Hcmp; auto; apply Hin; [now left|now right].
Qed.

Section Eval.
Context (E : env NumR) (HE : env_ok E).
Lemma ranks_like_result Q x y metrics mean std save : obtained_qrels E Q -> @run_inv NumR x -> @run_inv NumR y -> ranks_like x y -> distinct_scores x ->
  same_queries (q_map Q) (r_map x) -> docs_distinct E (q_map Q) (r_map x) -> metrics_ok metrics (q_map Q) ->
  same_result (ev_res (@evaluate NumR E (QObj Q) (RObj x) metrics mean std save false))
              (ev_res (@evaluate NumR E (QObj Q) (RObj y) metrics mean std save false)).
Proof.
  intros HQ Hx Hy (Lq & Ld & Ls) Hd Hs Hids Hmet.
  assert (Ax : @dict2_ok R (r_map x)) by apply Hx. assert (Ay : @dict2_ok R (r_map y)) by apply Hy.
  assert (Hin : forall (z : Run NumR) q d, @dict2_ok R (r_map z) -> In d (dkeys (@of_query R (r_map z) q)) <-> retrieves z q d).
  { intros z q d Az. unfold retrieves, score_of. split.
    - intros H. apply in_map_iff in H as ([d' s] & Heq & H). cbn in Heq. subst d'. exists s. now apply results_in.
    - intros [s H]. apply (results_in (r_map z) q d s Az) in H. apply in_map_iff. exists (d, s). auto. }
  assert (Hk : forall q d, In d (dkeys (@of_query R (r_map y) q)) <-> In d (dkeys (@of_query R (r_map x) q))) by (intros q d; rewrite (Hin y q d Ay), (Hin x q d Ax); apply Ld).
  apply same_rankings_same_result; auto; [exact (obtained_qrels_inv E HE Q HQ)| | |].
  - intros q. rewrite (Hs q). symmetry. exact (Lq q).
  - intros q Hq. eapply ids_distinct_perm; [|apply (Hids q Hq)]. apply Permutation_app_head.
    apply perm_by_keys; [exact (results_nodup (r_map x) q Ax)|exact (results_nodup (r_map y) q Ay)|exact (Hk q)].
  - intros q l l' H1 H2. apply (order_ranks (@of_query R (r_map x) q) (@of_query R (r_map y) q)); auto.
    + exact (results_nodup (r_map x) q Ax).
    + exact (results_nodup (r_map y) q Ay).
    + intros d d' s Ha Hb. apply (Hd q d d' s); apply (results_in (r_map x) q _ _ Ax); assumption.
    + intros d d' s s' v v' Ha Hb Hc He. apply (Ls q d d' s s' v v'); first [apply (results_in (r_map x) q _ _ Ax); assumption|apply (results_in (r_map y) q _ _ Ay); assumption].
Qed.
End Eval.

(** The normalised run ranks like the run. *)
Theorem C102_ranks_like : forall (E : env NumR), env_ok E -> forall x norm y, a_run x ->
  In norm increasing_norms \/ (norm = "rank" /\ ranked x) -> (norm = "zmuv" -> no_empty_results x) ->
  normalize E x norm = Ok y -> ranks_like x y.
Proof.
  intros E HE x norm y Hx Hn Hz H.
  assert (Hs : In norm single_norms) by (destruct Hn as [Hn|[-> _]]; [cbn in Hn |- *; intuition|cbn; auto 10]).
  destruct (C37_norm_keeps E HE x norm Hx Hs Hz) as (y' & Hy' & _ & _ & Kq & Kd). rewrite H in Hy'. injection Hy' as <-.
  split; [exact Kq|]. split; [exact Kd|].
  destruct Hn as [Hn|[-> Hr]].
  - assert (Hko : keeps_order x y).
    { destruct Hn as [<-|[<-|[<-|[<-|[<-|[]]]]]].
      - destruct (C39_max E HE x Hx) as (z & Hz' & _ & _ & K). rewrite H in Hz'. now injection Hz' as <-.
      - destruct (C38_min_max E HE x "min_max" Hx) as (z & Hz' & _ & _ & _ & _ & K); [cbn; auto|]. rewrite H in Hz'. now injection Hz' as <-.
      - destruct (C38_min_max E HE x "min-max" Hx) as (z & Hz' & _ & _ & _ & _ & K); [cbn; auto|]. rewrite H in Hz'. now injection Hz' as <-.
      - destruct (C39_sum E HE x Hx) as (z & Hz' & _ & _ & _ & K). rewrite H in Hz'. now injection Hz' as <-.
      - destruct (C39_zmuv E HE x Hx (Hz eq_refl)) as (z & Hz' & _ & _ & _ & K). rewrite H in Hz'. now injection Hz' as <-. }
    intros q d d' s s' v v' H1 H2 H3 H4 Hlt. exact (proj1 (Hko q d d' s s' v v' H1 H2 H3 H4) Hlt).
  - destruct (C40_rank E HE x Hx) as (z & Hz' & _ & _ & _ & K). rewrite H in Hz'. injection Hz' as <-. exact (K Hr).
Qed.
Print Assumptions C102_ranks_like.
(** Normalising does not change any metric. *)
Theorem C102_evaluate : forall (E : env NumR), env_ok E -> forall x norm y Q metrics mean std save, obtained E x -> obtained_qrels E Q ->
  In norm increasing_norms \/ (norm = "rank" /\ ranked x) -> (norm = "zmuv" -> no_empty_results x) ->
  normalize E x norm = Ok y -> distinct_scores x ->
  same_queries (q_map Q) (r_map x) -> docs_distinct E (q_map Q) (r_map x) -> metrics_ok metrics (q_map Q) ->
  same_result (ev_res (@evaluate NumR E (QObj Q) (RObj x) metrics mean std save false))
              (ev_res (@evaluate NumR E (QObj Q) (RObj y) metrics mean std save false)).
Proof.
  intros E HE x norm y Q metrics mean std save Hx HQ Hn Hz H Hd. pose proof (obtained_inv E HE x Hx) as Hi.
  apply ranks_like_result; auto; [apply (normed_inv E HE); eapply normalize_normed; exact H|].
  eapply C102_ranks_like; eauto. apply Hi.
Qed.
Print Assumptions C102_evaluate.
(** Inverting twice restores the ranking. *)
Theorem C102_inverted_twice : forall (E : env NumR), env_ok E -> forall x norm norm' y z Q metrics mean std save, obtained E x -> obtained_qrels E Q ->
  In norm inverting_norms -> In norm' inverting_norms -> normalize E x norm = Ok y -> normalize E y norm' = Ok z -> distinct_scores x ->
  same_queries (q_map Q) (r_map x) -> docs_distinct E (q_map Q) (r_map x) -> metrics_ok metrics (q_map Q) ->
  same_result (ev_res (@evaluate NumR E (QObj Q) (RObj x) metrics mean std save false))
              (ev_res (@evaluate NumR E (QObj Q) (RObj z) metrics mean std save false)).
Proof.
  intros E HE x norm norm' y z Q metrics mean std save Hx HQ Hn Hn' H H' Hd. pose proof (obtained_inv E HE x Hx) as Hi.
  assert (Ax : a_run x) by apply Hi.
  assert (Hs : forall n, In n inverting_norms -> In n single_norms) by (intros n Hin; cbn in Hin |- *; intuition).
  assert (Hz : forall n (u : Run NumR), In n inverting_norms -> n = "zmuv" -> no_empty_results u) by (intros n u Hin ->; cbn in Hin; intuition discriminate).
  destruct (C37_norm_keeps E HE x norm Ax (Hs _ Hn) (Hz _ _ Hn)) as (y' & Hy' & Ay & _ & Kq & Kd). rewrite H in Hy'. injection Hy' as <-.
  destruct (C37_norm_keeps E HE y norm' Ay (Hs _ Hn') (Hz _ _ Hn')) as (z' & Hz' & _ & _ & Lq & Ld). rewrite H' in Hz'. injection Hz' as <-.
  destruct (C38_min_max_inverted E HE x norm Ax Hn) as (y1 & Hy1 & _ & _ & R1 & _). rewrite H in Hy1. injection Hy1 as <-.
  destruct (C38_min_max_inverted E HE y norm' Ay Hn') as (z1 & Hz1 & _ & _ & R2 & _). rewrite H' in Hz1. injection Hz1 as <-.
  apply ranks_like_result; auto; [apply (normed_inv E HE); eapply normalize_normed; exact H'|].
  split; [intros q; rewrite Lq; apply Kq|]. split; [intros q d; rewrite Ld; apply Kd|].
  intros q d d' s s' v v' H1 H2 H3 H4 Hlt.
  destruct (proj2 (Kd q d) (ex_intro _ _ H1)) as [u Hu]. destruct (proj2 (Kd q d') (ex_intro _ _ H2)) as [u' Hu'].
  apply (R2 q d' d u' u v' v Hu' Hu H4 H3). exact (proj1 (R1 q d d' s s' u u' H1 H2 Hu Hu') Hlt).
Qed.
Print Assumptions C102_inverted_twice.

(** ** Two exceptions, evaluated in binary64: the rank norm reads the stored order, so it changes the
    metrics of a run that is not sorted; the inverted norm reverses the ranking *)
Definition n64_one : @F NumSF := @fone NumSF.
Definition n64_two : @F NumSF := @fofZ NumSF 2.
Definition n64_x : Run NumSF := @run_hist NumSF env_ex Run_empty [@RAddScore NumSF "q" "a" n64_one; @RAddScore NumSF "q" "b" n64_two].
Definition n64_Q : Qrels := Qrels_add_score Qrels_empty "q" "a" 1.
Definition n64_norm (norm : string) : Run NumSF := match normalize env_ex n64_x norm with Ok y => y | Err _ => n64_x end.
Definition n64_hit (x : Run NumSF) := ev_res (@evaluate NumSF env_ex (QObj n64_Q) (RObj x) ["hits@1"] true false false false).
Theorem C102_exceptions_refuted : exists Q (x y z : Run NumSF),
  x = run_hist env_ex Run_empty [@RAddScore NumSF "q" "a" n64_one; @RAddScore NumSF "q" "b" n64_two] /\
  Q = Qrels_add_score Qrels_empty "q" "a" 1 /\
  normalize env_ex x "rank" = Ok y /\ normalize env_ex x "min_max_inverted" = Ok z /\
  ev_res (@evaluate NumSF env_ex (QObj Q) (RObj x) ["hits@1"] true false false false) = Ok (OutOne (OMean fzero)) /\
  ev_res (@evaluate NumSF env_ex (QObj Q) (RObj y) ["hits@1"] true false false false) = Ok (OutOne (OMean fone)) /\
  ev_res (@evaluate NumSF env_ex (QObj Q) (RObj z) ["hits@1"] true false false false) = Ok (OutOne (OMean fone)).
Proof.
  exists n64_Q, n64_x, (n64_norm "rank"), (n64_norm "min_max_inverted"). split; [reflexivity|]. split; [reflexivity|].
  split; [vmr|]. split; [vmr|]. split; [vmr|]. split; vmr.
Qed.
Print Assumptions C102_exceptions_refuted.

(** ** A case that meets the hypotheses *)
Example ex_C102 : exists y z, normalize env_sorted al1 "rank" = Ok y /\ normalize env_sorted al1 "zmuv" = Ok z /\
  obtained env_sorted al1 /\ ranked al1 /\ no_empty_results al1 /\ distinct_scores al1 /\ obtained_qrels env_sorted ex_Q /\
  same_queries (q_map ex_Q) (r_map al1) /\ docs_distinct env_sorted (q_map ex_Q) (r_map al1) /\ metrics_ok ["hits"] (q_map ex_Q).
Proof.
  assert (Hi : In al1 [al1; al2]) by now left.
  assert (Hne : no_empty_results al1). { intros q Hq. unfold has_query in Hq. rewrite (al_keys al1 Hi) in Hq. destruct Hq as [<-|[]]. unfold results_of. rewrite al1_map. discriminate. }
  destruct (C37_norm_keeps env_sorted env_sorted_ok al1 "rank") as (y & Hy & _); [now apply al_run|cbn; auto 10|discriminate|].
  destruct (C37_norm_keeps env_sorted env_sorted_ok al1 "zmuv") as (z & Hz & _); [now apply al_run|cbn; auto 10|auto|].
  assert (Hr1 : results_of al1 "q" = [("b", 2%R); ("a", 1%R)]) by (unfold results_of; rewrite al1_map; reflexivity).
  assert (Hsc : forall q d s, score_of al1 q d = Some s -> q = "q" /\ (d = "b" /\ s = 2%R \/ d = "a" /\ s = 1%R)).
  { intros q d s Hs. assert (Hin : In (d, s) (results_of al1 q)) by (apply (results_in (r_map al1) q d s); [apply (al_run al1 Hi)|exact Hs]).
    assert (Hq : q = "q").
    { destruct (string_dec q "q") as [|Hq]; [assumption|]. unfold results_of, of_query in Hin. rewrite al1_map in Hin. cbn [dget] in Hin. apply String.eqb_neq in Hq. rewrite Hq in Hin. destruct Hin. }
    split; [exact Hq|]. subst q. rewrite Hr1 in Hin. destruct Hin as [H|[H|[]]]; injection H as <- <-; auto. }
  exists y, z. split; [exact Hy|]. split; [exact Hz|].
  split. { refine (OR_call _ _ (RAddScore _ _ _) (OR_call _ _ (RAddScore _ _ _) (OR_new _) I) I). }
  split. { intros q. destruct (al_ranks al1 q Hi) as [_ Hs]. eapply P_Common.StronglySorted_impl; [|exact Hs]. intros; cbn; lra. }
  split; [exact Hne|].
  split. { intros q d d' s H1 H2. destruct (Hsc _ _ _ H1) as [_ [[-> E1]|[-> E1]]], (Hsc _ _ _ H2) as [_ [[-> E2]|[-> E2]]]; auto; exfalso; lra. }
  split. { apply (OQ_call env_sorted Qrels_empty (QAddScore "q" "a" 1)); [constructor|exact I]. }
  split. { intros q. rewrite (al_keys al1 Hi). reflexivity. }
  split; [|apply T_Evaluate.hits_ok].
  intros q [<-|[]]. assert (Hkeys : forall d, In d (dkeys (of_query (q_map ex_Q) "q") ++ dkeys (of_query (r_map al1) "q")) -> d = "a" \/ d = "b").
  { intros d Hd. apply in_app_or in Hd as [[<-|[]]|Hd]; [now left|]. apply in_map_iff in Hd as ([d' s] & <- & Hd). change (In (d', s) (results_of al1 "q")) in Hd. rewrite Hr1 in Hd.
    destruct Hd as [Hd|[Hd|[]]]; injection Hd as <- <-; auto. }
  assert (Hneq : @doc_key NumR env_sorted "a" <> @doc_key NumR env_sorted "b") by (vm_compute; discriminate).
  intros d d' Hd Hd'. destruct (Hkeys d Hd) as [->| ->], (Hkeys d' Hd') as [->| ->]; auto; intros H; exfalso; apply Hneq; auto.
Qed.
