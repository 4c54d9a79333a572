(** T_DS.v: theorems C01-C06 and C12 about Qrels and Run objects. *)
From Coq Require Import Reals Lra.
From Verif Require Import Base Dict Num Env M_Common M_Qrels M_Run M_History Spec_DS Spec_Hist
  P_Base P_Dict P_Common NumLaws P_History P_DS EnvEx.
Open Scope string_scope.
Open Scope list_scope.

(** Some query of the dictionary has a document. *)
Definition some_document {V} (d : dict (dict V)) : Prop :=
  exists q k v, dget2 d q k = Some v.

(** No score is NaN. *)
Definition scores_not_nan {N : Num} (d : dict (dict F)) : Prop :=
  forall q k v, dget2 d q k = Some v -> is_nan v = false.

(** ** C01 *)
Theorem C01_run_from_dict : forall (N : Num) (HL : NumLaws N) (E : env N), env_ok E ->
  forall d name, dict2_ok d -> some_document d -> scores_not_nan d ->
  exists x, Run_init E d name = Ok x /\ Run_from_dict E d name = Ok x /\
    r_name x = name /\
    smap_eq (smap_of (Run_to_dict x)) (smap_of d) /\
    Permutation (dkeys (Run_to_dict x)) (dkeys d) /\
    (forall q r, dget d q = Some r ->
        exists r', dget (Run_to_dict x) q = Some r' /\ Permutation r r') /\
    run_in_order (Run_to_dict x).
Proof.
  intros N HL E HE d name Hok Hd Hn.
  assert (Hn2 := negf_nan_free2 HL d Hok Hn).
  exists (mkRun (canon E r_negf d) true name [] [] []).
  unfold Run_init, Run_from_dict. rewrite build_from_dict_ok by assumption. cbn [bindr].
  assert (Hc := canon_ok E HE r_negf d Hok).
  unfold Run_to_dict. cbn [r_map r_name].
  rewrite to_dict_map_id by apply Hc.
  split; [reflexivity|]. split; [reflexivity|]. split; [reflexivity|]. split; [|split; [|split]].
  - now apply canon_smap.
  - apply Permutation_sym, canon_perm_keys, Hok.
  - intros q r Hq. rewrite canon_get, Hq by apply Hok. cbn. eexists. split; [reflexivity|].
    apply sort_dict_by_value_perm; [exact HE|]. eapply Hok; eauto.
  - apply is_sorted_in_order; [exact HL|]. now apply canon_sorted.
Qed.
Print Assumptions C01_run_from_dict.

Theorem C01_qrels_from_dict : forall (E : env NumR), env_ok E ->
  forall d name, dict2_ok d -> some_document d ->
  exists x, Qrels_init E d name = Ok x /\
    Qrels_from_dict E d = Ok (mkQrels (q_map x) (q_sorted x) None) /\
    q_name x = name /\
    smap_eq (smap_of (Qrels_to_dict x)) (smap_of d) /\
    Permutation (dkeys (Qrels_to_dict x)) (dkeys d) /\
    (forall q r, dget d q = Some r ->
        exists r', dget (Qrels_to_dict x) q = Some r' /\ Permutation r r') /\
    qrels_in_order (Qrels_to_dict x).
Proof.
  intros E HE d name Hok Hd.
  exists (mkQrels (canon E q_negf d) true name).
  unfold Qrels_init, Qrels_from_dict. rewrite build_from_dict_ok by assumption. cbn [bindr].
  assert (Hc := canon_ok E HE q_negf d Hok).
  unfold Qrels_to_dict. cbn [q_map q_name].
  rewrite to_dict_map_id by apply Hc.
  split; [reflexivity|]. split; [reflexivity|]. split; [reflexivity|]. split; [|split; [|split]].
  - now apply canon_smap.
  - apply Permutation_sym, canon_perm_keys, Hok.
  - intros q r Hq. rewrite canon_get, Hq by apply Hok. cbn. eexists. split; [reflexivity|].
    apply sort_dict_by_value_perm; [exact HE|]. eapply Hok; eauto.
  - apply q_sorted_in_order. apply canon_sorted; auto. apply q_nan_free.
Qed.
Print Assumptions C01_qrels_from_dict.

(** ** C12 *)
Theorem C12_from_dict_fails_iff_no_document : forall (N : Num) (E : env N), env_ok E ->
  forall (d : dict (dict F)) (dq : dict (dict Z)) name, dict2_ok d -> dict2_ok dq ->
  (Run_init E d name = Err ValueError <-> ~ some_document d) /\
  (Run_from_dict E d name = Err ValueError <-> ~ some_document d) /\
  (Qrels_init E dq name = Err ValueError <-> ~ some_document dq) /\
  (Qrels_from_dict E dq = Err ValueError <-> ~ some_document dq) /\
  (some_document d -> exists x, Run_init E d name = Ok x) /\
  (some_document dq -> exists x, Qrels_init E dq name = Ok x).
Proof.
  intros N E HE d dq name Hok Hokq.
  assert (HF : forall V (negf : V -> F) (d : dict (dict V)), dict2_ok d ->
     (some_document d -> build_from_dict E negf d = Ok (canon E negf d)) /\
     (~ some_document d -> build_from_dict E negf d = Err ValueError)).
  { intros V negf d0 H0. split; intros H.
    - now apply build_from_dict_ok.
    - now apply build_from_dict_err. }
  unfold Run_init, Run_from_dict, Qrels_init, Qrels_from_dict.
  destruct (HF _ r_negf d Hok) as [H1 H2], (HF _ q_negf dq Hokq) as [H3 H4].
  repeat split; intros H; try (intros Hc).
  all: try (rewrite H1 in H by assumption; discriminate).
  all: try (rewrite H3 in H by assumption; discriminate).
  all: try (now rewrite H2 by assumption).
  all: try (now rewrite H4 by assumption).
  - rewrite H1 by assumption. cbn. eauto.
  - rewrite H3 by assumption. cbn. eauto.
Qed.
Print Assumptions C12_from_dict_fails_iff_no_document.

(** ** C02: any history of well-shaped calls refines a nested map *)
Theorem C02_run_history_is_a_map : forall (N : Num) (E : env N), env_ok E ->
  forall (x : Run N) (os : list run_op), dict2_ok (r_map x) -> Forall run_op_shape os ->
  smap_eq (smap_of (r_map (run_hist E x os)))
          (fold_left spec_run_step os (smap_of (r_map x))).
Proof.
  intros N E HE x os Hok Hs. eapply run_hist_refines; eauto. apply smap_eq_refl.
Qed.
Print Assumptions C02_run_history_is_a_map.

Theorem C02_qrels_history_is_a_map : forall (N : Num) (E : env N), env_ok E ->
  forall (x : Qrels) (os : list qrels_op), dict2_ok (q_map x) -> Forall qrels_op_shape os ->
  smap_eq (smap_of (q_map (qrels_hist E x os)))
          (fold_left spec_qrels_step os (smap_of (q_map x))).
Proof.
  intros N E HE x os Hok Hs. eapply qrels_hist_refines; eauto. apply smap_eq_refl.
Qed.
Print Assumptions C02_qrels_history_is_a_map.

(** No well-shaped call raises, and every object reached from an empty one by any
    history is a well-formed dictionary, so the two theorems above compose. *)
Theorem C02_calls_do_not_raise : forall (N : Num) (E : env N), env_ok E ->
  forall os o qos qo, Forall run_op_shape (os ++ [o]) -> Forall qrels_op_shape (qos ++ [qo]) ->
  dict2_ok (r_map (run_hist E Run_empty os)) /\
  snd (run_step E (run_hist E Run_empty os) o) = None /\
  dict2_ok (q_map (qrels_hist E Qrels_empty qos)) /\
  snd (qrels_step E (qrels_hist E Qrels_empty qos) qo) = None.
Proof.
  intros N E HE os o qos qo H1 H2.
  apply Forall_app in H1 as [H1 H1']. apply Forall_app in H2 as [H2 H2'].
  inversion H1'; inversion H2'; subst.
  assert (He : dict2_ok (r_map (@Run_empty N))) by (split; [constructor|discriminate]).
  assert (He' : dict2_ok (q_map Qrels_empty)) by (split; [constructor|discriminate]).
  destruct (run_hist_refines E HE os Run_empty _ He H1 (smap_eq_refl _)) as [Ha Hb].
  destruct (qrels_hist_refines E HE qos Qrels_empty _ He' H2 (smap_eq_refl _)) as [Hc Hd].
  destruct (run_step_refines E HE _ o _ Ha H3 Hb) as [Hr _].
  destruct (qrels_step_refines E HE _ qo _ Hc H7 Hd) as [Hr' _].
  tauto.
Qed.
Print Assumptions C02_calls_do_not_raise.

(** ** C03: the sorted flag tells the truth *)
Theorem C03_run_sorted_flag : forall (N : Num) (HL : NumLaws N) (E : env N), env_ok E ->
  forall (os : list run_op), Forall run_op_shape os -> Forall run_op_nan_free os ->
  let x := run_hist E Run_empty os in
  r_sorted x = true -> run_in_order (r_map x).
Proof.
  intros N HL E HE os Hs Hn x Hx.
  destruct (run_hist_inv E HE HL os Run_empty run_inv_empty Hs Hn) as (_ & _ & H).
  apply is_sorted_in_order; auto.
Qed.
Print Assumptions C03_run_sorted_flag.

Theorem C03_qrels_sorted_flag : forall (E : env NumR), env_ok E ->
  forall (os : list qrels_op), Forall qrels_op_shape os ->
  let x := qrels_hist E Qrels_empty os in
  q_sorted x = true -> qrels_in_order (q_map x).
Proof.
  intros E HE os Hs x Hx.
  apply (qrels_hist_inv E HE os Qrels_empty); auto.
  split; [split; [constructor|discriminate]|discriminate].
Qed.
Print Assumptions C03_qrels_sorted_flag.

(** The same starting from an object built from a dict. *)
Theorem C03_run_sorted_flag_from_dict : forall (N : Num) (HL : NumLaws N) (E : env N), env_ok E ->
  forall d name x0, dict2_ok d -> scores_not_nan d -> Run_init E d name = Ok x0 ->
  forall (os : list run_op), Forall run_op_shape os -> Forall run_op_nan_free os ->
  r_sorted (run_hist E x0 os) = true -> run_in_order (r_map (run_hist E x0 os)).
Proof.
  intros N HL E HE d name x0 Hok Hn H0 os Hs Hno Hx.
  assert (Hi : run_inv x0).
  { unfold Run_init, build_from_dict in H0.
    destruct (concat (map dkeys (dvals d))) eqn:Hc; [discriminate|].
    assert (Hd : has_doc d).
    { apply concat_has_doc; [exact Hok|]. congruence. }
    pose proof (build_from_dict_ok E r_negf d Hok Hd) as Hb.
    unfold build_from_dict in Hb. rewrite Hc in Hb. rewrite Hb in H0. cbn in H0.
    inversion H0; subst. apply (canon_inv E HE (mkRun [] true name [] [] [])); auto.
    now apply negf_nan_free2. }
  destruct (run_hist_inv E HE HL os x0 Hi Hs Hno) as (_ & _ & H).
  apply is_sorted_in_order; auto.
Qed.
Print Assumptions C03_run_sorted_flag_from_dict.

(** Hence [to_typed_list] (what every metric reads) always lists the queries in
    increasing id order and each ranking in non-increasing score order, whether or
    not it had to sort. *)
Theorem C03_metrics_read_sorted_rankings : forall (N : Num) (HL : NumLaws N) (E : env N), env_ok E ->
  forall (os : list run_op), Forall run_op_shape os -> Forall run_op_nan_free os ->
  let x := run_hist E Run_empty os in
  let '(x', tl) := Run_to_typed_list E x in
  tl = map (fun qr => map (fun ds => (doc_key E (fst ds), snd ds)) (snd qr)) (r_map x') /\
  smap_eq (smap_of (r_map x')) (smap_of (r_map x)) /\
  StronglySorted (fun a b => str_ltb a b = true) (dkeys (r_map x')) /\
  Forall (StronglySorted (fun a b : Z * F => fleb (snd b) (snd a) = true)) tl.
Proof.
  intros N HL E HE os Hs Hn x.
  assert (Hx : run_inv x) by (apply run_hist_inv; auto; apply run_inv_empty).
  unfold Run_to_typed_list.
  set (x' := if r_sorted x then x else Run_sort E x).
  assert (Hx' : run_inv x' /\ r_sorted x' = true /\ smap_eq (smap_of (r_map x')) (smap_of (r_map x))).
  { unfold x'. destruct (r_sorted x) eqn:Hsx; [split; [exact Hx|split; [exact Hsx|apply smap_eq_refl]]|]. split; [|split].
    - apply (run_step_inv E HE HL x RSort); cbn; auto.
    - reflexivity.
    - apply (canon_smap E HE r_negf (r_map x)). apply Hx. }
  destruct Hx' as ((Hok & Hnf & Hso) & Hsx & Hsm).
  specialize (Hso Hsx). apply is_sorted_in_order in Hso as [Hk Hr]; [|exact HL].
  split; [|split; [exact Hsm|split; [exact Hk|]]].
  - unfold to_typed_list, to_rows, dvals, r_tof. now rewrite map_map.
  - unfold to_typed_list, dvals. apply Forall_forall. intros l Hl.
    rewrite map_map in Hl. apply in_map_iff in Hl as ([q r] & <- & Hi). cbn.
    unfold to_rows. apply StronglySorted_map. cbn. unfold r_tof.
    apply (Hr q). apply in_dget; [apply Hok|exact Hi].
Qed.
Print Assumptions C03_metrics_read_sorted_rankings.

(** A call that raises breaks the promise: [add_multi] with a scores list that is too
    short raises IndexError after having replaced an earlier query, and the object
    still claims to be sorted although its queries and its ranking are not. *)
Theorem C03_after_failed_add_multi_refuted :
  exists (x x' : Run NumSF) (d0 : dict (dict sf)),
    @Run_init NumSF env_ex d0 None = Ok x /\
    @Run_add_multi NumSF env_ex x ["a"; "c"] [["d1"; "d2"]; ["d3"]]
       [[sf_of_Z 1; sf_of_Z 2]; []] = (x', Some IndexError) /\
    r_sorted x' = true /\ ~ @run_in_order NumSF (r_map x') /\
    dget2 (r_map x') "a" "d2" = Some (sf_of_Z 2) /\ dmem (r_map x) "a" = false.
Proof.
  exists (@mkRun NumSF [("b", [("d1", sf_of_Z 3)])] true None [] [] []).
  exists (@mkRun NumSF [("b", [("d1", sf_of_Z 3)]); ("a", [("d1", sf_of_Z 1); ("d2", sf_of_Z 2)])]
            true None [] [] []).
  exists [("b", [("d1", sf_of_Z 3)])].
  split; [vmr|]. split; [vmr|].
  split; [reflexivity|]. split; [|split; reflexivity].
  intros [H _]. cbn in H. inversion H as [|? ? _ Hf]; subst.
  inversion Hf as [|? ? Hc _]; subst. vm_compute in Hc. discriminate.
Qed.
Print Assumptions C03_after_failed_add_multi_refuted.

(** ** C04: sort only reorders *)
Theorem C04_run_sort_permutes : forall (N : Num) (HL : NumLaws N) (E : env N), env_ok E ->
  forall x : Run N, dict2_ok (r_map x) -> scores_not_nan (r_map x) ->
  let y := Run_sort E x in
  Permutation (dkeys (r_map x)) (dkeys (r_map y)) /\
  (forall q, match dget (r_map x) q, dget (r_map y) q with
        | Some r, Some r' => Permutation r r'
        | None, None => True
        | _, _ => False
        end) /\
  run_in_order (r_map y) /\
  r_name y = r_name x /\ r_scores y = r_scores x /\ r_mean y = r_mean x /\ r_std y = r_std x.
Proof.
  intros N HL E HE x Hok Hn y.
  split; [apply (canon_perm_keys E r_negf), Hok|]. split; [|split; [|repeat split]].
  - intros q. cbn. change (sort_dict_of_dict_by_value E r_negf (sort_dict_by_key (r_map x)))
      with (canon E r_negf (r_map x)).
    rewrite canon_get by apply Hok. destruct (dget (r_map x) q) as [r|] eqn:Hq; cbn; [|exact I].
    apply sort_dict_by_value_perm; auto. eapply Hok; eauto.
  - apply is_sorted_in_order; [exact HL|].
    apply (canon_sorted E HE r_negf (r_map x)); [exact Hok|]. now apply negf_nan_free2.
Qed.
Print Assumptions C04_run_sort_permutes.

Theorem C04_run_sort_idempotent : forall (E : env NumR), env_ok E ->
  forall x : Run NumR, dict2_ok (r_map x) ->
  let y := Run_sort E x in let z := Run_sort E y in
  dkeys (r_map z) = dkeys (r_map y) /\
  forall q ry rz, dget (r_map y) q = Some ry -> dget (r_map z) q = Some rz ->
             dvals rz = dvals ry /\ Permutation ry rz.
Proof.
  intros E HE x Hok y z.
  assert (Hnn : forall m, @scores_not_nan NumR m) by (intros m q k v _; apply is_nan_R).
  assert (Hoky : dict2_ok (r_map y)) by apply (canon_ok E HE r_negf (r_map x) Hok).
  destruct (C04_run_sort_permutes NumR _ E HE x Hok (Hnn _)) as (_ & _ & Hoy & _).
  destruct (C04_run_sort_permutes NumR _ E HE y Hoky (Hnn _)) as (_ & Hp & Hoz & _).
  fold y in Hoy. fold z in Hoz, Hp. split.
  - change (dkeys (canon E r_negf (canon E r_negf (r_map x))) = dkeys (canon E r_negf (r_map x))).
    rewrite !canon_keys; try apply Hok; try apply Hoky.
    apply str_sort_id, str_sort_sorted.
  - intros q ry rz Hy Hz. specialize (Hp q). rewrite Hy, Hz in Hp. split; [|exact Hp].
    apply desc_perm_eq.
    + exact (run_in_order_scores (r_map z) q rz Hoz Hz).
    + exact (run_in_order_scores (r_map y) q ry Hoy Hy).
    + apply Permutation_map, Permutation_sym, Hp.
Qed.
Print Assumptions C04_run_sort_idempotent.

Theorem C04_qrels_sort_permutes : forall (E : env NumR), env_ok E ->
  forall x : Qrels, dict2_ok (q_map x) ->
  let y := Qrels_sort E x in
  Permutation (dkeys (q_map x)) (dkeys (q_map y)) /\
  (forall q, match dget (q_map x) q, dget (q_map y) q with
        | Some r, Some r' => Permutation r r'
        | None, None => True
        | _, _ => False
        end) /\
  qrels_in_order (q_map y) /\ q_name y = q_name x.
Proof.
  intros E HE x Hok y.
  split; [apply (canon_perm_keys E q_negf), Hok|]. split; [|split; [|reflexivity]].
  - intros q. cbn. change (sort_dict_of_dict_by_value E q_negf (sort_dict_by_key (q_map x)))
      with (canon E q_negf (q_map x)).
    rewrite canon_get by apply Hok. destruct (dget (q_map x) q) as [r|] eqn:Hq; cbn; [|exact I].
    apply sort_dict_by_value_perm; auto. eapply Hok; eauto.
  - apply q_sorted_in_order. apply (canon_sorted E HE q_negf (q_map x)); [exact Hok|]. apply q_nan_free.
Qed.
Print Assumptions C04_qrels_sort_permutes.

(** ** C05: make_comparable *)
Theorem C05_make_comparable : forall (N : Num) (E : env N), env_ok E ->
  forall (x : Run N) (qr : Qrels), dict2_ok (r_map x) -> dict_ok (q_map qr) ->
  let y := Run_make_comparable E x qr in
  Permutation (dkeys (r_map y)) (dkeys (q_map qr)) /\
  (forall q, In q (dkeys (q_map qr)) ->
     exists r', dget (r_map y) q = Some r' /\
       match dget (r_map x) q with
       | Some r => Permutation r r'      (* common query: same results *)
       | None => r' = []                 (* missing query: empty results *)
       end) /\
  (forall q, ~ In q (dkeys (q_map qr)) -> dget (r_map y) q = None) /\
  StronglySorted (fun a b => str_ltb a b = true) (dkeys (r_map y)).
Proof.
  intros N E HE x qr Hok Hq y.
  set (m := make_comparable_map (r_map x) (q_map qr)).
  assert (Hm : dict2_ok m) by now apply make_comparable_map_ok.
  assert (Hg : forall q, dget (r_map y) q = option_map (sort_dict_by_value E r_negf) (dget m q)).
  { intros q. apply (canon_get E r_negf m q). apply Hm. }
  assert (Hkeys : forall q, In q (dkeys (r_map y)) <-> In q (dkeys (q_map qr))).
  { intros q. rewrite <- !dmem_in. unfold dmem at 1. rewrite Hg.
    unfold m. rewrite make_comparable_map_get by assumption.
    destruct (dmem (q_map qr) q); [|easy]. now destruct (dget (r_map x) q). }
  split; [|split; [|split]].
  - apply NoDup_Permutation; auto. apply (canon_ok E HE r_negf m Hm).
  - intros q Hi. rewrite Hg. unfold m. rewrite make_comparable_map_get by assumption.
    apply dmem_in in Hi. rewrite Hi.
    destruct (dget (r_map x) q) as [r|] eqn:Hr; cbn; eexists; (split; [reflexivity|]).
    + apply sort_dict_by_value_perm; auto. eapply Hok; eauto.
    + now apply sort_dict_by_value_nil.
  - intros q Hi. apply dget_None. now rewrite Hkeys.
  - apply canon_strict_keys, Hm.
Qed.
Print Assumptions C05_make_comparable.

(** ** C06: set_relevance_level, for every thread schedule *)
Theorem C06_set_relevance_level : forall (N : Num) (E : env N), env_ok E ->
  forall (x : Qrels) (l : Z), dict2_ok (q_map x) ->
  let y := Qrels_set_relevance_level E x l in
  dkeys (q_map y) = dkeys (q_map x) /\
  (forall q, option_map dkeys (dget (q_map y) q) = option_map dkeys (dget (q_map x) q)) /\
  forall q d m,
    (exists v, dget2 (q_map y) q d = Some v /\ (m <= v)%Z) <->
    (exists v, dget2 (q_map x) q d = Some v /\ (m + l - 1 <= v)%Z).
Proof.
  intros N E HE x l Hok y.
  destruct (set_relevance_level_get E HE (q_map x) l Hok) as [Hk Hg].
  split; [exact Hk|]. split.
  - intros q. cbn. rewrite Hg. destruct (dget (q_map x) q); cbn; [|reflexivity].
    unfold dkeys. now rewrite map_map.
  - intros q d m. destruct (set_relevance_level_smap E HE (q_map x) l Hok) as [_ H2].
    specialize (H2 q d). cbn in H2. cbn. rewrite H2.
    destruct (dget2 (q_map x) q d) as [v|]; cbn.
    + split; intros (w & Hw & Hle); inversion Hw; subst.
      * exists v. split; [reflexivity|lia].
      * eexists. split; [reflexivity|lia].
    + split; intros (w & Hw & _); discriminate.
Qed.
Print Assumptions C06_set_relevance_level.

(** ** Non-vacuity: concrete objects, environments and histories *)
Definition ex_d : dict (dict sf) :=
  [("q2", [("d1", sf_of_Z 1); ("d2", sf_of_Z 3); ("d3", sf_of_Z 2)]); ("q1", [("d2", sf_of_Z 5)])].
Definition ex_qd : dict (dict Z) :=
  [("q2", [("d1", 1%Z); ("d2", 3%Z)]); ("q1", [("d2", 0%Z); ("d5", 2%Z)])].

Lemma dict2_ok_dec {V} (d : dict (dict V)) :
  NoDup (dkeys d) -> Forall (fun r => NoDup (dkeys r)) (dvals d) -> dict2_ok d.
Proof.
  intros H1 H2. split; [exact H1|]. intros q r Hr. apply dget_Some_in in Hr.
  rewrite Forall_forall in H2. apply H2. change r with (snd (q, r)). now apply in_map.
Qed.
Ltac nodup := repeat (constructor; [cbn; intuition discriminate|]); try constructor.

Example ex_d_ok : dict2_ok ex_d.
Proof. apply dict2_ok_dec; cbn; [nodup|]. repeat (constructor; [cbn; nodup|]). constructor. Qed.
Example ex_qd_ok : dict2_ok ex_qd.
Proof. apply dict2_ok_dec; cbn; [nodup|]. repeat (constructor; [cbn; nodup|]). constructor. Qed.

Example ex_run_from_dict :
  (do x <- @Run_from_dict NumSF env_ex ex_d None; Ok (Run_to_dict x))
  = Ok [("q1", [("d2", sf_of_Z 5)]);
        ("q2", [("d2", sf_of_Z 3); ("d3", sf_of_Z 2); ("d1", sf_of_Z 1)])].
Proof. vmr. Qed.

Definition fl (z : Z) : @F NumSF := sf_of_Z z.
Definition ex_history : list (@run_op NumSF) :=
  [@RAddScore NumSF "q2" "d1" (fl 1); RAddScore "q1" "d9" (fl 4);
   RAddMulti ["q2"; "q3"] [["d1"; "d2"]; ["d4"]] [[fl 1; fl 2]; [fl 7]];
   RMakeComparable (mkQrels ex_qd false None); RToTypedList].
Example ex_history_shape : Forall run_op_shape ex_history /\ Forall run_op_nan_free ex_history.
Proof.
  split; repeat (constructor; [cbn; repeat split; auto; repeat constructor|]); constructor.
Qed.
Example ex_history_result :
  r_map (@run_hist NumSF env_ex Run_empty ex_history)
  = [("q1", [("d9", fl 4)]); ("q2", [("d2", fl 2); ("d1", fl 1)])]
  /\ r_sorted (@run_hist NumSF env_ex Run_empty ex_history) = true.
Proof. split; vmr. Qed.

Example ex_set_relevance_level :
  q_map (@Qrels_set_relevance_level NumSF env_ex_rev (mkQrels ex_qd false None) 2)
  = [("q2", [("d1", 0%Z); ("d2", 2%Z)]); ("q1", [("d2", (-1)%Z); ("d5", 1%Z)])].
Proof. vmr. Qed.
