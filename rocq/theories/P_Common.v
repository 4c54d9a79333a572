(** P_Common.v: proofs about the model of data_structures/common.py *)
From Verif Require Import Base Dict Num Env M_Common P_Base P_Dict NumLaws.
Open Scope list_scope.

(** ** Building and reordering dictionaries *)

(** Copying the entries of [ks] from [d] into a fresh dictionary. *)
Lemma copy_keys {W} (d : dict W) ks : forall nd,
  NoDup (dkeys nd ++ ks) -> (forall k, In k ks -> In k (dkeys d)) ->
  exists l, fold_left (fun nd k => match dget d k with Some v => dset nd k v | None => nd end) ks nd
       = nd ++ l /\ map fst l = ks /\ forall k v, In (k, v) l -> dget d k = Some v.
Proof.
  induction ks as [|k ks IH]; intros nd Hn Hin; cbn [fold_left].
  - exists []. rewrite app_nil_r. repeat split; auto. intros ? ? [].
  - destruct (key_dget d k) as [v Hv]; [apply Hin; now left|]. rewrite Hv.
    assert (Hni : ~ In k (dkeys nd)).
    { apply NoDup_remove_2 in Hn. intros Hc. apply Hn, in_or_app. now left. }
    rewrite dset_nin by assumption.
    destruct (IH (nd ++ [(k, v)])) as (l & Hl & Hk & Hg).
    + rewrite dkeys_app. cbn. rewrite <- app_assoc. exact Hn.
    + intros k' Hk'. apply Hin. now right.
    + exists ((k, v) :: l). rewrite Hl, <- app_assoc. cbn. repeat split; [now rewrite Hk|].
      intros k' v' [Heq|Hi]; [inversion Heq; now subst|auto].
Qed.

Lemma copy_keys_perm {W} (d : dict W) ks :
  dict_ok d -> Permutation (dkeys d) ks ->
  let d' := fold_left (fun nd k => match dget d k with Some v => dset nd k v | None => nd end) ks [] in
  dkeys d' = ks /\ Permutation d d'.
Proof.
  intros Hok Hp d'.
  assert (Hnd : NoDup ks) by (eapply Permutation_NoDup; eauto).
  destruct (copy_keys d ks []) as (l & Hl & Hk & Hg).
  - exact Hnd.
  - intros k Hk. eapply Permutation_in; [apply Permutation_sym, Hp|exact Hk].
  - subst d'. rewrite Hl. cbn [app]. split; [exact Hk|].
    assert (Hokl : dict_ok l) by (unfold dict_ok, dkeys; now rewrite Hk).
    apply dict_ext_perm; auto.
    intros k. destruct (dget l k) as [v|] eqn:Hd.
    + apply Hg. now apply dget_Some_in.
    + apply dget_None in Hd. apply dget_None. intros Hc. apply Hd.
      unfold dkeys. rewrite Hk. eapply Permutation_in; eauto.
Qed.

Lemma sort_dict_by_key_spec {W} (d : dict W) : dict_ok d ->
  dkeys (sort_dict_by_key d) = str_sort (dkeys d) /\ Permutation d (sort_dict_by_key d).
Proof. intros Hok. apply copy_keys_perm; [exact Hok|apply str_sort_perm]. Qed.

Lemma to_dict_map_id {V} (d : dict (dict V)) : dict_ok d -> to_dict_map d = d.
Proof.
  intros Hok. unfold to_dict_map.
  destruct (copy_keys d (dkeys d) []) as (l & Hl & Hk & Hg); auto.
  rewrite Hl. cbn.
  apply nth_error_ext. intros i.
  assert (Hki : nth_error (map fst l) i = nth_error (map fst d) i) by (unfold dkeys in Hk; now rewrite Hk).
  rewrite !nth_error_map in Hki.
  destruct (nth_error l i) as [[k v]|] eqn:H1, (nth_error d i) as [[k' v']|] eqn:H2;
    cbn in Hki; try discriminate; auto.
  inversion Hki; subst. apply nth_error_In in H1. apply Hg in H1.
  apply nth_error_In in H2. apply in_dget in H2; auto. congruence.
Qed.

(** Looping over [enumerate(ks)] and reading [vs[i]] is looping over the pairs. *)
Lemma fold_enum_nth {A B S} (ks : list A) (vs : list B) (f : S -> A -> B -> S) s :
  length ks = length vs ->
  fold_left (fun s ik => match nth_error vs (fst ik) with
                         | Some v => f s (snd ik) v | None => s end) (enumerate ks) s
  = fold_left (fun s kv => f s (fst kv) (snd kv)) (combine ks vs) s.
Proof.
  unfold enumerate.
  assert (H : forall ks vs pre s, length ks = length vs ->
    fold_left (fun s ik => match nth_error (pre ++ vs) (fst ik) with
                         | Some v => f s (snd ik) v | None => s end) (enum_from (length pre) ks) s
    = fold_left (fun s kv => f s (fst kv) (snd kv)) (combine ks vs) s).
  { clear. induction ks as [|k ks IH]; intros [|v vs] pre s Hl; cbn in *; try lia; [reflexivity|].
    rewrite nth_error_app2 by lia. rewrite Nat.sub_diag. cbn.
    specialize (IH vs (pre ++ [v]) (f s k v)).
    rewrite app_length in IH. cbn [length] in IH. rewrite Nat.add_1_r in IH.
    rewrite <- app_assoc in IH. cbn [app] in IH. apply IH. lia. }
  intros Hl. apply (H ks vs [] s Hl).
Qed.

Section C.
Context {N : Num} (E : env N) (HE : env_ok E) {V : Type}.
Variable negf : V -> F.

Lemma sort_dict_by_value_eq (d : dict V) dflt : dict_ok d ->
  sort_dict_by_value E negf d
  = map (fun i => nth i d dflt) (e_argsort E (map negf (dvals d))).
Proof.
  intros Hok. unfold sort_dict_by_value, typed_list_argsort.
  set (order := e_argsort E (map negf (dvals d))).
  assert (Hp : Permutation order (seq 0 (length d))).
  { unfold order. rewrite (argsort_perm _ HE). unfold dvals. now rewrite !map_length. }
  transitivity (fold_left (fun acc i => dset acc (fst (nth i d dflt)) (snd (nth i d dflt))) order []).
  - assert (Hb : forall i, In i order -> i < length d).
    { intros i Hi. apply (Permutation_in _ Hp), in_seq in Hi. lia. }
    clear Hp. generalize (@nil (string * V)). induction order as [|i order IH]; intros acc; [reflexivity|].
    cbn [fold_left]. rewrite IH by (intros; apply Hb; now right). f_equal.
    unfold dkeys, dvals. rewrite !nth_error_map.
    rewrite (nth_error_nth' d dflt) by (apply Hb; now left). reflexivity.
  - rewrite (fold_dset_fresh (fun i => nth i d dflt)).
    + reflexivity.
    + cbn. eapply Permutation_NoDup; [|exact Hok].
      rewrite <- (map_map (fun i => nth i d dflt) fst).
      apply Permutation_map. rewrite Hp. now rewrite map_nth_seq.
Qed.

Lemma sort_dict_by_value_nil : sort_dict_by_value E negf [] = [].
Proof.
  unfold sort_dict_by_value. cbn. pose proof (argsort_perm _ HE []) as Hp. cbn in Hp.
  apply Permutation_sym, Permutation_nil in Hp. unfold typed_list_argsort. now rewrite Hp.
Qed.

Lemma sort_dict_by_value_perm (d : dict V) : dict_ok d ->
  Permutation d (sort_dict_by_value E negf d).
Proof.
  intros Hok. destruct d as [|x d]; [now rewrite sort_dict_by_value_nil|].
  rewrite (sort_dict_by_value_eq _ x Hok).
  rewrite (argsort_perm _ HE). unfold dvals. rewrite !map_length.
  now rewrite map_nth_seq.
Qed.

Lemma StronglySorted_map_inv {A B} (f : A -> B) (R : B -> B -> Prop) l :
  StronglySorted R (map f l) -> StronglySorted (fun a b => R (f a) (f b)) l.
Proof.
  induction l as [|a l IH]; cbn; intros H; [constructor|].
  inversion H as [|? ? Hs Hf]; subst. constructor; [auto|].
  rewrite Forall_forall in *. intros b Hb. apply Hf. now apply in_map.
Qed.

Lemma StronglySorted_map {A B} (f : A -> B) (R : B -> B -> Prop) l :
  StronglySorted (fun a b => R (f a) (f b)) l -> StronglySorted R (map f l).
Proof.
  induction l as [|a l IH]; cbn; intros H; [constructor|].
  inversion H as [|? ? Hs Hf]; subst. constructor; [auto|].
  rewrite Forall_forall in *. intros b Hb. apply in_map_iff in Hb as [c [<- Hc]]. auto.
Qed.

Lemma StronglySorted_impl {A} (R R' : A -> A -> Prop) l :
  (forall a b, R a b -> R' a b) -> StronglySorted R l -> StronglySorted R' l.
Proof.
  intros H. induction 1; constructor; auto. eapply Forall_impl; [|eassumption]. auto.
Qed.

(** Non-increasing order of scores (through the float key the code sorts by). *)
Definition by_score_desc (a b : string * V) : Prop :=
  fleb (negf (snd a)) (negf (snd b)) = true.

Definition nan_free (r : dict V) : Prop :=
  Forall (fun v => is_nan (negf v) = false) (dvals r).

Lemma sort_dict_by_value_sorted (d : dict V) : dict_ok d -> nan_free d ->
  StronglySorted by_score_desc (sort_dict_by_value E negf d).
Proof.
  intros Hok Hnan. destruct d as [|x d]; [rewrite sort_dict_by_value_nil; constructor|].
  rewrite (sort_dict_by_value_eq _ x Hok). set (d0 := x :: d) in *.
  pose proof (argsort_sorted _ HE (map negf (dvals d0))) as Hs.
  assert (Hn : Forall (fun f => is_nan f = false) (map negf (dvals d0))).
  { apply Forall_map. exact Hnan. }
  specialize (Hs Hn). apply StronglySorted_map_inv in Hs.
  apply StronglySorted_map.
  assert (Hb : forall i, In i (e_argsort E (map negf (dvals d0))) -> i < length d0).
  { intros i Hi. apply (Permutation_in _ (argsort_perm _ HE _)), in_seq in Hi.
    unfold dvals in Hi. rewrite !map_length in Hi. lia. }
  revert Hs Hb. generalize (e_argsort E (map negf (dvals d0))).
  induction l as [|i l IH]; intros Hs Hb; constructor.
  - apply IH; [now inversion Hs|]. intros; apply Hb; now right.
  - inversion Hs as [|? ? _ Hf]; subst. rewrite Forall_forall in *. intros j Hj.
    specialize (Hf j Hj). unfold by_score_desc. unfold dvals in Hf. rewrite map_map in Hf.
    rewrite (nth_indep _ fzero (negf (snd x))) in Hf
      by (rewrite map_length; apply Hb; now left).
    rewrite (nth_indep _ fzero (negf (snd x))) in Hf
      by (rewrite map_length; apply Hb; now right).
    rewrite !(map_nth (fun x0 : string * V => negf (snd x0)) d0 x) in Hf. exact Hf.
Qed.

Lemma sort_dict_of_dict_by_value_eq (d : dict (dict V)) : dict_ok d ->
  sort_dict_of_dict_by_value E negf d
  = map (fun kv => (fst kv, sort_dict_by_value E negf (snd kv))) d.
Proof.
  intros Hok. unfold sort_dict_of_dict_by_value.
  rewrite (fold_enum_nth _ _ (fun nd k v => dset nd k v))
    by (unfold dkeys, dvals; now rewrite !map_length).
  replace (combine (dkeys d) (map (sort_dict_by_value E negf) (dvals d)))
    with (map (fun kv => (fst kv, sort_dict_by_value E negf (snd kv))) d).
  - apply dict_of_list_id. rewrite map_map. exact Hok.
  - clear. induction d as [|[k v] d IH]; cbn; [reflexivity|]. f_equal. exact IH.
Qed.

(** The canonical form produced by sort / from_dict / add_multi. *)
Definition canon (d : dict (dict V)) : dict (dict V) :=
  sort_dict_of_dict_by_value E negf (sort_dict_by_key d).

Lemma canon_keys d : dict_ok d -> dkeys (canon d) = str_sort (dkeys d).
Proof.
  intros Hok. destruct (sort_dict_by_key_spec d Hok) as [Hk Hp].
  unfold canon. rewrite sort_dict_of_dict_by_value_eq by (eapply dict_ok_perm; eauto).
  rewrite dmap_keys. exact Hk.
Qed.

Lemma canon_get d q : dict_ok d ->
  dget (canon d) q = option_map (sort_dict_by_value E negf) (dget d q).
Proof.
  intros Hok. destruct (sort_dict_by_key_spec d Hok) as [Hk Hp].
  unfold canon. rewrite sort_dict_of_dict_by_value_eq by (eapply dict_ok_perm; eauto).
  rewrite dmap_get. f_equal. symmetry. now apply dget_perm.
Qed.

Lemma canon_ok d : dict2_ok d -> dict2_ok (canon d).
Proof.
  intros [Hok Hin]. split.
  - unfold dict_ok. rewrite canon_keys by assumption. now apply str_sort_nodup.
  - intros q r Hr. rewrite canon_get in Hr by assumption.
    destruct (dget d q) as [r0|] eqn:Hd; [|discriminate]. cbn in Hr. inversion Hr; subst.
    eapply dict_ok_perm; [apply sort_dict_by_value_perm|]; eauto.
Qed.

Lemma canon_get2 d q k : dict2_ok d -> dget2 (canon d) q k = dget2 d q k.
Proof.
  intros [Hok Hin]. unfold dget2. rewrite canon_get by assumption.
  destruct (dget d q) as [r|] eqn:Hd; cbn; [|reflexivity].
  symmetry. apply dget_perm; [eauto|]. apply sort_dict_by_value_perm. eauto.
Qed.

Lemma canon_mem d q : dict_ok d -> dmem (canon d) q = dmem d q.
Proof. intros Hok. unfold dmem. rewrite canon_get by assumption. now destruct (dget d q). Qed.

(** The property that the [sorted] flag is meant to record. *)
Definition nan_free2 (d : dict (dict V)) : Prop :=
  forall q r, dget d q = Some r -> nan_free r.

Definition is_sorted (d : dict (dict V)) : Prop :=
  StronglySorted (fun a b => str_ltb a b = true) (dkeys d) /\
  forall q r, dget d q = Some r -> StronglySorted by_score_desc r.

Lemma canon_sorted d : dict2_ok d -> nan_free2 d -> is_sorted (canon d).
Proof.
  intros [Hok Hin] Hn. split.
  - rewrite canon_keys by assumption. apply sorted_nodup_strict.
    + apply str_sort_sorted.
    + now apply str_sort_nodup.
  - intros q r Hr. rewrite canon_get in Hr by assumption.
    destruct (dget d q) as [r0|] eqn:Hd; [|discriminate]. cbn in Hr. inversion Hr; subst.
    apply sort_dict_by_value_sorted; eauto.
Qed.

Lemma nan_free_perm r r' : Permutation r r' -> nan_free r -> nan_free r'.
Proof.
  unfold nan_free. intros Hp H. rewrite Forall_forall in *. intros v Hv. apply H.
  eapply Permutation_in; [|exact Hv]. apply Permutation_map, Permutation_sym, Hp.
Qed.

Lemma canon_nan_free d : dict2_ok d -> nan_free2 d -> nan_free2 (canon d).
Proof.
  intros [Hok Hin] Hn q r Hr. rewrite canon_get in Hr by assumption.
  destruct (dget d q) as [r0|] eqn:Hd; [|discriminate]. cbn in Hr. inversion Hr; subst.
  eapply nan_free_perm; [apply sort_dict_by_value_perm|]; eauto.
Qed.

(** ** Insertion *)
Lemma create_dict_from_lists_ok {W} (ks : list string) (vs : list W) :
  length ks <= length vs ->
  create_dict_from_lists ks vs = Ok (dict_of_list (combine ks vs)).
Proof.
  intros Hlen. unfold create_dict_from_lists, dict_of_list, enumerate.
  assert (H : forall (ks : list string) (vs : list W) pre (s : dict W), length ks <= length vs ->
     foldr_m (fun d ik => do v <- nth_r (pre ++ vs) (fst ik); Ok (dset d (snd ik) v))
             (enum_from (length pre) ks) s
     = Ok (fold_left (fun d kv => dset d (fst kv) (snd kv)) (combine ks vs) s)).
  { clear. induction ks as [|k ks IH]; intros vs pre s Hl; cbn; [reflexivity|].
    destruct vs as [|v vs]; cbn in Hl; [lia|].
    unfold nth_r at 1. rewrite nth_error_app2 by lia. rewrite Nat.sub_diag. cbn.
    specialize (IH vs (pre ++ [v]) (dset s k v)).
    rewrite app_length in IH. cbn [length] in IH. rewrite Nat.add_1_r in IH.
    rewrite <- app_assoc in IH. cbn [app] in IH. apply IH. lia. }
  apply (H ks vs [] []). exact Hlen.
Qed.

Lemma create_dict_from_lists_err {W} (ks : list string) (vs : list W) :
  length vs < length ks -> create_dict_from_lists ks vs = Err IndexError.
Proof.
  intros Hlen. unfold create_dict_from_lists, enumerate.
  assert (H : forall (ks : list string) (vs : list W) pre (s : dict W), length vs < length ks ->
     foldr_m (fun d ik => do v <- nth_r (pre ++ vs) (fst ik); Ok (dset d (snd ik) v))
             (enum_from (length pre) ks) s = Err IndexError).
  { clear. induction ks as [|k ks IH]; intros vs pre s Hl; cbn in *; [lia|].
    destruct vs as [|v vs]; cbn in Hl.
    - unfold nth_r. rewrite app_nil_r.
      rewrite (proj2 (nth_error_None pre (length pre))) by lia. reflexivity.
    - unfold nth_r at 1. rewrite nth_error_app2 by lia. rewrite Nat.sub_diag. cbn.
      specialize (IH vs (pre ++ [v]) (dset s k v)).
      rewrite app_length in IH. cbn [length] in IH. rewrite Nat.add_1_r in IH.
      rewrite <- app_assoc in IH. cbn [app] in IH. apply IH. lia. }
  apply (H ks vs [] []). exact Hlen.
Qed.

Lemma fold_dset_ok {W} (l : list (string * W)) : forall d, dict_ok d ->
  dict_ok (fold_left (fun d kv => dset d (fst kv) (snd kv)) l d).
Proof. induction l as [|kv l IH]; intros d H; cbn; [exact H|]. apply IH. now apply dict_ok_dset. Qed.

Lemma dict_of_list_ok {W} (l : list (string * W)) : dict_ok (dict_of_list l).
Proof. apply fold_dset_ok. constructor. Qed.

(** Shape of a well-formed add_multi call: parallel lists of the same lengths
    (extra doc_ids / scores are ignored by the code). *)
Definition shape_ok (qs : list string) (dss : list (list string)) (sss : list (list V)) : Prop :=
  length qs <= length dss /\ length qs <= length sss /\
  forall i ds ss, i < length qs -> nth_error dss i = Some ds -> nth_error sss i = Some ss ->
             length ds <= length ss.

(** What a successful add_bulk does. *)
Definition bulk_spec (d : dict (dict V)) qs (dss : list (list string)) (sss : list (list V)) :=
  fold_left (fun d x => dset d (fst x) (dict_of_list (snd x)))
            (combine qs (map (fun p => combine (fst p) (snd p)) (combine dss sss))) d.

Lemma add_bulk_ok d qs dss sss : shape_ok qs dss sss ->
  add_bulk d qs dss sss = (bulk_spec d qs dss sss, None).
Proof.
  intros (H1 & H2 & H3). unfold add_bulk, bulk_spec.
  assert (H : forall qs dss (sss : list (list V)) pd ps d, length pd = length ps ->
    length qs <= length dss -> length qs <= length sss ->
    (forall i ds ss, i < length qs -> nth_error dss i = Some ds -> nth_error sss i = Some ss ->
             length ds <= length ss) ->
    add_bulk_from (length pd) d qs (pd ++ dss) (ps ++ sss) =
    (fold_left (fun d x => dset d (fst x) (dict_of_list (snd x)))
            (combine qs (map (fun p => combine (fst p) (snd p)) (combine dss sss))) d, None)).
  { clear. induction qs as [|q qs IH]; intros dss sss pd ps d Hl H1 H2 H3; cbn; [reflexivity|].
    destruct dss as [|ds dss]; cbn in H1; [lia|]. destruct sss as [|ss sss]; cbn in H2; [lia|].
    rewrite nth_error_app2 by lia. rewrite Nat.sub_diag. cbn [nth_error].
    rewrite nth_error_app2 by lia. rewrite Hl, Nat.sub_diag. cbn [nth_error].
    rewrite create_dict_from_lists_ok by (apply (H3 0); cbn; auto; lia).
    cbn.
    specialize (IH dss sss (pd ++ [ds]) (ps ++ [ss]) (dset d q (dict_of_list (combine ds ss)))).
    rewrite !app_length in IH. cbn [length] in IH. rewrite Nat.add_1_r in IH.
    rewrite <- !app_assoc in IH. cbn [app] in IH. rewrite Hl in IH. apply IH; try lia.
    intros i ds' ss' Hi Ha Hb. apply (H3 (S i)); cbn; auto; lia. }
  apply (H qs dss sss [] [] d); auto.
Qed.

Lemma bulk_spec_ok d qs dss sss : dict2_ok d -> dict2_ok (bulk_spec d qs dss sss).
Proof.
  unfold bulk_spec. generalize (map (fun p : list string * list V => combine (fst p) (snd p)) (combine dss sss)).
  intros l. revert l d. induction qs as [|q qs IH]; intros [|x l] d H; cbn; auto.
  apply IH. destruct H as [Hok Hin]. split; [now apply dict_ok_dset|].
  intros q' r Hr. rewrite dget_dset in Hr. destruct (String.eqb q' q); [|eauto].
  inversion Hr; subst. apply dict_of_list_ok.
Qed.

(** A failing add_bulk leaves a prefix of the additions in place. *)
Lemma add_bulk_from_2ok i d qs (dss : list (list string)) (sss : list (list V)) :
  dict2_ok d -> dict2_ok (fst (add_bulk_from i d qs dss sss)).
Proof.
  revert i d; induction qs as [|q qs IH]; intros i d H; cbn; [exact H|].
  destruct (nth_error dss i) as [ds|]; [|exact H].
  destruct (nth_error sss i) as [ss|]; [|exact H].
  destruct (le_lt_dec (length ds) (length ss)) as [Hl|Hl].
  - rewrite create_dict_from_lists_ok by assumption. apply IH.
    destruct H as [Hok Hin]. split; [now apply dict_ok_dset|].
    intros q' r Hr. rewrite dget_dset in Hr. destruct (String.eqb q' q); [|eauto].
    inversion Hr; subst. apply dict_of_list_ok.
  - rewrite create_dict_from_lists_err by assumption. exact H.
Qed.

(** ** build_from_dict *)
Definition has_doc {W} (d : dict (dict W)) : Prop := exists q k v, dget2 d q k = Some v.

Lemma bulk_of_dict_id (d : dict (dict V)) : dict2_ok d ->
  bulk_spec [] (dkeys d) (map dkeys (dvals d)) (map dvals (dvals d)) = d.
Proof.
  intros [Hok Hin]. unfold bulk_spec.
  assert (Hall : Forall (fun kv => dict_ok (snd kv)) d).
  { apply Forall_forall. intros [q r] Hi. cbn. apply in_dget in Hi; eauto. }
  assert (H : combine (dkeys d)
      (map (fun p : list string * list V => combine (fst p) (snd p))
           (combine (map dkeys (dvals d)) (map dvals (dvals d)))) = d).
  { clear. induction d as [|[q r] d IH]; cbn; [reflexivity|]. f_equal; [|exact IH].
    f_equal. clear. unfold dkeys, dvals. induction r as [|[k v] r IH]; cbn; [reflexivity|]. now f_equal. }
  rewrite H.
  transitivity (dict_of_list d); [|now apply dict_of_list_id].
  unfold dict_of_list at 2.
  clear - Hall. revert Hall. generalize (@nil (string * dict V)).
  induction d as [|[q r] d IH]; intros acc Hall; cbn [fold_left fst snd]; [reflexivity|].
  inversion Hall; subst. cbn [snd] in *. rewrite dict_of_list_id by assumption. now apply IH.
Qed.

Lemma shape_of_dict (d : dict (dict V)) :
  shape_ok (dkeys d) (map dkeys (dvals d)) (map dvals (dvals d)).
Proof.
  unfold shape_ok, dkeys, dvals. rewrite !map_length. repeat split; auto.
  intros i ds ss _ H1 H2. rewrite !nth_error_map in *.
  destruct (nth_error d i); cbn in *; [|discriminate].
  inversion H1; inversion H2; subst. now rewrite !map_length.
Qed.

Lemma concat_keys_nil {W} (d : dict (dict W)) : dict2_ok d ->
  concat (map dkeys (dvals d)) = [] <-> ~ has_doc d.
Proof.
  intros [Hok Hin]. split.
  - intros Hc (q & k & v & Hg). unfold dget2 in Hg.
    destruct (dget d q) as [r|] eqn:Hr; [|discriminate].
    assert (In k (concat (map dkeys (dvals d)))).
    { apply in_concat. exists (dkeys r). split.
      - apply in_map. apply dget_Some_in in Hr. apply (in_map snd) in Hr. exact Hr.
      - eapply dget_Some_key; eauto. }
    rewrite Hc in H. destruct H.
  - intros Hn. destruct (concat (map dkeys (dvals d))) as [|k l] eqn:Hc; [reflexivity|].
    exfalso. apply Hn.
    assert (Hk : In k (concat (map dkeys (dvals d)))) by (rewrite Hc; now left).
    apply in_concat in Hk as (ks & Hks & Hk).
    apply in_map_iff in Hks as (r & <- & Hr).
    unfold dvals in Hr. apply in_map_iff in Hr as ([q r'] & Heq & Hqr). cbn in Heq; subst r'.
    apply in_dget in Hqr; auto. destruct (key_dget r k Hk) as [v Hv].
    exists q, k, v. unfold dget2. now rewrite Hqr.
Qed.

Lemma build_from_dict_ok (d : dict (dict V)) : dict2_ok d -> has_doc d ->
  build_from_dict E negf d = Ok (canon d).
Proof.
  intros H Hd. unfold build_from_dict.
  destruct (concat (map dkeys (dvals d))) eqn:Hc.
  - apply concat_keys_nil in Hc; auto. contradiction.
  - unfold create_and_sort, create_bulk. rewrite add_bulk_ok by apply shape_of_dict.
    cbn. rewrite bulk_of_dict_id by assumption. reflexivity.
Qed.

Lemma build_from_dict_err (d : dict (dict V)) : dict2_ok d -> ~ has_doc d ->
  build_from_dict E negf d = Err ValueError.
Proof.
  intros H Hd. unfold build_from_dict.
  apply concat_keys_nil in Hd; auto. now rewrite Hd.
Qed.

(** ** add_score *)
Lemma add_score_map_get2 (d : dict (dict V)) q k s q' k' :
  dget2 (add_score_map d q k s) q' k' =
  if String.eqb q' q && String.eqb k' k then Some s else dget2 d q' k'.
Proof.
  unfold add_score_map, dget2.
  destruct (dget d q) as [r|] eqn:Hd.
  - rewrite Hd, dget_dset. destruct (String.eqb_spec q' q) as [->|]; cbn; [|reflexivity].
    rewrite Hd, dget_dset. now destruct (String.eqb k' k).
  - rewrite dget_dset_eq, !dget_dset.
    destruct (String.eqb_spec q' q) as [->|]; cbn; [|reflexivity].
    rewrite Hd. now destruct (String.eqb k' k).
Qed.

Lemma add_score_map_mem (d : dict (dict V)) q k s q' :
  dmem (add_score_map d q k s) q' = if String.eqb q' q then true else dmem d q'.
Proof.
  unfold add_score_map, dmem.
  destruct (dget d q) as [r|] eqn:Hd.
  - rewrite Hd, dget_dset. now destruct (String.eqb q' q).
  - rewrite dget_dset_eq, !dget_dset. now destruct (String.eqb q' q).
Qed.

Lemma add_score_map_ok (d : dict (dict V)) q k s : dict2_ok d -> dict2_ok (add_score_map d q k s).
Proof.
  intros [Hok Hin]. unfold add_score_map.
  destruct (dget d q) as [r|] eqn:Hd.
  - rewrite Hd. split; [now apply dict_ok_dset|].
    intros q' r' Hr. rewrite dget_dset in Hr. destruct (String.eqb q' q); [|eauto].
    inversion Hr; subst. apply dict_ok_dset. eauto.
  - rewrite dget_dset_eq. split; [now repeat apply dict_ok_dset|].
    intros q' r' Hr. rewrite !dget_dset in Hr. destruct (String.eqb q' q); [|eauto].
    inversion Hr; subst. repeat constructor. intros [].
Qed.

End C.
