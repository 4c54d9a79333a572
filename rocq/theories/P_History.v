(** P_History.v: every history of method calls refines the nested-map specification
    and keeps the sorted flag truthful. *)
From Coq Require Import Reals Lra.
From Verif Require Import Base Dict Num Env M_Common M_Qrels M_Run M_History Spec_DS Spec_Hist
  P_Base P_Dict P_Common NumLaws.
Open Scope list_scope.

Lemma smap_eq_refl {V} (a : smap V) : smap_eq a a.
Proof. split; reflexivity. Qed.
Lemma smap_eq_trans {V} (a b c : smap V) : smap_eq a b -> smap_eq b c -> smap_eq a c.
Proof. intros [H1 H2] [H3 H4]. split; intros; [now rewrite H1|now rewrite H2]. Qed.

(** ** Lookup in a dictionary built from parallel lists: last occurrence wins *)
Lemma fold_dset_get {V} (l : list (string * V)) : forall d k,
  dget (fold_left (fun d kv => dset d (fst kv) (snd kv)) l d) k =
  match assoc_last (map fst l) (map snd l) k with Some v => Some v | None => dget d k end.
Proof.
  induction l as [|[k0 v0] l IH]; intros d k; cbn; [reflexivity|].
  rewrite IH, dget_dset. destruct (assoc_last (map fst l) (map snd l) k); [reflexivity|].
  now destruct (String.eqb k k0).
Qed.

Lemma assoc_last_combine {V} (ds : list string) (ss : list V) k :
  assoc_last (map fst (combine ds ss)) (map snd (combine ds ss)) k = assoc_last ds ss k.
Proof.
  revert ss; induction ds as [|d ds IH]; intros [|s ss]; cbn; auto. now rewrite IH.
Qed.

Lemma dict_of_list_get {V} (ds : list string) (ss : list V) k :
  dget (dict_of_list (combine ds ss)) k = assoc_last ds ss k.
Proof.
  unfold dict_of_list. rewrite fold_dset_get, assoc_last_combine. cbn.
  now destruct (assoc_last ds ss k).
Qed.

Lemma bulk_spec_smap {V} qs : forall dss (sss : list (list V)) d m,
  smap_eq (smap_of d) m ->
  smap_eq (smap_of (bulk_spec d qs dss sss)) (s_add_multi m qs dss sss).
Proof.
  unfold bulk_spec.
  induction qs as [|q qs IH]; intros dss sss d m H; cbn; [exact H|].
  destruct dss as [|ds dss]; cbn; [exact H|]. destruct sss as [|ss sss]; cbn [combine map fold_left]; [exact H|].
  apply IH. cbn [fst snd]. destruct H as [H1 H2]. split; cbn in *.
  - intros q'. unfold dmem. rewrite dget_dset. destruct (String.eqb q' q); [reflexivity|]. apply H1.
  - intros q' k. unfold dget2. rewrite dget_dset. destruct (String.eqb q' q); [|apply H2].
    apply dict_of_list_get.
Qed.

Lemma canon_smap {N : Num} (E : env N) (HE : env_ok E) {V} (negf : V -> F) d :
  dict2_ok d -> smap_eq (smap_of (canon E negf d)) (smap_of d).
Proof.
  intros H. split; cbn; intros.
  - apply canon_mem. apply H.
  - now apply canon_get2.
Qed.

Lemma add_score_smap {V} (d : dict (dict V)) q k s m : smap_eq (smap_of d) m ->
  smap_eq (smap_of (add_score_map d q k s)) (s_add_score m q k s).
Proof.
  intros [H1 H2]. split; cbn in *; intros.
  - rewrite add_score_map_mem. now rewrite H1.
  - rewrite add_score_map_get2. now rewrite H2.
Qed.

Lemma same_shape_ok {V} qs dss (sss : list (list V)) : same_shape qs dss sss -> shape_ok qs dss sss.
Proof.
  intros (H1 & H2 & H3). split; [lia|split; [lia|]].
  intros i ds ss _ Hd Hs. clear H1 H2.
  revert i Hd Hs. induction H3 as [|d s dss sss Hh _ IH]; intros [|i] Hd Hs; cbn in *; try discriminate.
  - inversion Hd; inversion Hs; subst. lia.
  - eauto.
Qed.

Lemma s_add_is_multi {V} (m : smap V) q ds ss : s_add_multi m [q] [ds] [ss] = s_add m q ds ss.
Proof. reflexivity. Qed.

(** ** make_comparable *)
Lemma mc_add_get {W} (ks : list string) : forall (m : dict (dict W)) q,
  dget (fold_left (fun (acc : dict (dict W)) q => if dmem acc q then acc else dset acc q ([] : dict W)) ks m) q =
  match dget m q with Some r => Some r | None => if in_dec string_dec q ks then Some [] else None end.
Proof.
  induction ks as [|k ks IH]; intros m q; cbn [fold_left].
  - cbn. now destruct (dget m q).
  - rewrite IH. unfold dmem.
    destruct (dget m k) as [r|] eqn:Hk.
    + destruct (dget m q) as [r'|] eqn:Hq; [reflexivity|].
      destruct (in_dec string_dec q ks), (in_dec string_dec q (k :: ks)) as [Hi|Hi]; auto.
      * exfalso. apply Hi. now right.
      * destruct Hi as [->|Hi]; [congruence|contradiction].
    + rewrite dget_dset. destruct (String.eqb_spec q k) as [->|Hne].
      * rewrite Hk. destruct (in_dec string_dec k (k :: ks)) as [|Hn]; [reflexivity|].
        exfalso. apply Hn. now left.
      * destruct (dget m q); [reflexivity|].
        destruct (in_dec string_dec q ks), (in_dec string_dec q (k :: ks)) as [Hi|Hi]; auto.
        -- exfalso. apply Hi. now right.
        -- destruct Hi as [->|Hi]; [congruence|contradiction].
Qed.

Lemma mc_add_ok {W} (ks : list string) : forall (m : dict (dict W)), dict2_ok m ->
  dict2_ok (fold_left (fun (acc : dict (dict W)) q => if dmem acc q then acc else dset acc q ([] : dict W)) ks m).
Proof.
  induction ks as [|k ks IH]; intros m H; cbn; [exact H|]. apply IH.
  destruct (dmem m k) eqn:Hm; [exact H|]. destruct H as [Hok Hin].
  split; [now apply dict_ok_dset|]. intros q r Hr. rewrite dget_dset in Hr.
  destruct (String.eqb q k); [|eauto]. inversion Hr. constructor.
Qed.

Lemma mc_del_ok {W} (p : string -> bool) (ks : list string) : forall (m : dict W), dict_ok m ->
  dict_ok (fold_left (fun acc q => if p q then acc else ddel acc q) ks m).
Proof.
  induction ks as [|k ks IH]; intros m H; cbn; [exact H|]. apply IH.
  destruct (p k); [exact H|]. now apply dict_ok_ddel.
Qed.

Lemma mc_del_get {W} (p : string -> bool) (ks : list string) : forall (m : dict W) q, dict_ok m ->
  dget (fold_left (fun acc q => if p q then acc else ddel acc q) ks m) q =
  if p q then dget m q else if in_dec string_dec q ks then None else dget m q.
Proof.
  induction ks as [|k ks IH]; intros m q Hok; cbn [fold_left].
  - cbn. now destruct (p q).
  - rewrite IH by (destruct (p k); [exact Hok|now apply dict_ok_ddel]).
    destruct (p k) eqn:Hk.
    + destruct (p q) eqn:Hq; [reflexivity|].
      destruct (in_dec string_dec q ks), (in_dec string_dec q (k :: ks)) as [Hi|Hi]; auto.
      * exfalso. apply Hi. now right.
      * destruct Hi as [->|Hi]; [congruence|contradiction].
    + rewrite dget_ddel by assumption.
      destruct (String.eqb_spec q k) as [->|Hne].
      * rewrite Hk. destruct (in_dec string_dec k (k :: ks)) as [|Hn].
        -- now destruct (in_dec string_dec k ks).
        -- exfalso. apply Hn. now left.
      * destruct (p q) eqn:Hq; [reflexivity|].
        destruct (in_dec string_dec q ks), (in_dec string_dec q (k :: ks)) as [Hi|Hi]; auto.
        -- exfalso. apply Hi. now right.
        -- destruct Hi as [->|Hi]; [congruence|contradiction].
Qed.

Lemma make_comparable_map_get {N : Num} (m : dict (dict F)) qm q : dict2_ok m ->
  dget (make_comparable_map m qm) q =
  if dmem qm q then match dget m q with Some r => Some r | None => Some [] end else None.
Proof.
  intros H. unfold make_comparable_map.
  set (m1 := fold_left _ (dkeys qm) m).
  assert (Hok1 : dict2_ok m1) by now apply mc_add_ok.
  rewrite mc_del_get by apply Hok1.
  destruct (dmem qm q) eqn:Hq.
  - unfold m1. rewrite mc_add_get. apply dmem_in in Hq.
    destruct (dget m q); [reflexivity|]. destruct (in_dec string_dec q (dkeys qm)); [reflexivity|contradiction].
  - destruct (in_dec string_dec q (dkeys m1)) as [|Hn]; [reflexivity|]. now apply dget_None.
Qed.

Lemma make_comparable_map_ok {N : Num} (m : dict (dict F)) qm : dict2_ok m ->
  dict2_ok (make_comparable_map m qm).
Proof.
  intros H. split.
  - unfold make_comparable_map. apply mc_del_ok. now apply mc_add_ok.
  - intros q r Hr. rewrite make_comparable_map_get in Hr by assumption.
    destruct (dmem qm q); [|discriminate]. destruct (dget m q) as [r'|] eqn:Hd.
    + inversion Hr; subst. eapply H; eauto.
    + inversion Hr. constructor.
Qed.

(** ** set_relevance_level *)
Lemma inner_shift {W} (g : W -> W) q (r : dict W) : forall acc inner,
  dget acc q = Some inner ->
  fold_left (fun acc' ds => match dget acc' q with
                            | Some inner => dset acc' q (dset inner (fst ds) (g (snd ds)))
                            | None => acc' end) r acc
  = match r with [] => acc
    | _ => dset acc q (fold_left (fun i ds => dset i (fst ds) (g (snd ds))) r inner) end.
Proof.
  induction r as [|[k v] r IH]; intros acc inner Hi; cbn [fold_left]; [reflexivity|].
  rewrite Hi. cbn [fst snd].
  rewrite (IH _ (dset inner k (g v))) by apply dget_dset_eq.
  destruct r as [|x r]; [reflexivity|].
  assert (Hdd : forall (d : dict (dict W)) a b, dset (dset d q a) q b = dset d q b).
  { clear. induction d as [|[k' v'] d IH]; intros a b; cbn.
    - now rewrite String.eqb_refl.
    - destruct (String.eqb_spec q k') as [->|Hne]; cbn.
      + now rewrite String.eqb_refl.
      + apply String.eqb_neq in Hne. rewrite Hne. f_equal. apply IH. }
  apply Hdd.
Qed.

Lemma dset_same {W} (d : dict W) q v : dget d q = Some v -> dset d q v = d.
Proof.
  induction d as [|[k' v'] d IH]; cbn; [discriminate|].
  destruct (String.eqb_spec q k') as [->|Hne]; intros H; [congruence|]. f_equal. auto.
Qed.

(** shifting the values of a dictionary in place *)
Lemma dset_app_l {W} (d1 d2 : dict W) k v : In k (dkeys d1) -> dset (d1 ++ d2) k v = dset d1 k v ++ d2.
Proof.
  induction d1 as [|[k' v'] d1 IH]; cbn; [easy|]. intros H.
  destruct (String.eqb_spec k k') as [->|Hne]; cbn; [reflexivity|].
  f_equal. apply IH. destruct H; [congruence|assumption].
Qed.
Lemma dset_app_r {W} (d1 d2 : dict W) k v : ~ In k (dkeys d1) -> dset (d1 ++ d2) k v = d1 ++ dset d2 k v.
Proof.
  induction d1 as [|[k' v'] d1 IH]; cbn; [easy|]. intros H.
  destruct (String.eqb_spec k k') as [->|Hne]; cbn.
  - exfalso. apply H. now left.
  - f_equal. apply IH. intros Hc. apply H. now right.
Qed.

Lemma shift_fold {W} (g : W -> W) (r : dict W) : forall pre, NoDup (dkeys pre ++ dkeys r) ->
  fold_left (fun i ds => dset i (fst ds) (g (snd ds))) r (pre ++ r)
  = pre ++ map (fun kv => (fst kv, g (snd kv))) r.
Proof.
  induction r as [|[k v] r IH]; intros pre Hn; cbn [fold_left map fst snd]; [reflexivity|].
  rewrite dset_app_r.
  2:{ cbn in Hn. apply NoDup_remove_2 in Hn. intros Hc. apply Hn, in_or_app. now left. }
  cbn [dset]. rewrite String.eqb_refl.
  specialize (IH (pre ++ [(k, g v)])). rewrite <- !app_assoc in IH. cbn [app] in IH.
  apply IH. rewrite dkeys_app. cbn. rewrite <- app_assoc. exact Hn.
Qed.

Lemma shift_inner_eq {W} (g : W -> W) (r : dict W) : dict_ok r ->
  fold_left (fun i ds => dset i (fst ds) (g (snd ds))) r r
  = map (fun kv => (fst kv, g (snd kv))) r.
Proof. intros H. apply (shift_fold g r []). exact H. Qed.

Lemma nth_dkeys {W} (m : dict W) i : nth_error (dkeys m) i = option_map fst (nth_error m i).
Proof. unfold dkeys. now rewrite nth_error_map. Qed.
Lemma nth_dvals {W} (m : dict W) i : nth_error (dvals m) i = option_map snd (nth_error m i).
Proof. unfold dvals. now rewrite nth_error_map. Qed.

Lemma set_relevance_level_get {N : Num} (E : env N) (HE : env_ok E) m l : dict2_ok m ->
  dkeys (set_relevance_level_map E m l) = dkeys m /\
  forall q, dget (set_relevance_level_map E m l) q =
       option_map (map (fun kv => (fst kv, (snd kv - (l - 1))%Z))) (dget m q).
Proof.
  intros [Hok Hin]. unfold set_relevance_level_map.
  set (order := e_sched E _ (length (dkeys m))).
  assert (Hp : Permutation order (seq 0 (length (dkeys m)))) by apply (sched_perm _ HE).
  set (sh := fun r : dict Z => map (fun kv : string * Z => (fst kv, (snd kv - (l - 1))%Z)) r : dict Z).
  assert (Hnd : NoDup order) by (eapply Permutation_NoDup; [apply Permutation_sym, Hp|apply seq_NoDup]).
  assert (Hgen : forall order done (acc : dict (dict Z)),
     NoDup (done ++ order) -> dkeys acc = dkeys m ->
     (forall i q r, nth_error m i = Some (q, r) ->
           dget acc q = if in_dec Nat.eq_dec i done then Some (sh r) else Some r) ->
     let acc' := fold_left
       (fun acc i => match nth_error (dkeys m) i, nth_error (dvals m) i with
       | Some q, Some r =>
           fold_left (fun acc' ds => match dget acc' q with
                | Some inner => dset acc' q (dset inner (fst ds) (snd ds - (l - 1))%Z)
                | None => acc' end) r acc
       | _, _ => acc end) order acc in
     dkeys acc' = dkeys m /\
     (forall i q r, nth_error m i = Some (q, r) ->
           dget acc' q = if in_dec Nat.eq_dec i (done ++ order) then Some (sh r) else Some r)).
  { clear order Hp Hnd. induction order as [|i order IH]; intros done acc Hn Hk Hg; cbn [fold_left].
    - rewrite app_nil_r. auto.
    - replace (done ++ i :: order) with ((done ++ [i]) ++ order) in * by now rewrite <- app_assoc.
      apply IH; [exact Hn| |].
      + rewrite nth_dkeys, nth_dvals.
        destruct (nth_error m i) as [[q r]|] eqn:Hi; cbn [option_map fst snd]; [|exact Hk].
        assert (Hgi := Hg i q r Hi).
        destruct (in_dec Nat.eq_dec i done) as [Hid|Hid].
        * exfalso. rewrite <- app_assoc in Hn. cbn in Hn. apply NoDup_remove_2 in Hn.
          apply Hn, in_or_app. now left.
        * rewrite (inner_shift (fun v => (v - (l - 1))%Z) q r acc r Hgi).
          destruct r as [|x r]; [exact Hk|].
          rewrite dkeys_dset_in; [exact Hk|]. eapply dget_Some_key; eauto.
      + intros j q' r' Hj. rewrite nth_dkeys, nth_dvals.
        destruct (nth_error m i) as [[q r]|] eqn:Hi; cbn.
        2:{ rewrite (Hg j q' r' Hj). destruct (in_dec Nat.eq_dec j done) as [Hjd|Hjd];
              destruct (in_dec Nat.eq_dec j (done ++ [i])) as [Hje|Hje]; auto.
            - exfalso. apply Hje, in_or_app. now left.
            - apply in_app_or in Hje as [|[->|[]]]; [contradiction|congruence]. }
        assert (Hgi := Hg i q r Hi).
        destruct (in_dec Nat.eq_dec i done) as [Hid|Hid].
        { exfalso. rewrite <- app_assoc in Hn. cbn in Hn. apply NoDup_remove_2 in Hn.
          apply Hn, in_or_app. now left. }
        assert (Hokr : dict_ok r).
        { apply (Hin q). apply in_dget; auto. eapply nth_error_In; eauto. }
        assert (Heq : fold_left
            (fun acc' ds => match dget acc' q with
                | Some inner => dset acc' q (dset inner (fst ds) (snd ds - (l - 1))%Z)
                | None => acc' end) r acc = dset acc q (sh r)).
        { rewrite (inner_shift (fun v => (v - (l - 1))%Z) q r acc r Hgi).
          destruct r as [|x r]; [symmetry; apply dset_same; exact Hgi|].
          f_equal. apply (shift_inner_eq (fun v => (v - (l - 1))%Z)). exact Hokr. }
        rewrite Heq, dget_dset. destruct (String.eqb_spec q' q) as [->|Hne].
        * assert (j = i).
          { pose proof (proj1 (NoDup_nth_error (dkeys m)) Hok) as Hinj. apply Hinj.
            - apply nth_error_Some. unfold dkeys. rewrite nth_error_map, Hj. discriminate.
            - unfold dkeys. rewrite !nth_error_map, Hi, Hj. reflexivity. }
          subst j. rewrite Hi in Hj. inversion Hj; subst.
          destruct (in_dec Nat.eq_dec i (done ++ [i])) as [|Hc]; [reflexivity|].
          exfalso. apply Hc, in_or_app. right. now left.
        * rewrite (Hg j q' r' Hj). destruct (in_dec Nat.eq_dec j done) as [Hjd|Hjd];
              destruct (in_dec Nat.eq_dec j (done ++ [i])) as [Hje|Hje]; auto.
            -- exfalso. apply Hje, in_or_app. now left.
            -- apply in_app_or in Hje as [|[->|[]]]; [contradiction|congruence]. }
  specialize (Hgen order [] m). cbn [app] in Hgen. destruct Hgen as [Hk Hg]; auto.
  { intros i q r Hi. destruct (in_dec Nat.eq_dec i []) as [[]|].
    apply in_dget; auto. eapply nth_error_In; eauto. }
  split; [exact Hk|]. intros q. destruct (dget m q) as [r|] eqn:Hq.
  - apply dget_Some_in, In_nth_error in Hq as [i Hi]. rewrite (Hg i q r Hi).
    destruct (in_dec Nat.eq_dec i order) as [|Hn]; [reflexivity|].
    exfalso. apply Hn. apply (Permutation_in _ (Permutation_sym Hp)), in_seq.
    assert (i < length m) by (apply nth_error_Some; congruence).
    unfold dkeys. rewrite map_length. lia.
  - cbn. apply dget_None. rewrite Hk. now apply dget_None.
Qed.

Lemma set_relevance_level_ok {N : Num} (E : env N) (HE : env_ok E) m l : dict2_ok m ->
  dict2_ok (set_relevance_level_map E m l).
Proof.
  intros H. destruct (set_relevance_level_get E HE m l H) as [Hk Hg]. split.
  - unfold dict_ok. rewrite Hk. apply H.
  - intros q r Hr. rewrite Hg in Hr. destruct (dget m q) as [r0|] eqn:Hq; [|discriminate].
    inversion Hr; subst. unfold dict_ok, dkeys. rewrite map_map. cbn. eapply H; eauto.
Qed.

Lemma set_relevance_level_smap {N : Num} (E : env N) (HE : env_ok E) m l : dict2_ok m ->
  smap_eq (smap_of (set_relevance_level_map E m l)) (s_shift (smap_of m) l).
Proof.
  intros H. destruct (set_relevance_level_get E HE m l H) as [Hk Hg]. split; cbn; intros.
  - unfold dmem. rewrite Hg. now destruct (dget m q).
  - unfold dget2. rewrite Hg. destruct (dget m q) as [r|]; cbn; [|reflexivity].
    apply (dmap_get (fun v => (v - (l - 1))%Z)).
Qed.

(** ** Run histories *)
Section RunHist.
Context {N : Num} (E : env N) (HE : env_ok E).

Lemma Run_add_multi_ok (x : Run N) qs dss sss : shape_ok qs dss sss ->
  Run_add_multi E x qs dss sss =
  (Run_with_map x (canon E r_negf (bulk_spec (r_map x) qs dss sss)) true, None).
Proof.
  intros H. unfold Run_add_multi, add_and_sort. rewrite add_bulk_ok by assumption. reflexivity.
Qed.

Lemma run_step_refines x o m :
  dict2_ok (r_map x) -> run_op_shape o -> smap_eq (smap_of (r_map x)) m ->
  snd (run_step E x o) = None /\
  dict2_ok (r_map (fst (run_step E x o))) /\
  smap_eq (smap_of (r_map (fst (run_step E x o)))) (spec_run_step m o).
Proof.
  intros Hok Hs Hm. destruct o as [q d s|q ds ss|qs dss sss| |qr|]; cbn [run_step].
  - repeat split; cbn; try (now apply add_score_map_ok); now apply add_score_smap.
  - cbn in Hs. unfold Run_add. rewrite Run_add_multi_ok.
    2:{ apply same_shape_ok. repeat split; auto. }
    cbn [fst snd Run_with_map r_map]. split; [reflexivity|]. split.
    + apply canon_ok; [exact HE|]. now apply bulk_spec_ok.
    + eapply smap_eq_trans; [apply canon_smap; [exact HE|now apply bulk_spec_ok]|].
      cbn [spec_run_step]. rewrite <- s_add_is_multi. now apply bulk_spec_smap.
  - rewrite Run_add_multi_ok by now apply same_shape_ok.
    cbn [fst snd Run_with_map r_map]. split; [reflexivity|]. split.
    + apply canon_ok; [exact HE|]. now apply bulk_spec_ok.
    + eapply smap_eq_trans; [apply canon_smap; [exact HE|now apply bulk_spec_ok]|].
      now apply bulk_spec_smap.
  - cbn [fst snd]. split; [reflexivity|]. split.
    + apply (canon_ok E HE r_negf _ Hok).
    + eapply smap_eq_trans; [apply (canon_smap E HE r_negf _ Hok)|exact Hm].
  - cbn [fst snd]. split; [reflexivity|].
    assert (Hok' := make_comparable_map_ok (r_map x) (q_map qr) Hok). split.
    + apply (canon_ok E HE r_negf _ Hok').
    + eapply smap_eq_trans; [apply (canon_smap E HE r_negf _ Hok')|].
      destruct Hm as [H1 H2]. split; cbn; intros.
      * unfold dmem at 1. rewrite make_comparable_map_get by assumption.
        destruct (dmem (q_map qr) q); [|reflexivity]. now destruct (dget (r_map x) q).
      * unfold dget2. rewrite make_comparable_map_get by assumption.
        destruct (dmem (q_map qr) q); [|reflexivity]. rewrite <- H2. cbn. unfold dget2.
        now destruct (dget (r_map x) q).
  - cbn [fst snd]. unfold Run_to_typed_list. destruct (r_sorted x); cbn [fst].
    + auto.
    + split; [reflexivity|]. split.
      * apply (canon_ok E HE r_negf _ Hok).
      * eapply smap_eq_trans; [apply (canon_smap E HE r_negf _ Hok)|exact Hm].
Qed.

Lemma run_hist_refines os : forall x m,
  dict2_ok (r_map x) -> Forall run_op_shape os -> smap_eq (smap_of (r_map x)) m ->
  dict2_ok (r_map (run_hist E x os)) /\
  smap_eq (smap_of (r_map (run_hist E x os))) (fold_left spec_run_step os m).
Proof.
  induction os as [|o os IH]; intros x m Hok Hs Hm; cbn; [auto|].
  inversion Hs; subst.
  destruct (run_step_refines x o m Hok H1 Hm) as (_ & Hok' & Hm').
  apply IH; auto.
Qed.

(** the flag invariant *)
Definition run_inv (x : Run N) : Prop :=
  dict2_ok (r_map x) /\ nan_free2 r_negf (r_map x) /\
  (r_sorted x = true -> is_sorted r_negf (r_map x)).

Lemma run_inv_empty : run_inv Run_empty.
Proof.
  split; [|split].
  - split; [constructor|]. intros q r H. discriminate.
  - intros q r H. discriminate.
  - discriminate.
Qed.

Lemma canon_inv x m : dict2_ok m -> nan_free2 r_negf m ->
  run_inv (Run_with_map x (canon E r_negf m) true).
Proof.
  intros Hok Hn. split; [|split]; cbn.
  - now apply canon_ok.
  - now apply canon_nan_free.
  - intros _. now apply canon_sorted.
Qed.

Context (HL : NumLaws N).

Lemma nan_negf v : is_nan v = false -> is_nan (r_negf v) = false.
Proof. intros H. unfold r_negf. now rewrite law_nan_opp. Qed.

Lemma assoc_last_in {V} (ds : list string) (ss : list V) k v : assoc_last ds ss k = Some v -> In v ss.
Proof.
  revert ss; induction ds as [|d ds IH]; intros [|s ss]; cbn; try discriminate.
  destruct (assoc_last ds ss k) as [w|] eqn:Ha.
  - intros H; inversion H; subst. right. eauto.
  - destruct (String.eqb k d); [|discriminate]. intros H; inversion H; now left.
Qed.

Lemma bulk_spec_nan qs : forall dss sss d, dict2_ok d -> nan_free2 r_negf d ->
  Forall (Forall (fun s => is_nan s = false)) sss ->
  nan_free2 r_negf (bulk_spec d qs dss sss).
Proof.
  unfold bulk_spec. induction qs as [|q qs IH]; intros dss sss d Hok Hn Hf; cbn; [exact Hn|].
  destruct dss as [|ds dss]; cbn; [exact Hn|]. destruct sss as [|ss sss]; cbn [combine map fold_left]; [exact Hn|].
  inversion Hf; subst. apply IH; auto; cbn [fst snd].
  - destruct Hok as [Ha Hb]. split; [now apply dict_ok_dset|]. intros q' r Hr.
    rewrite dget_dset in Hr. destruct (String.eqb q' q); [|eauto].
    inversion Hr; subst. apply dict_of_list_ok.
  - intros q' r Hr. rewrite dget_dset in Hr. destruct (String.eqb q' q); [|eauto].
    inversion Hr; subst. apply Forall_forall. intros v Hv.
    unfold dvals in Hv. apply in_map_iff in Hv as ([k v'] & <- & Hkv).
    apply in_dget in Hkv; [|apply dict_of_list_ok]. rewrite dict_of_list_get in Hkv.
    apply assoc_last_in in Hkv. apply nan_negf. rewrite Forall_forall in H1. auto.
Qed.

Lemma run_step_inv x o : run_inv x -> run_op_shape o -> run_op_nan_free o ->
  run_inv (fst (run_step E x o)).
Proof.
  intros (Hok & Hn & Hs) Hsh Hnf. destruct o as [q d s|q ds ss|qs dss sss| |qr|]; cbn [run_step].
  - split; [|split]; cbn.
    + now apply add_score_map_ok.
    + intros q' r Hr. cbn in Hnf. apply Forall_forall. intros v Hv.
      unfold dvals in Hv. apply in_map_iff in Hv as ([k v'] & <- & Hkv). cbn.
      pose proof (add_score_map_ok (r_map x) q d s Hok) as [_ Hok2].
      apply in_dget in Hkv; [|eauto].
      assert (Hg : dget2 (add_score_map (r_map x) q d s) q' k = Some v').
      { unfold dget2. now rewrite Hr. }
      rewrite add_score_map_get2 in Hg.
      destruct (String.eqb q' q && String.eqb k d).
      * inversion Hg; subst. now apply nan_negf.
      * unfold dget2 in Hg. destruct (dget (r_map x) q') as [r'|] eqn:Hr'; [|discriminate].
        specialize (Hn q' r' Hr'). unfold nan_free in Hn. rewrite Forall_forall in Hn. apply Hn.
        apply dget_Some_in in Hg. apply (in_map snd) in Hg. exact Hg.
    + discriminate.
  - cbn in Hsh, Hnf. unfold Run_add. rewrite Run_add_multi_ok.
    2:{ apply same_shape_ok. repeat split; auto. }
    apply canon_inv; [now apply bulk_spec_ok|]. apply bulk_spec_nan; auto.
  - cbn in Hsh, Hnf. rewrite Run_add_multi_ok by now apply same_shape_ok.
    apply canon_inv; [now apply bulk_spec_ok|]. apply bulk_spec_nan; auto.
  - apply canon_inv; auto.
  - assert (Hok' := make_comparable_map_ok (r_map x) (q_map qr) Hok).
    apply (canon_inv x); [exact Hok'|].
    intros q r Hr. change (dget (make_comparable_map (r_map x) (q_map qr)) q = Some r) in Hr. rewrite make_comparable_map_get in Hr by assumption.
    destruct (dmem (q_map qr) q); [|discriminate].
    destruct (dget (r_map x) q) as [r'|] eqn:Hr'; inversion Hr; subst; [eauto|constructor].
  - unfold Run_to_typed_list. cbn [fst]. destruct (r_sorted x) eqn:Hsx; cbn [fst].
    + repeat split; auto; try apply Hok; try (apply Hs; auto).
    + apply canon_inv; auto.
Qed.

Lemma run_hist_inv os : forall x, run_inv x -> Forall run_op_shape os -> Forall run_op_nan_free os ->
  run_inv (run_hist E x os).
Proof.
  induction os as [|o os IH]; intros x Hx Hs Hn; cbn; [exact Hx|].
  inversion Hs; inversion Hn; subst. apply IH; auto. now apply run_step_inv.
Qed.

Lemma is_sorted_in_order m : is_sorted r_negf m -> run_in_order m.
Proof.
  intros [Hk Hr]. split; [exact Hk|]. intros q r Hq. specialize (Hr q r Hq).
  eapply StronglySorted_impl; [|exact Hr]. intros a b Hab. unfold by_score_desc, r_negf in Hab.
  now rewrite law_opp_le in Hab.
Qed.

End RunHist.

(** ** Qrels histories *)
Section QrelsHist.
Context {N : Num} (E : env N) (HE : env_ok E).

Lemma Qrels_add_multi_ok (x : Qrels) qs dss sss : shape_ok qs dss sss ->
  Qrels_add_multi E x qs dss sss =
  (mkQrels (canon E q_negf (bulk_spec (q_map x) qs dss sss)) true (q_name x), None).
Proof.
  intros H. unfold Qrels_add_multi, add_and_sort. rewrite add_bulk_ok by assumption. reflexivity.
Qed.

Lemma qrels_step_refines x o m :
  dict2_ok (q_map x) -> qrels_op_shape o -> smap_eq (smap_of (q_map x)) m ->
  snd (qrels_step E x o) = None /\
  dict2_ok (q_map (fst (qrels_step E x o))) /\
  smap_eq (smap_of (q_map (fst (qrels_step E x o)))) (spec_qrels_step m o).
Proof.
  intros Hok Hs Hm. destruct o as [q d s|q ds ss|qs dss sss| |l|]; cbn [qrels_step].
  - repeat split; cbn; try (now apply add_score_map_ok); now apply add_score_smap.
  - cbn in Hs. unfold Qrels_add. rewrite Qrels_add_multi_ok.
    2:{ apply same_shape_ok. repeat split; auto. }
    cbn [fst snd q_map]. split; [reflexivity|]. split.
    + apply canon_ok; [exact HE|]. now apply bulk_spec_ok.
    + eapply smap_eq_trans; [apply canon_smap; [exact HE|now apply bulk_spec_ok]|].
      cbn [spec_qrels_step]. rewrite <- s_add_is_multi. now apply bulk_spec_smap.
  - rewrite Qrels_add_multi_ok by now apply same_shape_ok.
    cbn [fst snd q_map]. split; [reflexivity|]. split.
    + apply canon_ok; [exact HE|]. now apply bulk_spec_ok.
    + eapply smap_eq_trans; [apply canon_smap; [exact HE|now apply bulk_spec_ok]|].
      now apply bulk_spec_smap.
  - cbn [fst snd]. split; [reflexivity|]. split.
    + apply (canon_ok E HE q_negf _ Hok).
    + eapply smap_eq_trans; [apply (canon_smap E HE q_negf _ Hok)|exact Hm].
  - cbn [fst snd Qrels_set_relevance_level q_map]. split; [reflexivity|]. split.
    + now apply set_relevance_level_ok.
    + eapply smap_eq_trans; [now apply set_relevance_level_smap|].
      destruct Hm as [H1 H2]. split; cbn; intros; [apply H1|]. now rewrite <- H2.
  - cbn [fst snd]. unfold Qrels_to_typed_list. destruct (q_sorted x); cbn [fst].
    + auto.
    + split; [reflexivity|]. split.
      * apply (canon_ok E HE q_negf _ Hok).
      * eapply smap_eq_trans; [apply (canon_smap E HE q_negf _ Hok)|exact Hm].
Qed.

Lemma qrels_hist_refines os : forall x m,
  dict2_ok (q_map x) -> Forall qrels_op_shape os -> smap_eq (smap_of (q_map x)) m ->
  dict2_ok (q_map (qrels_hist E x os)) /\
  smap_eq (smap_of (q_map (qrels_hist E x os))) (fold_left spec_qrels_step os m).
Proof.
  induction os as [|o os IH]; intros x m Hok Hs Hm; cbn; [auto|].
  inversion Hs; subst.
  destruct (qrels_step_refines x o m Hok H1 Hm) as (_ & Hok' & Hm').
  apply IH; auto.
Qed.
End QrelsHist.

(** Judgments are exact when floats are exact: the order of int64 judgments. *)
Section QrelsFlag.
Context (E : env NumR) (HE : env_ok E).

Definition qrels_inv (x : Qrels) : Prop :=
  dict2_ok (q_map x) /\ (q_sorted x = true -> qrels_in_order (q_map x)).

Lemma q_nan_free (d : dict (dict Z)) : @nan_free2 NumR Z q_negf d.
Proof. intros q r _. apply Forall_forall. intros v _. apply is_nan_R. Qed.

Lemma q_sorted_in_order m : @is_sorted NumR Z q_negf m -> qrels_in_order m.
Proof.
  intros [Hk Hr]. split; [exact Hk|]. intros q r Hq. specialize (Hr q r Hq).
  eapply StronglySorted_impl; [|exact Hr]. intros a b Hab. unfold by_score_desc, q_negf in Hab.
  numR. rewrite Rleb_true in Hab. apply le_IZR in Hab. lia.
Qed.

Lemma canon_qinv m nm : dict2_ok m ->
  qrels_inv (mkQrels (canon E q_negf m) true nm).
Proof.
  intros H. split; [now apply canon_ok|]. intros _. apply q_sorted_in_order.
  apply canon_sorted; auto. apply q_nan_free.
Qed.

Lemma qrels_step_inv x o : qrels_inv x -> qrels_op_shape o -> qrels_inv (fst (qrels_step E x o)).
Proof.
  intros [Hok Hs] Hsh. destruct o as [q d s|q ds ss|qs dss sss| |l|]; cbn [qrels_step].
  - split; cbn; [now apply add_score_map_ok|discriminate].
  - cbn in Hsh. unfold Qrels_add. rewrite Qrels_add_multi_ok.
    2:{ apply same_shape_ok. repeat split; auto. }
    apply canon_qinv. now apply bulk_spec_ok.
  - cbn in Hsh. rewrite Qrels_add_multi_ok by now apply same_shape_ok.
    apply canon_qinv. now apply bulk_spec_ok.
  - apply canon_qinv; auto.
  - split; cbn; [now apply set_relevance_level_ok|].
    intros Hx. destruct (Hs Hx) as [Hk Hr].
    destruct (set_relevance_level_get E HE _ l Hok) as [Hk' Hg']. split.
    + now rewrite Hk'.
    + intros q r Hq. rewrite Hg' in Hq. destruct (dget (q_map x) q) as [r0|] eqn:Hq0; [|discriminate].
      inversion Hq; subst. apply StronglySorted_map. cbn.
      eapply StronglySorted_impl; [|exact (Hr _ _ Hq0)]. cbn. intros; lia.
  - unfold Qrels_to_typed_list. cbn [fst]. destruct (q_sorted x) eqn:Hsx; cbn [fst].
    + split; auto.
    + apply canon_qinv; auto.
Qed.

Lemma qrels_hist_inv os : forall x, qrels_inv x -> Forall qrels_op_shape os ->
  qrels_inv (qrels_hist E x os).
Proof.
  induction os as [|o os IH]; intros x Hx Hs; cbn; [exact Hx|].
  inversion Hs; subst. apply IH; auto. now apply qrels_step_inv.
Qed.
End QrelsFlag.
