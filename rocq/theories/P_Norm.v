(** P_Norm.v: lemmas about the per-query loops of M_Norm.v, for any number type *)
From Verif Require Import Base Dict Num NumLaws Env M_Common M_Qrels M_Run M_Norm P_Base P_Dict P_Common.
Open Scope string_scope.
Open Scope list_scope.
Open Scope nat_scope.

(** a loop of assignments to fresh keys *)
Lemma foldr_m_fresh {A V} (f : dict V -> A -> result (dict V)) (g : A -> string * V) l :
  (forall d a, In a l -> f d a = Ok (dset d (fst (g a)) (snd (g a)))) ->
  NoDup (map (fun a => fst (g a)) l) -> foldr_m f l [] = Ok (map g l).
Proof.
  intros H Hn. rewrite (foldr_m_ok f (fun d a => dset d (fst (g a)) (snd (g a)))) by auto.
  f_equal. rewrite fold_dset_fresh by exact Hn. reflexivity.
Qed.

Lemma combine_map_fst {A B} (l : list A) (l' : list B) : length l = length l' -> map fst (combine l l') = l.
Proof. revert l'; induction l as [|a l IH]; intros [|b l']; cbn; intros H; auto; try lia. f_equal. apply IH. lia. Qed.
Lemma combine_map_snd {A B} (l : list A) (l' : list B) : length l = length l' -> map snd (combine l l') = l'.
Proof. revert l'; induction l as [|a l IH]; intros [|b l']; cbn; intros H; auto; try lia. f_equal. apply IH. lia. Qed.

Section P.
Context {N : Num} (E : env N) (HE : env_ok E).

Lemma convert_results_ok q_ids l : NoDup q_ids -> length l = length q_ids ->
  convert_results q_ids l = Ok (combine q_ids l).
Proof.
  intros Hn Hl. unfold convert_results.
  rewrite (foldr_m_fresh _ (fun iq => (snd iq, nth (fst iq) l []))).
  - f_equal. apply nth_error_ext. intros i. unfold enumerate.
    rewrite nth_error_map.
    assert (Hg : forall j ids (l : list (dict F)) pre, length l = length ids -> j = length pre ->
      map (fun iq : nat * string => (snd iq, nth (fst iq) (pre ++ l) [])) (enum_from j ids) = combine ids l).
    { clear. intros j ids. revert j. induction ids as [|q ids IH]; intros j l pre Hl ->; [reflexivity|].
      destruct l as [|r l]; [cbn in Hl; lia|]. cbn [enum_from map combine fst snd].
      rewrite app_nth2, Nat.sub_diag by lia. f_equal.
      specialize (IH (S (length pre)) l (pre ++ [r])). rewrite <- app_assoc in IH. cbn [app] in IH.
      apply IH; [cbn in Hl; lia|]. rewrite app_length. cbn. lia. }
    specialize (Hg 0 q_ids l [] Hl eq_refl). cbn [app] in Hg. rewrite <- Hg. now rewrite nth_error_map.
  - intros d [i q] Hi. apply enumerate_in in Hi. cbn [fst snd].
    assert (Hlt : i < length l) by (rewrite Hl; apply nth_error_Some; congruence).
    unfold nth_r. rewrite (nth_error_nth' l [] Hlt). reflexivity.
  - cbn [fst]. unfold enumerate. rewrite enum_from_snd. exact Hn.
Qed.

Lemma per_query_i_ok tag f g m : dict_ok m ->
  (forall i q r, nth_error m i = Some (q, r) -> f i r = Ok (g i r)) ->
  per_query E tag f m = Ok (map (fun iqr => (fst (snd iqr), g (fst iqr) (snd (snd iqr)))) (enumerate m)).
Proof.
  intros Hok Hf. unfold per_query.
  rewrite (prange_r_ok _ _ _ _ (fun i => match nth_error m i with Some (_, r) => g i r | None => [] end)).
  - cbn [bindr]. rewrite convert_results_ok.
    + f_equal. unfold dkeys. rewrite map_length.
      assert (Hg : forall j (m : dict (dict F)) pre, j = length pre ->
        combine (map fst m) (map (fun i => match nth_error (pre ++ m) i with Some (_, r) => g i r | None => [] end) (seq j (length m)))
        = map (fun iqr => (fst (snd iqr), g (fst iqr) (snd (snd iqr)))) (enum_from j m)).
      { clear. intros j m. revert j. induction m as [|[q r] m IH]; intros j pre ->; [reflexivity|].
        cbn [map length seq combine enum_from fst snd]. rewrite nth_error_app2, Nat.sub_diag by lia. cbn [nth_error].
        f_equal. specialize (IH (S (length pre)) (pre ++ [(q, r)])).
        rewrite <- app_assoc in IH. cbn [app] in IH. apply IH. rewrite app_length. cbn. lia. }
      exact (Hg 0 m [] eq_refl).
    + exact Hok.
    + now rewrite map_length, seq_length.
  - apply (sched_perm _ HE).
  - intros i Hi. unfold nth_r. destruct (nth_error (dkeys m) i) as [q|] eqn:Hq.
    + destruct (dget_nth_key m i q Hok Hq) as (r & Hr & Hd). cbn [bindr].
      unfold dget_r. rewrite Hd. cbn [bindr]. rewrite Hr. eapply Hf; eauto.
    + apply nth_error_None in Hq. lia.
Qed.

Lemma per_query_k_ok tag f h m : dict_ok m ->
  (forall i q r, nth_error m i = Some (q, r) -> f i r = Ok (h q r)) ->
  per_query E tag f m = Ok (map (fun qr => (fst qr, h (fst qr) (snd qr))) m).
Proof.
  intros Hok Hf.
  rewrite (per_query_i_ok _ _ (fun i r => match nth_error (dkeys m) i with Some q => h q r | None => [] end)); auto.
  - f_equal. rewrite <- (enum_from_snd m 0) at 2. rewrite map_map. apply map_ext_in. intros [i [q r]] Hi.
    apply enumerate_in in Hi. cbn [fst snd]. unfold dkeys. now rewrite nth_error_map, Hi.
  - intros i q r Hi. unfold dkeys. rewrite nth_error_map, Hi. now apply Hf.
Qed.
Lemma mapk_get (h : string -> dict F -> dict F) (m : dict (dict F)) q :
  dget (map (fun qr => (fst qr, h (fst qr) (snd qr))) m) q = option_map (h q) (dget m q).
Proof.
  induction m as [|[k r] m IH]; cbn; auto. destruct (String.eqb_spec q k); subst; auto.
Qed.
Lemma mapk_keys (h : string -> dict F -> dict F) (m : dict (dict F)) :
  dkeys (map (fun qr => (fst qr, h (fst qr) (snd qr))) m) = dkeys m.
Proof. unfold dkeys. now rewrite map_map. Qed.

Lemma per_query_ok tag f g m : dict2_ok m -> (forall r, dict_ok r -> f r = Ok (g r)) ->
  per_query E tag (fun _ => f) m = Ok (map (fun qr => (fst qr, g (snd qr))) m).
Proof.
  intros [Hok Hin] Hf. rewrite (per_query_i_ok _ _ (fun _ => g)); auto.
  - f_equal. unfold enumerate. rewrite <- (enum_from_snd m 0) at 2. now rewrite map_map.
  - intros i q r Hr. apply Hf. apply (Hin q). apply in_dget; auto. eapply nth_error_In; eauto.
Qed.

Definition mapv (g : F -> F) (r : dict F) : dict F := map (fun kv => (fst kv, g (snd kv))) r.
Lemma map_results_ok g r : dict_ok r -> map_results g r = Ok (mapv g r).
Proof.
  intros Hok. unfold map_results.
  rewrite (foldr_m_fresh _ (fun d => (d, match dget r d with Some s => g s | None => fzero end))).
  - f_equal. unfold dkeys, mapv. rewrite map_map. apply map_ext_in. intros [k v] Hi. cbn [fst snd].
    now rewrite (in_dget _ _ _ Hok Hi).
  - intros d a Ha. apply key_dget in Ha as [v Hv]. unfold dget_r. cbn [fst snd]. now rewrite Hv.
  - cbn [fst]. rewrite map_id. exact Hok.
Qed.

Definition by_pos (g : nat -> F) (r : dict F) : dict F :=
  map (fun id => (snd id, g (fst id))) (enumerate (dkeys r)).
Lemma pos_loop_ok (g : nat -> F) r (f : dict F -> nat * string -> result (dict F)) : dict_ok r ->
  (forall acc id, fst id < length r -> f acc id = Ok (dset acc (snd id) (g (fst id)))) ->
  foldr_m f (enumerate (dkeys r)) [] = Ok (by_pos g r).
Proof.
  intros Hok Hf. rewrite (foldr_m_fresh _ (fun id => (snd id, g (fst id)))).
  - reflexivity.
  - intros d [i k] Hi. apply enumerate_in in Hi. apply Hf. cbn.
    rewrite <- (map_length fst r). apply nth_error_Some. unfold dkeys in Hi. congruence.
  - cbn [fst]. unfold enumerate. rewrite enum_from_snd. exact Hok.
Qed.

Lemma by_pos_keys g r : dkeys (by_pos g r) = dkeys r.
Proof. unfold by_pos, dkeys at 1. rewrite map_map. cbn. apply enum_from_snd. Qed.
Lemma index_of_spec l d i : NoDup l -> (index_of l d = Some i <-> nth_error l i = Some d).
Proof.
  revert i; induction l as [|a l IH]; intros i Hn; cbn.
  - split; [discriminate|]. now destruct i.
  - inversion_clear Hn as [|? ? Hna Hn']. destruct (String.eqb_spec d a).
    + subst. destruct i; cbn; [tauto|]. split; [discriminate|]. intros H. exfalso. apply Hna. eapply nth_error_In; eauto.
    + destruct i; cbn.
      * split; [destruct (index_of l d); discriminate|]. congruence.
      * rewrite <- IH by auto. destruct (index_of l d); cbn; split; congruence.
Qed.
Lemma index_of_None l d : index_of l d = None <-> ~ In d l.
Proof.
  induction l as [|a l IH]; cbn; [tauto|]. destruct (String.eqb_spec d a); subst.
  - split; [discriminate|tauto].
  - destruct (index_of l d) eqn:Hi; cbn.
    + split; [discriminate|]. intros H. assert (Some n0 = None); [|discriminate]. apply IH. tauto.
    + split; auto. intros _ [->|H]; [congruence|]. now apply IH.
Qed.
Lemma by_pos_get g r d : dget (by_pos g r) d = option_map g (index_of (dkeys r) d).
Proof.
  unfold by_pos, enumerate.
  assert (H : forall l j, dget (map (fun id : nat * string => (snd id, g (fst id))) (enum_from j l)) d
     = option_map g (option_map (fun i => j + i) (index_of l d))).
  { clear. induction l as [|a l IH]; intros j; cbn; auto. destruct (String.eqb_spec d a); cbn.
    - now rewrite Nat.add_0_r.
    - rewrite IH. destruct (index_of l d); cbn; auto. do 2 f_equal. lia. }
  rewrite H. destruct (index_of (dkeys r) d); reflexivity.
Qed.
Lemma mapv_get g r d : dget (mapv g r) d = option_map g (dget r d).
Proof. apply dmap_get. Qed.
Lemma mapv_keys g r : dkeys (mapv g r) = dkeys r.
Proof. apply dmap_keys. Qed.

Lemma rank_norm_ok r : dict_ok r ->
  _rank_norm r = Ok (by_pos (fun i => fsub fone (fdiv (fnat i) (fnat (length r)))) r).
Proof. intros H. apply (pos_loop_ok _ _ _ H). intros acc id _. reflexivity. Qed.

(** a run whose inner dictionaries are replaced one by one *)
Lemma map_inner_get (g : dict F -> dict F) (m : dict (dict F)) q :
  dget (map (fun qr => (fst qr, g (snd qr))) m) q = option_map g (dget m q).
Proof. apply dmap_get. Qed.
Lemma map_inner_ok (g : dict F -> dict F) (m : dict (dict F)) : dict2_ok m ->
  (forall r, dict_ok r -> dict_ok (g r)) -> dict2_ok (map (fun qr => (fst qr, g (snd qr))) m).
Proof.
  intros [Hok Hin] Hg. split.
  - unfold dict_ok. now rewrite dmap_keys.
  - intros q r. rewrite map_inner_get. destruct (dget m q) eqn:Hq; [|discriminate]. intros H. inversion H; subst. eauto.
Qed.

(** ** borda *)
Definition borda_value (r : dict F) (n : nat) (d : string) : F :=
  match index_of (dkeys r) d with
  | Some i => fsub fone (fdiv (fnat i) (fnat n))
  | None => fsub (fdec 5 1) (fdiv (fofZ (Z.of_nat (length r) - 1)) (fofZ (2 * Z.of_nat n)))
  end.
Lemma borda_norm_ok r c : dict_ok r -> NoDup c ->
  _borda_norm r c = Ok (map (fun d => (d, borda_value r (length c) d)) c).
Proof.
  intros Hok Hc. unfold _borda_norm. apply foldr_m_fresh.
  - intros acc d Hd. cbn [fst snd]. unfold borda_value. destruct (index_of (dkeys r) d) as [i|] eqn:Hi.
    + assert (dmem r d = true) as ->; [|reflexivity]. apply dmem_in.
      apply index_of_spec in Hi; [|exact Hok]. eapply nth_error_In; eauto.
    + assert (dmem r d = false) as ->; [|reflexivity]. apply dmem_nin. now apply index_of_None.
  - cbn [fst]. now rewrite map_id.
Qed.
Lemma const_map_get {V} (f : string -> V) c d : dget (map (fun d => (d, f d)) c) d = if in_dec string_dec d c then Some (f d) else None.
Proof.
  induction c as [|a c IH]; [reflexivity|]. cbn [map dget]. rewrite IH.
  destruct (in_dec string_dec d (a :: c)) as [H|H], (in_dec string_dec d c) as [H'|H'], (String.eqb_spec d a); subst; auto;
    cbn in H; exfalso; intuition.
Qed.

(** documents retrieved by some run for [q] *)
Definition retrieved_any (ms : list (dict (dict F))) (q d : string) : Prop :=
  exists m r, In m ms /\ dget m q = Some r /\ In d (dkeys r).

Lemma map_m_get (ms : list (dict (dict F))) q : (forall m, In m ms -> In q (dkeys m)) ->
  map_m (fun m => dget_r m q) ms = Ok (map (fun m : dict (dict F) => match dget m q with Some r => r | None => [] end) ms).
Proof.
  intros H. apply map_m_ok. intros m Hm. apply H in Hm. apply key_dget in Hm as [v Hv]. unfold dget_r. now rewrite Hv.
Qed.
Definition cands_of (ms : list (dict (dict F))) (q : string) : list string :=
  e_setorder E (concat (map dkeys (map (fun m : dict (dict F) => match dget m q with Some r => r | None => [] end) ms))).
Lemma cands_of_in ms q d : In d (cands_of ms q) <-> retrieved_any ms q d.
Proof.
  unfold cands_of. rewrite (setorder_in _ HE), in_concat. split.
  - intros (ks & Hk & Hd). rewrite map_map in Hk. apply in_map_iff in Hk as (m & <- & Hm).
    destruct (dget m q) as [r|] eqn:Hr; [|easy]. now exists m, r.
  - intros (m & r & Hm & Hr & Hd). exists (dkeys r). split; auto. rewrite map_map. apply in_map_iff. exists m. now rewrite Hr.
Qed.
Lemma cands_of_nodup ms q : NoDup (cands_of ms q).
Proof. apply (setorder_nodup _ HE). Qed.
Lemma get_candidates_ok m0 ms : (forall q m, In q (dkeys m0) -> In m ms -> In q (dkeys m)) ->
  get_candidates E (m0 :: ms) = Ok (map (cands_of (m0 :: ms)) (dkeys m0)).
Proof.
  intros H. unfold get_candidates. apply map_m_ok. intros q Hq.
  rewrite map_m_get; [reflexivity|]. intros m [<-|Hm]; auto.
Qed.
End P.
