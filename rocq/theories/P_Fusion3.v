(** P_Fusion3.v: what can be said of any fusion that returns (whatever its parameters), for
    any number type *)
From Verif Require Import Base Dict Num NumLaws Env M_Common M_Qrels M_Run M_Norm M_Fusion
  P_Base P_Dict P_Common P_Norm P_Fusion.
Open Scope string_scope.
Open Scope list_scope.
Open Scope nat_scope.

Lemma bindr_ok {A B} (r : result A) (k : A -> result B) y : bindr r k = Ok y -> exists a, r = Ok a /\ k a = Ok y.
Proof. destruct r; cbn; [eauto|discriminate]. Qed.
Lemma foldr_m_cons_ok {A S} (f : S -> A -> result S) a l s y : foldr_m f (a :: l) s = Ok y -> exists s', f s a = Ok s' /\ foldr_m f l s' = Ok y.
Proof. cbn [foldr_m]. intros H. now apply bindr_ok in H. Qed.
Lemma map_m_inv {A B} (f : A -> result B) l : forall ys, map_m f l = Ok ys -> Forall2 (fun a b => f a = Ok b) l ys.
Proof.
  induction l as [|a l IH]; cbn; intros ys H; [inversion H; constructor|].
  apply bindr_ok in H as (b & Hb & H). apply bindr_ok in H as (bs & Hbs & H). inversion H; subst. constructor; auto.
Qed.
Lemma prange_r_inv {A} order n (init : A) f out : Permutation order (seq 0 n) -> prange_r order n init f = Ok out ->
  exists g, (forall i, i < n -> f i = Ok (g i)) /\ out = map g (seq 0 n).
Proof.
  intros Hp H. exists (fun i => match f i with Ok v => v | Err _ => init end).
  assert (Hall : forall i, i < n -> f i = Ok (match f i with Ok v => v | Err _ => init end)).
  { intros i Hi. assert (Hin : In i order) by (apply (Permutation_in _ (Permutation_sym Hp)), in_seq; lia).
    destruct (f i) as [v|e] eqn:Hf; auto. exfalso.
    destruct (foldr_m_err (fun acc i => do v <- f i; Ok (set_nth acc i v)) order (repeat init n) i Hin) as [e' He].
    - intros s. exists e. now rewrite Hf.
    - unfold prange_r in H. rewrite He in H. discriminate. }
  split; auto. rewrite (prange_r_ok order n init f _ Hp Hall) in H. now inversion H.
Qed.

Section P.
Context {N : Num} (E : env N) (HE : env_ok E).

(** the documents of the combined results of one query *)
Lemma comb_results_docs (formula : list (dict F) -> string -> result F) rs acc : comb_results formula rs = Ok acc ->
  dict_ok acc /\ forall d, In d (dkeys acc) <-> has_doc rs d = true.
Proof.
  intros H. unfold comb_results in H.
  assert (Hin : forall l acc acc', foldr_m (fun combined d =>
       if match dget combined d with Some v => feqb v fzero | None => true end
       then do v <- formula rs d; Ok (dset combined d v)
       else Ok combined) l acc = Ok acc' -> dict_ok acc ->
       dict_ok acc' /\ forall d, In d (dkeys acc') <-> In d (dkeys acc) \/ In d l).
  { induction l as [|d l IH]; intros a a' Ha Hok.
    - inversion Ha; subst. split; auto. cbn. tauto.
    - apply foldr_m_cons_ok in Ha as (s & Hs & Ha).
      assert (Hs' : dict_ok s /\ forall e, In e (dkeys s) <-> In e (dkeys a) \/ e = d).
      { destruct (match dget a d with Some v => feqb v fzero | None => true end) eqn:Hc.
        - apply bindr_ok in Hs as (v & _ & Hs). inversion Hs; subst. split; [now apply dict_ok_dset|]. intros e. rewrite in_dkeys_dset. tauto.
        - inversion Hs; subst. split; auto. intros e. split; [tauto|]. intros [|He]; auto. subst.
          destruct (dget s d) eqn:Hd; [|discriminate]. eapply dget_Some_key; eauto. }
      destruct Hs' as [Hoks Hks]. destruct (IH s a' Ha Hoks) as [H1 H2]. split; auto. intros e. rewrite H2, Hks. cbn. intuition. }
  assert (Hout : forall (l : list (dict F)) acc acc', foldr_m (fun combined (res : dict F) => foldr_m (fun combined d =>
       if match dget combined d with Some v => feqb v fzero | None => true end
       then do v <- formula rs d; Ok (dset combined d v)
       else Ok combined) (dkeys res) combined) l acc = Ok acc' -> dict_ok acc ->
       dict_ok acc' /\ forall d, In d (dkeys acc') <-> In d (dkeys acc) \/ has_doc l d = true).
  { induction l as [|r l IH]; intros a a' Ha Hok.
    - inversion Ha; subst. split; auto. intros d. cbn. intuition discriminate.
    - apply foldr_m_cons_ok in Ha as (s & Hs & Ha). apply Hin in Hs as [Hoks Hks]; auto.
      destruct (IH s a' Ha Hoks) as [H1 H2]. split; auto. intros d. rewrite H2, Hks. unfold has_doc. cbn [existsb]. rewrite orb_true_iff, dmem_in. tauto. }
  destruct (Hout rs [] acc H) as [H1 H2]; [constructor|]. split; auto. intros d. rewrite H2. cbn. tauto.
Qed.

Lemma comb_parallel_docs tag formula ms out : (forall m, In m ms -> dict_ok m) -> comb_parallel E tag formula ms = Ok out ->
  exists m0 ms', ms = m0 :: ms' /\ dkeys out = dkeys m0 /\ dict2_ok out /\
    forall q, In q (dkeys m0) -> (forall m, In m ms -> In q (dkeys m)) /\
      forall d, In d (dkeys (ofq out q)) <-> has_doc (map (fun m => ofq m q) ms) d = true.
Proof.
  intros Hok H. unfold comb_parallel in H. destruct ms as [|m0 ms]; [discriminate|]. exists m0, ms. split; auto.
  assert (Hm0 : dict_ok m0) by (apply Hok; now left).
  apply bindr_ok in H as (out' & Hp & Hc). apply prange_r_inv in Hp as (g & Hg & ->); [|apply (sched_perm _ HE)].
  rewrite convert_results_ok in Hc; [|exact Hm0|now rewrite map_length, seq_length]. inversion Hc as [Hout]; clear Hc.
  set (h := fun q : string => match index_of (dkeys m0) q return dict F with Some i => g i | None => [] end).
  assert (Hmap : map g (seq 0 (length (dkeys m0))) = map h (dkeys m0)).
  { apply (map_seq_nth_error (dkeys m0) g h). intros i q Hi. unfold h. apply index_of_spec in Hi; [|exact Hm0]. now rewrite Hi. }
  assert (Hcomb : forall l, combine l (map h l) = map (fun q => (q, h q)) l) by (induction l; cbn; congruence).
  rewrite Hmap, Hcomb in Hout. subst out. rewrite Hmap, Hcomb.
  assert (Hkeys : dkeys (map (fun q => (q, h q)) (dkeys m0)) = dkeys m0).
  { unfold dkeys at 1. rewrite map_map. cbn. apply map_id. }
  assert (Hq : forall q, In q (dkeys m0) -> (forall m, In m (m0 :: ms) -> In q (dkeys m)) /\ comb_results formula (map (fun m => ofq m q) (m0 :: ms)) = Ok (h q)).
  { intros q Hq. apply In_nth_error in Hq as [i Hi]. assert (Hil : i < length (dkeys m0)) by (apply nth_error_Some; congruence).
    specialize (Hg i Hil). unfold nth_r in Hg. rewrite Hi in Hg. cbn [bindr] in Hg. apply bindr_ok in Hg as (rs & Hrs & Hg).
    assert (Hh : h q = g i) by (unfold h; apply index_of_spec in Hi; [|exact Hm0]; now rewrite Hi).
    assert (Hmem : forall m, In m (m0 :: ms) -> In q (dkeys m)).
    { apply map_m_inv in Hrs. intros m Hm. clear - Hrs Hm. induction Hrs as [|m' r ms' rs' Hr Hrs' IH]; [easy|].
      destruct Hm as [->|Hm]; auto. unfold dget_r in Hr. destruct (dget m q) eqn:Hd; [|discriminate]. eapply dget_Some_key; eauto. }
    split; auto. rewrite map_m_get in Hrs by exact Hmem. inversion Hrs; subst rs. rewrite Hh. exact Hg. }
  split; [exact Hkeys|]. split.
  - split; [exact (eq_ind_r (fun l => NoDup l) Hm0 Hkeys)|]. intros q r. rewrite (const_map_get h (dkeys m0) q).
    destruct (in_dec string_dec q (dkeys m0)) as [Hin|]; [|discriminate]. intros Hr. inversion Hr; subst.
    apply Hq in Hin as [_ Hin]. apply (comb_results_docs _ _ _ Hin).
  - intros q Hin. destruct (Hq q Hin) as [H1 H2]. split; auto. intros d. unfold ofq at 1. rewrite (const_map_get h (dkeys m0) q).
    destruct (in_dec string_dec q (dkeys m0)) as [_|]; [|easy]. apply (comb_results_docs _ _ _ H2).
Qed.

(** a results table with the documents of [m] in the same order *)
Definition same_docs (m m' : dict (dict F)) : Prop :=
  dkeys m' = dkeys m /\ dict2_ok m' /\ forall q, dkeys (ofq m' q) = dkeys (ofq m q).
Definition keeps (f : dict F -> result (dict F)) : Prop := forall r r', dict_ok r -> f r = Ok r' -> dkeys r' = dkeys r.

Lemma dset_loop_keys {A} (key : A -> string) (g : dict F -> A -> result F) l : forall acc r', NoDup (map key l) -> (forall a, In a l -> ~ In (key a) (dkeys acc)) ->
  foldr_m (fun acc a => do v <- g acc a; Ok (dset acc (key a) v)) l acc = Ok r' -> dkeys r' = dkeys acc ++ map key l.
Proof.
  induction l as [|a l IH]; intros acc r' Hn Hf H.
  - inversion H; subst. cbn. now rewrite app_nil_r.
  - apply foldr_m_cons_ok in H as (s & Hs & H). apply bindr_ok in Hs as (v & _ & Hs). inversion Hs; subst s. cbn in Hn. inversion_clear Hn.
    apply IH in H; auto.
    + rewrite H, dkeys_dset_nin by (apply Hf; now left). now rewrite <- app_assoc.
    + intros b Hb. rewrite in_dkeys_dset. intros [He|Hin]; [|apply (Hf b); [now right|auto]].
      apply H0. rewrite <- He. now apply in_map.
Qed.
Lemma pos_scores_keeps g : keeps (pos_scores g).
Proof.
  intros r r' Hr H. unfold pos_scores in H.
  apply (dset_loop_keys snd (fun _ id => g (fst id))) in H; auto.
  - rewrite H. cbn. apply enum_from_snd.
  - unfold enumerate. rewrite enum_from_snd. exact Hr.
Qed.
Lemma seg_keeps p : keeps (_seg_score p).
Proof.
  intros r r' Hr H. unfold _seg_score in H. apply bindr_ok in H as (probs & _ & H).
  assert (Hl : forall l acc r', NoDup (map snd l) -> (forall a : nat * string, In a l -> ~ In (snd a) (dkeys acc)) ->
    foldr_m (fun (acc : dict F) (id : nat * string) => do p <- nth_r probs (fst id); do s <- dget_r r (snd id); Ok (dset acc (snd id) (fmul p (fadd s fone)))) l acc = Ok r' ->
    dkeys r' = dkeys acc ++ map snd l).
  { induction l as [|a l IH]; intros acc s' Hn Hf H'.
    - inversion H'; subst. cbn. now rewrite app_nil_r.
    - apply foldr_m_cons_ok in H' as (s & Hs & H'). apply bindr_ok in Hs as (v & _ & Hs). apply bindr_ok in Hs as (w & _ & Hs). inversion Hs; subst s. cbn in Hn. inversion_clear Hn.
      apply IH in H'; auto.
      + rewrite H', dkeys_dset_nin by (apply Hf; now left). now rewrite <- app_assoc.
      + intros b Hb. rewrite in_dkeys_dset. intros [He|Hin]; [|apply (Hf b); [now right|auto]].
        apply H0. rewrite <- He. now apply in_map. }
  apply Hl in H; auto.
  - rewrite H. cbn. apply enum_from_snd.
  - unfold enumerate. rewrite enum_from_snd. exact Hr.
Qed.
Lemma prob_keeps p : keeps (_prob_score p).
Proof.
  intros r r' Hr H. unfold _prob_score in H. destruct (Z.of_nat (length p) =? 0)%Z; [discriminate|]. eapply pos_scores_keeps; eauto.
Qed.

Lemma per_query_inv tag f m m' : dict2_ok m -> keeps f -> per_query E tag (fun _ => f) m = Ok m' -> same_docs m m'.
Proof.
  intros [Hok Hin] Hk H.
  assert (Hall : forall q r, In (q, r) m -> exists r', f r = Ok r').
  { intros q r Hr. unfold per_query in H. apply bindr_ok in H as (out & Hp & _). apply prange_r_inv in Hp as (g & Hg & _); [|apply (sched_perm _ HE)].
    apply In_nth_error in Hr as [i Hi]. assert (Hq : nth_error (dkeys m) i = Some q) by (unfold dkeys; now rewrite nth_error_map, Hi).
    assert (Hil : i < length (dkeys m)) by (apply nth_error_Some; congruence). specialize (Hg i Hil). unfold nth_r in Hg. rewrite Hq in Hg. cbn [bindr] in Hg.
    unfold dget_r in Hg. rewrite (in_dget m q r Hok) in Hg by (eapply nth_error_In; eauto). cbn [bindr] in Hg. eauto. }
  set (h := fun r => match f r with Ok r' => r' | Err _ => [] end).
  assert (Hh : forall q r, In (q, r) m -> f r = Ok (h r)).
  { intros q r Hr. apply Hall in Hr as [r' Hr']. unfold h. now rewrite Hr'. }
  rewrite (per_query_i_ok E HE tag (fun _ => f) (fun _ => h) m Hok) in H.
  2:{ intros i q r Hi. apply (Hh q). eapply nth_error_In; eauto. }
  assert (Hm' : m' = map (fun qr => (fst qr, h (snd qr))) m).
  { inversion H. unfold enumerate. rewrite <- (enum_from_snd m 0) at 2. now rewrite map_map. }
  subst m'. split; [apply (dmap_keys h)|].
  assert (Hkk : forall q r, dget m q = Some r -> dkeys (h r) = dkeys r).
  { intros q r Hr. apply (Hk r (h r)); [now apply (Hin q)|]. apply (Hh q). now apply dget_Some_in. }
  split.
  - split; [unfold dict_ok; rewrite (dmap_keys h); exact Hok|]. intros q r. rewrite (map_inner_get h m q).
    destruct (dget m q) as [r0|] eqn:Hr; [|discriminate]. intros H0. inversion H0; subst. unfold dict_ok. rewrite (Hkk q r0 Hr). now apply (Hin q).
  - intros q. unfold ofq. rewrite (map_inner_get h m q). destruct (dget m q) as [r0|] eqn:Hr; [|reflexivity]. cbn. now apply (Hkk q).
Qed.
Lemma rescore_inv tag f xs ms : Forall (fun x : Run N => dict2_ok (r_map x)) xs -> keeps f -> rescore E tag f xs = Ok ms ->
  Forall2 (fun x m => same_docs (r_map x) m) xs ms.
Proof.
  intros Hx Hk H. apply map_m_inv in H. induction H as [|x m xs ms Hxm H IH]; [constructor|]. inversion_clear Hx.
  constructor; auto. eapply per_query_inv; eauto.
Qed.
Lemma rescore_with_inv {P} tag (f : P -> dict F -> result (dict F)) ps xs ms : Forall (fun x : Run N => dict2_ok (r_map x)) xs -> (forall p, keeps (f p)) ->
  rescore_with E tag f ps xs = Ok ms -> Forall2 (fun x m => same_docs (r_map x) m) xs ms.
Proof.
  intros Hx Hk H. unfold rescore_with in H. apply map_m_inv in H. unfold enumerate in H. revert H. generalize 0 as j.
  revert ms. induction xs as [|x xs IH]; intros ms j H; cbn [enum_from] in H; inversion H; subst; constructor.
  - cbn [fst snd] in H2. apply bindr_ok in H2 as (p & _ & H2). inversion_clear Hx. eapply per_query_inv; eauto.
  - inversion_clear Hx. eapply IH; eauto.
Qed.
Lemma same_docs_refl xs : Forall (fun x : Run N => dict2_ok (r_map x)) xs -> Forall2 (fun x m => same_docs (r_map x) m) xs (maps xs).
Proof. induction 1; constructor; auto. split; auto. Qed.

(** every method other than the borda and condorcet ones combines such tables *)
Definition combines (xs : list (Run N)) (y : Run N) : Prop :=
  exists tag formula name ms, comb E tag formula name ms = Ok y /\ Forall2 (fun x m => same_docs (r_map x) m) xs ms.

Lemma simple_inv f dn xs ps y : simple f dn xs ps = Ok y -> exists nm, f xs nm = Ok y.
Proof. unfold simple. intros H. apply bindr_ok in H as (_ & _ & H). apply bindr_ok in H as (nm & _ & H). eauto. Qed.
Lemma with_arg_inv {A} f k (conv : pval -> result A) dflt dn xs ps y : with_arg f k conv dflt dn xs ps = Ok y -> exists a nm, f xs a nm = Ok y.
Proof. unfold with_arg. intros H. apply bindr_ok in H as (_ & _ & H). apply bindr_ok in H as (a & _ & H). apply bindr_ok in H as (nm & _ & H). eauto. Qed.

Lemma fusion_switch_inv pysort method f xs ps y : Forall (fun x : Run N => dict2_ok (r_map x)) xs ->
  fusion_switch E pysort method = Ok f -> f xs ps = Ok y ->
  combines xs y \/
  (method = "bordafuse" /\ exists nm, bordafuse E xs nm = Ok y) \/
  (method = "w_bordafuse" /\ exists ws nm, weighted_bordafuse E xs ws nm = Ok y) \/
  (method = "condorcet" /\ exists nm, condorcet E pysort xs nm = Ok y) \/
  (method = "w_condorcet" /\ exists ws nm, weighted_condorcet E pysort xs ws nm = Ok y).
Proof.
  intros Hx Hs Hf.
  assert (Hcomb : forall tag formula nm, comb E tag formula nm (maps xs) = Ok y -> combines xs y).
  { intros tag formula nm Hc. exists tag, formula, nm, (maps xs). split; auto. now apply same_docs_refl. }
  assert (Hres : forall t f tag formula nm, keeps f -> bindr (rescore E t f xs) (fun ms => comb E tag formula nm ms) = Ok y -> combines xs y).
  { intros t f0 tag formula nm Hk Hc. apply bindr_ok in Hc as (ms & Hms & Hc). exists tag, formula, nm, ms. split; auto. eapply rescore_inv; eauto. }
  assert (Hresw : forall P t (f : P -> dict F -> result (dict F)) prm tag formula nm, (forall p, keeps (f p)) ->
    bindr (rescore_with E t f prm xs) (fun ms => comb E tag formula nm ms) = Ok y -> combines xs y).
  { intros P t f0 prm tag formula nm Hk Hc. apply bindr_ok in Hc as (ms & Hms & Hc). exists tag, formula, nm, ms. split; auto. eapply rescore_with_inv; eauto. }
  unfold fusion_switch in Hs.
  repeat match type of Hs with
  | (if String.eqb ?m ?s then _ else _) = _ =>
      let Heq := fresh in destruct (String.eqb m s) eqn:Heq; [apply String.eqb_eq in Heq; inversion Hs; subst f; clear Hs|clear Heq]
  end; try discriminate;
  try (apply simple_inv in Hf as (nm & Hf)); try (apply with_arg_inv in Hf as (a & nm & Hf));
  try (left; solve [eapply Hcomb; exact Hf|eapply Hres; [|exact Hf]; apply pos_scores_keeps|
     eapply Hresw; [|exact Hf]; intros p; first [apply pos_scores_keeps|apply prob_keeps|apply seg_keeps]]);
  try (right; eauto 10; fail).
  - left. unfold logn_isr in Hf. apply bindr_ok in Hf as (_ & _ & Hf). eapply Hres; [|exact Hf]. apply pos_scores_keeps.
  - left. unfold slide_call in Hf. apply bindr_ok in Hf as (_ & _ & Hf). apply bindr_ok in Hf as (p & _ & Hf). apply bindr_ok in Hf as (w & _ & Hf).
    apply bindr_ok in Hf as (nm & _ & Hf). eapply Hresw; [|exact Hf]. intros p0 r r' Hr Hrr; unfold _slide_score in Hrr; eapply pos_scores_keeps; eauto.
Qed.

(** condorcet *)
Lemma condorcet_with_inv f (xs : list (Run N)) name y x0 xs0 : xs = x0 :: xs0 ->
  (forall q x, In q (dkeys (r_map x0)) -> In x xs -> In q (dkeys (r_map x))) ->
  condorcet_with E f xs name = Ok y -> forall q, In q (dkeys (r_map x0)) ->
  exists r, f (map (fun x => dkeys (ofq (r_map x) q)) xs) (cands_of E (maps xs) q) = Ok r.
Proof.
  intros -> Hk H q Hq. unfold condorcet_with in H. apply bindr_ok in H as (res & Hres & H). apply bindr_ok in H as (cs & Hcs & H).
  apply bindr_ok in H as (out & Hout & _). apply In_nth_error in Hq as [i Hi].
  assert (Hil : i < length (dkeys (r_map x0))) by (apply nth_error_Some; congruence).
  assert (Hk' : forall q m, In q (dkeys (r_map x0)) -> In m (maps xs0) -> In q (dkeys m)).
  { intros q' m Hq' Hm. apply in_map_iff in Hm as (x & <- & Hx). apply Hk; [auto|now right]. }
  change (maps (x0 :: xs0)) with (r_map x0 :: maps xs0) in Hcs, Hres. rewrite (get_candidates_ok E) in Hcs by exact Hk'. inversion Hcs; subst cs.
  assert (Hres' : res = map (fun q => map (fun m : dict (dict F) => dkeys (ofq m q)) (r_map x0 :: maps xs0)) (dkeys (r_map x0))).
  { unfold get_results in Hres. rewrite (map_m_ok _ (fun q => map (fun m : dict (dict F) => dkeys (ofq m q)) (r_map x0 :: maps xs0))) in Hres; [now inversion Hres|].
    intros q' Hq'. apply map_m_ok. intros m Hm. assert (Hin : In q' (dkeys m)) by (destruct Hm as [<-|Hm]; auto).
    apply key_dget in Hin as [r Hr]. unfold dget_r, ofq. now rewrite Hr. }
  subst res. apply map_m_inv in Hout.
  assert (Hex : forall l out, Forall2 (fun i b => bindr (nth_r (map (fun q => map (fun m : dict (dict F) => dkeys (ofq m q)) (r_map x0 :: maps xs0)) (dkeys (r_map x0))) i)
      (fun r => bindr (nth_r (map (cands_of E (r_map x0 :: maps xs0)) (dkeys (r_map x0))) i) (fun c => f r c)) = Ok b) l out ->
      In i l -> exists b, f (map (fun m : dict (dict F) => dkeys (ofq m q)) (r_map x0 :: maps xs0)) (cands_of E (r_map x0 :: maps xs0) q) = Ok b).
  { intros l o Ho. induction Ho as [|j b l o Hj Ho IH]; intros Hin; [easy|]. destruct Hin as [->|Hin]; auto.
    unfold nth_r in Hj. rewrite !nth_error_map, Hi in Hj. cbn [option_map bindr] in Hj. eauto. }
  destruct (Hex _ _ Hout) as [b Hb]; [apply in_seq; lia|]. exists b.
  change (r_map x0 :: maps xs0) with (maps (x0 :: xs0)) in Hb. unfold maps in Hb at 1. rewrite map_map in Hb. exact Hb.
Qed.
End P.
