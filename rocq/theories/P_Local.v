(** P_Local.v: each step of normalisation and fusion, read query by query, for any number type *)
From Verif Require Import Base Dict Num NumLaws Env M_Common M_Qrels M_Run M_Norm M_Fusion Spec_Local
  P_Base P_Dict P_Common P_Norm P_Fusion P_Fusion3.
Open Scope string_scope.
Open Scope list_scope.
Open Scope nat_scope.

Definition okor {A} (r : result (dict A)) : dict A := match r with Ok v => v | Err _ => [] end.
Definition idx {V} (m : dict (dict V)) (q : string) : option nat := index_of (dkeys m) q.

Lemma ofq_absent {V} (m : dict (dict V)) q : ~ In q (dkeys m) -> ofq m q = [].
Proof. intros H. unfold ofq. destruct (dget m q) eqn:Hd; auto. exfalso. apply H. eapply dget_Some_key; eauto. Qed.
Lemma dict2_ofq {V} (m : dict (dict V)) q : dict2_ok m -> dict_ok (ofq m q).
Proof. intros [_ H]. unfold ofq. destruct (dget m q) eqn:Hd; [now apply (H q)|constructor]. Qed.

Section P.
Context {N : Num} (E : env N) (HE : env_ok E).

Lemma per_query_at tag f m n : dict_ok m -> per_query E tag f m = Ok n ->
  dkeys n = dkeys m /\
  forall q, match index_of (dkeys m) q with
            | Some i => f i (ofq m q) = Ok (ofq n q)
            | None => ofq n q = []
            end.
Proof.
  intros Hok H.
  assert (Hall : forall i q r, nth_error m i = Some (q, r) -> f i r = Ok (okor (f i r))).
  { intros i q r Hi. unfold per_query in H. apply bindr_ok in H as (out & Hp & _). apply prange_r_inv in Hp as (g & Hg & _); [|apply (sched_perm _ HE)].
    assert (Hq : nth_error (dkeys m) i = Some q) by (unfold dkeys; now rewrite nth_error_map, Hi).
    assert (Hil : i < length (dkeys m)) by (apply nth_error_Some; congruence). specialize (Hg i Hil). unfold nth_r in Hg. rewrite Hq in Hg. cbn [bindr] in Hg.
    unfold dget_r in Hg. rewrite (in_dget m q r Hok) in Hg by (eapply nth_error_In; eauto). cbn [bindr] in Hg. now rewrite Hg. }
  set (h := fun q r => match index_of (dkeys m) q with Some i => okor (f i r) | None => [] end).
  assert (Hh : forall i q r, nth_error m i = Some (q, r) -> f i r = Ok (h q r)).
  { intros i q r Hi. unfold h. assert (Hq : nth_error (dkeys m) i = Some q) by (unfold dkeys; now rewrite nth_error_map, Hi).
    apply index_of_spec in Hq; [|exact Hok]. rewrite Hq. eauto. }
  rewrite (per_query_k_ok E HE tag f h m Hok Hh) in H. inversion H; subst n. clear H.
  split; [apply mapk_keys|]. intros q. unfold ofq. rewrite (mapk_get h m q).
  destruct (index_of (dkeys m) q) as [i|] eqn:Hi.
  - apply index_of_spec in Hi as Hn; [|exact Hok]. destruct (dget_nth_key m i q Hok Hn) as (r & Hr & Hd). rewrite Hd. cbn. eauto.
  - apply index_of_None in Hi. destruct (dget m q) eqn:Hd; auto. exfalso. apply Hi. eapply dget_Some_key; eauto.
Qed.

(** a table transformed query by query with the same function *)
Lemma per_query_ofq tag f m n q : dict_ok m -> (forall r', f [] = Ok r' -> r' = []) ->
  per_query E tag (fun _ => f) m = Ok n -> ofq n q = okor (f (ofq m q)).
Proof.
  intros Hok Hnil H. apply per_query_at in H as [_ H]; auto. specialize (H q). destruct (index_of (dkeys m) q) as [i|] eqn:Hi.
  - now rewrite H.
  - rewrite H. apply index_of_None in Hi. rewrite ofq_absent by exact Hi. unfold okor. destruct (f []) as [r'|]; auto. symmetry. now apply Hnil.
Qed.

(** sorting *)
Lemma by_value_nil : sort_dict_by_value E r_negf [] = [].
Proof.
  unfold sort_dict_by_value, typed_list_argsort. cbn [dvals map dkeys].
  assert (H := argsort_perm _ HE []). cbn in H. apply Permutation_sym, Permutation_nil in H. cbn in H |- *. now rewrite H.
Qed.
Lemma sort_ofq nm (m : dict (dict F)) q : dict_ok m ->
  ofq (r_map (Run_sort E (new_run nm m))) q = sort_dict_by_value E r_negf (ofq m q).
Proof.
  intros Hok. unfold ofq. cbn [Run_sort Run_with_map new_run r_map].
  change (sort_dict_of_dict_by_value E r_negf (sort_dict_by_key m)) with (canon E r_negf m). rewrite (canon_get E r_negf m q Hok). destruct (dget m q); cbn; auto. symmetry. apply by_value_nil.
Qed.

(** tables of several runs over the same queries *)
Definition tables (ms : list (dict (dict F))) : Prop :=
  (forall m, In m ms -> dict2_ok m) /\ forall m m' q, In m ms -> In m' ms -> In q (dkeys m) -> In q (dkeys m').

Lemma comb_nil (formula : list (dict F) -> string -> result F) rs : (forall r, In r rs -> r = []) -> comb_results formula rs = Ok [].
Proof.
  intros H. unfold comb_results.
  assert (Hg : forall (l : list (dict F)) acc, (forall r, In r l -> r = []) -> foldr_m (fun combined (res : dict F) => foldr_m (fun combined d =>
       if match dget combined d with Some v => feqb v fzero | None => true end
       then do v <- formula rs d; Ok (dset combined d v)
       else Ok combined) (dkeys res) combined) l acc = Ok acc).
  { induction l as [|r l IH]; intros acc Hl; [reflexivity|]. cbn [foldr_m]. rewrite (Hl r (or_introl eq_refl)). cbn. apply IH. intros; apply Hl; now right. }
  apply Hg. exact H.
Qed.

Lemma comb_at tag formula name ms y q : tables ms -> comb E tag formula name ms = Ok y ->
  ofq (r_map y) q = sort_dict_by_value E r_negf (okor (comb_results formula (map (fun m => ofq m q) ms))).
Proof.
  intros [Hok Hsame] H. unfold comb in H. apply bindr_ok in H as (out & Hout & H). inversion H; subst y. clear H.
  unfold comb_parallel in Hout. destruct ms as [|m0 ms]; [discriminate|].
  assert (Hm0 : dict_ok m0) by (apply (Hok m0); now left).
  apply bindr_ok in Hout as (out' & Hp & Hc). apply prange_r_inv in Hp as (g & Hg & ->); [|apply (sched_perm _ HE)].
  rewrite convert_results_ok in Hc; [|exact Hm0|now rewrite map_length, seq_length]. inversion Hc as [Ho]; clear Hc.
  set (h := fun q : string => match index_of (dkeys m0) q return dict F with Some i => g i | None => [] end).
  assert (Hmap : map g (seq 0 (length (dkeys m0))) = map h (dkeys m0)).
  { apply (map_seq_nth_error (dkeys m0) g h). intros i p Hi. unfold h. apply index_of_spec in Hi; [|exact Hm0]. now rewrite Hi. }
  assert (Hcomb : forall l, combine l (map h l) = map (fun q => (q, h q)) l) by (induction l; cbn; congruence).
  rewrite Hmap, Hcomb. rewrite sort_ofq.
  2:{ unfold dict_ok, dkeys at 1. rewrite map_map. cbn. rewrite map_id. exact Hm0. }
  f_equal. unfold ofq at 1. rewrite (const_map_get h (dkeys m0) q).
  destruct (in_dec string_dec q (dkeys m0)) as [Hin|Hin].
  - apply In_nth_error in Hin as [i Hi]. assert (Hil : i < length (dkeys m0)) by (apply nth_error_Some; congruence).
    specialize (Hg i Hil). unfold nth_r in Hg. rewrite Hi in Hg. cbn [bindr] in Hg. apply bindr_ok in Hg as (rs & Hrs & Hg).
    assert (Hh : h q = g i) by (unfold h; apply index_of_spec in Hi; [|exact Hm0]; now rewrite Hi).
    assert (Hmem : forall m, In m (m0 :: ms) -> In q (dkeys m)).
    { intros m Hm. apply (Hsame m0 m q); auto; [now left|]. eapply nth_error_In; eauto. }
    rewrite map_m_get in Hrs by exact Hmem. inversion Hrs; subst rs. rewrite Hh.
    change (g i = okor (comb_results formula (map (fun m : dict (dict F) => match dget m q with Some r => r | None => [] end) (m0 :: ms)))).
    change (comb_results formula (map (fun m : dict (dict F) => match dget m q with Some r => r | None => [] end) (m0 :: ms)) = Ok (g i)) in Hg.
    now rewrite Hg.
  - rewrite comb_nil; [reflexivity|]. intros r Hr. apply in_map_iff in Hr as (m & <- & Hm). apply ofq_absent. intros Hq. apply Hin.
    apply (Hsame m m0 q); auto. now left.
Qed.
End P.

Section Two.
Context {N : Num} (E E' : env N) (HE : env_ok E) (HE' : env_ok E') (HO : same_orders E E').

Lemma by_value_same r : sort_dict_by_value E r_negf r = sort_dict_by_value E' r_negf r.
Proof. unfold sort_dict_by_value, typed_list_argsort. now rewrite (proj1 HO). Qed.

Definition at_q (q : string) (m m' : dict (dict F)) : Prop := ofq m q = ofq m' q.
Lemma at_q_map q ms ms' : Forall2 (at_q q) ms ms' -> map (fun m => ofq m q) ms = map (fun m => ofq m q) ms'.
Proof. induction 1; cbn; [reflexivity|]. now rewrite H, IHForall2. Qed.

Lemma comb_same tag tag' formula name name' ms ms' y y' q : tables ms -> tables ms' -> Forall2 (at_q q) ms ms' ->
  comb E tag formula name ms = Ok y -> comb E' tag' formula name' ms' = Ok y' -> ofq (r_map y) q = ofq (r_map y') q.
Proof.
  intros Ht Ht' HF H H'. apply (comb_at E HE _ _ _ _ _ q Ht) in H. apply (comb_at E' HE' _ _ _ _ _ q Ht') in H'.
  rewrite H, H', by_value_same. now rewrite (at_q_map q ms ms' HF).
Qed.

Lemma keeps_nil (f : dict F -> result (dict F)) : keeps f -> forall r', f [] = Ok r' -> r' = [].
Proof. intros Hk r' H. apply Hk in H; [|constructor]. destruct r'; [reflexivity|discriminate]. Qed.

Lemma same_docs_tables (xs : list (Run N)) ms : tables (maps xs) -> Forall2 (fun x m => same_docs (r_map x) m) xs ms -> tables ms.
Proof.
  intros [Hok Hs] HF.
  assert (Hex : forall m, In m ms -> exists x, In x xs /\ same_docs (r_map x) m).
  { clear - HF. induction HF as [|x m xs ms Hxm HF IH]; [easy|]. intros m' [<-|Hm]; [exists x; split; [now left|auto]|].
    destruct (IH m' Hm) as (x' & Hx' & H). exists x'. split; [now right|auto]. }
  split.
  - intros m Hm. destruct (Hex m Hm) as (x & _ & H). apply H.
  - intros m m' q Hm Hm' Hq. destruct (Hex m Hm) as (x & Hx & (Hk & _)). destruct (Hex m' Hm') as (x' & Hx' & (Hk' & _)).
    rewrite Hk'. apply (Hs (r_map x)); [now apply in_map|now apply in_map|]. now rewrite <- Hk.
Qed.
Lemma tables_forall (xs : list (Run N)) : tables (maps xs) -> Forall (fun x : Run N => dict2_ok (r_map x)) xs.
Proof. intros [H _]. apply Forall_forall. intros x Hx. apply H. now apply in_map. Qed.

Definition agree (q : string) (xs xs' : list (Run N)) : Prop := Forall2 (fun x x' => at_q q (r_map x) (r_map x')) xs xs'.
Lemma agree_maps q xs xs' : agree q xs xs' -> Forall2 (at_q q) (maps xs) (maps xs').
Proof. induction 1; constructor; auto. Qed.

Lemma rescore_same tag tag' f (xs xs' : list (Run N)) ms ms' q : keeps f -> tables (maps xs) -> tables (maps xs') ->
  agree q xs xs' -> rescore E tag f xs = Ok ms -> rescore E' tag' f xs' = Ok ms' ->
  tables ms /\ tables ms' /\ Forall2 (at_q q) ms ms'.
Proof.
  intros Hk Ht Ht' HF H H'.
  split; [eapply same_docs_tables; [exact Ht|]; eapply (rescore_inv E HE); eauto; now apply tables_forall|].
  split; [eapply same_docs_tables; [exact Ht'|]; eapply (rescore_inv E' HE'); eauto; now apply tables_forall|].
  apply map_m_inv in H. apply map_m_inv in H'. apply tables_forall in Ht. apply tables_forall in Ht'. revert ms ms' H H'.
  induction HF as [|x x' xs xs' Hx HF IH]; intros ms ms' H H'; inversion H; inversion H'; subst; constructor.
  - inversion_clear Ht. inversion_clear Ht'. unfold at_q in *.
    rewrite (per_query_ofq E HE tag f (r_map x) y q) by (first [apply H0|now apply keeps_nil|assumption]).
    rewrite (per_query_ofq E' HE' tag' f (r_map x') y0 q) by (first [apply H3|now apply keeps_nil|assumption]). now rewrite Hx.
  - inversion_clear Ht. inversion_clear Ht'. eapply IH; eauto.
Qed.
Lemma rescore_with_same {P} tag tag' (f : P -> dict F -> result (dict F)) ps (xs xs' : list (Run N)) ms ms' q : (forall p, keeps (f p)) ->
  tables (maps xs) -> tables (maps xs') -> agree q xs xs' -> rescore_with E tag f ps xs = Ok ms -> rescore_with E' tag' f ps xs' = Ok ms' ->
  tables ms /\ tables ms' /\ Forall2 (at_q q) ms ms'.
Proof.
  intros Hk Ht Ht' HF H H'.
  split; [eapply same_docs_tables; [exact Ht|]; eapply (rescore_with_inv E HE); eauto; now apply tables_forall|].
  split; [eapply same_docs_tables; [exact Ht'|]; eapply (rescore_with_inv E' HE'); eauto; now apply tables_forall|].
  unfold rescore_with, enumerate in *. apply map_m_inv in H. apply map_m_inv in H'. apply tables_forall in Ht. apply tables_forall in Ht'.
  revert H H'. generalize 0 as j. revert ms ms'.
  induction HF as [|x x' xs xs' Hx HF IH]; intros ms ms' j H H'; cbn [enum_from] in H, H'; inversion H; inversion H'; subst; constructor.
  - inversion_clear Ht. inversion_clear Ht'. unfold at_q in *. cbn [fst snd] in H2, H7.
    apply bindr_ok in H2 as (p & Hp & H2). apply bindr_ok in H7 as (p' & Hp' & H7). rewrite Hp in Hp'. injection Hp' as <-.
    rewrite (per_query_ofq E HE tag (f p) (r_map x) y q); [|apply H0|now apply keeps_nil|exact H2].
    rewrite (per_query_ofq E' HE' tag' (f p) (r_map x') y0 q); [|apply H3|now apply keeps_nil|exact H7]. now rewrite Hx.
  - inversion_clear Ht. inversion_clear Ht'. eapply IH; eauto.
Qed.

(** candidates *)
Lemma cands_same q ms ms' : Forall2 (at_q q) ms ms' -> cands_of E ms q = cands_of E' ms' q.
Proof.
  intros HF. unfold cands_of. rewrite (proj2 HO). do 2 f_equal. exact (f_equal (map dkeys) (at_q_map q ms ms' HF)).
Qed.
Lemma cands_at (E0 : env N) m0 ms : tables (m0 :: ms) -> get_candidates E0 (m0 :: ms) = Ok (map (cands_of E0 (m0 :: ms)) (dkeys m0)).
Proof. intros [_ Hs]. apply get_candidates_ok. intros q m Hq Hm. apply (Hs m0 m q); auto; [now left|now right]. Qed.

(** one step of borda, run by run, at query [q] *)
Lemma cands_absent (E0 : env N) (HE0 : env_ok E0) ms q : (forall m, In m ms -> ~ In q (dkeys m)) -> cands_of E0 ms q = [].
Proof.
  intros H. destruct (cands_of E0 ms q) as [|d l] eqn:Hc; auto. exfalso.
  assert (Hd : In d (cands_of E0 ms q)) by (rewrite Hc; now left). apply (cands_of_in E0 HE0) in Hd as (m & r & Hm & Hr & _).
  apply (H m Hm). eapply dget_Some_key; eauto.
Qed.
Lemma borda_step (E0 : env N) (HE0 : env_ok E0) tag g m0 ms m n q : tables (m0 :: ms) -> dkeys m = dkeys m0 -> dict_ok m -> g [] [] = Ok [] ->
  per_query E0 tag (fun i r => do c <- nth_r (map (cands_of E0 (m0 :: ms)) (dkeys m0)) i; g r c) m = Ok n ->
  dkeys n = dkeys m /\ ofq n q = okor (g (ofq m q) (cands_of E0 (m0 :: ms) q)).
Proof.
  intros Ht Hk Hok Hg H. apply (per_query_at E0 HE0) in H as [H1 H2]; auto. split; auto. specialize (H2 q).
  destruct (index_of (dkeys m) q) as [i|] eqn:Hi.
  - apply index_of_spec in Hi; [|exact Hok].
    unfold nth_r in H2. rewrite nth_error_map, <- Hk, Hi in H2. cbn [option_map bindr] in H2. now rewrite H2.
  - apply index_of_None in Hi. rewrite H2, (ofq_absent m q Hi). rewrite cands_absent; [now rewrite Hg|exact HE0|].
    intros m' Hm' Hq. apply Hi. rewrite Hk. apply (proj2 Ht m' m0 q); auto. now left.
Qed.

Lemma dset_loop_ok {A} (f : dict F -> A -> result (dict F)) l : forall acc r',
  (forall acc a s, dict_ok acc -> f acc a = Ok s -> dict_ok s) -> dict_ok acc -> foldr_m f l acc = Ok r' -> dict_ok r'.
Proof.
  induction l as [|a l IH]; intros acc r' Hf Hok H; [now inversion H; subst|].
  apply foldr_m_cons_ok in H as (s & Hs & H). exact (IH s r' Hf (Hf _ _ _ Hok Hs) H).
Qed.
Lemma borda_norm_dict r c r' : _borda_norm r c = Ok r' -> dict_ok r'.
Proof.
  unfold _borda_norm. apply dset_loop_ok; [|constructor]. intros acc a s Hok H. destruct (dmem r a).
  - destruct (index_of (dkeys r) a); inversion H. now apply dict_ok_dset.
  - inversion H. now apply dict_ok_dset.
Qed.
Lemma borda_score_dict r c r' : _borda_score r c = Ok r' -> dict_ok r'.
Proof.
  unfold _borda_score. intros H. apply bindr_ok in H as (acc & Ha & H). inversion H; subst. clear H.
  assert (Hok : dict_ok acc).
  { revert Ha. apply dset_loop_ok; [|constructor]. intros a0 a s Hok H. cbn in H. inversion H. now apply dict_ok_dset. }
  revert acc Ha Hok. induction (filter (fun d => negb (dmem r d)) c) as [|d l IH]; intros acc Ha Hok; cbn; auto.
  assert (Hg : forall l acc, dict_ok acc -> dict_ok (fold_left (fun acc d => dset acc d (fdiv (fofZ (Z.of_nat (length c) - Z.of_nat (length r) + 1)) (fofZ 2))) l acc)).
  { clear. induction l as [|d l IH]; intros acc H; cbn; auto. apply IH. now apply dict_ok_dset. }
  apply Hg. now apply dict_ok_dset.
Qed.

(** the tables made by borda from the results of all runs *)
Lemma borda_step2 (E0 : env N) (HE0 : env_ok E0) tag g m0 ms m n : tables (m0 :: ms) -> dkeys m = dkeys m0 -> dict_ok m ->
  (forall r c r', g r c = Ok r' -> dict_ok r') ->
  per_query E0 tag (fun i r => do c <- nth_r (map (cands_of E0 (m0 :: ms)) (dkeys m0)) i; g r c) m = Ok n -> dict2_ok n.
Proof.
  intros Ht Hk Hok Hg H. apply (per_query_at E0 HE0) in H as [H1 H2]; auto. split; [unfold dict_ok; rewrite H1; exact Hok|].
  intros q r Hr. specialize (H2 q). assert (Hq : ofq n q = r) by (unfold ofq; now rewrite Hr). rewrite Hq in H2.
  destruct (index_of (dkeys m) q) as [i|]; [|rewrite H2; constructor]. apply bindr_ok in H2 as (c & _ & H2). eapply Hg; eauto.
Qed.

(** the results of [borda_norm] and [borda_scores], run by run *)
Definition ordered (xs : list (Run N)) : Prop := forall x x', In x xs -> In x' xs -> dkeys (r_map x) = dkeys (r_map x').
Lemma borda_all (E0 : env N) (HE0 : env_ok E0) tag g (xs : list (Run N)) cs ns : tables (maps xs) -> ordered xs ->
  g [] [] = Ok [] -> (forall r c r', g r c = Ok r' -> dict_ok r') ->
  get_candidates E0 (maps xs) = Ok cs ->
  map_m (fun x => per_query E0 tag (fun i r => do c <- nth_r cs i; g r c) (r_map x)) xs = Ok ns ->
  Forall2 (fun x n => dkeys n = dkeys (r_map x) /\ dict2_ok n /\ forall q, ofq n q = okor (g (ofq (r_map x) q) (cands_of E0 (maps xs) q))) xs ns.
Proof.
  intros Ht Ho Hnil Hg Hc H. destruct xs as [|x0 xs0]; [inversion H; constructor|]. set (xs := x0 :: xs0) in *.
  change (maps xs) with (r_map x0 :: maps xs0) in *. rewrite (cands_at E0 _ _ Ht) in Hc. injection Hc as <-.
  apply map_m_inv in H.
  assert (Hall : forall l l', (forall x, In x l -> In x xs) ->
    Forall2 (fun a b => per_query E0 tag (fun i r => do c <- nth_r (map (cands_of E0 (r_map x0 :: maps xs0)) (dkeys (r_map x0))) i; g r c) (r_map a) = Ok b) l l' ->
    Forall2 (fun x n => dkeys n = dkeys (r_map x) /\ dict2_ok n /\ forall q, ofq n q = okor (g (ofq (r_map x) q) (cands_of E0 (r_map x0 :: maps xs0) q))) l l').
  { intros l l' Hl HF. induction HF as [|x n l l' Hxn HF IH]; constructor.
    2:{ apply IH. intros; apply Hl; now right. }
    assert (Hx : In x xs) by (apply Hl; now left).
    assert (Hk : dkeys (r_map x) = dkeys (r_map x0)) by (apply Ho; [exact Hx|now left]).
    assert (Hok : dict_ok (r_map x)) by (apply (proj1 Ht (r_map x)); change (r_map x0 :: maps xs0) with (maps xs); now apply in_map).
    split; [apply (borda_step E0 HE0 _ _ _ _ _ _ "" Ht Hk Hok Hnil Hxn)|]. split; [apply (borda_step2 E0 HE0 _ _ _ _ _ _ Ht Hk Hok Hg Hxn)|].
    intros q. apply (borda_step E0 HE0 _ _ _ _ _ _ q Ht Hk Hok Hnil Hxn). }
  apply Hall; auto.
Qed.
Lemma borda_tables (xs : list (Run N)) ns (G : string -> dict F -> dict F) : tables (maps xs) ->
  Forall2 (fun x n => dkeys n = dkeys (r_map x) /\ dict2_ok n /\ forall q, ofq n q = G q (ofq (r_map x) q)) xs ns -> tables ns.
Proof.
  intros [Hok Hs] HF.
  assert (Hex : forall m, In m ns -> exists x, In x xs /\ dkeys m = dkeys (r_map x) /\ dict2_ok m).
  { clear - HF. induction HF as [|x m xs ms (H1 & H2 & _) HF IH]; [easy|]. intros m' [<-|Hm]; [exists x; split; [now left|auto]|].
    destruct (IH m' Hm) as (x' & Hx' & H). exists x'. split; [now right|auto]. }
  split.
  - intros m Hm. destruct (Hex m Hm) as (x & _ & _ & H). exact H.
  - intros m m' q Hm Hm' Hq. destruct (Hex m Hm) as (x & Hx & Hk & _). destruct (Hex m' Hm') as (x' & Hx' & Hk' & _).
    rewrite Hk'. apply (Hs (r_map x)); [now apply in_map|now apply in_map|]. now rewrite <- Hk.
Qed.
Lemma borda_agree (xs xs' : list (Run N)) ns ns' (G G' : string -> dict F -> dict F) q : agree q xs xs' -> (forall r, G q r = G' q r) ->
  Forall2 (fun x n => dkeys n = dkeys (r_map x) /\ dict2_ok n /\ forall q, ofq n q = G q (ofq (r_map x) q)) xs ns ->
  Forall2 (fun x n => dkeys n = dkeys (r_map x) /\ dict2_ok n /\ forall q, ofq n q = G' q (ofq (r_map x) q)) xs' ns' ->
  Forall2 (at_q q) ns ns'.
Proof.
  intros HA HG. revert ns ns'. induction HA as [|x x' xs xs' Hx HA IH]; intros ns ns' H H'.
  - inversion H. inversion H'. constructor.
  - inversion H as [|? n ? ns1 (_ & _ & Hn) H1]; subst. inversion H' as [|? n' ? ns1' (_ & _ & Hn') H1']; subst. constructor.
    + unfold at_q in *. rewrite Hn, Hn', HG. now rewrite Hx.
    + now apply IH.
Qed.
Lemma borda_scores_same (xs xs' : list (Run N)) ms ms' q : tables (maps xs) -> tables (maps xs') -> ordered xs -> ordered xs' -> agree q xs xs' ->
  borda_scores E xs = Ok ms -> borda_scores E' xs' = Ok ms' -> tables ms /\ tables ms' /\ Forall2 (at_q q) ms ms'.
Proof.
  intros Ht Ht' Ho Ho' HA H H'. unfold borda_scores in *. apply bindr_ok in H as (cs & Hc & H). apply bindr_ok in H' as (cs' & Hc' & H').
  apply (borda_all E HE) in H; auto; [|apply borda_score_dict]. apply (borda_all E' HE') in H'; auto; [|apply borda_score_dict].
  split; [apply (borda_tables xs _ (fun q r => okor (_borda_score r (cands_of E (maps xs) q))) Ht H)|]. split; [apply (borda_tables xs' _ (fun q r => okor (_borda_score r (cands_of E' (maps xs') q))) Ht' H')|].
  apply (borda_agree xs xs' _ _ (fun q r => okor (_borda_score r (cands_of E (maps xs) q))) (fun q r => okor (_borda_score r (cands_of E' (maps xs') q))) q HA); [|exact H|exact H']. intros r. cbn beta. now rewrite (cands_same q _ _ (agree_maps q xs xs' HA)).
Qed.
Lemma borda_norm_same (xs xs' ys ys' : list (Run N)) q : tables (maps xs) -> tables (maps xs') -> ordered xs -> ordered xs' -> agree q xs xs' ->
  borda_norm E xs = Ok ys -> borda_norm E' xs' = Ok ys' ->
  tables (maps ys) /\ tables (maps ys') /\ ordered ys /\ ordered ys' /\ agree q ys ys'.
Proof.
  intros Ht Ht' Ho Ho' HA H H'. unfold borda_norm in *. apply bindr_ok in H as (cs & Hc & H). apply bindr_ok in H' as (cs' & Hc' & H').
  assert (Hsplit : forall (E0 : env N) (xs ys : list (Run N)) cs, map_m (fun x => do m <- per_query E0 "_borda_norm" (fun i r => do c <- nth_r cs i; _borda_norm r c) (r_map x); Ok (new_run (r_name x) m)) xs = Ok ys ->
    map_m (fun x => per_query E0 "_borda_norm" (fun i r => do c <- nth_r cs i; _borda_norm r c) (r_map x)) xs = Ok (maps ys)).
  { clear. intros E0 xs. induction xs as [|x xs IH]; intros ys cs H; cbn in *; [inversion H; reflexivity|].
    apply bindr_ok in H as (y & Hy & H). apply bindr_ok in H as (zs & Hz & H). inversion H; subst. apply bindr_ok in Hy as (m & Hm & Hy). inversion Hy; subst.
    rewrite Hm. cbn [bindr]. rewrite (IH _ _ Hz). reflexivity. }
  apply Hsplit in H. apply Hsplit in H'.
  apply (borda_all E HE) in H; auto; [|apply borda_norm_dict]. apply (borda_all E' HE') in H'; auto; [|apply borda_norm_dict].
  assert (Hord : forall (xs ys : list (Run N)) (G : string -> dict F -> dict F), ordered xs ->
    Forall2 (fun x n => dkeys n = dkeys (r_map x) /\ dict2_ok n /\ forall q, ofq n q = G q (ofq (r_map x) q)) xs (maps ys) -> ordered ys).
  { clear. intros xs ys G Ho HF.
    assert (Hex : forall y, In y ys -> exists x, In x xs /\ dkeys (r_map y) = dkeys (r_map x)).
    { intros y Hy. apply (in_map (@r_map N)) in Hy. change (map (@r_map N) ys) with (maps ys) in Hy. revert Hy. generalize (r_map y). clear - HF.
      induction HF as [|x m xs ms (H1 & _) HF IH]; [easy|]. intros m' [<-|Hm]; [exists x; split; [now left|auto]|].
      destruct (IH m' Hm) as (x' & Hx' & H). exists x'. split; [now right|auto]. }
    intros y y' Hy Hy'. destruct (Hex y Hy) as (x & Hx & ->). destruct (Hex y' Hy') as (x' & Hx' & ->). now apply Ho. }
  split; [apply (borda_tables xs _ (fun q r => okor (_borda_norm r (cands_of E (maps xs) q))) Ht H)|]. split; [apply (borda_tables xs' _ (fun q r => okor (_borda_norm r (cands_of E' (maps xs') q))) Ht' H')|].
  split; [apply (Hord xs _ (fun q r => okor (_borda_norm r (cands_of E (maps xs) q))) Ho H)|]. split; [apply (Hord xs' _ (fun q r => okor (_borda_norm r (cands_of E' (maps xs') q))) Ho' H')|].
  assert (HF : Forall2 (at_q q) (maps ys) (maps ys')).
  { apply (borda_agree xs xs' _ _ (fun q r => okor (_borda_norm r (cands_of E (maps xs) q))) (fun q r => okor (_borda_norm r (cands_of E' (maps xs') q))) q HA); [|exact H|exact H']. intros r. cbn beta. now rewrite (cands_same q _ _ (agree_maps q xs xs' HA)). }
  revert HF. clear. revert ys'. induction ys as [|y ys IH]; intros [|y' ys'] H; cbn in H; inversion H; subst; constructor; auto. now apply IH.
Qed.
End Two.
