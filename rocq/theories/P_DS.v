(** P_DS.v: lemmas behind the data structure theorems of T_DS.v. *)
From Coq Require Import Reals Lra.
From Verif Require Import Base Dict Num Env M_Common M_Qrels M_Run M_History Spec_DS Spec_Hist
  P_Base P_Dict P_Common NumLaws P_History.
Open Scope list_scope.

Lemma negf_nan_free2 {N : Num} (HL : NumLaws N) (d : dict (dict F)) : dict2_ok d ->
  (forall q k v, dget2 d q k = Some v -> is_nan v = false) -> nan_free2 r_negf d.
Proof.
  intros [Hok Hin] H q r Hr. apply Forall_forall. intros v Hv.
  unfold dvals in Hv. apply in_map_iff in Hv as ([k w] & <- & Hi). cbn.
  apply nan_negf; [exact HL|]. apply (H q k). unfold dget2. rewrite Hr. apply in_dget; eauto.
Qed.

Lemma canon_perm_keys {N : Num} (E : env N) {V} (negf : V -> F) d : dict_ok d ->
  Permutation (dkeys d) (dkeys (canon E negf d)).
Proof. intros H. rewrite canon_keys by assumption. apply str_sort_perm. Qed.

Lemma StronglySorted_NoDup_keys {V} (m : dict V) :
  StronglySorted (fun a b => str_ltb a b = true) (dkeys m) -> dict_ok m.
Proof.
  unfold dict_ok. induction 1 as [|a l Hs IH Hf]; constructor; auto.
  intros Hc. rewrite Forall_forall in Hf. specialize (Hf a Hc).
  unfold str_ltb in Hf. rewrite String.eqb_refl, andb_false_r in Hf. discriminate.
Qed.

(** two descending arrangements of the same scores are equal *)
Lemma desc_perm_eq (l1 l2 : list R) :
  StronglySorted (fun a b => (b <= a)%R) l1 -> StronglySorted (fun a b => (b <= a)%R) l2 ->
  Permutation l1 l2 -> l1 = l2.
Proof.
  intros H1 H2. apply (StronglySorted_perm_eq (fun a b : R => (b <= a)%R)); auto. intros; lra.
Qed.

Lemma run_in_order_scores (m : dict (dict R)) q r :
  @run_in_order NumR m -> dget m q = Some r ->
  StronglySorted (fun a b => (b <= a)%R) (dvals r).
Proof.
  intros [_ H] Hq. specialize (H q r Hq). unfold dvals.
  apply StronglySorted_map. eapply StronglySorted_impl; [|exact H].
  intros a b Hab. cbn in Hab. now rewrite Rleb_true in Hab.
Qed.

Lemma canon_strict_keys {N : Num} (E : env N) {V} (negf : V -> F) d : dict_ok d ->
  StronglySorted (fun a b => str_ltb a b = true) (dkeys (canon E negf d)).
Proof.
  intros H. rewrite canon_keys by assumption.
  apply sorted_nodup_strict; [apply str_sort_sorted|now apply str_sort_nodup].
Qed.

Lemma concat_has_doc {V} (d : dict (dict V)) : dict2_ok d ->
  concat (map dkeys (dvals d)) <> [] -> has_doc d.
Proof.
  intros [Hok Hin] Hc. destruct (concat (map dkeys (dvals d))) as [|k l] eqn:He; [congruence|].
  assert (Hk : In k (concat (map dkeys (dvals d)))) by (rewrite He; now left).
  apply in_concat in Hk as (ks & Hks & Hk). apply in_map_iff in Hks as (r & <- & Hr).
  unfold dvals in Hr. apply in_map_iff in Hr as ([q r'] & <- & Hq). cbn in Hk.
  apply key_dget in Hk as [v Hv]. exists q, k, v. unfold dget2.
  now rewrite (in_dget _ _ _ Hok Hq).
Qed.
