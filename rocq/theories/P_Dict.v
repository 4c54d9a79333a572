(** P_Dict.v: lemmas about insertion-ordered dictionaries and string sorting *)
From Verif Require Import Base Dict P_Base.
Open Scope list_scope.

Section D.
Context {V : Type}.
Implicit Types d : dict V.

Lemma dget_dset_eq d k v : dget (dset d k v) k = Some v.
Proof.
  induction d as [|[k' v'] d IH]; cbn.
  - now rewrite String.eqb_refl.
  - destruct (String.eqb_spec k k') as [->|Hne]; cbn.
    + now rewrite String.eqb_refl.
    + apply String.eqb_neq in Hne. now rewrite Hne.
Qed.

Lemma dget_dset_neq d k k' v : k <> k' -> dget (dset d k v) k' = dget d k'.
Proof.
  intros Hne. induction d as [|[k2 v2] d IH]; cbn.
  - destruct (String.eqb_spec k' k) as [->|]; [contradiction|reflexivity].
  - destruct (String.eqb_spec k k2) as [->|Hne2]; cbn.
    + destruct (String.eqb_spec k' k2) as [->|]; [contradiction|reflexivity].
    + destruct (String.eqb k' k2); auto.
Qed.

Lemma dget_dset d k k' v :
  dget (dset d k v) k' = if String.eqb k' k then Some v else dget d k'.
Proof.
  destruct (String.eqb_spec k' k) as [->|Hne].
  - apply dget_dset_eq.
  - apply dget_dset_neq. congruence.
Qed.

Lemma dget_None d k : dget d k = None <-> ~ In k (dkeys d).
Proof.
  induction d as [|[k' v'] d IH]; cbn.
  - split; [intros _ []|reflexivity].
  - destruct (String.eqb_spec k k') as [->|Hne].
    + split; [discriminate|]. intros H. exfalso. apply H. now left.
    + rewrite IH. split.
      * intros H [Hc|Hc]; [congruence|auto].
      * intros H Hc. apply H. now right.
Qed.

Lemma dget_Some_in d k v : dget d k = Some v -> In (k, v) d.
Proof.
  induction d as [|[k' v'] d IH]; cbn; [discriminate|].
  destruct (String.eqb_spec k k') as [->|Hne]; intros H.
  - left. congruence.
  - right. auto.
Qed.

Lemma dget_Some_key d k v : dget d k = Some v -> In k (dkeys d).
Proof. intros H. apply (in_map fst) in H || apply dget_Some_in, (in_map fst) in H. exact H. Qed.

Lemma in_dget d k v : dict_ok d -> In (k, v) d -> dget d k = Some v.
Proof.
  unfold dict_ok. induction d as [|[k' v'] d IH]; cbn; [easy|].
  intros Hn Hin. inversion Hn as [|? ? Hni Hnd]; subst.
  destruct Hin as [Heq|Hin].
  - inversion Heq; subst. now rewrite String.eqb_refl.
  - destruct (String.eqb_spec k k') as [->|Hne]; [|auto].
    exfalso. apply Hni. apply (in_map fst) in Hin. exact Hin.
Qed.

Lemma key_dget d k : In k (dkeys d) -> exists v, dget d k = Some v.
Proof.
  intros H. destruct (dget d k) as [v|] eqn:Hd; [now exists v|].
  apply dget_None in Hd. contradiction.
Qed.

Lemma dmem_in d k : dmem d k = true <-> In k (dkeys d).
Proof.
  unfold dmem. destruct (dget d k) as [v|] eqn:Hd.
  - split; [intros _; eapply dget_Some_key; eauto|reflexivity].
  - apply dget_None in Hd. split; [discriminate|contradiction].
Qed.

Lemma dmem_nin d k : dmem d k = false <-> ~ In k (dkeys d).
Proof.
  rewrite <- dmem_in. destruct (dmem d k); split; congruence.
Qed.

Lemma dkeys_dset_in d k v : In k (dkeys d) -> dkeys (dset d k v) = dkeys d.
Proof.
  induction d as [|[k' v'] d IH]; cbn; [easy|]. intros H.
  destruct (String.eqb_spec k k') as [->|Hne]; cbn; [reflexivity|].
  f_equal. apply IH. destruct H as [|]; [congruence|assumption].
Qed.

Lemma dset_nin d k v : ~ In k (dkeys d) -> dset d k v = d ++ [(k, v)].
Proof.
  induction d as [|[k' v'] d IH]; cbn; [reflexivity|]. intros H.
  destruct (String.eqb_spec k k') as [->|Hne]; cbn.
  - exfalso. apply H. now left.
  - f_equal. apply IH. intros Hc. apply H. now right.
Qed.

Lemma dkeys_app d d' : dkeys (d ++ d') = dkeys d ++ dkeys d'.
Proof. apply map_app. Qed.

Lemma dkeys_dset_nin d k v : ~ In k (dkeys d) -> dkeys (dset d k v) = dkeys d ++ [k].
Proof. intros H. rewrite dset_nin by assumption. apply dkeys_app. Qed.

Lemma in_dkeys_dset d k v k' : In k' (dkeys (dset d k v)) <-> k' = k \/ In k' (dkeys d).
Proof.
  destruct (in_dec string_dec k (dkeys d)) as [Hi|Hi].
  - rewrite dkeys_dset_in by assumption. split; [tauto|]. intros [->|]; assumption.
  - rewrite dkeys_dset_nin by assumption. rewrite in_app_iff. cbn.
    split; intuition congruence.
Qed.

Lemma dict_ok_dset d k v : dict_ok d -> dict_ok (dset d k v).
Proof.
  unfold dict_ok. intros H. destruct (in_dec string_dec k (dkeys d)) as [Hi|Hi].
  - now rewrite dkeys_dset_in.
  - rewrite dkeys_dset_nin by assumption.
    apply (Permutation_NoDup (Permutation_cons_append _ _)). now constructor.
Qed.

Lemma dkeys_ddel_incl d k k' : In k' (dkeys (ddel d k)) -> In k' (dkeys d).
Proof.
  induction d as [|[k2 v2] d IH]; cbn; [easy|].
  destruct (String.eqb_spec k k2); cbn; [now right|]. intros [|]; auto.
Qed.

Lemma dict_ok_ddel d k : dict_ok d -> dict_ok (ddel d k).
Proof.
  unfold dict_ok. induction d as [|[k2 v2] d IH]; cbn; [auto|]. intros Hn.
  inversion Hn; subst. destruct (String.eqb_spec k k2); cbn; [assumption|].
  constructor; auto. intros Hc. now apply dkeys_ddel_incl in Hc.
Qed.

Lemma dget_ddel d k k' : dict_ok d ->
  dget (ddel d k) k' = if String.eqb k' k then None else dget d k'.
Proof.
  unfold dict_ok. induction d as [|[k2 v2] d IH]; cbn; intros Hn.
  - now destruct (String.eqb k' k).
  - inversion Hn as [|? ? Hni Hnd]; subst. destruct (String.eqb_spec k k2) as [->|Hne].
    + destruct (String.eqb_spec k' k2) as [Heq|]; [|reflexivity].
      apply dget_None. rewrite Heq. exact Hni.
    + cbn. destruct (String.eqb_spec k' k2) as [->|Hne2].
      * destruct (String.eqb_spec k2 k); [congruence|reflexivity].
      * apply IH. exact Hnd.
Qed.

(** Building a dictionary from fresh distinct keys appends them in order. *)
Lemma fold_dset_fresh {A} (f : A -> string * V) (l : list A) : forall d,
  NoDup (dkeys d ++ map (fun a => fst (f a)) l) ->
  fold_left (fun acc a => dset acc (fst (f a)) (snd (f a))) l d = d ++ map f l.
Proof.
  induction l as [|a l IH]; intros d Hn; cbn; [now rewrite app_nil_r|].
  rewrite dset_nin.
  - rewrite IH.
    + rewrite <- app_assoc. cbn. now destruct (f a).
    + rewrite dkeys_app. cbn. rewrite <- app_assoc. cbn. exact Hn.
  - cbn in Hn. apply NoDup_remove_2 in Hn. intros Hc. apply Hn, in_or_app. now left.
Qed.

Lemma dict_of_list_id (l : list (string * V)) : NoDup (map fst l) -> dict_of_list l = l.
Proof.
  intros H. unfold dict_of_list.
  rewrite (fold_dset_fresh (fun a => a)) by exact H. now rewrite map_id.
Qed.

(** Two dictionaries with the same entries up to order give the same lookups. *)
Lemma dget_perm d d' : dict_ok d -> Permutation d d' -> forall k, dget d k = dget d' k.
Proof.
  intros Hok Hp k.
  assert (Hok' : dict_ok d').
  { unfold dict_ok in *. eapply Permutation_NoDup; [|exact Hok]. now apply Permutation_map. }
  destruct (dget d k) as [v|] eqn:Hd.
  - symmetry. apply in_dget; auto. apply (Permutation_in _ Hp). now apply dget_Some_in.
  - symmetry. apply dget_None. apply dget_None in Hd. intros Hc. apply Hd.
    apply (Permutation_in (l := dkeys d')); [apply Permutation_map, Permutation_sym, Hp|exact Hc].
Qed.

Lemma dict_ok_perm d d' : Permutation d d' -> dict_ok d -> dict_ok d'.
Proof.
  intros Hp Hok. unfold dict_ok in *. eapply Permutation_NoDup; [|exact Hok].
  now apply Permutation_map.
Qed.

Lemma dict_ext_perm d d' : dict_ok d -> dict_ok d' ->
  (forall k, dget d k = dget d' k) -> Permutation d d'.
Proof.
  intros Hok Hok' H. apply NoDup_Permutation.
  - unfold dict_ok, dkeys in Hok. eapply NoDup_map_inv; eauto.
  - unfold dict_ok, dkeys in Hok'. eapply NoDup_map_inv; eauto.
  - intros [k v]. split; intros Hi.
    + apply dget_Some_in. rewrite <- H. now apply in_dget.
    + apply dget_Some_in. rewrite H. now apply in_dget.
Qed.

Lemma dget_nth_key d i k : dict_ok d -> nth_error (dkeys d) i = Some k ->
  exists v, nth_error d i = Some (k, v) /\ dget d k = Some v.
Proof.
  intros Hok Hn. unfold dkeys in Hn. rewrite nth_error_map in Hn.
  destruct (nth_error d i) as [[k' v]|] eqn:Hi; [|discriminate].
  cbn in Hn. inversion Hn; subst. exists v. split; [reflexivity|].
  apply in_dget; auto. eapply nth_error_In; eauto.
Qed.

End D.

Lemma dmap_get {V W} (f : V -> W) (d : dict V) k :
  dget (map (fun kv => (fst kv, f (snd kv))) d) k = option_map f (dget d k).
Proof.
  induction d as [|[k' v'] d IH]; cbn; [reflexivity|].
  destruct (String.eqb k k'); auto.
Qed.

Lemma dmap_keys {V W} (f : V -> W) (d : dict V) :
  dkeys (map (fun kv => (fst kv, f (snd kv))) d) = dkeys d.
Proof. unfold dkeys. rewrite map_map. reflexivity. Qed.

Lemma keys_eqb_spec {V W} (d1 : dict V) (d2 : dict W) :
  keys_eqb d1 d2 = true <-> forall k, In k (dkeys d1) <-> In k (dkeys d2).
Proof.
  unfold keys_eqb, keys_subset. rewrite andb_true_iff, !forallb_forall.
  split.
  - intros [H1 H2] k. split; intros Hk; [apply dmem_in, H1, Hk|apply dmem_in, H2, Hk].
  - intros H. split; intros k Hk; apply dmem_in, H, Hk.
Qed.

(** ** String order *)
Lemma str_leb_refl a : str_leb a a = true.
Proof. induction a as [|x a IH]; cbn; [reflexivity|]. rewrite N.ltb_irrefl. exact IH. Qed.

Lemma str_leb_total a b : str_leb a b = true \/ str_leb b a = true.
Proof.
  revert b; induction a as [|x a IH]; intros [|y b]; cbn; auto.
  destruct (N.ltb_spec (N_of_ascii x) (N_of_ascii y)); auto.
  destruct (N.ltb_spec (N_of_ascii y) (N_of_ascii x)); auto.
Qed.

Lemma N_of_ascii_inj x y : N_of_ascii x = N_of_ascii y -> x = y.
Proof. intros H. rewrite <- (ascii_N_embedding x), <- (ascii_N_embedding y). now f_equal. Qed.

Lemma str_leb_antisym a b : str_leb a b = true -> str_leb b a = true -> a = b.
Proof.
  revert b; induction a as [|x a IH]; intros [|y b]; cbn; auto; try discriminate.
  destruct (N.ltb_spec (N_of_ascii x) (N_of_ascii y)) as [H1|H1];
    destruct (N.ltb_spec (N_of_ascii y) (N_of_ascii x)) as [H2|H2]; try discriminate; try lia.
  intros Ha Hb. assert (x = y) by (apply N_of_ascii_inj; lia). subst. f_equal. auto.
Qed.

Lemma str_leb_trans a b c : str_leb a b = true -> str_leb b c = true -> str_leb a c = true.
Proof.
  revert b c; induction a as [|x a IH]; intros [|y b] [|z c]; cbn; auto; try discriminate.
  destruct (N.ltb_spec (N_of_ascii x) (N_of_ascii y)) as [H1|H1];
    destruct (N.ltb_spec (N_of_ascii y) (N_of_ascii x)) as [H2|H2]; try lia; try discriminate;
  destruct (N.ltb_spec (N_of_ascii y) (N_of_ascii z)) as [H3|H3];
    destruct (N.ltb_spec (N_of_ascii z) (N_of_ascii y)) as [H4|H4]; try lia; try discriminate;
  destruct (N.ltb_spec (N_of_ascii x) (N_of_ascii z)) as [H5|H5];
    destruct (N.ltb_spec (N_of_ascii z) (N_of_ascii x)) as [H6|H6]; try lia; try discriminate; auto.
  apply IH.
Qed.

Definition str_le (a b : string) : Prop := str_leb a b = true.

Lemma str_insert_perm x l : Permutation (x :: l) (str_insert x l).
Proof.
  induction l as [|y l IH]; cbn; [reflexivity|].
  destruct (str_leb x y); [reflexivity|].
  rewrite perm_swap. now apply perm_skip.
Qed.

Lemma str_sort_perm l : Permutation l (str_sort l).
Proof.
  induction l as [|x l IH]; cbn; [constructor|].
  rewrite <- str_insert_perm. now apply perm_skip.
Qed.

Lemma str_insert_sorted x l : StronglySorted str_le l -> StronglySorted str_le (str_insert x l).
Proof.
  induction l as [|y l IH]; intros H; cbn; [repeat constructor|].
  inversion H as [|? ? Hs Hf]; subst. destruct (str_leb x y) eqn:Hxy.
  - constructor; [assumption|]. constructor; [exact Hxy|].
    eapply Forall_impl; [|exact Hf]. intros z Hz. eapply str_leb_trans; eauto.
  - constructor; [now apply IH|].
    assert (Hyx : str_le y x) by (destruct (str_leb_total x y); [congruence|assumption]).
    rewrite Forall_forall in *. intros z Hz.
    apply (Permutation_in _ (Permutation_sym (str_insert_perm x l))) in Hz.
    destruct Hz as [<-|Hz]; auto.
Qed.

Lemma str_sort_sorted l : StronglySorted str_le (str_sort l).
Proof. induction l as [|x l IH]; cbn; [constructor|]. now apply str_insert_sorted. Qed.

Lemma str_sort_in l x : In x (str_sort l) <-> In x l.
Proof.
  split; apply Permutation_in; [apply Permutation_sym|]; apply str_sort_perm.
Qed.

Lemma str_sort_nodup l : NoDup l -> NoDup (str_sort l).
Proof. apply Permutation_NoDup, str_sort_perm. Qed.

(** The sorted list of keys is determined by the set of keys. *)
Lemma str_sort_unique l l' :
  StronglySorted str_le l' -> Permutation l l' -> str_sort l = l'.
Proof.
  intros Hs Hp. apply (StronglySorted_perm_eq str_le).
  - intros a b _ _. apply str_leb_antisym.
  - apply str_sort_sorted.
  - assumption.
  - etransitivity; [apply Permutation_sym, str_sort_perm|assumption].
Qed.

Lemma str_sort_set_eq l l' : NoDup l -> NoDup l' -> (forall x, In x l <-> In x l') ->
  str_sort l = str_sort l'.
Proof.
  intros H1 H2 H. apply str_sort_unique; [apply str_sort_sorted|].
  etransitivity; [apply NoDup_Permutation; eauto|apply str_sort_perm].
Qed.

Lemma str_sort_id l : StronglySorted str_le l -> str_sort l = l.
Proof. intros H. now apply str_sort_unique. Qed.

(** strictly increasing = sorted and duplicate-free *)
Lemma sorted_nodup_strict l : StronglySorted str_le l -> NoDup l ->
  StronglySorted (fun a b => str_ltb a b = true) l.
Proof.
  induction 1 as [|a l Hs IH Hf]; intros Hn; [constructor|].
  inversion Hn as [|? ? Hni Hnd]; subst. constructor; [auto|].
  rewrite Forall_forall in *. intros b Hb. unfold str_ltb. rewrite (Hf b Hb). cbn.
  apply negb_true_iff, String.eqb_neq. intros ->. contradiction.
Qed.
