(** P_Base.v: lemmas about the helpers of Base.v *)
From Verif Require Import Base.
Open Scope list_scope.

Lemma foldr_m_ok {A S} (f : S -> A -> result S) (g : S -> A -> S) l :
  forall s, (forall s a, In a l -> f s a = Ok (g s a)) ->
       foldr_m f l s = Ok (fold_left g l s).
Proof.
  induction l as [|a l IH]; intros s H; cbn; [reflexivity|].
  rewrite H by now left. cbn. apply IH. intros s' a' Ha'. apply H. now right.
Qed.

Lemma map_m_ok {A B} (f : A -> result B) (g : A -> B) l :
  (forall a, In a l -> f a = Ok (g a)) -> map_m f l = Ok (map g l).
Proof.
  induction l as [|a l IH]; intros H; cbn; [reflexivity|].
  rewrite H by now left. cbn. rewrite IH by (intros; apply H; now right). reflexivity.
Qed.

Lemma enum_from_length {A} (l : list A) i : length (enum_from i l) = length l.
Proof. revert i; induction l; intros; cbn; auto. Qed.

Lemma enum_from_app {A} (l1 l2 : list A) i :
  enum_from i (l1 ++ l2) = enum_from i l1 ++ enum_from (i + length l1) l2.
Proof.
  revert i; induction l1 as [|a l1 IH]; intros i; cbn; [now rewrite Nat.add_0_r|].
  rewrite IH. replace (S i + length l1) with (i + S (length l1)) by lia. reflexivity.
Qed.

Lemma enum_from_map {A B} (f : A -> B) (l : list A) i :
  enum_from i (map f l) = map (fun p => (fst p, f (snd p))) (enum_from i l).
Proof. revert i; induction l as [|a l IH]; intros i; cbn; [reflexivity|]. now rewrite IH. Qed.

Lemma enum_from_snd {A} (l : list A) i : map snd (enum_from i l) = l.
Proof. revert i; induction l as [|a l IH]; intros i; cbn; [reflexivity|]. now rewrite IH. Qed.

Lemma enum_from_fst {A} (l : list A) i : map fst (enum_from i l) = seq i (length l).
Proof. revert i; induction l as [|a l IH]; intros i; cbn; [reflexivity|]. now rewrite IH. Qed.

Lemma enum_from_in {A} (l : list A) i j a :
  In (j, a) (enum_from i l) <-> i <= j /\ nth_error l (j - i) = Some a.
Proof.
  revert i; induction l as [|x l IH]; intros i; cbn.
  - split; [easy|]. intros [_ H]. now destruct (j - i).
  - rewrite IH. split.
    + intros [H|[H1 H2]].
      * inversion H; subst. split; [lia|]. now rewrite Nat.sub_diag.
      * split; [lia|]. replace (j - i) with (S (j - S i)) by lia. exact H2.
    + intros [H1 H2]. destruct (Nat.eq_dec i j) as [->|Hne].
      * left. rewrite Nat.sub_diag in H2. cbn in H2. congruence.
      * right. split; [lia|]. replace (j - i) with (S (j - S i)) in H2 by lia. exact H2.
Qed.

Lemma enumerate_in {A} (l : list A) j a :
  In (j, a) (enumerate l) <-> nth_error l j = Some a.
Proof.
  unfold enumerate. rewrite enum_from_in, Nat.sub_0_r. split; [tauto|]. intros; split; [lia|auto].
Qed.

Lemma set_nth_length {A} (l : list A) i v : length (set_nth l i v) = length l.
Proof. revert i; induction l as [|a l IH]; intros [|i]; cbn; auto. Qed.

Lemma nth_error_set_nth_eq {A} (l : list A) i v :
  i < length l -> nth_error (set_nth l i v) i = Some v.
Proof.
  revert i; induction l as [|a l IH]; intros [|i] H; cbn in *; try lia; auto.
  apply IH; lia.
Qed.

Lemma nth_error_set_nth_neq {A} (l : list A) i j v :
  i <> j -> nth_error (set_nth l i v) j = nth_error l j.
Proof.
  revert i j; induction l as [|a l IH]; intros [|i] [|j] H; cbn; auto; try lia.
Qed.

Lemma nth_error_ext {A} (l1 l2 : list A) :
  (forall i, nth_error l1 i = nth_error l2 i) -> l1 = l2.
Proof.
  revert l2; induction l1 as [|a l1 IH]; intros [|b l2] H; auto.
  - specialize (H 0); discriminate.
  - specialize (H 0); discriminate.
  - f_equal; [specialize (H 0); cbn in H; congruence|].
    apply IH. intros i. apply (H (S i)).
Qed.

Lemma prange_fold_nth {A} (f : nat -> A) order : forall acc i,
  (forall j, In j order -> j < length acc) -> NoDup order ->
  nth_error (fold_left (fun acc i => set_nth acc i (f i)) order acc) i =
  if in_dec Nat.eq_dec i order then Some (f i) else nth_error acc i.
Proof.
  induction order as [|o order IH]; intros acc i Hb Hnd; cbn [fold_left].
  - destruct (in_dec Nat.eq_dec i []) as [[]|]; reflexivity.
  - inversion Hnd; subst.
    rewrite IH; [|intros j Hj; rewrite set_nth_length; apply Hb; now right|assumption].
    destruct (in_dec Nat.eq_dec i order) as [Hi|Hi];
      destruct (in_dec Nat.eq_dec i (o :: order)) as [Hi'|Hi']; auto.
    + exfalso. apply Hi'. now right.
    + destruct Hi' as [<-|Hc]; [|contradiction].
      apply nth_error_set_nth_eq. apply Hb. now left.
    + apply nth_error_set_nth_neq. intros ->. apply Hi'. now left.
Qed.

(** Schedule independence of a prange loop: whatever the order of the iterations,
    slot i ends up holding [f i]. *)
Lemma prange_spec {A} order n (init : A) f :
  Permutation order (seq 0 n) -> prange order n init f = map f (seq 0 n).
Proof.
  intros Hp. unfold prange. apply nth_error_ext. intros i.
  rewrite prange_fold_nth.
  - destruct (in_dec Nat.eq_dec i order) as [Hi|Hi].
    + apply (Permutation_in _ Hp) in Hi. apply in_seq in Hi.
      symmetry. rewrite nth_error_map.
      rewrite (nth_error_nth' _ 0) by (rewrite seq_length; lia).
      rewrite seq_nth by lia. reflexivity.
    + assert (Hge : n <= i).
      { destruct (le_lt_dec n i) as [|Hlt]; auto. exfalso. apply Hi.
        apply (Permutation_in _ (Permutation_sym Hp)). apply in_seq. lia. }
      rewrite (proj2 (nth_error_None _ _)) by (rewrite repeat_length; lia).
      symmetry. apply nth_error_None. rewrite map_length, seq_length. lia.
  - intros j Hj. rewrite repeat_length. apply (Permutation_in _ Hp), in_seq in Hj. lia.
  - apply (Permutation_NoDup (Permutation_sym Hp)), seq_NoDup.
Qed.

Lemma prange_r_ok {A} order n (init : A) (f : nat -> result A) g :
  Permutation order (seq 0 n) -> (forall i, i < n -> f i = Ok (g i)) ->
  prange_r order n init f = Ok (map g (seq 0 n)).
Proof.
  intros Hp Hf. unfold prange_r.
  rewrite foldr_m_ok with (g := fun acc i => set_nth acc i (g i)).
  - f_equal. apply (prange_spec order n init g Hp).
  - intros s i Hi. rewrite Hf; [reflexivity|].
    apply (Permutation_in _ Hp), in_seq in Hi. lia.
Qed.

(** A schedule-independent failure: if some iteration raises, the loop raises. *)
Lemma foldr_m_err {A S} (f : S -> A -> result S) l : forall s a,
  In a l -> (forall s, exists e, f s a = Err e) -> exists e, foldr_m f l s = Err e.
Proof.
  induction l as [|b l IH]; intros s a Ha Hf; [easy|]. cbn.
  destruct Ha as [->|Ha].
  - destruct (Hf s) as [e He]. rewrite He. now exists e.
  - destruct (f s b); cbn; [now apply IH with a|now exists e].
Qed.

Lemma map_nth_seq {A} (l : list A) d : map (fun i => nth i l d) (seq 0 (length l)) = l.
Proof.
  apply nth_error_ext. intros i. rewrite nth_error_map.
  destruct (lt_dec i (length l)) as [Hi|Hi].
  - rewrite (nth_error_nth' (seq 0 _) 0) by now rewrite seq_length.
    rewrite seq_nth by assumption. cbn. symmetry. now apply nth_error_nth'.
  - rewrite (proj2 (nth_error_None (seq _ _) _)) by (rewrite seq_length; lia).
    symmetry. apply nth_error_None. lia.
Qed.

Lemma map_seq_nth_error {A B} (l : list A) (f : nat -> B) (g : A -> B) :
  (forall i a, nth_error l i = Some a -> f i = g a) ->
  map f (seq 0 (length l)) = map g l.
Proof.
  intros H. apply nth_error_ext. intros i. rewrite !nth_error_map.
  destruct (nth_error l i) as [a|] eqn:Hi.
  - assert (i < length l) by (apply nth_error_Some; congruence).
    rewrite (nth_error_nth' (seq 0 _) 0) by now rewrite seq_length.
    rewrite seq_nth by assumption. cbn. f_equal. now apply H.
  - apply nth_error_None in Hi.
    rewrite (proj2 (nth_error_None (seq _ _) _)) by (rewrite seq_length; lia). reflexivity.
Qed.

Lemma count_app {A} (p : A -> bool) l1 l2 : count p (l1 ++ l2) = count p l1 + count p l2.
Proof. induction l1; cbn; [reflexivity|]. rewrite IHl1. destruct (p a); lia. Qed.

Lemma count_filter {A} (p : A -> bool) l : count p l = length (filter p l).
Proof. induction l as [|a l IH]; cbn; [reflexivity|]. destruct (p a); cbn; lia. Qed.

Lemma count_perm {A} (p : A -> bool) l1 l2 : Permutation l1 l2 -> count p l1 = count p l2.
Proof. induction 1; cbn; try lia. Qed.

Lemma count_le_length {A} (p : A -> bool) l : count p l <= length l.
Proof. induction l as [|a l IH]; cbn; [lia|]. destruct (p a); lia. Qed.

Lemma count_ext {A} (p q : A -> bool) l : (forall a, In a l -> p a = q a) -> count p l = count q l.
Proof.
  induction l as [|a l IH]; intros H; cbn; [reflexivity|].
  rewrite (H a) by now left. rewrite IH; [reflexivity|]. intros; apply H; now right.
Qed.

Lemma count_map {A B} (f : A -> B) p l : count p (map f l) = count (fun a => p (f a)) l.
Proof. induction l as [|a l IH]; cbn; [reflexivity|]. now rewrite IH. Qed.

Lemma count_firstn_le {A} (p : A -> bool) l k : count p (firstn k l) <= count p l.
Proof.
  revert k; induction l as [|a l IH]; intros [|k]; cbn; try lia.
  specialize (IH k). destruct (p a); lia.
Qed.

Lemma count_firstn_mono {A} (p : A -> bool) l k k' :
  k <= k' -> count p (firstn k l) <= count p (firstn k' l).
Proof.
  revert k k'; induction l as [|a l IH]; intros [|k] [|k'] H; cbn; try lia.
  specialize (IH k k'). destruct (p a); lia.
Qed.

Lemma StronglySorted_perm_eq {A} (R : A -> A -> Prop) l1 l2 :
  (forall a b, In a l1 -> In b l1 -> R a b -> R b a -> a = b) ->
  StronglySorted R l1 -> StronglySorted R l2 -> Permutation l1 l2 -> l1 = l2.
Proof.
  revert l2; induction l1 as [|a l1 IH]; intros l2 Has H1 H2 Hp.
  - symmetry. now apply Permutation_nil.
  - destruct l2 as [|b l2]; [apply Permutation_sym, Permutation_nil in Hp; discriminate|].
    inversion H1 as [|? ? Hs1 Hf1]; subst. inversion H2 as [|? ? Hs2 Hf2]; subst.
    assert (a = b).
    { assert (Hb : In b (a :: l1)) by (apply (Permutation_in _ (Permutation_sym Hp)); now left).
      assert (Ha : In a (b :: l2)) by (apply (Permutation_in _ Hp); now left).
      destruct Hb as [|Hb]; [assumption|]. destruct Ha as [|Ha]; [auto|].
      rewrite Forall_forall in Hf1, Hf2.
      apply Has; [now left|now right|now apply Hf1|now apply Hf2]. }
    subst b. f_equal. apply IH; auto.
    + intros x y Hx Hy. apply Has; now right.
    + now apply Permutation_cons_inv in Hp.
Qed.

Lemma NoDup_map_inj {A B} (f : A -> B) l :
  (forall x y, In x l -> In y l -> f x = f y -> x = y) -> NoDup l -> NoDup (map f l).
Proof.
  induction l as [|a l IH]; intros Hi Hn; cbn; [constructor|].
  inversion Hn; subst. constructor.
  - intros Hin. apply in_map_iff in Hin as [x [Hx1 Hx2]].
    assert (x = a) by (apply Hi; [now right|now left|assumption]). now subst.
  - apply IH; auto. intros x y Hx Hy. apply Hi; now right.
Qed.
