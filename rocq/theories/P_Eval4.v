(** P_Eval4.v: evaluate on dicts and objects. *)
From Coq Require Import Reals Lra.
From Verif Require Import Base Dict Num NumLaws Env M_Common M_Qrels M_Run M_History M_Metrics M_Evaluate
  Spec_DS Spec_Hist Spec_Strings Spec_Metrics Spec_MetricsAPI Spec_Eval
  P_Base P_Dict P_Common P_History P_DS P_Metrics P_Metrics4 P_Metrics6 P_Metrics7 T_DS T_Metrics T_Parse P_Eval P_Eval2 P_Eval3.
Open Scope string_scope.
Open Scope list_scope.
Open Scope nat_scope.

(** ** in-place parallel update *)
Lemma inplace_fold {A} (f : A -> A) order : forall acc, NoDup order ->
  forall i, nth_error (fold_left (fun acc i => match nth_error acc i with
                                | Some r => set_nth acc i (f r) | None => acc end) order acc) i =
    if in_dec Nat.eq_dec i order then option_map f (nth_error acc i) else nth_error acc i.
Proof.
  induction order as [|a order IH]; intros acc Hnd i; [reflexivity|]. cbn [fold_left].
  inversion Hnd as [|? ? Ha Hnd']; subst. rewrite IH by assumption.
  set (acc' := match nth_error acc a with Some r => set_nth acc a (f r) | None => acc end).
  assert (Hacc : nth_error acc' i = if Nat.eq_dec i a then option_map f (nth_error acc i) else nth_error acc i).
  { unfold acc'. destruct (Nat.eq_dec i a) as [->|Hne].
    - destruct (nth_error acc a) eqn:Hn; [|now rewrite Hn]. rewrite nth_error_set_nth_eq; [reflexivity|].
      apply nth_error_Some. congruence.
    - destruct (nth_error acc a) eqn:Hn; [|reflexivity]. apply nth_error_set_nth_neq. congruence. }
  destruct (in_dec Nat.eq_dec i order) as [Hi|Hi], (in_dec Nat.eq_dec i (a :: order)) as [Hi'|Hi'].
  - rewrite Hacc. destruct (Nat.eq_dec i a) as [->|]; [contradiction|reflexivity].
  - exfalso. apply Hi'. now right.
  - rewrite Hacc. destruct Hi' as [->|Hi']; [|contradiction]. now destruct (Nat.eq_dec i i).
  - rewrite Hacc. destruct (Nat.eq_dec i a) as [->|]; [|reflexivity]. exfalso. apply Hi'. now left.
Qed.
Lemma nth_error_ext {A} (l1 l2 : list A) : (forall i, nth_error l1 i = nth_error l2 i) -> l1 = l2.
Proof.
  revert l2. induction l1 as [|a l1 IH]; intros [|b l2] H; auto.
  - specialize (H 0). discriminate.
  - specialize (H 0). discriminate.
  - f_equal; [specialize (H 0); cbn in H; congruence|]. apply IH. intros i. apply (H (S i)).
Qed.
Lemma inplace_map {A} (f : A -> A) (l : list A) order : Permutation order (seq 0 (length l)) ->
  fold_left (fun acc i => match nth_error acc i with
                          | Some r => set_nth acc i (f r) | None => acc end) order l = map f l.
Proof.
  intros Hp. apply nth_error_ext. intros i. rewrite inplace_fold.
  2:{ eapply Permutation_NoDup; [apply Permutation_sym, Hp|apply seq_NoDup]. }
  rewrite nth_error_map. destruct (in_dec Nat.eq_dec i order) as [Hi|Hi]; [reflexivity|].
  destruct (nth_error l i) eqn:Hn; [|reflexivity]. exfalso. apply Hi.
  apply (Permutation_in _ (Permutation_sym Hp)), in_seq.
  assert (i < length l) by (apply nth_error_Some; congruence). lia.
Qed.

(** ** sorting the rows of one query *)
Lemma map_nth_seq {A} (l : list A) d : map (fun i => nth i l d) (seq 0 (length l)) = l.
Proof.
  apply nth_error_ext. intros i. rewrite nth_error_map.
  destruct (Nat.lt_ge_cases i (length l)) as [Hi|Hi].
  - rewrite (nth_error_nth' (seq 0 (length l)) 0) by (now rewrite seq_length). cbn. rewrite seq_nth by assumption. cbn.
    symmetry. now apply nth_error_nth'.
  - replace (nth_error (seq 0 (length l)) i) with (@None nat); [|symmetry; apply nth_error_None; now rewrite seq_length].
    symmetry. now apply nth_error_None.
Qed.
Lemma StronglySorted_app_inv2 {A} (P : A -> A -> Prop) l a : StronglySorted P (l ++ [a]) -> StronglySorted P l /\ Forall (fun b => P b a) l.
Proof.
  induction l as [|b l IH]; intros H; [split; constructor|]. cbn in H. inversion H as [|? ? H1 H2]; subst.
  destruct (IH H1) as [I1 I2]. rewrite Forall_app in H2. destruct H2 as [H2 H3]. inversion H3; subst.
  split; constructor; auto.
Qed.
Lemma StronglySorted_rev {A} (P : A -> A -> Prop) l : StronglySorted P l -> StronglySorted (fun a b => P b a) (rev l).
Proof.
  intros H. induction H as [|a l H IH Ha]; cbn; [constructor|].
  assert (Hgo : forall l', StronglySorted (fun a b => P b a) l' -> Forall (fun b => P a b) l' -> StronglySorted (fun a b => P b a) (l' ++ [a])).
  { clear. induction l' as [|b l' IH]; cbn; intros Hs Hf; [repeat constructor|]. inversion Hs; inversion Hf; subst.
    constructor; auto. apply Forall_app. split; auto. }
  apply Hgo; auto. apply Forall_rev. exact Ha.
Qed.
Lemma StronglySorted_map {A B} (f : A -> B) (P : B -> B -> Prop) l : StronglySorted P (map f l) <-> StronglySorted (fun a b => P (f a) (f b)) l.
Proof.
  induction l as [|a l IH]; cbn; [split; constructor|]. split; intros H; inversion H; subst; constructor; try apply IH; auto.
  - now apply Forall_map.
  - now apply Forall_map.
Qed.

Section S.
Context (E : env NumR) (HE : env_ok E).
Definition dsorted {V} (tof : V -> R) (r : dict V) : dict V :=
  match r with
  | [] => []
  | d0 :: _ => map (fun i => nth i r d0) (rev (e_argsort E (map snd (@to_rows NumR E V tof r))))
  end.
Lemma argsort_nil : e_argsort E [] = [].
Proof.
  pose proof (argsort_perm E HE []) as Hp. cbn in Hp. apply Permutation_sym, Permutation_nil in Hp. exact Hp.
Qed.
Lemma dsorted_spec {V} (tof : V -> R) (r : dict V) :
  Permutation r (dsorted tof r) /\ StronglySorted (fun a b => (tof (snd b) <= tof (snd a))%R) (dsorted tof r) /\
  @descending_sort NumR E (@to_rows NumR E V tof r) = @to_rows NumR E V tof (dsorted tof r).
Proof.
  unfold dsorted. destruct r as [|d0 r0] eqn:Hr.
  - split; [constructor|]. split; [constructor|].
    unfold descending_sort, to_rows. cbn [map]. pose proof argsort_nil as Ha.
    change (e_argsort E (@nil F)) with (e_argsort E (@nil (@F NumR))). now rewrite Ha.
  - rewrite <- Hr in *. clear r0 Hr.
    set (rows := @to_rows NumR E V tof r).
    set (ff := fun kv : string * V => (@doc_key NumR E (fst kv), tof (snd kv))).
    set (ix := rev (e_argsort E (map snd rows))).
    assert (Hlen : length (map snd rows) = length r) by (unfold rows, to_rows; now rewrite !map_length).
    assert (Hix : Permutation ix (seq 0 (length r))).
    { unfold ix. rewrite <- Permutation_rev, <- Hlen. apply (argsort_perm E HE). }
    assert (Hin : forall i, In i ix -> i < length r).
    { intros i Hi. apply (Permutation_in _ Hix), in_seq in Hi. lia. }
    split; [|split].
    + rewrite <- (map_nth_seq r d0) at 1. apply Permutation_map, Permutation_sym, Hix.
    + apply StronglySorted_map.
      assert (Hs := argsort_sorted E HE (map snd rows)).
      assert (Hn : Forall (fun x => is_nan x = false) (map snd rows)) by (apply Forall_forall; intros; apply is_nan_R).
      specialize (Hs Hn). apply StronglySorted_map in Hs. apply StronglySorted_rev in Hs. fold ix in Hs.
      assert (Hnth : forall i, i < length r -> nth i (map snd rows) (@fzero NumR) = tof (snd (nth i r d0))).
      { intros i Hi. rewrite (nth_indep _ _ (tof (snd d0))) by exact (eq_ind_r (fun n => i < n) Hi Hlen).
        unfold rows, to_rows. rewrite map_map. apply (map_nth (fun kv => tof (snd kv))). }
      clearbody ix. clear Hix. induction ix as [|a l IH]; [constructor|]. inversion Hs as [|? ? H1 H2]; subst. constructor.
      * apply IH; auto. intros; apply Hin; now right.
      * rewrite Forall_forall in *. intros b Hb. specialize (H2 b Hb). apply Rleb_true in H2.
        rewrite !Hnth in H2; auto; apply Hin; [now left|now right].
    + unfold descending_sort. fold rows ix. unfold to_rows at 1. rewrite map_map. apply map_ext_in. intros i Hi.
      rewrite (nth_indep _ _ (ff d0)).
      * apply (map_nth ff).
      * specialize (Hin i Hi). rewrite map_length in Hlen. exact (eq_ind_r (fun n => i < n) Hin Hlen).
Qed.

Lemma nonempty_checks {V} (m : dict (dict V)) : dict_ok m -> no_empty_query m ->
  (length m =? 0) || existsb (fun r => length r =? 0) (dvals m) = false.
Proof.
  intros Hok [H1 H2]. apply orb_false_iff. split.
  - destruct m; [contradiction|reflexivity].
  - apply Bool.not_true_iff_false. intros H. apply existsb_exists in H as (r & Hr & Hl).
    unfold dvals in Hr. apply in_map_iff in Hr as ([q r'] & <- & Hin). apply (in_dget m q r' Hok) in Hin.
    apply H2 in Hin. cbn in Hl. now destruct r'.
Qed.

(** the converted judgments of a dict, for values [V] with float conversion [tof] *)
Lemma dict_typed {V} (tof : V -> R) (m : dict (dict V)) : dict2_ok m -> no_empty_query m ->
  let m' := map (fun qj => (fst qj, map (fun kv => (fst kv, tof (snd kv))) (snd qj))) m in
  exists jf, @python_dict_to_typed_list NumR E m' = Ok (map (fun q => @to_rows NumR E V tof (jf q)) (dkeys m)) /\
    forall q, Permutation (of_query m q) (jf q) /\ StronglySorted (fun a b => (tof (snd b) <= tof (snd a))%R) (jf q).
Proof.
  intros Hok Hne m'. unfold python_dict_to_typed_list.
  assert (Hm' : dvals m' = map (map (fun kv => (fst kv, tof (snd kv)))) (dvals m)).
  { unfold m', dvals. rewrite !map_map. reflexivity. }
  assert (Hc : (length m' =? 0) || existsb (fun r => length r =? 0) (dvals m') = false).
  { rewrite Hm'. unfold m'. rewrite map_length. rewrite <- (nonempty_checks m (proj1 Hok) Hne). f_equal.
    clear. induction (dvals m) as [|r l IH]; [reflexivity|]. cbn. rewrite map_length. now rewrite IH. }
  exists (fun q => dsorted tof (of_query m q)). split.
  - match goal with |- (if ?b then _ else _) = _ => replace b with false by (symmetry; exact Hc) end.
    f_equal. rewrite inplace_map by apply (sched_perm E HE).
    transitivity (map (@descending_sort NumR E) (map (@to_rows NumR E R (fun v => v)) (map (map (fun kv => (fst kv, tof (snd kv)))) (dvals m)))).
    { do 2 f_equal. exact Hm'. }
    rewrite (dvals_of_keys m (proj1 Hok)), !map_map. apply map_ext_in. intros q Hq.
    destruct (dsorted_spec tof (of_query m q)) as (_ & _ & H3).
    rewrite <- H3. f_equal. unfold to_rows. rewrite map_map. reflexivity.
  - intros q. destruct (dsorted_spec tof (of_query m q)) as (H1 & H2 & _). auto.
Qed.
End S.
