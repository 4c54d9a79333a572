(** EnvEx.v: a concrete environment, showing that [env_ok] is satisfiable by a real
    sorting algorithm, for the reals and for binary64. *)
From Coq Require Import Reals.
From Verif Require Import Base Dict Num NumLaws Env P_Base P_Dict.
Open Scope list_scope.

Section Ex.
Context {N : Num}.

(** stable insertion argsort *)
Fixpoint as_insert (x : nat * F) (l : list (nat * F)) : list (nat * F) :=
  match l with
  | [] => [x]
  | y :: l' => if fleb (snd x) (snd y) then x :: l else y :: as_insert x l'
  end.
Definition as_sort (l : list (nat * F)) := fold_right as_insert [] l.
Definition ex_argsort (l : list F) : list nat := map fst (as_sort (enumerate l)).

Fixpoint nodup_str (l : list string) : list string :=
  match l with
  | [] => []
  | x :: l' => let r := nodup_str l' in if existsb (String.eqb x) r then r else x :: r
  end.

(** a toy hash: base-256 value of the string modulo 2^61 - 1 *)
Fixpoint ex_hash (s : string) : Z :=
  match s with
  | EmptyString => 0%Z
  | String c s' => ((Z.of_N (N_of_ascii c) + 256 * ex_hash s') mod (2 ^ 61 - 1))%Z
  end.

Definition env_ex : env N :=
  Env N ex_hash ex_argsort (fun _ n => seq 0 n) nodup_str.
(** the same with another thread schedule and another set order *)
Definition env_ex_rev : env N :=
  Env N ex_hash ex_argsort (fun _ n => rev (seq 0 n)) (fun l => rev (nodup_str l)).

Context (HL : NumLaws N).

Lemma as_insert_perm x l : Permutation (x :: l) (as_insert x l).
Proof.
  induction l as [|y l IH]; cbn; [reflexivity|].
  destruct (fleb (snd x) (snd y)); [reflexivity|].
  rewrite perm_swap. now apply perm_skip.
Qed.
Lemma as_sort_perm l : Permutation l (as_sort l).
Proof.
  induction l as [|x l IH]; cbn; [constructor|].
  rewrite <- as_insert_perm. now apply perm_skip.
Qed.

Let nn (x : nat * F) := is_nan (snd x) = false.
Let le (a b : nat * F) := fleb (snd a) (snd b) = true.

Lemma as_insert_sorted x l : nn x -> Forall nn l -> StronglySorted le l -> StronglySorted le (as_insert x l).
Proof.
  intros Hx. induction l as [|y l IH]; intros Hn H; cbn; [repeat constructor|].
  inversion H as [|? ? Hs Hf]; subst. inversion Hn; subst.
  destruct (fleb (snd x) (snd y)) eqn:Hxy.
  - constructor; [assumption|]. constructor; [exact Hxy|].
    eapply Forall_impl; [|exact Hf]. intros a Ha. unfold le in *. eapply law_le_trans; eauto.
  - constructor; [now apply IH|].
    assert (Hyx : le y x).
    { unfold le. destruct (law_le_total (snd x) (snd y)); auto. congruence. }
    rewrite Forall_forall in *. intros a Ha.
    apply (Permutation_in _ (Permutation_sym (as_insert_perm x l))) in Ha as [<-|Ha]; auto.
Qed.
Lemma as_sort_sorted l : Forall nn l -> StronglySorted le (as_sort l).
Proof.
  induction 1 as [|x l Hx Hl IH]; cbn; [constructor|]. apply as_insert_sorted; auto.
  rewrite Forall_forall in *. intros a Ha. apply Hl.
  apply (Permutation_in _ (Permutation_sym (as_sort_perm l))). exact Ha.
Qed.

Lemma nodup_str_in l x : In x (nodup_str l) <-> In x l.
Proof.
  induction l as [|y l IH]; cbn; [tauto|].
  destruct (existsb (String.eqb y) (nodup_str l)) eqn:He; cbn; rewrite IH.
  - split; [tauto|]. intros [->|]; [|assumption].
    apply existsb_exists in He as (z & Hz & Heq). apply String.eqb_eq in Heq. subst z.
    now apply IH.
  - tauto.
Qed.
Lemma nodup_str_nodup l : NoDup (nodup_str l).
Proof.
  induction l as [|y l IH]; cbn; [constructor|].
  destruct (existsb (String.eqb y) (nodup_str l)) eqn:He; [assumption|].
  constructor; [|assumption]. intros Hc.
  assert (existsb (String.eqb y) (nodup_str l) = true) by
    (apply existsb_exists; exists y; split; [assumption|apply String.eqb_refl]).
  congruence.
Qed.

Lemma ex_argsort_perm l : Permutation (ex_argsort l) (seq 0 (length l)).
Proof.
  unfold ex_argsort. rewrite <- (enum_from_fst l 0). apply Permutation_map.
  apply Permutation_sym, as_sort_perm.
Qed.
Lemma ex_argsort_sorted l : Forall (fun x => is_nan x = false) l ->
  StronglySorted (fun a b => fleb a b = true) (map (fun i => nth i l fzero) (ex_argsort l)).
Proof.
  intros H. unfold ex_argsort. rewrite map_map.
  assert (Hs : StronglySorted le (as_sort (enumerate l))).
  { apply as_sort_sorted. apply Forall_forall. intros [i x] Hi. unfold nn. cbn.
    apply enumerate_in, nth_error_In in Hi. rewrite Forall_forall in H. auto. }
  assert (Heq : map (fun x => nth (fst x) l fzero) (as_sort (enumerate l))
                = map snd (as_sort (enumerate l))).
  { apply map_ext_in. intros [i x] Hi. cbn.
    apply (Permutation_in _ (Permutation_sym (as_sort_perm (enumerate l)))) in Hi.
    apply enumerate_in in Hi. now apply nth_error_nth. }
  rewrite Heq. clear Heq. induction Hs as [|a t Hs IH Hf]; cbn; constructor; auto.
  rewrite Forall_forall in *. intros b Hb. apply in_map_iff in Hb as (c & <- & Hc). now apply Hf.
Qed.

Lemma env_ex_ok : env_ok env_ex.
Proof.
  split; cbn.
  - apply ex_argsort_perm.
  - apply ex_argsort_sorted.
  - reflexivity.
  - apply nodup_str_nodup.
  - apply nodup_str_in.
Qed.

Lemma env_ex_rev_ok : env_ok env_ex_rev.
Proof.
  split; cbn.
  - apply ex_argsort_perm.
  - apply ex_argsort_sorted.
  - intros _ n. apply Permutation_sym, Permutation_rev.
  - intros l. apply NoDup_rev, nodup_str_nodup.
  - intros l x. rewrite <- in_rev. apply nodup_str_in.
Qed.
End Ex.

(** binary64 without transcendental functions: for executable examples *)
Definition sf0 (x : sf) : sf := x.
Definition NumSF : Num := NumSF_with sf0 sf0 (fun x _ => x).
Lemma NumSF_ok : NumLaws NumSF.
Proof. apply NumSF_laws. Qed.

(** equality by evaluation in the kernel's virtual machine, without reading the
    normal form back *)
Ltac vmr := match goal with |- _ = ?b => vm_cast_no_check (eq_refl b) end.
