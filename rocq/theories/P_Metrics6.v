(** P_Metrics6.v: the parallel drivers and the public metric functions. *)
From Coq Require Import Reals Lra Psatz.
From Verif Require Import Base Dict Num NumLaws Env M_Common M_Qrels M_Run M_Metrics Spec_Metrics
  Spec_MetricsAPI P_Base P_Dict P_Common P_Metrics P_Metrics2.
Open Scope list_scope.
Open Scope nat_scope.

(** For any number type: a parallel loop without failing iteration. *)
Lemma parallel_map {N : Num} {A} (E : env N) tag (init : A) (qs rs : list rows) f g :
  env_ok E -> Forall2 (fun q r => f q r = Ok (g q r)) qs rs ->
  parallel E tag init qs rs f = Ok (map (fun qr => g (fst qr) (snd qr)) (combine qs rs)).
Proof.
  intros HE H. unfold parallel.
  assert (Hlen : length qs = length (combine qs rs)).
  { clear - H. induction H; cbn; congruence. }
  assert (Hnth : forall i, i < length qs -> exists q r,
      nth_error qs i = Some q /\ nth_error rs i = Some r /\ f q r = Ok (g q r)).
  { clear - H. induction H as [|q r qs rs Hqr H IH]; intros i Hi; cbn in Hi; [lia|].
    destruct i; [exists q, r; auto|]. apply IH. lia. }
  assert (Hc : forall i q r, nth_error qs i = Some q -> nth_error rs i = Some r ->
      nth_error (combine qs rs) i = Some (q, r)).
  { clear. revert rs. induction qs as [|q0 qs IH]; intros [|r0 rs] [|i] q r H1 H2; cbn in *; try discriminate.
    - congruence.
    - auto. }
  rewrite (prange_r_ok _ _ _ _ (fun i => match nth_error (combine qs rs) i with Some (q, r) => g q r | None => init end)).
  - f_equal. rewrite Hlen. apply map_seq_nth_error. intros i [q r] Hi. now rewrite Hi.
  - apply sched_perm. exact HE.
  - intros i Hi. destruct (Hnth i Hi) as (q & r & H1 & H2 & H3). unfold nth_r. rewrite H1, H2. cbn [bindr].
    now rewrite (Hc i q r H1 H2).
Qed.

(** some iteration raises, all failing iterations raise the same exception *)
Lemma parallel_err {N : Num} {A} (E : env N) tag (init : A) (qs rs : list rows) f e :
  env_ok E -> length qs = length rs ->
  (forall q r, In (q, r) (combine qs rs) -> (exists a, f q r = Ok a) \/ f q r = Err e) ->
  (exists q r, In (q, r) (combine qs rs) /\ f q r = Err e) ->
  parallel E tag init qs rs f = Err e.
Proof.
  intros HE Hlen Hall (q & r & Hin & He). unfold parallel, prange_r.
  assert (Hidx : forall i, i < length qs -> exists q r, In (q, r) (combine qs rs) /\
     nth_error qs i = Some q /\ nth_error rs i = Some r).
  { clear - Hlen. revert rs Hlen. induction qs as [|q0 qs IH]; intros [|r0 rs] Hl [|i] Hi; cbn in *; try lia.
    - exists q0, r0. auto.
    - destruct (IH rs ltac:(lia) i ltac:(lia)) as (q & r & H & H1 & H2). exists q, r. auto. }
  assert (Hi : exists i, i < length qs /\ nth_error qs i = Some q /\ nth_error rs i = Some r).
  { clear - Hin Hlen. revert rs Hin Hlen. induction qs as [|q0 qs IH]; intros [|r0 rs] H Hl; cbn in *; try easy.
    destruct H as [H|H].
    - inversion H; subst. exists 0. repeat split; auto. lia.
    - destruct (IH rs H ltac:(lia)) as (i & H1 & H2 & H3). exists (S i). repeat split; auto. lia. }
  destruct Hi as (i & Hi & Hq & Hr).
  assert (Hord : forall n, In n (e_sched E tag (length qs)) <-> n < length qs).
  { intros n. pose proof (sched_perm E HE tag (length qs)) as Hp.
    split; intros H.
    - apply (Permutation_in _ Hp) in H. apply in_seq in H. lia.
    - apply (Permutation_in _ (Permutation_sym Hp)). apply in_seq. lia. }
  assert (Hi' : In i (e_sched E tag (length qs))) by now apply Hord.
  assert (Hall' : forall n, In n (e_sched E tag (length qs)) -> n < length qs) by (intros; now apply Hord).
  generalize (repeat init (length qs)). clear Hord.
  induction (e_sched E tag (length qs)) as [|n l IH]; intros acc; [easy|]. cbn [foldr_m].
  destruct (Hidx n (Hall' n (or_introl eq_refl))) as (q' & r' & Hin' & Hq' & Hr').
  unfold nth_r at 1 2. rewrite Hq', Hr'. cbn [bindr].
  destruct Hi' as [->|Hi'].
  - replace q' with q by congruence. replace r' with r by congruence. rewrite He. reflexivity.
  - destruct (Hall q' r' Hin') as [(a & ->)| ->]; [|reflexivity]. cbn [bindr].
    apply IH; auto. intros; apply Hall'. now right.
Qed.

Section S.
Context (E : env NumR) (HE : env_ok E).
Notation Q js := (qrels_arg E js).
Notation RR rs := (run_arg E rs).

Lemma parallel_per_query {A} tag (init : A) f (s : dict Z -> list string -> A) (P : dict Z -> dict R -> Prop) js rs :
  (forall j r, query_ok E j r -> P j r -> f (qrows E j) (rrows E r) = Ok (s j (dkeys r))) ->
  aligned E js rs -> Forall2 P js rs ->
  parallel E tag init (Q js) (RR rs) f = Ok (per_query s js rs).
Proof.
  intros Hf Ha HP. unfold qrels_arg, run_arg.
  set (g := fun q r => match f q r with Ok a => a | Err _ => init end).
  rewrite (parallel_map E tag init _ _ f g HE).
  - f_equal. unfold per_query. clear HE. revert HP. induction Ha as [|j r js rs Hjr Ha IH]; intros HP; [reflexivity|].
    inversion HP; subst. cbn [map combine fst snd]. f_equal; [|now apply IH].
    unfold g. now rewrite Hf.
  - clear HE. revert HP. induction Ha as [|j r js rs Hjr Ha IH]; intros HP; cbn [map]; constructor.
    + inversion HP; subst. unfold g. now rewrite Hf.
    + apply IH. now inversion HP.
Qed.
Lemma Forall2_True {A B} (l1 : list A) (l2 : list B) (P : A -> B -> Prop) : Forall2 P l1 l2 -> Forall2 (fun _ _ => True) l1 l2.
Proof. induction 1; constructor; auto. Qed.

Lemma lift4_computes tag (f : @rows NumR -> @rows NumR -> nat -> Z -> R) s :
  (forall j r k lvl, dict_ok j -> ids_distinct (doc_key E) (dkeys j ++ dkeys r) ->
     f (qrows E j) (rrows E r) k lvl = s j lvl (dkeys r) k) ->
  computes E (@lift4 NumR E f tag) s.
Proof.
  intros Hf js rs k lvl Ha. unfold lift4, with_k, assertr.
  destruct (Z.ltb_spec k 0), (Z.leb_spec 0 k); try lia; [reflexivity|]. cbn [bindr].
  apply (parallel_per_query tag _ _ (fun j ds => s j lvl ds (Z.to_nat k)) (fun _ _ => True)).
  - intros j r (H1 & _ & H2) _. f_equal. now apply Hf.
  - exact Ha.
  - eapply Forall2_True, Ha.
Qed.
End S.
