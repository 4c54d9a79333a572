(** T_Float4.v: theorem C80: the means that evaluate reports, in binary64 *)
From Coq Require Import Reals ZArith Lra Lia SpecFloat Psatz List Permutation String Sorted.
From Flocq Require Import Core.Core IEEE754.BinarySingleNaN.
From Verif Require Import Base Dict Num NumLaws Env EnvEx M_Common M_Qrels M_Run M_History M_Metrics M_Strings M_Evaluate Spec_Strings Spec_DS Spec_Hist Spec_Metrics Spec_Float Spec_Eval Spec_Float2
  P_Base P_Dict P_Metrics P_Metrics4 P_Metrics7 P_Float P_MetricsG P_Float2 P_Float3 P_Float4 P_Float5 P_Float8 P_Float9 P_Eval P_Eval3 P_EvalG T_Float T_Float2 T_Parse.
Import ListNotations.
Open Scope R_scope.

(** ** C80: the mean of scores between 0 and 1, for any order in which the scores are added up *)
Theorem C80_mean_any_order : forall c xs ss s, xs <> [] -> (Z.of_nat c <= 2 ^ 53)%Z -> (Z.of_nat (length xs) <= 2 ^ 52)%Z ->
  Forall2 (score64 c) xs ss -> sum_order xs s ->
  mean64 (c + length xs) (sf_div s (sf_of_Z (Z.of_nat (length xs)))) ss.
Proof. intros c xs ss s. apply (mean_any_order (fun x => x) (fun x => x) (fun x _ => x)). Qed.
Print Assumptions C80_mean_any_order.

Section Q.
Context {l1 l2 : sf -> sf} {pw : sf -> sf -> sf}.
Notation N64 := (NumSF_with l1 l2 pw).
Lemma query64_perm (E : @env N64) lvl j j' (r r' : dict sf) : query64 E lvl j r -> Permutation j j' -> Permutation r r' -> query64 E lvl j' r'.
Proof.
  intros Q Hj Hr. pose proof (Permutation_map fst Hj) as Kj. pose proof (Permutation_map fst Hr) as Kr. split.
  - unfold dict_ok. eapply Permutation_NoDup; [exact Kj|]. apply Q.
  - unfold dict_ok. eapply Permutation_NoDup; [exact Kr|]. exact (q64_r _ _ _ _ Q).
  - eapply ids_distinct_perm; [|exact (q64_ids _ _ _ _ Q)]. now apply Permutation_app.
  - eapply Permutation_Forall; [exact Hj|]. apply Q.
  - apply Q.
  - rewrite <- (Permutation_length Hj). apply Q.
  - exact (eq_ind _ (fun n => (Z.of_nat n <= 2 ^ 52)%Z) (q64_nr _ _ _ _ Q) _ (Permutation_length Hr)).
Qed.
Lemma Forall2_map2 {A B C} (P : B -> C -> Prop) (f : A -> B) (g : A -> C) l : (forall a, In a l -> P (f a) (g a)) -> Forall2 P (map f l) (map g l).
Proof. induction l as [|a l IH]; intros H; constructor; [apply H; now left|apply IH; intros; apply H; now right]. Qed.
Lemma Forall2_split {A B C} (P : A -> C -> Prop) (R : B -> C -> Prop) l xs : Forall2 (fun a x => exists s, P a s /\ R x s) l xs -> exists ss, Forall2 P l ss /\ Forall2 R xs ss.
Proof. induction 1 as [|a x l xs (s & Hp & Hr) H (ss & IH1 & IH2)]; [exists []; split; constructor|]. exists (s :: ss). split; constructor; auto. Qed.
End Q.

(** evaluate on a Qrels and a Run: every reported mean is the mean of the exact scores, up to roundings; it is a
    number between 0 and 1, 0 only if all scores are 0, and exactly 1.0 if all scores are 1. *)
Theorem C80_evaluate : forall l1 l2 pw (E : @env (NumSF_with l1 l2 pw)), env_ok E ->
  forall (y : Qrels) (x : Run (NumSF_with l1 l2 pw)) metrics std save mk (L : nat),
  sound_qrels y -> sound_run x -> q_map y <> [] -> (Z.of_nat (length (q_map y)) <= 2 ^ 52)%Z ->
  (mk = false -> same_queries (q_map y) (r_map x)) ->
  (forall q, length (of_query (r_map x) q) <= L)%nat -> (Z.of_nat L <= 2 ^ 52)%Z ->
  (forall s, In s metrics -> exists name k lvl,
     @extract_metric_and_params (NumSF_with l1 l2 pw) s = Ok (name, KInt k, lvl) /\ In name unit_metrics /\ (0 <= k)%Z /\ small k /\
     forall q, In q (dkeys (q_map y)) -> query64 E lvl (of_query (q_map y) q) (of_query (r_map x) q)) ->
  exists qs ranking means,
    Permutation qs (dkeys (q_map y)) /\
    (forall q, In q qs -> @ranks_in (NumSF_with l1 l2 pw) (of_query (r_map x) q) (ranking q)) /\
    returns_means metrics means (ev_res (evaluate E (QObj y) (RObj x) metrics true std save mk)) /\
    forall s name k lvl, In s metrics -> @extract_metric_and_params (NumSF_with l1 l2 pw) s = Ok (name, KInt k, lvl) ->
      exists ss, Forall2 (fun q v => metric_value name (of_query (q_map y) q) lvl (ranking q) (KInt k) v) qs ss /\
        mean64 (L + 6 + length qs) (means s) ss.
Proof.
  intros l1 l2 pw E HE y x metrics std save mk L Hy Hx Hne Hsz Hsame HL HLs Hm.
  pose proof (NumSF_laws l1 l2 pw) as HLaws. unfold NSF in HLaws.
  destruct (eval_pair_spec HLaws E HE y x mk Hy Hx Hsame) as (S1 & S2 & S3 & S4 & S5 & _).
  set (jm := fst (eval_pair E y x mk)) in *. set (rm := snd (eval_pair E y x mk)) in *. set (qs := str_sort (dkeys (q_map y))) in *.
  set (ranking := fun q => dkeys (of_query rm q)).
  assert (Hperm : Permutation qs (dkeys (q_map y))) by apply Permutation_sym, str_sort_perm.
  assert (Hlen : length qs = length (q_map y)) by (rewrite (Permutation_length Hperm); unfold dkeys; now rewrite map_length).
  assert (Hqs : qs <> []). { intros He. rewrite He in Hlen. destruct (q_map y); [easy|discriminate]. }
  assert (HLr : Forall (fun r => length r <= L)%nat (map (of_query rm) qs)).
  { apply Forall_map, Forall_forall. intros q Hq. rewrite <- (Permutation_length (S2 q Hq)). apply HL. }
  destruct (evaluate_means HLaws E HE y x metrics std save mk
     (fun s vs => forall name k lvl, @extract_metric_and_params (NumSF_with l1 l2 pw) s = Ok (name, KInt k, lvl) ->
        exists ss, Forall2 (fun q v => metric_value name (of_query (q_map y) q) lvl (ranking q) (KInt k) v) qs ss /\ Forall2 (score64 (L + 6)) vs ss) Hy Hx Hsame)
    as (scores & H1 & H2).
  { intros s Hs. destruct (Hm s Hs) as (name & k & lvl & He & Hn & Hk & Hks & HQ).
    assert (HQ' : Forall2 (query64 E lvl) (map (of_query jm) qs) (map (of_query rm) qs)).
    { apply Forall2_map2. intros q Hq. eapply query64_perm; [apply HQ|apply S1|now apply S2]. eapply Permutation_in; [exact Hperm|exact Hq]. }
    destruct (unit_array E HE name k lvl (map (of_query jm) qs) (map (of_query rm) qs) L Hn Hk Hks HQ' HLr) as (f & vs & F1 & F2 & F3).
    exists name, (KInt k), lvl, f, vs. split; [exact He|]. split; [exact F1|]. split; [exact F2|].
    apply Forall2_combine_map in F3. cbn [fst snd] in F3. split.
    - intros name' k' lvl' He'. assert (Hee : Ok (name, @KInt (NumSF_with l1 l2 pw) k, lvl) = Ok (name', KInt k', lvl')) by (rewrite <- He; exact He'). injection Hee as <- <- <-.
      apply Forall2_split in F3 as (ss & G1 & G2). exists ss. split; [|exact G2]. eapply Forall2_impl; [|exact G1]. intros q v. apply metric_value_perm; [apply S4|]. apply Permutation_sym, S1.
    - symmetry. exact (Forall2_len8 _ _ _ F3). }
  exists qs, ranking, (fun s => @fmean (NumSF_with l1 l2 pw) (scores s)). split; [exact Hperm|]. split.
  { intros q Hq. exists (of_query rm q). split; [now apply S2|]. split; [apply S3|reflexivity]. }
  split; [exact H2|]. intros s name k lvl Hs He. destruct (H1 s Hs name k lvl He) as (ss & G1 & G2). exists ss. split; [exact G1|].
  assert (Hl : length (scores s) = length qs) by (etransitivity; [exact (Forall2_len8 _ _ _ G2)|symmetry; exact (Forall2_len8 _ _ _ G1)]).
  rewrite <- Hl. apply (mean_any_order l1 l2 pw); [|lia| |exact G2|apply so_fsum].
  - intros Hz. rewrite Hz in Hl. destruct qs; [easy|discriminate].
  - refine (eq_ind_r (fun n => (Z.of_nat n <= 2 ^ 52)%Z) _ Hl). rewrite Hlen. exact Hsz.
Qed.
Print Assumptions C80_evaluate.

(** a run and a qrels with two queries that meet the hypotheses *)
Open Scope string_scope.
Definition y64 : Qrels := mkQrels [("q1", j64); ("q2", j64)] true None.
Definition x64 : Run N64c := @mkRun N64c [("q1", r64); ("q2", r64i)] true None [] [] [].
Example C80_example : exists out m v, ev_res (@evaluate N64c E64 (QObj y64) (RObj x64) ["map"] true false false false) = Ok (OutOne out) /\
  mean_part out = Some m /\ is64 m v /\ 0 <= v <= 1.
Proof.
  destruct (C80_evaluate sf0 log2_64 pow_64 E64 E64_ok y64 x64 ["map"] false false false 3) as (qs & ranking & means & H1 & H2 & H3 & H4).
  - split; [split; [apply nodupb_ok; reflexivity|]|intros _; split].
    + intros q r Hr. cbn in Hr. destruct (String.eqb q "q1"); [injection Hr as <-; apply j64_query|]. destruct (String.eqb q "q2"); [injection Hr as <-; apply j64_query|discriminate].
    + repeat constructor.
    + intros q r Hr. cbn in Hr. destruct (String.eqb q "q1"); [injection Hr as <-; apply j64_desc|]. destruct (String.eqb q "q2"); [injection Hr as <-; apply j64_desc|discriminate].
  - split; [split; [apply nodupb_ok; reflexivity|]|split; [|intros _; split]].
    + intros q r Hr. cbn in Hr. destruct (String.eqb q "q1"); [injection Hr as <-; apply nodupb_ok; reflexivity|]. destruct (String.eqb q "q2"); [injection Hr as <-; apply nodupb_ok; reflexivity|discriminate].
    + intros q d v. unfold dget2, x64, r64, r64i. cbn [r_map dget].
      repeat (match goal with |- context [String.eqb ?a ?b] => destruct (String.eqb a b) end); cbn [dget]; intros Hv; repeat (match type of Hv with context [String.eqb ?a ?b] => destruct (String.eqb a b) end); try discriminate; injection Hv as <-; reflexivity.
    + repeat constructor.
    + intros q r Hr. cbn in Hr. destruct (String.eqb q "q1"); [injection Hr as <-; repeat constructor|]. destruct (String.eqb q "q2"); [injection Hr as <-; repeat constructor|discriminate].
  - discriminate.
  - cbn. lia.
  - intros _ q. reflexivity.
  - intros q. unfold of_query. cbn. destruct (String.eqb q "q1"); [cbn; lia|]. destruct (String.eqb q "q2"); cbn; lia.
  - lia.
  - intros s [<-|[]]. exists "map", 0%Z, 1%Z. split; [vmr|]. split; [cbn; tauto|]. split; [lia|]. split; [unfold small; lia|].
    intros q [<-|[<-|[]]]; apply j64_query.
  - destruct H3 as (out & R1 & R2). destruct (H4 "map" "map" 0%Z 1%Z (or_introl eq_refl)) as (ss & _ & _ & v & V1 & V2 & _); [vmr|].
    exists out, (means "map"), v. split; [exact R1|]. split; [exact R2|]. split; [exact V1|exact V2].
Qed.
