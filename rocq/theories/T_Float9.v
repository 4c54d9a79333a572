(** T_Float9.v: theorems C98: dcg, bpref and interpolated precision in binary64 arithmetic *)
From Coq Require Import Reals ZArith Lra Lia SpecFloat Psatz List String Sorted Permutation.
From Flocq Require Import Core.Core IEEE754.BinarySingleNaN.
From Verif Require Import Base Dict Num NumLaws Env M_Common M_Qrels M_Run M_Metrics Spec_Metrics Spec_MetricsAPI Spec_Float Spec_Float5
  P_Base P_Dict P_Metrics P_Metrics2 P_Metrics3 P_Metrics4 P_Metrics5 P_Metrics7 T_Metrics T_Metrics2 EnvEx
  P_Float P_MetricsG P_Float2 P_Float3 P_Float4 P_Float5 P_Float6 P_Float7 P_Float17 P_Float18 T_Float T_Float2.
Import ListNotations.
Open Scope list_scope.
Open Scope R_scope.

(** dcg agrees with the exact value up to (c + 1 + length) roundings, is never negative, and 0 only if the exact value is *)
Theorem C98_dcg : forall l1 l2 pw (E : @env (NumSF_with l1 l2 pw)) c, env_ok E -> log2_accurate c l2 -> (c <= 1000)%nat ->
  computes64 E (@dcg (NumSF_with l1 l2 pw) E) (fun j lvl ds k x => (1 <= lvl)%Z -> near_gain (c + 1 + length (top ds k)) x (S_dcg j lvl ds k)).
Proof.
  intros l1 l2 pw E c HE Hlog Hc. apply lift64; [exact HE|]. intros j r lvl k Q Hk Hl.
  assert (Hp : true = false -> pow2_exact pw) by discriminate. assert (Hg : true = false -> Forall (fun dv => (snd dv <= 53)%Z) j) by discriminate.
  replace (c + 1 + length (top (dkeys r) k))%nat with (S c + length (top (dkeys r) k))%nat by lia.
  exact (dcg_64 l1 l2 pw c Hlog Hc true Hp E lvl j r Q Hl Hg k).
Qed.
Theorem C98_dcg_burges : forall l1 l2 pw (E : @env (NumSF_with l1 l2 pw)) c, env_ok E -> log2_accurate c l2 -> (c <= 1000)%nat -> pow2_exact pw ->
  computes64 E (@dcg_burges (NumSF_with l1 l2 pw) E) (fun j lvl ds k x => (1 <= lvl)%Z -> Forall (fun dv => (snd dv <= 53)%Z) j ->
    near_gain (c + 1 + length (top ds k)) x (S_dcg_burges j lvl ds k)).
Proof.
  intros l1 l2 pw E c HE Hlog Hc Hpw. apply lift64; [exact HE|]. intros j r lvl k Q Hk Hl Hg0.
  assert (Hp : false = false -> pow2_exact pw) by auto. assert (Hg : false = false -> Forall (fun dv => (snd dv <= 53)%Z) j) by auto.
  replace (c + 1 + length (top (dkeys r) k))%nat with (S c + length (top (dkeys r) k))%nat by lia.
  exact (dcg_64 l1 l2 pw c Hlog Hc false Hp E lvl j r Q Hl Hg k).
Qed.

(** bpref, if every query has relevant and judged non-relevant documents *)
Theorem C98_bpref : forall l1 l2 pw (E : @env (NumSF_with l1 l2 pw)), env_ok E -> forall js rs k lvl, Forall2 (query64 E lvl) js rs ->
  Forall (fun j => n_relevant j lvl <> 0%nat /\ n_judged_nonrelevant j lvl <> 0%nat) js ->
  exists xs, @bpref (NumSF_with l1 l2 pw) E (qrels_arg64 E js) (run_arg64 E rs) k lvl = Ok xs /\
    Forall2 (fun jr x => close_score (count (relevant (fst jr) lvl) (dkeys (snd jr)) + 1) x (S_bpref (fst jr) lvl (dkeys (snd jr)))) (combine js rs) xs.
Proof.
  intros l1 l2 pw E HE js rs k lvl Hq Hn. unfold bpref.
  set (g := fun q r : @rows (NumSF_with l1 l2 pw) => match @_bpref (NumSF_with l1 l2 pw) q r lvl with Ok x => x | Err _ => @fzero (NumSF_with l1 l2 pw) end).
  exists (map (fun qr => g (fst qr) (snd qr)) (combine (qrels_arg64 E js) (run_arg64 E rs))).
  assert (H1 : forall j r, query64 E lvl j r -> n_relevant j lvl <> 0%nat /\ n_judged_nonrelevant j lvl <> 0%nat -> exists x,
    @_bpref (NumSF_with l1 l2 pw) (@to_rows (NumSF_with l1 l2 pw) E Z (@q_tof (NumSF_with l1 l2 pw)) j) (@to_rows (NumSF_with l1 l2 pw) E sf (@r_tof (NumSF_with l1 l2 pw)) r) lvl = Ok x /\ close_score (count (relevant j lvl) (dkeys r) + 1) x (S_bpref j lvl (dkeys r))).
  { intros j r Q (A & B). rewrite Nat.add_1_r. exact (bpref_64 l1 l2 pw E lvl j r Q A B). }
  split.
  - apply P_Metrics6.parallel_map; [exact HE|]. unfold qrels_arg64, run_arg64. clear - H1 Hq Hn. induction Hq as [|j r js rs Hjr Hq IH]; cbn [map]; constructor; inversion Hn; subst.
    + unfold g. destruct (H1 j r Hjr) as (x & Hx & _); [assumption|]. etransitivity; [exact Hx|]. apply f_equal. symmetry. exact (f_equal (fun o => match o with Ok x => x | Err _ => @fzero (NumSF_with l1 l2 pw) end) Hx).
    + now apply IH.
  - unfold qrels_arg64, run_arg64. clear - H1 Hq Hn. induction Hq as [|j r js rs Hjr Hq IH]; cbn [map combine]; constructor; inversion Hn; subst.
    + unfold g. cbn [fst snd]. destruct (H1 j r Hjr) as (x & Hx & Hc); [assumption|].
      refine (eq_ind_r (fun y => close_score _ y _) Hc (f_equal (fun o => match o with Ok x => x | Err _ => @fzero (NumSF_with l1 l2 pw) end) Hx)).
    + now apply IH.
Qed.

(** interpolated precision at the 11 recall levels *)
Theorem C98_interpolated : forall l1 l2 pw (E : @env (NumSF_with l1 l2 pw)), env_ok E -> forall js rs lvl, Forall2 (query64 E lvl) js rs ->
  Forall (fun j => (Z.of_nat (length j) <= 2 ^ 45)%Z) js ->
  exists xss, @interpolated_precision_at_recall (NumSF_with l1 l2 pw) E (qrels_arg64 E js) (run_arg64 E rs) lvl = Ok xss /\
    Forall2 (fun jr xs => curve64 (fst jr) lvl (dkeys (snd jr)) xs) (combine js rs) xss.
Proof.
  intros l1 l2 pw E HE js rs lvl Hq Hn. unfold interpolated_precision_at_recall, qrels_arg64, run_arg64.
  eexists. split; [apply (P_Metrics6.parallel_map E "iprec" _ _ _ _ (fun q r => @_interpolated_precision (NumSF_with l1 l2 pw) q r lvl) HE)|].
  - clear - Hq. induction Hq; cbn; constructor; auto.
  - clear - Hq Hn. induction Hq as [|j r js rs Hjr Hq IH]; cbn [map combine]; constructor; inversion Hn; subst.
    + cbn [fst snd]. now apply curve_64.
    + now apply IH.
Qed.
(** Recall level 7/10 of three relevant documents asks for 3 documents; binary64 computes 2.1 + 0.9 < 3 and asks for 2. *)
Open Scope string_scope.
Definition j_ip : dict Z := [("a", 1%Z); ("b", 1%Z); ("c", 1%Z)].
Definition r_ip : dict sf := [("a", sf_of_Z 5); ("b", sf_of_Z 4); ("x", sf_of_Z 3); ("c", sf_of_Z 2)].
Lemma ip_query : query64 E64 1 j_ip r_ip.
Proof.
  split; [apply nodupb_ok; reflexivity|apply nodupb_ok; reflexivity| |repeat constructor; cbn; unfold small; lia|unfold small; lia|cbn; lia|cbn; lia]. apply ids_ex. vm_compute. reflexivity.
Qed.
Lemma ip_cut7 : @ip_cutoff N64c 7 3 = 2%nat.
Proof. vm_compute. reflexivity. Qed.
Theorem C98_interpolated_refuted : exists j r xs x, query64 E64 1 j r /\
  @interpolated_precision_at_recall N64c E64 (qrels_arg64 E64 [j]) (run_arg64 E64 [r]) 1 = Ok [xs] /\ nth_error xs 7 = Some x /\
  is64 x 1 /\ S_interpolated j 1 (dkeys r) (recall_cutoff 7 (n_relevant j 1)) = 3 / 4.
Proof.
  exists j_ip, r_ip. pose proof (interpolated_f sf0 log2_64 pow_64 E64 1 j_ip r_ip ip_query ltac:(discriminate)) as Hf.
  exists (@_interpolated_precision N64c (@to_rows N64c E64 Z (@q_tof N64c) j_ip) (@to_rows N64c E64 sf (@r_tof N64c) r_ip) 1), (ip_at sf0 log2_64 pow_64 1 j_ip r_ip 2).
  split; [exact ip_query|]. split; [|split; [|split]].
  - unfold interpolated_precision_at_recall, qrels_arg64, run_arg64. cbn [map].
    apply (P_Metrics6.parallel_map E64 "iprec" _ [_] [_] _ (fun q r => @_interpolated_precision N64c q r 1) E64_ok). repeat constructor.
  - rewrite Hf. cbn [map seq nth_error]. apply f_equal. change (n_relevant j_ip 1) with 3%nat. rewrite ip_cut7. reflexivity.
  - pose proof (ip_at_64 sf0 log2_64 pow_64 E64 1 j_ip r_ip ip_query 2) as H. replace (S_interpolated j_ip 1 (dkeys r_ip) 2) with 1 in H; [rewrite (rnd_fmt 1 fmt_1) in H; exact H|].
    unfold S_interpolated, precision_at. cbn. unfold Rmax. repeat (match goal with |- context [Rle_dec ?a ?b] => destruct (Rle_dec a b) end); lra.
  - unfold S_interpolated, precision_at. cbn. unfold Rmax. repeat (match goal with |- context [Rle_dec ?a ?b] => destruct (Rle_dec a b) end); lra.
Qed.
Print Assumptions C98_dcg.
Print Assumptions C98_dcg_burges.
Print Assumptions C98_bpref.
Print Assumptions C98_interpolated.
Print Assumptions C98_interpolated_refuted.

(** the hypotheses are met: log2_64_accurate, pow_64_exact and j64_query (T_Float2.v), and *)
Example C98_example : exists x, @bpref N64c E64 (qrels_arg64 E64 [j64]) (run_arg64 E64 [r64]) 0 1 = Ok [x] /\ is64 x 1.
Proof.
  destruct (C98_bpref sf0 log2_64 pow_64 E64 E64_ok [j64] [r64] 0%Z 1%Z) as (xs & Hx & H).
  - constructor; [apply j64_query|constructor].
  - constructor; [split; cbn; lia|constructor].
  - inversion H as [|? x ? l (_ & v & Fv & _ & _ & H1) Hn]; subst. inversion Hn; subst. exists x. split; [exact Hx|]. cbn [fst snd] in H1. rewrite H1 in Fv; [exact Fv|].
    unfold S_bpref, Rsum_n. cbn. lra.
Qed.
Example C98_example_interpolated : Forall2 (query64 E64 1) [j64] [r64] /\ Forall (fun j => (Z.of_nat (length j) <= 2 ^ 45)%Z) [j64].
Proof. split; [constructor; [apply j64_query|constructor]|constructor; [cbn; lia|constructor]]. Qed.
