(** T_Compare4.v: Fisher's randomization test (C62) *)
From Coq Require Import Lia Permutation Reals Lra SpecFloat.
From Verif Require Import Base Dict Num NumLaws Env EnvEx M_Common M_Qrels M_Run M_Metrics M_Text M_Evaluate M_Compare
  Spec_Metrics Spec_Eval Spec_Fisher P_Base P_Metrics P_Eval3.
Open Scope string_scope.
Open Scope list_scope.
Open Scope nat_scope.

Lemma permute_fst (sw : nat -> bool) : forall (a b : list R) k, length a = length b ->
  map fst (map (fun iab : nat * (R * R) => if sw (fst iab) then (snd (snd iab), fst (snd iab)) else snd iab) (enum_from k (combine a b))) =
  map (fun q => if sw q then nth (q - k) b 0%R else nth (q - k) a 0%R) (seq k (length a)).
Proof.
  induction a as [|u a IH]; intros [|v b] k Hl; cbn in Hl; try discriminate; [reflexivity|]. injection Hl as Hl.
  cbn [combine enum_from map fst snd length seq]. f_equal.
  - rewrite Nat.sub_diag. destruct (sw k); reflexivity.
  - rewrite (IH b (S k) Hl). apply map_ext_in. intros q Hq. apply in_seq in Hq. replace (q - k) with (S (q - S k)) by lia. reflexivity.
Qed.
Lemma permute_snd (sw : nat -> bool) : forall (a b : list R) k, length a = length b ->
  map snd (map (fun iab : nat * (R * R) => if sw (fst iab) then (snd (snd iab), fst (snd iab)) else snd iab) (enum_from k (combine a b))) =
  map (fun q => if sw q then nth (q - k) a 0%R else nth (q - k) b 0%R) (seq k (length b)).
Proof.
  induction a as [|u a IH]; intros [|v b] k Hl; cbn in Hl; try discriminate; [reflexivity|]. injection Hl as Hl.
  cbn [combine enum_from map fst snd length seq]. f_equal.
  - rewrite Nat.sub_diag. destruct (sw k); reflexivity.
  - rewrite (IH b (S k) Hl). apply map_ext_in. intros q Hq. apply in_seq in Hq. replace (q - k) with (S (q - S k)) by lia. reflexivity.
Qed.
Lemma mixed_fst sw (a b : list R) : length a = length b -> map fst (@permute NumR sw (combine a b)) = mixed sw a b.
Proof.
  intros H. etransitivity; [exact (permute_fst sw a b 0 H)|]. unfold mixed. apply map_ext. intros q. now rewrite Nat.sub_0_r.
Qed.
Lemma mixed_snd sw (a b : list R) : length a = length b -> map snd (@permute NumR sw (combine a b)) = mixed sw b a.
Proof.
  intros H. etransitivity; [exact (permute_snd sw a b 0 H)|]. unfold mixed. apply map_ext. intros q. now rewrite Nat.sub_0_r.
Qed.
Lemma mean_01 {A} (p : A -> bool) (l : list A) : mean_of (map (fun i => if p i then 1%R else 0%R) l) = (INR (length (filter p l)) / INR (length l))%R.
Proof.
  unfold mean_of. rewrite map_length. f_equal. rewrite Rsum_indicator. now rewrite count_filter.
Qed.

Lemma fisher_unfold : forall (N : Num) (E : env N) rand (a b : list F) n max_p, length a = length b ->
  fisher_randomization_test E rand a b n max_p =
  (let p := fmean (prange (e_sched E "fisher" n) n fzero
      (fun i => if fleb (fabs (fsub (fmean a) (fmean b))) (fabs (fsub (fmean (map fst (permute (rand i) (combine a b)))) (fmean (map snd (permute (rand i) (combine a b)))))) then fone else fzero)) in
   Ok (p, fleb p max_p)).
Proof. intros N E rand a b n max_p Hl. unfold fisher_randomization_test. rewrite (proj2 (Nat.eqb_eq _ _) Hl). reflexivity. Qed.

(** ** C62: for every stream of random permutations the p-value is the fraction of the permutations
    whose difference of means is at least the observed one; significant iff it is at most max_p. *)
Theorem C62_frequency : forall (E : env NumR), env_ok E -> forall (rand : nat -> nat -> bool) (a b : list R) n (max_p : R),
  length a = length b -> 0 < n ->
  exists sig, @fisher_randomization_test NumR E rand a b n max_p = Ok (randomization_p a b rand n, sig) /\
    (sig = true <-> (randomization_p a b rand n <= max_p)%R) /\ (0 <= randomization_p a b rand n <= 1)%R.
Proof.
  intros E HE rand a b n max_p Hl Hn.
  assert (Hp : @fmean NumR (prange (e_sched E "fisher" n) n (@fzero NumR)
      (fun i => if @fleb NumR (fabs (fsub (fmean a) (fmean b))) (fabs (fsub (fmean (map fst (permute (rand i) (combine a b)))) (fmean (map snd (permute (rand i) (combine a b)))))) then @fone NumR else @fzero NumR)) = randomization_p a b rand n).
  { rewrite prange_spec by apply HE. etransitivity; [exact (fmean_R _)|].
    transitivity (mean_of (map (fun i => if extreme a b (rand i) then 1%R else 0%R) (seq 0 n))).
    - f_equal. apply map_ext. intros i. rewrite (mixed_fst (rand i) a b Hl), (mixed_snd (rand i) a b Hl), !fmean_R.
      unfold extreme, mean_gap. numR. unfold Rleb, fone, fzero.
      match goal with |- (if (if ?d then _ else _) then _ else _) = _ => destruct d end; reflexivity.
    - rewrite mean_01, seq_length. reflexivity. }
  eexists. split.
  { etransitivity; [exact (fisher_unfold NumR E rand a b n max_p Hl)|]. exact (f_equal (fun p : R => Ok (p, @fleb NumR p max_p)) Hp). }
  split; [numR; apply Rleb_true|].
  unfold randomization_p. set (k := length _). assert (Hk : k <= n) by (unfold k; rewrite <- (seq_length n 0) at 2; clear; induction (seq 0 n) as [|i l IH]; cbn; [lia|]; destruct (extreme a b (rand i)); cbn; lia).
  assert (Hn0 : (0 < INR n)%R) by (apply lt_0_INR; lia). pose proof (pos_INR k) as Hk0. apply le_INR in Hk. unfold Rdiv. split.
  - apply Rmult_le_pos; [exact Hk0|]. left. now apply Rinv_0_lt_compat.
  - apply (Rmult_le_reg_r (INR n)); [exact Hn0|]. rewrite Rmult_assoc, Rinv_l by lra. lra.
Qed.

(** Arrays of different lengths are refused. *)
Theorem C62_lengths : forall (N : Num) (E : env N) rand (a b : list F) n max_p, length a <> length b ->
  fisher_randomization_test E rand a b n max_p = Err ValueError.
Proof. intros N E rand a b n max_p H. unfold fisher_randomization_test. destruct (Nat.eqb_spec (length a) (length b)); [contradiction|reflexivity]. Qed.

(** Systems with equal means (in particular identical ones) get p = 1: never significant below 1. *)
Theorem C62_equal_means : forall (E : env NumR), env_ok E -> forall (rand : nat -> nat -> bool) (a b : list R) n (max_p : R),
  length a = length b -> 0 < n -> mean_of a = mean_of b -> (max_p < 1)%R ->
  @fisher_randomization_test NumR E rand a b n max_p = Ok (1%R, false).
Proof.
  intros E HE rand a b n max_p Hl Hn Hm Hmax. destruct (C62_frequency E HE rand a b n max_p Hl Hn) as (sig & He & Hs & _). rewrite He.
  assert (H1 : randomization_p a b rand n = 1%R).
  { unfold randomization_p. assert (Hf : filter (fun i => extreme a b (rand i)) (seq 0 n) = seq 0 n).
    { induction (seq 0 n) as [|i l IH]; cbn [filter]; [reflexivity|]. unfold extreme at 1.
      destruct (Rle_dec _ _) as [|Hc]; [now rewrite IH|]. exfalso. apply Hc. unfold mean_gap. rewrite (Rminus_diag_eq _ _ Hm), Rabs_R0. apply Rabs_pos. }
    rewrite Hf, seq_length. apply Rinv_r. apply not_0_INR. lia. }
  rewrite H1 in *. f_equal. f_equal. destruct sig; [|reflexivity]. exfalso. pose proof (proj1 Hs eq_refl). lra.
Qed.

(** Exchanging control and treatment with the same permutations gives the same result. *)
Theorem C62_symmetric : forall (E : env NumR), env_ok E -> forall (rand : nat -> nat -> bool) (a b : list R) n (max_p : R), 0 < n ->
  @fisher_randomization_test NumR E rand b a n max_p = @fisher_randomization_test NumR E rand a b n max_p.
Proof.
  intros E HE rand a b n max_p Hn. destruct (Nat.eq_dec (length a) (length b)) as [Hl|Hl].
  2: { etransitivity; [exact (C62_lengths NumR E rand b a n max_p (not_eq_sym Hl))|]. symmetry. exact (C62_lengths NumR E rand a b n max_p Hl). }
  destruct (C62_frequency E HE rand a b n max_p Hl Hn) as (s1 & H1 & G1 & _). destruct (C62_frequency E HE rand b a n max_p (eq_sym Hl) Hn) as (s2 & H2 & G2 & _).
  assert (Hp : randomization_p b a rand n = randomization_p a b rand n).
  { unfold randomization_p. f_equal. f_equal. f_equal. apply filter_ext. intros i. unfold extreme.
    assert (Hg : forall u v, mean_gap u v = mean_gap v u) by (intros u v; unfold mean_gap; apply Rabs_minus_sym).
    destruct (Rle_dec _ _) as [H|H], (Rle_dec _ _) as [H'|H']; try reflexivity; exfalso; rewrite (Hg b a), (Hg (mixed (rand i) b a)) in H; contradiction. }
  rewrite H1, H2, Hp in *. f_equal. f_equal. destruct s1, s2; try reflexivity; exfalso; intuition discriminate.
Qed.

(** The p-value does not depend on max_p, and what is significant at a level is at every higher one. *)
Theorem C62_threshold : forall (E : env NumR), env_ok E -> forall rand (a b : list R) n (p1 p2 : R) s1 s2 r1 r2, 0 < n -> (p1 <= p2)%R ->
  @fisher_randomization_test NumR E rand a b n p1 = Ok (r1, s1) -> @fisher_randomization_test NumR E rand a b n p2 = Ok (r2, s2) ->
  r1 = r2 /\ (s1 = true -> s2 = true).
Proof.
  intros E HE rand a b n p1 p2 s1 s2 r1 r2 Hn Hle H1 H2. destruct (Nat.eq_dec (length a) (length b)) as [Hl|Hl].
  2: { pose proof (C62_lengths NumR E rand a b n p1 Hl) as Hx. rewrite Hx in H1. discriminate. }
  destruct (C62_frequency E HE rand a b n p1 Hl Hn) as (t1 & K1 & G1 & _). destruct (C62_frequency E HE rand a b n p2 Hl Hn) as (t2 & K2 & G2 & _).
  rewrite H1 in K1. rewrite H2 in K2. injection K1 as -> ->. injection K2 as -> ->. split; [reflexivity|]. rewrite G1, G2. lra.
Qed.

(** concrete case on binary64: scores (1, 1) against (0, 0); two reassignments, one swapping the
    first query only (gap 0) and one swapping both (gap 1): p = 1/2 *)
Example ex_C62 : @fisher_randomization_test NumSF env_ex (fun i q => (q =? 0) || (i =? 1)) [@fofZ NumSF 1; @fofZ NumSF 1] [@fofZ NumSF 0; @fofZ NumSF 0] 2 (@fdec NumSF 1 2)
  = Ok (@fdec NumSF 5 1, false).
Proof. vmr. Qed.
(** no correction for the observed assignment: p can be 0 *)
Example ex_C62_zero : @fisher_randomization_test NumSF env_ex (fun i q => q =? 0) [@fofZ NumSF 1; @fofZ NumSF 1] [@fofZ NumSF 0; @fofZ NumSF 0] 2 (@fdec NumSF 1 2)
  = Ok (@fofZ NumSF 0, true).
Proof. vmr. Qed.
Print Assumptions C62_frequency.
Print Assumptions C62_equal_means.
Print Assumptions C62_symmetric.
Print Assumptions C62_threshold.
Print Assumptions C62_lengths.
