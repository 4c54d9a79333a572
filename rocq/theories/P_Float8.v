(** P_Float8.v: means in binary64, for any order of summation *)
From Coq Require Import Reals ZArith Lra Lia SpecFloat Psatz List Permutation.
From Flocq Require Import Core.Core IEEE754.BinarySingleNaN.
From Verif Require Import Base Dict Num Env M_Common M_Qrels M_Run M_Metrics Spec_Metrics Spec_Float Spec_Eval Spec_Float2
  P_Base P_Dict P_Metrics P_Metrics4 P_Float P_MetricsG P_Float2 P_Float3 P_Float4 P_Float5.
Import ListNotations.
Open Scope R_scope.

Lemma Forall2_perm_l {A B} (P : A -> B -> Prop) l l' : Permutation l l' -> forall m, Forall2 P l' m -> exists m', Permutation m m' /\ Forall2 P l m'.
Proof.
  induction 1; intros m H2.
  - inversion H2; subst. exists []. auto.
  - inversion H2; subst. destruct (IHPermutation _ H5) as (m' & Hp & Hf). eexists (_ :: m'). split; [apply perm_skip; exact Hp|]. constructor; auto.
  - inversion H2; subst. inversion H4; subst. eexists (_ :: _ :: _). split; [apply perm_swap|]. repeat constructor; auto.
  - destruct (IHPermutation2 _ H2) as (m1 & Hp1 & H3). destruct (IHPermutation1 _ H3) as (m2 & Hp2 & H4). exists m2. split; [now transitivity m1|exact H4].
Qed.
Lemma list_sum_perm l l' : Permutation l l' -> list_sum l = list_sum l'.
Proof. unfold list_sum. induction 1; cbn; lia. Qed.
Lemma Rsum_perm' l l' : Permutation l l' -> Rsum l = Rsum l'.
Proof. induction 1; cbn [Rsum fold_right]; lra. Qed.
Lemma Forall2_len8 {A B} (P : A -> B -> Prop) l l' : Forall2 P l l' -> length l = length l'.
Proof. induction 1; cbn; auto. Qed.

Section S.
Variables (l1 l2 : sf -> sf) (pw : sf -> sf -> sf).
Notation N64 := (NumSF_with l1 l2 pw).

Lemma so_bound xs s : sum_order xs s -> forall bs, Forall2 (fun x b => exists r, is64 x r /\ 0 <= r <= INR b) xs bs -> small_n (list_sum bs) ->
  exists r, is64 s r /\ 0 <= r <= INR (list_sum bs).
Proof.
  induction 1 as [|x|xs ys a b Ha IHa Hb IHb|xs ys a Hp Ha IH]; intros bs H Hs.
  - inversion H; subst. exists 0. split; [apply (fin_zero l1 l2 pw)|cbn; lra].
  - inversion H as [|? y ? ? Hy Hn]; subst. inversion Hn; subst. cbn [list_sum fold_right]. rewrite Nat.add_0_r. exact Hy.
  - apply Forall2_app_inv_l in H as (b1 & b2 & H1 & H2 & ->). rewrite list_sum_app in *.
    destruct (IHa b1 H1) as (r1 & F1 & G1); [unfold small_n in *; lia|]. destruct (IHb b2 H2) as (r2 & F2 & G2); [unfold small_n in *; lia|].
    pose proof (small_n_R _ Hs) as Hbig. rewrite plus_INR in Hbig.
    exists (rnd64 (r1 + r2)). assert (H0 : 0 <= rnd64 (r1 + r2) <= INR (list_sum b1 + list_sum b2)).
    { split; [apply rnd_ge_fmt; [apply fmt_0|lra]|]. apply rnd_le_fmt; [now apply fmt_n|]. rewrite plus_INR. lra. }
    split; [|exact H0]. apply fin_add; [exact F1|exact F2|]. apply rnd_bounded. pose proof pow53_le_200. lra.
  - destruct (Forall2_perm_l _ _ _ Hp bs H) as (bs' & Hp' & H'). rewrite (list_sum_perm _ _ Hp') in *. now apply IH.
Qed.
Lemma so_exact xs s : sum_order xs s -> forall bs, Forall2 (fun x b => is64 x (INR b)) xs bs -> small_n (list_sum bs) -> is64 s (INR (list_sum bs)).
Proof.
  induction 1 as [|x|xs ys a b Ha IHa Hb IHb|xs ys a Hp Ha IH]; intros bs H Hs.
  - inversion H; subst. apply (fin_zero l1 l2 pw).
  - inversion H as [|? y ? ? Hy Hn]; subst. inversion Hn; subst. cbn [list_sum fold_right]. rewrite Nat.add_0_r. exact Hy.
  - apply Forall2_app_inv_l in H as (b1 & b2 & H1 & H2 & ->). rewrite list_sum_app in *. pose proof (fmt_n _ Hs) as Hf. rewrite <- (rnd_fmt _ Hf). rewrite plus_INR.
    pose proof (small_n_R _ Hs) as Hbig. rewrite plus_INR in Hbig.
    apply fin_add; [apply IHa; [exact H1|unfold small_n in *; lia]|apply IHb; [exact H2|unfold small_n in *; lia]|].
    apply rnd_bounded. pose proof (pos_INR (list_sum b1)). pose proof (pos_INR (list_sum b2)). pose proof pow53_le_200. lra.
  - destruct (Forall2_perm_l _ _ _ Hp bs H) as (bs' & Hp' & H'). rewrite (list_sum_perm _ _ Hp') in *. now apply IH.
Qed.
Lemma is64_fmt x r : is64 x r -> fmt r.
Proof. intros H. apply is64_b in H as (b & _ & _ & <-). apply generic_format_B2R. Qed.
(** adding 0 changes nothing *)
Lemma within_add0_l n x y s : within n x s -> is64 y 0 -> 0 <= s <= 2 ^ 53 * 2 ^ 53 -> (Z.of_nat n <= 2 * 2 ^ 53)%Z -> within n (sf_add y x) s.
Proof.
  intros (a & Ha & Na) Hy Hs Hn. exists a. split; [|exact Na]. pose proof (is64_fmt _ _ Ha) as Hf. rewrite <- (rnd_fmt _ Hf). replace (rnd64 a) with (rnd64 (0 + a)) by (f_equal; ring).
  apply fin_add; [exact Hy|exact Ha|]. rewrite Rplus_0_l. apply rnd_bounded. pose proof (pow_le_16 n Hn) as Hc. split; [eapply near_nonneg; [apply Hs|apply Hc|exact Na]|].
  destruct Na as [_ Na]. pose proof pow53_big. nra.
Qed.
Lemma within_add0_r n x y s : within n x s -> is64 y 0 -> 0 <= s <= 2 ^ 53 * 2 ^ 53 -> (Z.of_nat n <= 2 * 2 ^ 53)%Z -> within n (sf_add x y) s.
Proof.
  intros (a & Ha & Na) Hy Hs Hn. exists a. split; [|exact Na]. pose proof (is64_fmt _ _ Ha) as Hf. rewrite <- (rnd_fmt _ Hf). replace (rnd64 a) with (rnd64 (a + 0)) by (f_equal; ring).
  apply fin_add; [exact Ha|exact Hy|]. rewrite Rplus_0_r. apply rnd_bounded. pose proof (pow_le_16 n Hn) as Hc. split; [eapply near_nonneg; [apply Hs|apply Hc|exact Na]|].
  destruct Na as [_ Na]. pose proof pow53_big. nra.
Qed.
Lemma so_nil xs s : sum_order xs s -> xs = [] -> is64 s 0.
Proof.
  intros H. induction H as [|x|xs ys a b Ha IHa Hb IHb|xs ys a Hp Ha IH]; intros He.
  - apply (fin_zero l1 l2 pw).
  - discriminate.
  - apply app_eq_nil in He as [H1 H2]. specialize (IHa H1). specialize (IHb H2). rewrite <- rnd_0. replace (rnd64 0) with (rnd64 (0 + 0)) by (f_equal; ring).
    apply fin_add; auto. rewrite Rplus_0_l. apply rnd_bounded. pose proof (pow_le 2 200). lra.
  - subst. apply Permutation_sym, Permutation_nil in Hp. auto.
Qed.
Lemma so_within n xs s : sum_order xs s -> forall ss, xs <> [] -> Forall2 (fun x s => within n x s /\ 0 <= s /\ not_tiny s) xs ss ->
  (Z.of_nat (n + length xs) <= 2 * 2 ^ 53)%Z -> Rsum ss <= 2 ^ 53 * 2 ^ 53 ->
  within (n + (length xs - 1)) s (Rsum ss) /\ 0 <= Rsum ss /\ not_tiny (Rsum ss).
Proof.
  assert (Hsum : forall xs ss, Forall2 (fun x s => within n x s /\ 0 <= s /\ not_tiny s) xs ss -> 0 <= Rsum ss /\ not_tiny (Rsum ss)).
  { induction 1 as [|x0 t xs0 ss (_ & Ht & Tt) H [I1 I2]]; cbn [Rsum fold_right]; [split; [lra|now left]|]. change (fold_right Rplus 0 ss) with (Rsum ss). split; [lra|now apply not_tiny_add]. }
  intros Hso. revert Hsum. induction Hso as [|x|xs ys a b Ha IHa Hb IHb|xs ys a Hp Ha IH]; intros Hsum ss Hne H Hn Hbig; try specialize (IHa Hsum); try specialize (IHb Hsum); try specialize (IH Hsum).
  - easy.
  - inversion H as [|? y ? ? Hy Hn']; subst. inversion Hn'; subst. cbn [Rsum fold_right length]. rewrite Rplus_0_r. replace (n + (1 - 1))%nat with n by lia. exact Hy.
  - split; [|exact (Hsum _ _ H)]. apply Forall2_app_inv_l in H as (s1 & s2 & H1 & H2 & ->). rewrite Rsum_app in *. rewrite app_length in *.
    destruct (Hsum _ _ H1) as [A1 A2]. destruct (Hsum _ _ H2) as [B1 B2].
    destruct xs as [|x0 xs0]; [|destruct ys as [|y0 ys0]].
    + inversion H1; subst. cbn [Rsum fold_right length] in *. rewrite Rplus_0_l in *. destruct (IHb s2) as (I & _ & _); auto. apply within_add0_l; auto; [exact (so_nil _ _ Ha eq_refl)|lia].
    + inversion H2; subst. cbn [Rsum fold_right length] in *. rewrite Rplus_0_r in *. destruct (IHa s1) as (I & _ & _); auto; [discriminate|lia|]. rewrite Nat.add_0_r. apply within_add0_r; auto; [exact (so_nil _ _ Hb eq_refl)|lia].
    + destruct (IHa s1) as (I1 & _ & _); auto; [discriminate|cbn [length] in *; lia|lra|]. destruct (IHb s2) as (I2 & _ & _); auto; [discriminate|cbn [length] in *; lia|lra|].
      cbn [length] in *. replace (n + (S (length xs0) + S (length ys0) - 1))%nat with (S (n + length xs0 + length ys0)) by lia.
      apply within_add; auto; [| |lia]; (eapply within_mono; [| |eassumption]); auto; lia.
  - destruct (Forall2_perm_l _ _ _ Hp ss H) as (ss' & Hp' & H'). rewrite (Rsum_perm' _ _ Hp') in *. rewrite <- (Permutation_length Hp) in *. apply IH; auto.
    intros ->. apply Permutation_nil in Hp. auto.
Qed.
(** the loop from left to right is one of the orders *)
Lemma so_fsum (xs : list sf) : sum_order xs (@fsum N64 xs).
Proof.
  induction xs as [|x xs IH] using rev_ind; [exact SO_none|]. rewrite fsum_snoc. apply SO_add; [exact IH|apply SO_one].
Qed.

Lemma Rsum_le_INR ss : Forall (fun s => 0 <= s <= 4) ss -> 0 <= Rsum ss <= 4 * INR (length ss).
Proof. induction 1 as [|s ss Hs H IH]; cbn [Rsum fold_right length]; [cbn; lra|]. change (fold_right Rplus 0 ss) with (Rsum ss). rewrite S_INR. lra. Qed.
Lemma bpow_inv_200 : / 2 ^ 200 = bpow radix2 (-200).
Proof. change (-200)%Z with (- (200))%Z. rewrite (bpow_opp radix2 200). f_equal. change 200%Z with (Z.of_nat 200). now rewrite bpow_powerRZ, <- pow_powerRZ. Qed.
Lemma mean_any_order c xs ss s : xs <> [] -> (Z.of_nat c <= 2 ^ 53)%Z -> (Z.of_nat (length xs) <= 2 ^ 52)%Z -> Forall2 (score64 c) xs ss -> sum_order xs s ->
  mean64 (c + length xs) (sf_div s (sf_of_Z (Z.of_nat (length xs)))) ss.
Proof.
  intros Hne Hc Hn H Hs. pose proof (Forall2_len8 _ _ _ H) as Hlen.
  assert (Hsn : small_n (length xs)) by (unfold small_n; lia).
  assert (Hn0 : (length xs <> 0)%nat) by (destruct xs; [easy|discriminate]).
  assert (Hn1 : 1 <= INR (length xs)) by (apply (le_INR 1); lia).
  pose proof (small_n_R _ Hsn) as HnR.
  assert (Hcnt : is64 (sf_of_Z (Z.of_nat (length xs))) (INR (length xs))) by exact (fin_nat l1 l2 pw _ Hsn).
  (* the bounds *)
  assert (Hb : exists r, is64 s r /\ 0 <= r <= INR (length xs)).
  { destruct (so_bound xs s Hs (map (fun _ => 1%nat) xs)) as (r & Hr & Hr'); [| |exists r; split; [exact Hr|]].
    - clear - H. induction H as [|x t xs ss Hx H IH]; cbn; constructor; auto. destruct Hx as ((_ & r & Hr & Hb & _) & _). exists r. split; [exact Hr|]. cbn; lra.
    - replace (list_sum (map (fun _ => 1%nat) xs)) with (length xs) by (clear; induction xs; cbn; auto). exact Hsn.
    - replace (list_sum (map (fun _ => 1%nat) xs)) with (length xs) in Hr' by (clear; induction xs; cbn; auto). exact Hr'. }
  destruct Hb as (r & Hr & Hrb).
  assert (Hq : 0 <= r / INR (length xs) <= 1).
  { split; [apply Rmult_le_pos; [lra|left; apply Rinv_0_lt_compat; lra]|]. apply (Rmult_le_reg_r (INR (length xs))); [lra|]. unfold Rdiv. rewrite Rmult_assoc, Rinv_l by lra. lra. }
  assert (Hm : is64 (sf_div s (sf_of_Z (Z.of_nat (length xs)))) (rnd64 (r / INR (length xs)))).
  { apply fin_div; [exact Hr|exact Hcnt|lra|]. apply rnd_bounded. pose proof (pow_R1_Rle 2 200). lra. }
  assert (Hm01 : 0 <= rnd64 (r / INR (length xs)) <= 1) by (split; [apply rnd_ge_fmt; [apply fmt_0|lra]|apply rnd_le_fmt; [apply fmt_1|lra]]).
  (* the accuracy *)
  assert (Hss : Forall (fun s => 0 <= s <= 4) ss).
  { clear - H Hc. induction H as [|x t xs ss Hx H IH]; constructor; auto. destruct Hx as (((a & Ha & Na) & a' & Ha' & Hb & _) & Ht & _). split; [exact Ht|].
    rewrite (is64_fun _ _ _ Ha' Ha) in *. destruct Na as [Na _]. pose proof (pow_u_le_2 c Hc). pose proof (one_u c).
    apply (Rmult_le_reg_r (/ (1 + ulp64) ^ c)); [apply Rinv_0_lt_compat; lra|]. apply Rle_trans with a; [exact Na|].
    apply Rle_trans with 1; [lra|]. apply (Rmult_le_reg_r ((1 + ulp64) ^ c)); [lra|]. rewrite Rmult_assoc, Rinv_l by lra. lra. }
  pose proof (Rsum_le_INR ss Hss) as Hsum. rewrite <- Hlen in Hsum.
  assert (Hnt : Forall2 (fun x s => within c x s /\ 0 <= s /\ not_tiny s) xs ss).
  { clear - H. induction H as [|x t xs ss Hx H IH]; constructor; auto. destruct Hx as ((Hw & _) & Ht & Hz). split; [exact Hw|]. split; [exact Ht|].
    destruct Hz as [Hz|Hz]; [now left|right]. eapply Rle_trans; [|exact Hz]. rewrite bpow_inv_200. apply bpow_le. lia. }
  assert (Hbig : Rsum ss <= 2 ^ 53 * 2 ^ 53).
  { eapply Rle_trans; [apply Hsum|]. apply Rle_trans with (2 ^ 53 * 2 ^ 2); [cbn [pow]; lra|]. apply Rmult_le_compat_l; [apply pow_le; lra|]. apply Rle_pow; [lra|lia]. }
  destruct (so_within c xs s Hs ss Hne Hnt) as (W & W0 & WT); [lia|exact Hbig|].
  assert (Hsep : Rsum ss = 0 \/ / 2 ^ 200 <= Rsum ss).
  { apply Rsum_sep; [rewrite bpow_inv_200; apply bpow_gt_0|]. intros t Ht. clear - H Ht. induction H as [|x u xs ss Hx H IH]; [easy|]. destruct Ht as [<-|Ht]; [apply Hx|auto]. }
  assert (WD : within (c + length xs) (sf_div s (sf_of_Z (Z.of_nat (length xs)))) (mean_of ss)).
  { unfold mean_of. rewrite <- Hlen. replace (c + length xs)%nat with (S (c + (length xs - 1) + 0)) by lia.
    apply within_div; [exact W|now apply within_is64|lra|lra|exact WT| | |lia].
    - apply Rle_trans with (2 ^ 53); [lra|]. replace (2 ^ 53) with (bpow radix2 53) by (change 53%Z with (Z.of_nat 53); now rewrite bpow_powerRZ, <- pow_powerRZ). apply bpow_le. lia.
    - destruct Hsep as [Hz|Hz]; [now right|left]. eapply Rle_trans; [|exact Hz]. rewrite bpow_inv_200. apply bpow_le. lia. }
  split; [exact WD|]. exists (rnd64 (r / INR (length xs))). split; [exact Hm|]. split; [exact Hm01|]. split.
  - assert (Hmean : 0 <= mean_of ss) by (unfold mean_of; rewrite <- Hlen; apply Rmult_le_pos; [lra|left; apply Rinv_0_lt_compat; lra]).
    destruct WD as (v & Fv & Nv). rewrite (is64_fun _ _ _ Hm Fv). rewrite (near_zero _ _ _ Hmean (one_u _) Nv). unfold mean_of. rewrite <- Hlen. split.
    + intros Hz. assert (Hz' : Rsum ss = 0).
      { apply (Rmult_eq_compat_r (INR (length xs))) in Hz. unfold Rdiv in Hz. rewrite Rmult_assoc, Rinv_l in Hz by lra. lra. }
      clear - Hz' Hss. induction Hss as [|t ss Ht H IH]; constructor; cbn [Rsum fold_right] in Hz'; change (fold_right Rplus 0 ss) with (Rsum ss) in Hz'; pose proof (proj1 (Rsum_le_INR ss H)); [lra|apply IH; lra].
    + intros Hz. replace (Rsum ss) with 0; [unfold Rdiv; ring|]. clear - Hz. induction Hz as [|t ss Ht H IH]; cbn [Rsum fold_right]; [reflexivity|]. change (fold_right Rplus 0 ss) with (Rsum ss). lra.
  - intros H1. assert (He : is64 s (INR (length xs))).
    { replace (length xs) with (list_sum (map (fun _ => 1%nat) xs)) by (clear; induction xs; cbn; auto). apply (so_exact xs s Hs).
      - clear - H H1. induction H as [|x t xs ss Hx H IH]; cbn; constructor; inversion H1; subst; auto. destruct Hx as ((_ & r & Hr & _ & _ & Hone) & _). cbn. rewrite <- (Hone eq_refl). exact Hr.
      - replace (list_sum (map (fun _ => 1%nat) xs)) with (length xs) by (clear; induction xs; cbn; auto). exact Hsn. }
    rewrite (is64_fun _ _ _ Hr He). unfold Rdiv. rewrite Rinv_r by lra. apply rnd_fmt, fmt_1.
Qed.
End S.
