(** P_Float14.v: from the values of one document to the fused run *)
From Coq Require Import Reals ZArith Lra Lia SpecFloat Psatz List String Permutation Sorting.Sorted.
From Flocq Require Import Core.Core IEEE754.BinarySingleNaN.
From Verif Require Import Base Dict Num NumLaws Env EnvEx M_Common M_Qrels M_Run M_Norm M_Fusion Spec_DS Spec_Hist Spec_Metrics Spec_Eval Spec_Norm Spec_Fusion Spec_Float Spec_Float3 Spec_Float4
  P_Base P_Dict P_Common P_History P_Norm P_Fusion P_Float P_Float2 P_Float3 P_Float10 P_Float11 P_Float12 P_Float13.
Import ListNotations.
Open Scope R_scope.
Open Scope list_scope.

Section N.
Variables (l1 l2 : sf -> sf) (pw : sf -> sf -> sf).
Notation N64 := (NumSF_with l1 l2 pw).
Variable E : @env N64.
Hypothesis HE : env_ok E.
Notation rs xs q := (map (fun m : dict (dict sf) => @ofq sf m q) (@maps N64 xs)).

Lemma given_ne q d (xs : list (Run N64)) l : (exists x, In x xs /\ holds64 x q d) -> given64 q d xs l -> l <> [].
Proof.
  intros (x & Hx & Hd) H Hl. subst l. revert Hx. remember [] as l eqn:Hl. induction H as [|z xs r l Hv H IH|z xs l Hn H IH]; intros Hx; [easy|discriminate|].
  destruct Hx as [ -> |Hx]; [now apply Hn|]. now apply IH.
Qed.
Lemma fused_self tag formula name xs (P : list R -> R -> Prop) : fusable64 xs ->
  (forall q d l, given64 q d xs l -> l <> [] -> exists s v, formula (rs xs q) d = Ok s /\ is64 s v /\ P l v) ->
  fused64 xs (@comb N64 E tag formula name (maps xs)) P.
Proof.
  intros Hx Hf. pose proof Hx as (_ & Hr & _).
  destruct (fuse_intro l1 l2 pw E HE tag formula name xs (maps xs) Hx (same_docs_self _ _ _ xs Hr)) as (y & Hy & Hu & Hv).
  - intros q d Hd. destruct (given_exists _ _ _ q d xs Hr) as [l Hl]. destruct (Hf q d l Hl (given_ne q d xs l Hd Hl)) as (s & v & Hs & Hv & _). now exists s, v.
  - exists y. split; [exact Hy|]. split; [exact Hu|]. intros q d l v Hl Hval. pose proof Hu as (_ & Hh & _).
    assert (Hd : exists x, In x xs /\ holds64 x q d). { apply Hh. destruct Hval as (s & Hs & _). now exists s. }
    destruct (Hf q d l Hl (given_ne q d xs l Hd Hl)) as (s & v' & Hs & Hv' & HP). destruct (Hv q d v Hval) as (s' & Hs' & Hr').
    assert (He : Ok s = Ok s') by exact (eq_trans (eq_sym Hs) Hs'). injection He as <-. rewrite <- (is64_fun _ _ _ Hv' Hr'). exact HP.
Qed.

(** the lists with defaults *)
Lemma default_perm q d v (xs : list (Run N64)) l : given64 q d xs l -> forall l0, default64 l1 l2 pw q d v xs l0 -> exists k, Permutation l0 (l ++ repeat v k) /\ (length l + k = length xs)%nat.
Proof.
  induction 1 as [|x xs r l Hv H IH|x xs l Hn H IH]; intros l0 H0; inversion H0 as [|? ? r' l'' Hv' H''|? ? l'' Hn' H'']; subst.
  - exists 0%nat. split; [constructor|reflexivity].
  - assert (r = r') as <- by (eapply val_fun; eauto). destruct (IH _ H'') as (k & Hk & Hl). exists k. split; [cbn; now constructor|cbn; lia].
  - destruct Hv as (s & Hs & _). exfalso. apply Hn'. now exists s.
  - destruct Hv' as (s & Hs & _). exfalso. apply Hn. now exists s.
  - destruct (IH _ H'') as (k & Hk & Hl). exists (S k). split; [|cbn; lia]. cbn [repeat]. rewrite <- Permutation_middle. now constructor.
Qed.
Lemma default_in_iff q d v (xs : list (Run N64)) l l0 : given64 q d xs l -> default64 l1 l2 pw q d v xs l0 -> forall r, In r l0 <-> In r (with_default v (length xs) l).
Proof.
  intros H H0 r. destruct (default_perm q d v xs l H l0 H0) as (k & Hp & Hl). unfold with_default. rewrite in_app_iff.
  assert (Hr : In r (repeat v k) <-> In r (if (length l <? length xs)%nat then [v] else [])).
  { destruct (Nat.ltb_spec (length l) (length xs)) as [Hlt|Hge].
    - destruct k as [|k]; [lia|]. split; [intros Hi; apply repeat_spec in Hi; now left|]. intros [ -> |[]]. now left.
    - assert (k = 0)%nat as -> by lia. reflexivity. }
  rewrite <- Hr, <- in_app_iff. split; intros Hi; [now apply (Permutation_in r Hp)|now apply (Permutation_in r (Permutation_sym Hp))].
Qed.
Lemma maxl_is_max l : forall (a : R), is_max_of (a :: l) (@fmaxl NumR a l).
Proof.
  induction l as [|b l IH]; intros a; [split; [now left|]; intros x [ -> |[]]; cbn; lra|]. cbn [fmaxl fold_left].
  specialize (IH (@fmax2 NumR a b)). change (@fmaxl NumR (@fmax2 NumR a b) l) with (fold_left (@fmax2 NumR) l (@fmax2 NumR a b)) in IH.
  destruct IH as [Hi Hm]. assert (Hab : @fmax2 NumR a b = Rmax a b). { unfold fmax2. change (@fltb NumR a b) with (Rltb a b). unfold Rltb, Rmax. destruct (Rle_dec a b), (Rlt_dec a b); auto; lra. }
  split.
  - destruct Hi as [Hi|Hi]; [|right; right; exact Hi]. rewrite <- Hi, Hab. unfold Rmax. destruct (Rle_dec a b); cbn; auto.
  - assert (Hf : Rmax a b <= fold_left (@fmax2 NumR) l (@fmax2 NumR a b)) by (rewrite <- Hab at 1; apply Hm; now left).
    pose proof (Rmax_l a b). pose proof (Rmax_r a b). intros x [ -> |[ -> |Hx]]; [eapply Rle_trans; eauto|eapply Rle_trans; eauto|apply Hm; now right].
Qed.
Lemma minl_is_min l : forall (a : R), is_min_of (a :: l) (@fminl NumR a l).
Proof.
  induction l as [|b l IH]; intros a; [split; [now left|]; intros x [ -> |[]]; cbn; lra|]. cbn [fminl fold_left].
  specialize (IH (@fmin2 NumR a b)). change (@fminl NumR (@fmin2 NumR a b) l) with (fold_left (@fmin2 NumR) l (@fmin2 NumR a b)) in IH.
  destruct IH as [Hi Hm]. assert (Hab : @fmin2 NumR a b = Rmin a b). { unfold fmin2. change (@fltb NumR b a) with (Rltb b a). unfold Rltb, Rmin. destruct (Rle_dec a b), (Rlt_dec b a); auto; lra. }
  split.
  - destruct Hi as [Hi|Hi]; [|right; right; exact Hi]. rewrite <- Hi, Hab. unfold Rmin. destruct (Rle_dec a b); cbn; auto.
  - assert (Hf : fold_left (@fmin2 NumR) l (@fmin2 NumR a b) <= Rmin a b) by (rewrite <- Hab; apply Hm; now left).
    pose proof (Rmin_l a b). pose proof (Rmin_r a b). intros x [ -> |[ -> |Hx]]; [eapply Rle_trans; eauto|eapply Rle_trans; eauto|apply Hm; now right].
Qed.
Lemma max_ext l l' m : (forall r : R, In r l <-> In r l') -> is_max_of l m -> is_max_of l' m.
Proof. intros H [H1 H2]. split; [now apply H|]. intros x Hx. apply H2. now apply H. Qed.
Lemma min_ext l l' m : (forall r : R, In r l <-> In r l') -> is_min_of l m -> is_min_of l' m.
Proof. intros H [H1 H2]. split; [now apply H|]. intros x Hx. apply H2. now apply H. Qed.
Lemma fin_opp s r : is64 s r -> is64 (SFopp s) (- r).
Proof.
  intros (H1 & H2 & <-). split; [|split].
  - now destruct s as [[]| [] | | [] ].
  - now destruct s as [[]| [] | | [] ].
  - destruct s as [b|b| |b m e]; cbn [SFopp SF2R]; try lra. rewrite <- F2R_Zopp. now destruct b.
Qed.
Lemma billion_term : term (@sentinel N64) 1000000000 /\ term (@fopp N64 (@sentinel N64)) (- (1000000000)).
Proof.
  assert (H : is64 (@sentinel N64) 1000000000) by (apply (fin_ofZ 1000000000); unfold small; lia).
  assert (Hb : 1000000000 <= big). { apply Rle_trans with (bpow radix2 30); [cbn; lra|apply bpow_le; lia]. }
  split; split; auto.
  - rewrite Rabs_pos_eq; lra.
  - apply fin_opp. exact H.
  - rewrite Rabs_Ropp, Rabs_pos_eq; lra.
Qed.

Lemma max_list (ss : list sf) rr : Forall2 term ss rr -> rr <> [] -> exists s v, match ss with [] => Err ValueError | x :: l => Ok (@fmaxl N64 x l) end = Ok s /\ is64 s v /\ is_max_of rr v.
Proof.
  intros HF Hne. inversion HF as [|s r ss' rr' [Hs _] HF' He He']; [now subst rr|]. exists (@fmaxl N64 s ss'), (@fmaxl NumR r rr'). split; [reflexivity|].
  split; [now apply fin_maxl|apply maxl_is_max].
Qed.
Lemma min_list (ss : list sf) rr : Forall2 term ss rr -> rr <> [] -> exists s v, match ss with [] => Err ValueError | x :: l => Ok (@fminl N64 x l) end = Ok s /\ is64 s v /\ is_min_of rr v.
Proof.
  intros HF Hne. inversion HF as [|s r ss' rr' [Hs _] HF' He He']; [now subst rr|]. exists (@fminl N64 s ss'), (@fminl NumR r rr'). split; [reflexivity|].
  split; [now apply fin_minl|apply minl_is_min].
Qed.
(** ** the formulas *)
Section F.
Variable xs : list (Run N64).
Hypothesis Hxs : fusable64 xs.
Let Hr : Forall run64 xs := proj1 (proj2 Hxs).
Let Hn : (Z.of_nat (length xs) <= 2 ^ 53)%Z := proj1 (proj2 (proj2 Hxs)).
Lemma zero_term : term (@fzero N64) 0.
Proof. split; [apply fin_zero|]. rewrite Rabs_R0. apply Rlt_le, big_pos. Qed.
Lemma given_small q d l : given64 q d xs l -> (Z.of_nat (length l) <= 2 ^ 53)%Z.
Proof. intros H. apply given_len in H. lia. Qed.
Lemma sum_value q d l : given64 q d xs l -> exists s, @sum_formula N64 (rs xs q) d = Ok s /\ is64 s (rsum64 l).
Proof.
  intros Hl. exists (@fsum N64 (@get_all N64 (@fzero N64) (rs xs q) d)). split; [reflexivity|].
  destruct (default_exists l1 l2 pw q d 0 xs Hr) as [l0 H0]. pose proof (get_all_default _ _ _ q d _ 0 xs l0 Hr zero_term H0) as HF.
  destruct (fin_sum l1 l2 pw _ _ HF) as [Hv _]; [rewrite (default_len _ _ _ _ _ _ _ _ H0); exact Hn|].
  replace (rsum64 l) with (rsum64 l0); [exact Hv|]. exact (default_zero _ _ _ q d xs l Hl l0 Hr H0 0 fmt_0).
Qed.
Lemma max_value64 q d l : given64 q d xs l -> exists s v, @max_formula N64 (rs xs q) d = Ok s /\ is64 s v /\ is_max_of (with_default (- (1000000000)) (length xs) l) v.
Proof.
  intros Hl. destruct (default_exists l1 l2 pw q d (- (1000000000)) xs Hr) as [l0 H0].
  pose proof (get_all_default _ _ _ q d _ _ xs l0 Hr (proj2 billion_term) H0) as HF. unfold max_formula.
  pose proof (default_in_iff q d _ xs l l0 Hl H0) as Hin.
  assert (Hl0 : l0 <> []). { intros ->. apply default_len in H0. apply (proj1 Hxs). symmetry in H0. now apply length_zero_iff_nil in H0. }
  destruct (max_list _ _ HF Hl0) as (s & v & H1 & H2 & H3). exists s, v. split; [exact H1|]. split; [exact H2|]. now apply (max_ext l0).
Qed.
Lemma min_value64 q d l : given64 q d xs l -> exists s v, @min_formula N64 (rs xs q) d = Ok s /\ is64 s v /\ is_min_of (with_default 1000000000 (length xs) l) v.
Proof.
  intros Hl. destruct (default_exists l1 l2 pw q d 1000000000 xs Hr) as [l0 H0].
  pose proof (get_all_default _ _ _ q d _ _ xs l0 Hr (proj1 billion_term) H0) as HF. unfold min_formula.
  pose proof (default_in_iff q d _ xs l l0 Hl H0) as Hin.
  assert (Hl0 : l0 <> []). { intros ->. apply default_len in H0. apply (proj1 Hxs). symmetry in H0. now apply length_zero_iff_nil in H0. }
  destruct (min_list _ _ HF Hl0) as (s & v & H1 & H2 & H3). exists s, v. split; [exact H1|]. split; [exact H2|]. now apply (min_ext l0).
Qed.
Lemma len_pos (l : list R) : l <> [] -> 1 <= INR (length l).
Proof. destruct l; [easy|]. intros _. cbn [length]. rewrite S_INR. pose proof (pos_INR (length l)). lra. Qed.
Lemma anz_value q d l : given64 q d xs l -> l <> [] -> exists s, @anz_formula N64 (rs xs q) d = Ok s /\ is64 s (rnd64 (rsum64 l / INR (length l))).
Proof.
  intros Hl Hne. pose proof (present_given _ _ _ q d xs l Hr Hl) as HF. pose proof (term_len _ _ HF) as Hlen.
  eexists. split; [reflexivity|]. destruct (fin_sum l1 l2 pw _ _ HF (given_small q d l Hl)) as [Hs Hb]. pose proof (len_pos l Hne) as H1.
  change (@fdiv N64) with sf_div. apply fin_div; [exact Hs|change (@length (@F N64)) with (@length sf); rewrite Hlen; apply fin_nat; unfold small_n; apply (given_small q d l Hl)|lra|].
  apply bounded. unfold Rdiv. rewrite Rabs_mult, Rabs_inv, (Rabs_pos_eq (INR (length l))) by lra.
  apply Rle_trans with (bpow radix2 460); [|apply bpow_le; lia]. apply Rle_trans with (Rabs (rsum64 l) * 1); [|lra].
  apply Rmult_le_compat_l; [apply Rabs_pos|]. rewrite <- Rinv_1. apply Rinv_le_contravar; lra.
Qed.
Lemma mnz_value q d l : given64 q d xs l -> l <> [] -> exists s, @mnz_formula N64 (rs xs q) d = Ok s /\ is64 s (rnd64 (rsum64 l * INR (length l))).
Proof.
  intros Hl Hne. pose proof (present_given _ _ _ q d xs l Hr Hl) as HF. pose proof (term_len _ _ HF) as Hlen.
  eexists. split; [reflexivity|]. destruct (fin_sum l1 l2 pw _ _ HF (given_small q d l Hl)) as [Hs Hb]. pose proof (len_pos l Hne) as H1.
  change (@fmul N64) with sf_mul. apply fin_mul; [exact Hs|change (@length (@F N64)) with (@length sf); rewrite Hlen; apply fin_nat; unfold small_n; apply (given_small q d l Hl)|].
  apply bounded. rewrite Rabs_mult, (Rabs_pos_eq (INR (length l))) by lra.
  assert (HI : INR (length l) <= bpow radix2 53). { rewrite bpow_53, pow53, INR_IZR_INZ. apply IZR_le, (given_small q d l Hl). }
  apply Rle_trans with (bpow radix2 460 * bpow radix2 53); [|rewrite <- bpow_plus; apply bpow_le; lia].
  apply Rmult_le_compat; auto; [apply Rabs_pos|lra].
Qed.
Lemma med_value q d l : given64 q d xs l -> l <> [] -> exists s, @med_formula N64 (rs xs q) d = Ok s /\ is64 s (med64 l).
Proof.
  intros Hl Hne. eexists. split; [reflexivity|]. apply fin_median; [|exact Hne]. now apply present_given.
Qed.
End F.
End N.
