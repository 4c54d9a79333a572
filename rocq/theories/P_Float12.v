(** P_Float12.v: combining runs, for any number type, and sums in binary64 *)
From Coq Require Import Reals ZArith Lra Lia SpecFloat Psatz List String.
From Flocq Require Import Core.Core IEEE754.BinarySingleNaN Plus_error Relative.
From Verif Require Import Base Dict Num NumLaws Env EnvEx M_Common M_Qrels M_Run M_Norm M_Fusion Spec_DS Spec_Hist Spec_Metrics Spec_Eval Spec_Norm Spec_Fusion Spec_Float Spec_Float3 Spec_Float4
  P_Base P_Dict P_Common P_History P_Norm P_Fusion P_Float P_Float2 P_Float3 P_Float10 P_Float11.
Import ListNotations.
Open Scope R_scope.

Section G.
Context {N : Num} (E : env N) (HE : env_ok E) (HN : NumLaws N).
Lemma ofq_missing {V} (m : dict (dict V)) q : ~ In q (dkeys m) -> ofq m q = [].
Proof. intros H. unfold ofq. now rewrite (proj2 (dget_None m q) H). Qed.
Lemma comb_G tag formula name (ms : list (dict (dict F))) (φ : string -> string -> F) : ms <> [] -> (forall m, In m ms -> dict_ok m) ->
  (forall m m' q, In m ms -> In m' ms -> In q (dkeys m) -> In q (dkeys m')) ->
  (forall q d, has_doc (map (fun m => ofq m q) ms) d = true -> formula (map (fun m => ofq m q) ms) d = Ok (φ q d)) ->
  exists y, comb E tag formula name ms = Ok y /\ dict2_ok (r_map y) /\ (forall m q, In m ms -> (In q (dkeys (r_map y)) <-> In q (dkeys m))) /\
    (forall q d, dget2 (r_map y) q d = if has_doc (map (fun m => ofq m q) ms) d then Some (φ q d) else None) /\
    ((forall q d, has_doc (map (fun m => ofq m q) ms) d = true -> is_nan (φ q d) = false) -> run_in_order (r_map y)).
Proof.
  intros Hne Hok Hq Hf. destruct ms as [|m0 ms]; [easy|].
  destruct (comb_parallel_ok E HE tag formula m0 ms φ) as (out & Hout & Hk & Hok2 & Hg).
  { apply Hok. now left. } { intros q m Hin Hm. apply (Hq m0 m q); [now left|now right|exact Hin]. } { intros q d _. apply Hf. }
  exists (Run_sort E (new_run (Some name) out)). split; [exact (comb_eq E tag formula name (m0 :: ms) out Hout)|].
  assert (Hget : forall q d, dget2 out q d = if has_doc (map (fun m => ofq m q) (m0 :: ms)) d then Some (φ q d) else None).
  { intros q d. destruct (in_dec string_dec q (dkeys m0)) as [Hi|Hi]; [now apply Hg|].
    unfold dget2. rewrite (proj2 (dget_None out q)) by now rewrite Hk.
    assert (Hno : has_doc (map (fun m => ofq m q) (m0 :: ms)) d = false); [|now rewrite Hno].
    apply not_true_is_false. intros Ht. apply has_doc_in in Ht as (r & Hr & Hd). apply in_map_iff in Hr as (m & <- & Hm).
    rewrite ofq_missing in Hd; [easy|]. intros Hc. apply Hi. exact (Hq m m0 q Hm (or_introl eq_refl) Hc). }
  split; [exact (canon_ok E HE r_negf out Hok2)|]. split; [|split].
  - intros m q Hm. rewrite (sort_keys_in E (new_run (Some name) out) q Hok2). cbn [new_run r_map]. rewrite Hk.
    split; intros H; [exact (Hq m0 m q (or_introl eq_refl) Hm H)|exact (Hq m m0 q Hm (or_introl eq_refl) H)].
  - intros q d. rewrite (sort_get E HE (new_run (Some name) out) q d Hok2). apply Hget.
  - intros Hn. assert (Hs : is_sorted r_negf (canon E r_negf out)).
    { apply canon_sorted; auto. intros q r Hr. unfold nan_free. rewrite Forall_forall. intros v Hin. unfold r_negf. rewrite law_nan_opp.
      apply in_map_iff in Hin as ([d v'] & <- & Hin). cbn [snd]. assert (Hv : dget2 out q d = Some v'). { unfold dget2. rewrite Hr. apply in_dget; [now apply (proj2 Hok2 q)|exact Hin]. }
      rewrite Hget in Hv. destruct (has_doc (map (fun m => ofq m q) (m0 :: ms)) d) eqn:Hh; [|discriminate]. inversion Hv; subst. now apply Hn. }
    apply is_sorted_in_order in Hs; [exact Hs|exact HN].
Qed.
End G.

(** ** rounding of sums *)
Definition radd (acc r : R) : R := rnd64 (acc + r).
Lemma rnd_add_rel a b : fmt a -> fmt b -> Rabs (radd a b - (a + b)) <= ulp64 * Rabs (a + b).
Proof.
  intros Ha Hb. unfold radd. destruct (Rle_or_lt (Rabs (a + b)) (bpow radix2 (-1021))) as [Hs|Hs].
  - assert (Hf : fmt (a + b)). { apply (@FLT_format_plus_small radix2 (-1074) 53 eq_refl a b Ha Hb). exact Hs. }
    rewrite (rnd_fmt _ Hf), Rminus_diag_eq, Rabs_R0 by reflexivity. apply Rmult_le_pos; [apply Rlt_le, u_pos|apply Rabs_pos].
  - eapply Rle_trans; [apply (relative_error_N_FLT radix2 (-1074) 53 eq_refl)|].
    + eapply Rle_trans; [|apply Rlt_le, Hs]. apply bpow_le. lia.
    + apply Rmult_le_compat_r; [apply Rabs_pos|]. rewrite ulp64_bpow. change (-53 + 1)%Z with (-52)%Z. change (/ 2) with (bpow radix2 (-1)). rewrite <- bpow_plus. apply bpow_le. lia.
Qed.
Lemma rnd_add_bound a b : fmt a -> fmt b -> Rabs (radd a b) <= (1 + ulp64) * (Rabs a + Rabs b).
Proof.
  intros Ha Hb. pose proof (rnd_add_rel a b Ha Hb) as H. pose proof (Rabs_triang a b). pose proof u_pos.
  replace (radd a b) with ((radd a b - (a + b)) + (a + b)) by ring. eapply Rle_trans; [apply Rabs_triang|].
  assert (ulp64 * Rabs (a + b) <= ulp64 * (Rabs a + Rabs b)) by (apply Rmult_le_compat_l; lra). lra.
Qed.
Lemma fold_fmt l : forall a, fmt a -> fmt (fold_left radd l a).
Proof. induction l as [|r l IH]; intros a Ha; cbn; auto. apply IH. apply fmt_rnd. Qed.
Definition abs_sum (l : list R) : R := Rsum (map Rabs l).
Lemma abs_sum_pos l : 0 <= abs_sum l.
Proof. unfold abs_sum. induction l as [|r l IH]; cbn; [lra|]. fold Rsum in *. pose proof (Rabs_pos r). change (fold_right Rplus 0) with Rsum. lra. Qed.
Lemma fold_bound l : forall a, fmt a -> Forall fmt l -> Rabs (fold_left radd l a) <= (1 + ulp64) ^ length l * (Rabs a + abs_sum l).
Proof.
  induction l as [|r l IH]; intros a Ha Hl; [cbn; lra|]. inversion_clear Hl as [|? ? Hr Hl']. cbn [fold_left length].
  eapply Rle_trans; [apply IH; auto; apply fmt_rnd|]. pose proof (rnd_add_bound a r Ha Hr). pose proof (abs_sum_pos l). pose proof (Rabs_pos r). pose proof (Rabs_pos a).
  pose proof u_pos. pose proof (one_u (length l)). unfold abs_sum at 2. cbn [map Rsum fold_right]. change (fold_right Rplus 0) with Rsum. fold (abs_sum l).
  rewrite pow_S. apply Rle_trans with ((1 + ulp64) ^ length l * ((1 + ulp64) * (Rabs a + (Rabs r + abs_sum l)))); [|apply Req_le; ring].
  apply Rmult_le_compat_l; [lra|]. nra.
Qed.
Lemma fold_error l : forall a, fmt a -> Forall fmt l ->
  Rabs (fold_left radd l a - (a + Rsum l)) <= ((1 + ulp64) ^ length l - 1) * (Rabs a + abs_sum l).
Proof.
  induction l as [|r l IH]; intros a Ha Hl.
  - cbn. replace (a - (a + 0)) with 0 by ring. rewrite Rabs_R0. lra.
  - inversion_clear Hl as [|? ? Hr Hl']. cbn [fold_left length]. cbn [Rsum fold_right]. change (fold_right Rplus 0) with Rsum.
    assert (Hf : fmt (radd a r)) by apply fmt_rnd. specialize (IH (radd a r) Hf Hl').
    pose proof (rnd_add_bound a r Ha Hr) as HB. pose proof (rnd_add_rel a r Ha Hr) as HE. pose proof (abs_sum_pos l). pose proof (Rabs_pos r). pose proof (Rabs_pos a).
    pose proof u_pos. pose proof (one_u (length l)). pose proof (Rabs_triang a r).
    unfold abs_sum at 1. cbn [map Rsum fold_right]. change (fold_right Rplus 0) with Rsum. fold (abs_sum l).
    replace (fold_left radd l (radd a r) - (a + (r + Rsum l))) with ((fold_left radd l (radd a r) - (radd a r + Rsum l)) + (radd a r - (a + r))) by ring.
    eapply Rle_trans; [apply Rabs_triang|]. rewrite pow_S.
    set (c := (1 + ulp64) ^ length l) in *. set (A := abs_sum l) in *.
    assert (K1 : (c - 1) * (Rabs (radd a r) + A) <= (c - 1) * ((1 + ulp64) * (Rabs a + Rabs r) + A)) by (apply Rmult_le_compat_l; lra).
    assert (K2 : ulp64 * Rabs (a + r) <= ulp64 * (Rabs a + Rabs r)) by (apply Rmult_le_compat_l; lra).
    assert (K3 : 0 <= (c * (1 + ulp64) - 1) * (Rabs a + (Rabs r + A)) - ((c - 1) * ((1 + ulp64) * (Rabs a + Rabs r) + A) + ulp64 * (Rabs a + Rabs r))).
    { replace ((c * (1 + ulp64) - 1) * (Rabs a + (Rabs r + A)) - ((c - 1) * ((1 + ulp64) * (Rabs a + Rabs r) + A) + ulp64 * (Rabs a + Rabs r))) with (c * ulp64 * A) by ring.
      apply Rmult_le_pos; [apply Rmult_le_pos; lra|lra]. }
    lra.
Qed.
Lemma fold_mono l : forall l' a a', Forall2 Rle l l' -> a <= a' -> fold_left radd l a <= fold_left radd l' a'.
Proof.
  induction l as [|r l IH]; intros l' a a' H Ha; inversion H; subst; cbn; auto. apply IH; auto. apply rnd_le. lra.
Qed.
(** sums of numbers that binary64 holds *)
Definition big : R := bpow radix2 400.
Lemma big_pos : 0 < big. Proof. apply bpow_gt_0. Qed.
Section N.
Variables (l1 l2 : sf -> sf) (pw : sf -> sf -> sf).
Notation N64 := (NumSF_with l1 l2 pw).
Definition term (s : sf) (r : R) : Prop := is64 s r /\ Rabs r <= big.
Lemma fin_fold ss : forall rr a ra, Forall2 term ss rr -> is64 a ra -> (Rabs ra + INR (length rr) * big) * (1 + ulp64) ^ length rr <= bpow radix2 900 ->
  is64 (fold_left sf_add ss a) (fold_left radd rr ra).
Proof.
  induction ss as [|s ss IH]; intros rr a ra H Ha Hb; inversion H as [|? r ? rr' [Hs Hr] H']; subst; [exact Ha|]. cbn [fold_left]. cbn [length] in Hb.
  pose proof (is64_fmt _ _ Ha) as Fa. pose proof (is64_fmt _ _ Hs) as Fs. pose proof (rnd_add_bound ra r Fa Fs) as HB.
  pose proof u_pos. pose proof big_pos. pose proof (one_u (length rr')) as J1. pose proof (Rabs_pos ra). pose proof (pos_INR (length rr')) as HI.
  rewrite S_INR in Hb. rewrite pow_S in Hb.
  assert (Hnn : 0 <= INR (length rr') * big) by (apply Rmult_le_pos; lra).
  apply IH; auto.
  - apply fin_add; auto. apply bounded. eapply Rle_trans; [apply Rabs_triang|]. eapply Rle_trans; [|exact Hb].
    assert (Rabs ra + Rabs r <= Rabs ra + (INR (length rr') + 1) * big) by lra.
    assert (1 <= (1 + ulp64) ^ length rr' * (1 + ulp64)) by nra.
    assert (0 <= Rabs ra + (INR (length rr') + 1) * big) by lra. nra.
  - eapply Rle_trans; [|exact Hb]. 
    replace ((Rabs ra + (INR (length rr') + 1) * big) * ((1 + ulp64) ^ length rr' * (1 + ulp64))) with (((1 + ulp64) * (Rabs ra + big) + (1 + ulp64) * (INR (length rr') * big)) * (1 + ulp64) ^ length rr') by ring.
    apply Rmult_le_compat_r; [lra|]. assert ((1 + ulp64) * (Rabs ra + Rabs r) <= (1 + ulp64) * (Rabs ra + big)) by (apply Rmult_le_compat_l; lra). fold (radd ra r). nra.
Qed.
Lemma sum_guard n : (Z.of_nat n <= 2 ^ 53)%Z -> (Rabs 0 + INR n * big) * (1 + ulp64) ^ n <= bpow radix2 460.
Proof.
  intros Hn. rewrite Rabs_R0, Rplus_0_l. pose proof (pow_u_le_2 n Hn) as H4. pose proof (one_u n). pose proof big_pos. pose proof (pos_INR n).
  assert (HI : INR n <= bpow radix2 53). { rewrite bpow_53, pow53, INR_IZR_INZ. now apply IZR_le. }
  apply Rle_trans with (bpow radix2 53 * big * bpow radix2 2).
  - apply Rmult_le_compat; [nra|lra|apply Rmult_le_compat_r; lra|]. replace (bpow radix2 2) with 4 by (cbn; lra). exact H4.
  - unfold big. rewrite <- !bpow_plus. apply bpow_le. lia.
Qed.
Lemma fin_sum ss rr : Forall2 term ss rr -> (Z.of_nat (length rr) <= 2 ^ 53)%Z -> is64 (@fsum N64 ss) (rsum64 rr) /\ Rabs (rsum64 rr) <= bpow radix2 460.
Proof.
  intros H Hn. split.
  - change (@fsum N64 ss) with (fold_left sf_add ss (@fzero N64)). apply (fin_fold ss rr); [exact H|apply fin_zero|].
    eapply Rle_trans; [apply sum_guard; exact Hn|]. apply bpow_le. lia.
  - change (rsum64 rr) with (fold_left radd rr 0). eapply Rle_trans; [apply fold_bound; [apply fmt_0|]|].
    + clear Hn. induction H as [|s r ss rr [Hs _] H IH]; constructor; auto. exact (is64_fmt _ _ Hs).
    + eapply Rle_trans; [|apply (sum_guard (length rr) Hn)]. rewrite Rmult_comm. pose proof (one_u (length rr)). apply Rmult_le_compat_r; [lra|].
      apply Rplus_le_compat_l. clear Hn. induction H as [|s r ss rr [_ Hr] H IH]; [cbn; lra|].
      assert (Hrec : abs_sum rr <= INR (length rr) * big). { destruct rr; [cbn; lra|]. apply IH. apply one_u. }
      unfold abs_sum. cbn [map Rsum fold_right]. change (fold_right Rplus 0) with Rsum. fold (abs_sum rr). cbn [length]. rewrite S_INR. lra.
Qed.
End N.
