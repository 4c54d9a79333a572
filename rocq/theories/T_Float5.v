(** T_Float5.v: theorem C81: normalisation in binary64 *)
From Coq Require Import Reals ZArith Lra Lia SpecFloat Psatz List String.
From Flocq Require Import Core.Core IEEE754.BinarySingleNaN.
From Verif Require Import Base Dict Num NumLaws Env EnvEx M_Common M_Qrels M_Run M_Norm Spec_DS Spec_Hist Spec_Metrics Spec_Eval Spec_Norm Spec_Float Spec_Float3
  P_Base P_Dict P_Common P_Norm P_Float P_Float2 P_Float10 P_Float11 P_Metrics7 T_Float2.
Import ListNotations.
Open Scope R_scope.

Lemma den_pos lo hi : 0 < mm_den lo hi.
Proof. pose proof (mm_den_ge lo hi). pose proof eps_pos. lra. Qed.
Lemma rnd_le_den a lo hi : a <= hi - lo -> rnd64 a <= mm_den lo hi.
Proof. intros H. eapply Rle_trans; [apply rnd_le; exact H|apply Rmax_l]. Qed.
Lemma den_top lo hi : tiny <= hi - lo -> mm_den lo hi = rnd64 (hi - lo) /\ 0 < rnd64 (hi - lo).
Proof.
  intros H. apply rnd_le in H. change (eps_r <= rnd64 (hi - lo)) in H. pose proof eps_pos. unfold mm_den. split; [now apply Rmax_left|lra].
Qed.

(** ** C81: min-max *)
Theorem C81_min_max : forall l1 l2 pw (E : @env (NumSF_with l1 l2 pw)), env_ok E ->
  forall (x : Run (NumSF_with l1 l2 pw)) norm, run64 x -> In norm ["min_max"; "min-max"]%string ->
  exists y, normalize E x norm = Ok y /\ same_results x y /\
    (forall q d s lo hi, value64 x q d s -> lowest x q lo -> highest x q hi ->
       value64 y q d (rnd64 (rnd64 (s - lo) / Rmax (rnd64 (hi - lo)) (rnd64 tiny)))) /\
    (forall q d v, value64 y q d v -> 0 <= v <= 1) /\
    (forall q d lo, value64 x q d lo -> lowest x q lo -> value64 y q d 0) /\
    (forall q d lo hi, value64 x q d hi -> lowest x q lo -> highest x q hi -> tiny <= hi - lo -> value64 y q d 1) /\
    weakly_keeps_order x y /\
    (forall q d d' s s' v v' lo hi, lowest x q lo -> highest x q hi -> value64 x q d s -> value64 x q d' s' -> value64 y q d v -> value64 y q d' v' ->
       s + Rmax (hi - lo) tiny / 2 ^ 49 <= s' -> v < v').
Proof.
  intros l1 l2 pw E HE x norm Hx Hn. pose (m := score_map (N := NumSF_with l1 l2 pw) G_mm (r_map x)).
  exists (@new_run (NumSF_with l1 l2 pw) (r_name x) m). split.
  { unfold normalize. destruct Hn as [<-|[<-|[]]]; cbn [norm_switch String.eqb Ascii.eqb Bool.eqb orb bindr]; apply (mm_norm_g E HE); exact (proj1 Hx). }
  assert (Hb : forall q d s, value64 x q d s -> exists lo hi, lowest x q lo /\ highest x q hi /\ lo <= s <= hi).
  { intros q d s Hs. pose proof Hs as (s0 & H0 & _). destruct (lowest_ok l1 l2 pw x Hx q d s0 H0) as (lo & L & _). destruct (highest_ok l1 l2 pw x Hx q d s0 H0) as (hi & U & _).
    exists lo, hi. split; [exact L|]. split; [exact U|]. split; [now apply (proj2 L d)|now apply (proj2 U d)]. }
  assert (Hinv : forall q d v, @dget2 spec_float m q d = Some v -> exists s, value64 x q d s).
  { intros q d v Hv. pose proof (score_map_get (N := NumSF_with l1 l2 pw) G_mm (r_map x) q d) as Hg.
    assert (Hgen : forall (o o' : option spec_float), o' = option_map (@G_mm (NumSF_with l1 l2 pw) (of_query (r_map x) q)) o -> o' = Some v -> exists s, o = Some s).
    { intros [s|] o' -> Ho; [now exists s|discriminate]. }
    destruct (Hgen _ _ Hg Hv) as (s & Hs). destruct (proj2 Hx _ _ _ Hs) as (r & Hr & _). exists r, s. now split. }
  assert (Hval : forall q d s v lo hi, value64 x q d s -> lowest x q lo -> highest x q hi -> value64 (@new_run (NumSF_with l1 l2 pw) (r_name x) m) q d v -> v = mm (s - lo) (mm_den lo hi)).
  { intros q d s v lo hi Hs Hlo Hhi (v0 & Hv & Hr). eapply is64_fun; [exact Hr|]. eapply mm_value; eauto. }
  assert (Hsame : same_results x (@new_run (NumSF_with l1 l2 pw) (r_name x) m)).
  { apply (score_map_same l1 l2 pw). intros q d v Hv. destruct (Hinv q d v Hv) as (s & Hs). destruct (Hb q d s Hs) as (lo & hi & Hlo & Hhi & _).
    exists (mm (s - lo) (mm_den lo hi)). now apply (mm_value l1 l2 pw x Hx q d s v lo hi). }
  assert (Hget : forall q d s lo hi, value64 x q d s -> lowest x q lo -> highest x q hi -> value64 (@new_run (NumSF_with l1 l2 pw) (r_name x) m) q d (mm (s - lo) (mm_den lo hi))).
  { intros q d s lo hi Hs Hlo Hhi. destruct Hsame as (_ & S2 & S3). destruct (proj1 (S2 q d)) as (v & Hv); [destruct Hs as (s0 & H0 & _); now exists s0|].
    destruct (S3 q d v Hv) as (r & Hr). now rewrite <- (Hval q d s r lo hi Hs Hlo Hhi Hr). }
  split; [exact Hsame|]. split; [exact Hget|]. split; [|split; [|split; [|split]]].
  - intros q d v Hv. pose proof Hv as (v0 & H0 & _). destruct (Hinv q d v0 H0) as (s & Hs). destruct (Hb q d s Hs) as (lo & hi & Hlo & Hhi & Hl & Hh).
    rewrite (Hval q d s v lo hi Hs Hlo Hhi Hv). apply mm_01; [apply den_pos|lra|apply rnd_le_den; lra].
  - intros q d lo Hs Hlo. destruct (Hb q d lo Hs) as (lo' & hi & Hlo' & Hhi & _). pose proof (Hget q d lo lo hi Hs Hlo Hhi) as H.
    replace (lo - lo) with 0 in H by ring. now rewrite mm_zero in H.
  - intros q d lo hi Hs Hlo Hhi Ht. pose proof (Hget q d hi lo hi Hs Hlo Hhi) as H. destruct (den_top lo hi Ht) as [He Hp]. rewrite He, mm_one in H by exact Hp. exact H.
  - intros q d d' s s' v v' Hs Hs' Hv Hv' Hle. destruct (Hb q d s Hs) as (lo & hi & Hlo & Hhi & _).
    rewrite (Hval q d s v lo hi Hs Hlo Hhi Hv), (Hval q d' s' v' lo hi Hs' Hlo Hhi Hv'). apply mm_mono; [apply den_pos|lra].
  - intros q d d' s s' v v' lo hi Hlo Hhi Hs Hs' Hv Hv' Hsep.
    rewrite (Hval q d s v lo hi Hs Hlo Hhi Hv), (Hval q d' s' v' lo hi Hs' Hlo Hhi Hv').
    pose proof (proj2 Hlo d s Hs). pose proof (proj2 Hhi d' s' Hs'). pose proof (proj2 Hlo d' s' Hs').
    apply mm_strict; [apply mm_den_ge|lra|apply rnd_le_den; lra|].
    assert (9 * ulp64 * mm_den lo hi <= s' - s); [|lra]. apply (sep_enough (hi - lo)); [lra|reflexivity|lra].
Qed.
Print Assumptions C81_min_max.

Theorem C81_min_max_inverted : forall l1 l2 pw (E : @env (NumSF_with l1 l2 pw)), env_ok E ->
  forall (x : Run (NumSF_with l1 l2 pw)) norm, run64 x -> In norm ["min_max_inverted"; "min-max-inverted"]%string ->
  exists y, normalize E x norm = Ok y /\ same_results x y /\
    (forall q d s lo hi, value64 x q d s -> lowest x q lo -> highest x q hi ->
       value64 y q d (rnd64 (rnd64 (hi - s) / Rmax (rnd64 (hi - lo)) (rnd64 tiny)))) /\
    (forall q d v, value64 y q d v -> 0 <= v <= 1) /\
    (forall q d hi, value64 x q d hi -> highest x q hi -> value64 y q d 0) /\
    (forall q d lo hi, value64 x q d lo -> lowest x q lo -> highest x q hi -> tiny <= hi - lo -> value64 y q d 1) /\
    weakly_reverses_order x y /\
    (forall q d d' s s' v v' lo hi, lowest x q lo -> highest x q hi -> value64 x q d s -> value64 x q d' s' -> value64 y q d v -> value64 y q d' v' ->
       s + Rmax (hi - lo) tiny / 2 ^ 49 <= s' -> v' < v).
Proof.
  intros l1 l2 pw E HE x norm Hx Hn. pose (m := score_map (N := NumSF_with l1 l2 pw) G_inv (r_map x)).
  pose (y0 := @new_run (NumSF_with l1 l2 pw) (r_name x) m).
  assert (Hy0 : @dict2_ok spec_float (r_map y0)) by (apply (score_map_ok (N := NumSF_with l1 l2 pw)); exact (proj1 Hx)).
  exists (Run_sort E y0). split.
  { unfold normalize. destruct Hn as [<-|[<-|[]]]; cbn [norm_switch String.eqb Ascii.eqb Bool.eqb orb bindr]; apply (inv_norm_g E HE); exact (proj1 Hx). }
  assert (Hsv : forall q d v, value64 (Run_sort E y0) q d v <-> value64 y0 q d v).
  { intros q d v. unfold value64. pose proof (sort_get E HE y0 q d Hy0) as Hg. split; intros (s & Hs & Hr); exists s; (split; [|exact Hr]).
    - etransitivity; [symmetry; exact Hg|exact Hs].
    - etransitivity; [exact Hg|exact Hs]. }
  assert (Hb : forall q d s, value64 x q d s -> exists lo hi, lowest x q lo /\ highest x q hi /\ lo <= s <= hi).
  { intros q d s Hs. pose proof Hs as (s0 & H0 & _). destruct (lowest_ok l1 l2 pw x Hx q d s0 H0) as (lo & L & _). destruct (highest_ok l1 l2 pw x Hx q d s0 H0) as (hi & U & _).
    exists lo, hi. split; [exact L|]. split; [exact U|]. split; [now apply (proj2 L d)|now apply (proj2 U d)]. }
  assert (Hinv : forall q d v, @dget2 spec_float m q d = Some v -> exists s, value64 x q d s).
  { intros q d v Hv. pose proof (score_map_get (N := NumSF_with l1 l2 pw) G_inv (r_map x) q d) as Hg.
    assert (Hgen : forall (o o' : option spec_float), o' = option_map (@G_inv (NumSF_with l1 l2 pw) (of_query (r_map x) q)) o -> o' = Some v -> exists s, o = Some s).
    { intros [s|] o' -> Ho; [now exists s|discriminate]. }
    destruct (Hgen _ _ Hg Hv) as (s & Hs). destruct (proj2 Hx _ _ _ Hs) as (r & Hr & _). exists r, s. now split. }
  assert (Hval : forall q d s v lo hi, value64 x q d s -> lowest x q lo -> highest x q hi -> value64 (Run_sort E y0) q d v -> v = mm (hi - s) (mm_den lo hi)).
  { intros q d s v lo hi Hs Hlo Hhi Hv. apply Hsv in Hv as (v0 & Hv & Hr). eapply is64_fun; [exact Hr|]. eapply inv_value; eauto. }
  assert (Hsame0 : same_results x y0).
  { apply (score_map_same l1 l2 pw). intros q d v Hv. destruct (Hinv q d v Hv) as (s & Hs). destruct (Hb q d s Hs) as (lo & hi & Hlo & Hhi & _).
    exists (mm (hi - s) (mm_den lo hi)). now apply (inv_value l1 l2 pw x Hx q d s v lo hi). }
  assert (Hsame : same_results x (Run_sort E y0)).
  { destruct Hsame0 as (S1 & S2 & S3). split; [|split].
    - intros q. etransitivity; [apply S1|]. symmetry. exact (sort_keys_in E y0 q Hy0).
    - intros q d. etransitivity; [apply S2|]. pose proof (sort_get E HE y0 q d Hy0) as Hg. split; intros (s & Hs); exists s.
      + etransitivity; [exact Hg|exact Hs].
      + etransitivity; [symmetry; exact Hg|exact Hs].
    - intros q d s Hs. pose proof (sort_get E HE y0 q d Hy0) as Hg. destruct (S3 q d s) as (r & Hr); [etransitivity; [symmetry; exact Hg|exact Hs]|].
      exists r. now apply Hsv. }
  assert (Hget : forall q d s lo hi, value64 x q d s -> lowest x q lo -> highest x q hi -> value64 (Run_sort E y0) q d (mm (hi - s) (mm_den lo hi))).
  { intros q d s lo hi Hs Hlo Hhi. destruct Hsame as (_ & S2 & S3). destruct (proj1 (S2 q d)) as (v & Hv); [destruct Hs as (s0 & H0 & _); now exists s0|].
    destruct (S3 q d v Hv) as (r & Hr). now rewrite <- (Hval q d s r lo hi Hs Hlo Hhi Hr). }
  split; [exact Hsame|]. split; [exact Hget|]. split; [|split; [|split; [|split]]].
  - intros q d v Hv. pose proof Hv as Hv'. apply Hsv in Hv' as (v0 & H0 & _). destruct (Hinv q d v0 H0) as (s & Hs). destruct (Hb q d s Hs) as (lo & hi & Hlo & Hhi & Hl & Hh).
    rewrite (Hval q d s v lo hi Hs Hlo Hhi Hv). apply mm_01; [apply den_pos|lra|apply rnd_le_den; lra].
  - intros q d hi Hs Hhi. destruct (Hb q d hi Hs) as (lo & hi' & Hlo & Hhi' & _). pose proof (Hget q d hi lo hi Hs Hlo Hhi) as H.
    replace (hi - hi) with 0 in H by ring. now rewrite mm_zero in H.
  - intros q d lo hi Hs Hlo Hhi Ht. pose proof (Hget q d lo lo hi Hs Hlo Hhi) as H. destruct (den_top lo hi Ht) as [He Hp]. rewrite He, mm_one in H by exact Hp. exact H.
  - intros q d d' s s' v v' Hs Hs' Hv Hv' Hle. destruct (Hb q d s Hs) as (lo & hi & Hlo & Hhi & _).
    rewrite (Hval q d s v lo hi Hs Hlo Hhi Hv), (Hval q d' s' v' lo hi Hs' Hlo Hhi Hv'). apply mm_mono; [apply den_pos|lra].
  - intros q d d' s s' v v' lo hi Hlo Hhi Hs Hs' Hv Hv' Hsep.
    rewrite (Hval q d s v lo hi Hs Hlo Hhi Hv), (Hval q d' s' v' lo hi Hs' Hlo Hhi Hv').
    pose proof (proj2 Hlo d s Hs). pose proof (proj2 Hhi d' s' Hs'). pose proof (proj2 Hlo d' s' Hs').
    apply mm_strict; [apply mm_den_ge|lra|apply rnd_le_den; lra|].
    assert (9 * ulp64 * mm_den lo hi <= s' - s); [|lra]. apply (sep_enough (hi - lo)); [lra|reflexivity|lra].
Qed.
Print Assumptions C81_min_max_inverted.

(** ** C81: max *)
Theorem C81_max : forall l1 l2 pw (E : @env (NumSF_with l1 l2 pw)), env_ok E ->
  forall (x : Run (NumSF_with l1 l2 pw)), run64 x ->
  exists y, normalize E x "max" = Ok y /\ same_results x y /\
    (forall q d s hi, value64 x q d s -> highest x q hi -> value64 y q d (rnd64 (s / Rmax hi (rnd64 tiny)))) /\
    (forall q d v, value64 y q d v -> v <= 1) /\
    (forall q d s v, value64 x q d s -> value64 y q d v -> 0 <= s -> 0 <= v) /\
    (forall q d hi, value64 x q d hi -> highest x q hi -> tiny <= hi -> value64 y q d 1) /\
    weakly_keeps_order x y.
Proof.
  intros l1 l2 pw E HE x Hx. pose (m := score_map (N := NumSF_with l1 l2 pw) G_max (r_map x)). pose (y := @new_run (NumSF_with l1 l2 pw) (r_name x) m).
  exists y. split; [apply (max_norm_g E HE); exact (proj1 Hx)|].
  assert (Hb : forall q d s, value64 x q d s -> exists hi, highest x q hi /\ s <= hi).
  { intros q d s Hs. pose proof Hs as (s0 & H0 & _). destruct (highest_ok l1 l2 pw x Hx q d s0 H0) as (hi & U & _). exists hi. split; [exact U|]. now apply (proj2 U d). }
  assert (Hinv : forall q d v, @dget2 spec_float m q d = Some v -> exists s, value64 x q d s).
  { intros q d v Hv. pose proof (score_map_get (N := NumSF_with l1 l2 pw) G_max (r_map x) q d) as Hg.
    assert (Hgen : forall (o o' : option spec_float), o' = option_map (@G_max (NumSF_with l1 l2 pw) (of_query (r_map x) q)) o -> o' = Some v -> exists s, o = Some s).
    { intros [s|] o' -> Ho; [now exists s|discriminate]. }
    destruct (Hgen _ _ Hg Hv) as (s & Hs). destruct (proj2 Hx _ _ _ Hs) as (r & Hr & _). exists r, s. now split. }
  assert (Hval : forall q d s v hi, value64 x q d s -> highest x q hi -> value64 y q d v -> v = rnd64 (s / Rmax hi eps_r)).
  { intros q d s v hi Hs Hhi (v0 & Hv & Hr). eapply is64_fun; [exact Hr|]. eapply max_value; eauto. }
  assert (Hsame : same_results x y).
  { apply (score_map_same l1 l2 pw). intros q d v Hv. destruct (Hinv q d v Hv) as (s & Hs). destruct (Hb q d s Hs) as (hi & Hhi & _).
    exists (rnd64 (s / Rmax hi eps_r)). now apply (max_value l1 l2 pw x Hx q d s v hi). }
  assert (Hget : forall q d s hi, value64 x q d s -> highest x q hi -> value64 y q d (rnd64 (s / Rmax hi eps_r))).
  { intros q d s hi Hs Hhi. destruct Hsame as (_ & S2 & S3). destruct (proj1 (S2 q d)) as (v & Hv); [destruct Hs as (s0 & H0 & _); now exists s0|].
    destruct (S3 q d v Hv) as (r & Hr). now rewrite <- (Hval q d s r hi Hs Hhi Hr). }
  assert (HD : forall hi, 0 < Rmax hi eps_r) by (intros hi; pose proof eps_pos; pose proof (Rmax_r hi eps_r); lra).
  split; [exact Hsame|]. split; [exact Hget|]. split; [|split; [|split]].
  - intros q d v Hv. pose proof Hv as (v0 & H0 & _). destruct (Hinv q d v0 H0) as (s & Hs). destruct (Hb q d s Hs) as (hi & Hhi & Hh).
    rewrite (Hval q d s v hi Hs Hhi Hv). apply rnd_le_fmt; [apply fmt_1|]. apply div_le1; [apply HD|]. eapply Rle_trans; [exact Hh|apply Rmax_l].
  - intros q d s v Hs Hv H0. destruct (Hb q d s Hs) as (hi & Hhi & _). rewrite (Hval q d s v hi Hs Hhi Hv). apply rnd_ge0. now apply div_ge0.
  - intros q d hi Hs Hhi Ht. pose proof (Hget q d hi hi Hs Hhi) as H. pose proof Hs as (s0 & _ & Hf). apply is64_fmt in Hf. apply rnd_le in Ht. rewrite (rnd_fmt hi Hf) in Ht. change (eps_r <= hi) in Ht.
    rewrite Rmax_left in H by exact Ht. pose proof eps_pos. unfold Rdiv in H. rewrite Rinv_r in H by lra. rewrite (rnd_fmt 1 fmt_1) in H. exact H.
  - intros q d d' s s' v v' Hs Hs' Hv Hv' Hle. destruct (Hb q d s Hs) as (hi & Hhi & _).
    rewrite (Hval q d s v hi Hs Hhi Hv), (Hval q d' s' v' hi Hs' Hhi Hv'). apply rnd_le, div_mono; [apply HD|exact Hle].
Qed.
Print Assumptions C81_max.

(** ** C81: rank *)
Lemma of_query_nodup {V} (m : dict (dict V)) q : dict2_ok m -> NoDup (dkeys (of_query m q)).
Proof. intros [_ H]. unfold of_query. destruct (dget m q) as [r|] eqn:Hr; [exact (H q r Hr)|constructor]. Qed.
Lemma of_query_in {V} (m : dict (dict V)) q d : (exists s, dget2 m q d = Some s) <-> In d (dkeys (of_query m q)).
Proof.
  unfold dget2, of_query. destruct (dget m q) as [r|]; [|split; [intros [s Hs]; discriminate|intros []]].
  split; [intros [s Hs]; eapply dget_Some_key; exact Hs|apply key_dget].
Qed.
Definition rk (i n : nat) : R := rnd64 (1 - rnd64 (INR i / INR n)).
Lemma rk_bounds i n : (i < n)%nat -> small_n n -> 0 < rk i n <= 1 /\ (i = 0%nat -> rk i n = 1).
Proof.
  intros Hi Hn. destruct (frac_01 i n) as ((H0 & H1) & Hz & Ho); [lia|exact Hn|lia|].
  assert (Hlt : rnd64 (INR i / INR n) <= 1 - ulp64).
  { apply rnd_le_fmt; [apply fmt_pred1|]. assert (Hs : INR i + 1 <= INR n) by (rewrite <- S_INR; apply le_INR; lia). pose proof (small_n_R n Hn) as Hb. pose proof (pos_INR i).
    apply (Rmult_le_reg_r (INR n)); [lra|]. replace (INR i / INR n * INR n) with (INR i) by (field; lra).
    assert (ulp64 * INR n <= 1). { unfold ulp64. apply (Rmult_le_reg_l (2 ^ 53)); [apply pow_lt; lra|]. rewrite <- Rmult_assoc, Rinv_r, Rmult_1_l, Rmult_1_r by (apply pow_nonzero; lra). apply Hb. }
    lra. }
  pose proof u_pos as Hu. unfold rk. split; [split|].
  - apply Rlt_le_trans with ulp64; [exact Hu|]. apply rnd_ge_fmt; [apply fmt_u|lra].
  - apply rnd_le_fmt; [apply fmt_1|lra].
  - intros ->. destruct Hz as [_ Hz]. rewrite Hz by reflexivity. rewrite Rminus_0_r. apply (rnd_fmt 1 fmt_1).
Qed.
Lemma rk_mono i j n : (i <= j < n)%nat -> rk j n <= rk i n.
Proof.
  intros H. unfold rk. apply rnd_le. assert (rnd64 (INR i / INR n) <= rnd64 (INR j / INR n)); [|lra]. apply rnd_le. apply div_mono; [apply (lt_INR 0); lia|apply le_INR; lia].
Qed.
Lemma rk_strict i j n : (i < j < n)%nat -> (Z.of_nat n <= 2 ^ 50)%Z -> rk j n < rk i n.
Proof.
  intros H Hn. assert (Hsn : small_n n) by (unfold small_n; lia). assert (Hn0 : 0 < INR n) by (apply (lt_INR 0); lia).
  assert (Hu : 8 * ulp64 <= / INR n).
  { unfold ulp64. replace (2 ^ 53) with (8 * 2 ^ 50) by (rewrite (pow_add 2 3 50 : 2 ^ 53 = _); ring). assert (Hb : INR n <= 2 ^ 50) by (rewrite INR_IZR_INZ, (pow_IZR 2 50); apply IZR_le; exact Hn).
    apply Rinv_le in Hb; [|exact Hn0]. eapply Rle_trans; [|exact Hb]. right. field. }
  assert (Hdiff : INR i / INR n + / INR n <= INR j / INR n).
  { apply (Rmult_le_reg_r (INR n)); [exact Hn0|]. replace ((INR i / INR n + / INR n) * INR n) with (INR i + 1) by (field; lra). replace (INR j / INR n * INR n) with (INR j) by (field; lra).
    rewrite <- S_INR. apply le_INR. lia. }
  assert (Herr : forall k, (k < n)%nat -> Rabs (rk k n - (1 - INR k / INR n)) <= 3 * ulp64).
  { intros k Hk. assert (H1 : 0 <= INR k / INR n <= 1) by (split; [apply div_ge0; [exact Hn0|apply pos_INR]|apply div_le1; [exact Hn0|apply le_INR; lia]]).
    pose proof (rnd_abs _ (proj1 H1)) as Ha. destruct (frac_01 k n) as (H2 & _ & _); [lia|exact Hsn|lia|].
    assert (H3 : 0 <= 1 - rnd64 (INR k / INR n) <= 1) by lra. pose proof (rnd_abs _ (proj1 H3)) as Hb. unfold rk.
    assert (Hm : half_min <= ulp64 * ulp64). { unfold half_min. rewrite ulp64_bpow, <- bpow_plus. apply bpow_le. lia. }
    pose proof u_pos as Hup. pose proof u_small as Hus. apply Rabs_le_inv in Ha, Hb. apply Rabs_le. nra. }
  pose proof (Herr i ltac:(lia)) as E1. pose proof (Herr j ltac:(lia)) as E2. apply Rabs_le_inv in E1, E2. pose proof u_pos. lra.
Qed.

Theorem C81_rank : forall l1 l2 pw (E : @env (NumSF_with l1 l2 pw)), env_ok E ->
  forall (x : Run (NumSF_with l1 l2 pw)), @dict2_ok spec_float (r_map x) ->
  (forall q, (Z.of_nat (length (@of_query spec_float (r_map x) q)) <= 2 ^ 53)%Z) ->
  exists y, normalize E x "rank" = Ok y /\ same_results x y /\
    (forall q d i n, position64 x q d i n -> value64 y q d (rnd64 (1 - rnd64 (INR i / INR n)))) /\
    (forall q d v, value64 y q d v -> 0 < v <= 1) /\
    (forall q d n, position64 x q d 0 n -> value64 y q d 1) /\
    (forall q d d' i i' n v v', position64 x q d i n -> position64 x q d' i' n -> value64 y q d v -> value64 y q d' v' -> (i < i')%nat ->
       v' <= v /\ ((Z.of_nat n <= 2 ^ 50)%Z -> v' < v)).
Proof.
  intros l1 l2 pw E HE x Hx Hn. pose (m := pos_map (N := NumSF_with l1 l2 pw) G_rank (r_map x)). pose (y := @new_run (NumSF_with l1 l2 pw) (r_name x) m).
  exists y. split; [apply (rank_norm_g E HE); exact Hx|].
  assert (Hnd : forall q, NoDup (dkeys (@of_query spec_float (r_map x) q))).
  { intros q. exact (of_query_nodup (r_map x) q Hx). }
  pose proof (pos_map_get (N := NumSF_with l1 l2 pw) G_rank (r_map x)) as Hg.
  assert (Hfin : forall q d i, nth_error (dkeys (@of_query spec_float (r_map x) q)) i = Some d -> 
     (i < length (@of_query spec_float (r_map x) q))%nat /\ @dget2 spec_float m q d = Some (@G_rank (NumSF_with l1 l2 pw) (of_query (r_map x) q) i) /\
     is64 (@G_rank (NumSF_with l1 l2 pw) (of_query (r_map x) q) i) (rk i (length (@of_query spec_float (r_map x) q)))).
  { intros q d i Hi. assert (Hlt : (i < length (@of_query spec_float (r_map x) q))%nat) by (rewrite <- (map_length fst); apply nth_error_Some; change (nth_error (dkeys (@of_query spec_float (r_map x) q)) i <> None); rewrite Hi; discriminate).
    split; [exact Hlt|]. split.
    - etransitivity; [apply Hg|]. apply (index_of_spec _ d i (Hnd q)) in Hi. exact (f_equal (option_map (@G_rank (NumSF_with l1 l2 pw) (of_query (r_map x) q))) Hi).
    - assert (Hs : small_n (length (@of_query spec_float (r_map x) q))) by (unfold small_n; apply Hn). assert (Hsi : small_n i) by (eapply small_n_le; [|exact Hs]; lia).
      assert (Hq : is64 (sf_div (@fnat (NumSF_with l1 l2 pw) i) (@fnat (NumSF_with l1 l2 pw) (length (@of_query spec_float (r_map x) q)))) (rnd64 (INR i / INR (length (@of_query spec_float (r_map x) q))))).
      { apply fin_div; [now apply fin_nat|now apply fin_nat|apply not_0_INR; lia|]. apply rnd_bounded. apply quot_bounds; [exact Hsi|lia]. }
      apply fin_sub; [apply (fin_one l1 l2 pw)|exact Hq|]. destruct (rk_bounds i _ Hlt Hs) as [Hb _]. unfold rk in Hb. rewrite Rabs_pos_eq by lra.
      apply Rle_lt_trans with 1; [lra|]. change 1 with (bpow radix2 0). apply bpow_lt. lia. }
  assert (Hinv : forall q d v, @dget2 spec_float m q d = Some v -> exists i, nth_error (dkeys (@of_query spec_float (r_map x) q)) i = Some d).
  { intros q d v Hv. pose proof (eq_trans (eq_sym (Hg q d)) Hv) as Hv'. destruct (index_of (dkeys (of_query (r_map x) q)) d) as [i|] eqn:Hi; [|discriminate].
    exists i. now apply (index_of_spec _ d i (Hnd q)). }
  assert (Hget : forall q d i n, position64 x q d i n -> value64 y q d (rk i n)).
  { intros q d i n (Hp & <-). destruct (Hfin q d i Hp) as (_ & H1 & H2). eexists. split; [exact H1|exact H2]. }
  assert (Hval : forall q d i n v, position64 x q d i n -> value64 y q d v -> v = rk i n).
  { intros q d i n v Hp (s & Hs & Hr). destruct (Hget q d i n Hp) as (s' & Hs' & Hr'). assert (Some s = Some s') by (etransitivity; [symmetry; exact Hs|exact Hs']). injection H as ->. eapply is64_fun; eassumption. }
  assert (Hkey : forall q d, (exists s, @dget2 spec_float (r_map x) q d = Some s) <-> In d (dkeys (@of_query spec_float (r_map x) q))).
  { intros q d. exact (of_query_in (r_map x) q d). }
  split; [|split; [exact Hget|split; [|split]]].
  - split; [|split].
    + intros q. change (In q (dkeys (r_map x)) <-> In q (dkeys (pos_map (N := NumSF_with l1 l2 pw) G_rank (r_map x)))). now rewrite (pos_map_keys (N := NumSF_with l1 l2 pw)).
    + intros q d. rewrite Hkey. split.
      * intros Hi. apply In_nth_error in Hi as (i & Hi). destruct (Hfin q d i Hi) as (_ & H1 & _). eexists. exact H1.
      * intros (s & Hs). destruct (Hinv q d s Hs) as (i & Hi). eapply nth_error_In; exact Hi.
    + intros q d s Hs. destruct (Hinv q d s Hs) as (i & Hi). exists (rk i (length (@of_query spec_float (r_map x) q))). apply Hget. now split.
  - intros q d v Hv. pose proof Hv as (s & Hs & _). destruct (Hinv q d s Hs) as (i & Hi). rewrite (Hval q d i (length (@of_query spec_float (r_map x) q)) v); [|now split|exact Hv].
    apply rk_bounds; [apply (Hfin q d i Hi)|unfold small_n; apply Hn].
  - intros q d n Hp. pose proof (Hget q d 0%nat n Hp) as H. destruct Hp as (Hp & <-). destruct (rk_bounds 0 (length (@of_query spec_float (r_map x) q))) as (_ & H1); [apply (Hfin q d 0%nat Hp)|unfold small_n; apply Hn|].
    rewrite H1 in H by reflexivity. exact H.
  - intros q d d' i i' n v v' Hp Hp' Hv Hv' Hlt. rewrite (Hval q d i n v Hp Hv), (Hval q d' i' n v' Hp' Hv'). destruct Hp' as (Hp' & <-). pose proof (proj1 (Hfin q d' i' Hp')) as Hi'.
    split; [apply rk_mono; lia|]. intros H50. apply rk_strict; [lia|exact H50].
Qed.
Print Assumptions C81_rank.

(** ** what rounding can do *)
Open Scope string_scope.
Open Scope list_scope.
Definition sf_2m (n : Z) : sf := sf_div (sf_of_Z 1) (sf_of_Z (2 ^ n)).
Definition tie_x : Run NumSF := @mkRun NumSF [("q", [("b", sf_of_Z 1000); ("d", sf_2m 1); ("c", sf_2m 50); ("e", sf_2m 51); ("a", sf_of_Z (-1000))])] true None [] [] [].
Definition tie_y : Run NumSF := match @normalize NumSF env_ex tie_x "min_max" with Ok y => y | Err _ => tie_x end.
Lemma fin_2m n : (0 <= n <= 53)%Z -> is64 (sf_2m n) (/ IZR (2 ^ n)).
Proof.
  intros Hn. assert (Hp : (0 < 2 ^ n)%Z) by (apply Z.pow_pos_nonneg; lia). assert (Hb : (2 ^ n <= 2 ^ 53)%Z) by (apply Z.pow_le_mono_r; lia).
  assert (He : rnd64 (1 / IZR (2 ^ n)) = / IZR (2 ^ n)).
  { unfold Rdiv. rewrite Rmult_1_l. apply rnd_fmt. replace (/ IZR (2 ^ n)) with (bpow radix2 (- n)) by (rewrite bpow_opp; f_equal; symmetry; apply (IZR_Zpower radix2 n); lia).
    apply generic_format_bpow. unfold FLT_exp. lia. }
  rewrite <- He. apply fin_div; [apply (fin_ofZ 1); unfold small; lia|apply fin_ofZ; unfold small; lia|apply IZR_neq; lia|].
  apply bounded. rewrite Rabs_pos_eq; [|apply div_ge0; [apply (IZR_lt 0); lia|lra]].
  apply Rle_trans with 1; [apply div_le1; [apply (IZR_lt 0); lia|apply IZR_le; lia]|]. change 1 with (bpow radix2 0). apply bpow_le. lia.
Qed.
Lemma small_le_200 z : small z -> Rabs (IZR z) <= 2 ^ 200.
Proof. intros H. apply small_abs in H. pose proof pow53_le_200. lra. Qed.
Lemma inv_le_200 n : (0 <= n)%Z -> Rabs (/ IZR (2 ^ n)) <= 2 ^ 200.
Proof.
  intros Hn. assert (Hp : (0 < 2 ^ n)%Z) by (apply Z.pow_pos_nonneg; lia). rewrite Rabs_pos_eq by (left; apply Rinv_0_lt_compat, (IZR_lt 0); lia).
  apply Rle_trans with 1; [|apply pow_R1_Rle; lra]. rewrite <- Rinv_1. apply Rinv_le; [lra|apply (IZR_le 1); lia].
Qed.
Lemma some_inj {A} (a b : A) : Some a = Some b -> a = b.
Proof. congruence. Qed.
Lemma some_none {A} {a : A} : None = Some a -> False.
Proof. discriminate. Qed.
Example tie_x_run64 : run64 (tie_x : Run (NumSF_with sf0 sf0 (fun x _ => x))).
Proof.
  split; [split; [apply nodupb_ok; reflexivity|]|].
  - intros q r Hr. cbn [tie_x r_map dget] in Hr. destruct (String.eqb q "q"); [apply some_inj in Hr; subst r; apply nodupb_ok; reflexivity|discriminate].
  - intros q d s. unfold dget2, tie_x. cbn [r_map dget]. destruct (String.eqb q "q"); [|discriminate]. cbn [dget]. intros Hs.
    repeat (match type of Hs with context [String.eqb ?a ?b] => destruct (String.eqb a b) end); try (exfalso; exact (some_none Hs)); apply some_inj in Hs; subst s;
    first [eexists; split; [apply fin_ofZ; unfold small; lia|apply small_le_200; unfold small; lia]|eexists; split; [apply fin_2m; lia|apply inv_le_200; lia]].
Qed.
(** two documents with different scores may get the same normalised score *)
Theorem C81_ties_refuted : exists (E : @env (NumSF_with sf0 sf0 (fun x _ => x))) (x y : Run (NumSF_with sf0 sf0 (fun x _ => x))) q d d' s s' v,
  env_ok E /\ run64 x /\ normalize E x "min_max" = Ok y /\ value64 x q d s /\ value64 x q d' s' /\ s < s' /\ value64 y q d v /\ value64 y q d' v.
Proof.
  exists env_ex, tie_x, tie_y, "q", "e", "c", (/ IZR (2 ^ 51)), (/ IZR (2 ^ 50)).
  destruct (C81_min_max sf0 sf0 (fun x _ => x) env_ex (env_ex_ok NumSF_ok) tie_x "min_max" tie_x_run64 (or_introl eq_refl)) as (y & Hy & (_ & _ & Hs) & _).
  assert (Hyy : @normalize NumSF env_ex tie_x "min_max" = Ok tie_y) by vmr.
  assert (y = tie_y) by (assert (Ok y = Ok tie_y) by (etransitivity; [symmetry; exact Hy|exact Hyy]); congruence). subst y.
  assert (He : exists v0 : spec_float, @dget2 spec_float (r_map tie_y) "q" "e" = Some v0 /\ @dget2 spec_float (r_map tie_y) "q" "c" = Some v0) by (eexists; split; vm_compute; reflexivity).
  destruct He as (v0 & He & Hc). destruct (Hs "q" "e" v0 He) as (v & v1 & Hv1 & Hv).
  assert (v1 = v0) by (assert (Some v1 = Some v0) by (etransitivity; [symmetry; exact Hv1|exact He]); congruence). subst v1. exists v.
  split; [exact (env_ex_ok NumSF_ok)|]. split; [exact tie_x_run64|]. split; [exact Hyy|].
  split; [eexists; split; [reflexivity|apply fin_2m; lia]|]. split; [eexists; split; [reflexivity|apply fin_2m; lia]|].
  split; [apply Rinv_lt_contravar; [apply Rmult_lt_0_compat; apply (IZR_lt 0); lia|apply IZR_lt; lia]|].
  split; [exists v0; now split|exists v0; now split].
Qed.
Print Assumptions C81_ties_refuted.

(** sum normalisation: over the reals every score is at most 1; in binary64 it can be more than a billion *)
Definition sum_x : Run NumSF := @mkRun NumSF [("q", [("a", sf_add (sf_of_Z (2 ^ 53)) (sf_of_Z 2)); ("b", sf_of_Z (2 ^ 53)); ("c", sf_of_Z (2 ^ 53))])] true None [] [] [].
Definition sum_y : Run NumSF := match @normalize NumSF env_ex sum_x "sum" with Ok y => y | Err _ => sum_x end.
Example sum_x_run64 : run64 (sum_x : Run (NumSF_with sf0 sf0 (fun x _ => x))).
Proof.
  split; [split; [apply nodupb_ok; reflexivity|]|].
  - intros q r Hr. cbn [sum_x r_map dget] in Hr. destruct (String.eqb q "q"); [apply some_inj in Hr; subst r; apply nodupb_ok; reflexivity|discriminate].
  - assert (Ha : is64 (sf_add (sf_of_Z (2 ^ 53)) (sf_of_Z 2)) (IZR (2 ^ 53 + 2))).
    { split; [vm_compute; reflexivity|]. split; [vm_compute; reflexivity|]. replace (sf_add (sf_of_Z (2 ^ 53)) (sf_of_Z 2)) with (S754_finite false 4503599627370497 1) by (vm_compute; reflexivity).
      unfold SF2R, F2R. cbn [Fnum Fexp cond_Zopp]. change (bpow radix2 1) with (IZR 2). rewrite <- mult_IZR. reflexivity. }
    intros q d s. unfold dget2, sum_x. cbn [r_map dget]. destruct (String.eqb q "q"); [|discriminate]. cbn [dget]. intros Hs.
    repeat (match type of Hs with context [String.eqb ?a ?b] => destruct (String.eqb a b) end); try (exfalso; exact (some_none Hs)); apply some_inj in Hs; subst s;
    first [eexists; split; [exact Ha|]|eexists; split; [apply fin_ofZ; unfold small; lia|apply small_le_200; unfold small; lia]].
    rewrite Rabs_pos_eq by (apply (IZR_le 0); lia). rewrite (pow_IZR 2 200). apply IZR_le. vm_compute. discriminate.
Qed.
Theorem C81_sum_refuted : exists (E : @env (NumSF_with sf0 sf0 (fun x _ => x))) (x y : Run (NumSF_with sf0 sf0 (fun x _ => x))) q d v,
  env_ok E /\ run64 x /\ normalize E x "sum" = Ok y /\ value64 y q d v /\ 10 ^ 9 < v.
Proof.
  exists env_ex, sum_x, sum_y, "q", "a", (F2R (Float radix2 8388607999999999 (-22))). split; [exact (env_ex_ok NumSF_ok)|]. split; [exact sum_x_run64|]. split; [vmr|]. split.
  - exists (S754_finite false 8388607999999999 (-22)). split; [vmr|]. split; [vm_compute; reflexivity|]. split; reflexivity.
  - unfold F2R. cbn [Fnum Fexp]. change (bpow radix2 (-22)) with (/ IZR (2 ^ 22)). replace (10 ^ 9) with (IZR (10 ^ 9)) by (rewrite (pow_IZR 10 9); reflexivity).
    apply (Rmult_lt_reg_r (IZR (2 ^ 22))); [apply (IZR_lt 0); lia|]. rewrite Rmult_assoc, Rinv_l, Rmult_1_r by (apply IZR_neq; lia). rewrite <- mult_IZR. apply IZR_lt. lia.
Qed.
Print Assumptions C81_sum_refuted.
(** the hypotheses of C81 are met: [tie_x] and [sum_x] are such runs *)
Example C81_example : exists y, @normalize NumSF env_ex tie_x "min_max" = Ok y /\ @value64 sf0 sf0 (fun x _ => x) y "q" "a" 0 /\ @value64 sf0 sf0 (fun x _ => x) y "q" "b" 1.
Proof.
  destruct (C81_min_max sf0 sf0 (fun x _ => x) env_ex (env_ex_ok NumSF_ok) tie_x "min_max" tie_x_run64 (or_introl eq_refl)) as (y & Hy & _ & _ & _ & H0 & H1 & _).
  assert (Hall : forall d r, @value64 sf0 sf0 (fun x _ => x) tie_x "q" d r -> IZR (-1000) <= r <= IZR 1000).
  { intros d r (s & Hs & Hr). unfold dget2, tie_x in Hs. cbn [r_map dget] in Hs. rewrite String.eqb_refl in Hs. cbn [dget] in Hs.
    assert (Hi : forall n, (0 <= n)%Z -> IZR (-1000) <= / IZR (2 ^ n) <= IZR 1000).
    { intros n Hn. assert (Hp : (0 < 2 ^ n)%Z) by (apply Z.pow_pos_nonneg; lia). assert (H1n : 1 <= IZR (2 ^ n)) by (apply (IZR_le 1); lia).
      assert (0 < / IZR (2 ^ n)) by (apply Rinv_0_lt_compat; lra). assert (/ IZR (2 ^ n) <= 1) by (rewrite <- Rinv_1; apply Rinv_le; lra). lra. }
    repeat (match type of Hs with context [String.eqb ?a ?b] => destruct (String.eqb a b) end); try (exfalso; exact (some_none Hs)); apply some_inj in Hs; subst s;
    match type of Hr with
    | is64 (sf_of_Z ?z) _ => assert (Hz : small z) by (unfold small; lia); rewrite (is64_fun _ _ _ Hr (fin_ofZ z Hz)); lra
    | is64 (sf_2m ?n) _ => assert (Hn : (0 <= n <= 53)%Z) by lia; rewrite (is64_fun _ _ _ Hr (fin_2m n Hn)); apply Hi; lia
    end. }
  assert (Ha : @value64 sf0 sf0 (fun x _ => x) tie_x "q" "a" (IZR (-1000))) by (eexists; split; [reflexivity|apply fin_ofZ; unfold small; lia]).
  assert (Hb : @value64 sf0 sf0 (fun x _ => x) tie_x "q" "b" (IZR 1000)) by (eexists; split; [reflexivity|apply fin_ofZ; unfold small; lia]).
  assert (Hlo : @lowest sf0 sf0 (fun x _ => x) tie_x "q" (IZR (-1000))) by (split; [eexists; exact Ha|intros d r Hr; apply (Hall d r Hr)]).
  assert (Hhi : @highest sf0 sf0 (fun x _ => x) tie_x "q" (IZR 1000)) by (split; [eexists; exact Hb|intros d r Hr; apply (Hall d r Hr)]).
  exists y. split; [exact Hy|]. split; [exact (H0 _ _ _ Ha Hlo)|]. apply (H1 _ _ _ _ Hb Hlo Hhi). pose proof tiny_bounds as [_ Ht]. eapply Rle_trans; [exact Ht|].
  apply Rle_trans with 1; [change 1 with (bpow radix2 0); apply bpow_le; lia|lra].
Qed.
