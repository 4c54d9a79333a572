(** T_Float12.v: theorem C84, continued: reciprocal rank fusion and the order of the runs *)
From Coq Require Import Reals ZArith Lra Lia SpecFloat Psatz List String Permutation Sorting.Sorted.
From Flocq Require Import Core.Core IEEE754.BinarySingleNaN.
From Verif Require Import Base Dict Num NumLaws Env EnvEx M_Common M_Qrels M_Run M_Norm M_Fusion Spec_DS Spec_Hist Spec_Metrics Spec_Eval Spec_Norm Spec_Fusion Spec_Float Spec_Float3 Spec_Float4
  P_Base P_Dict P_Common P_History P_Norm P_Fusion P_Fusion2 P_Float P_Float2 P_Float3 P_Float10 P_Float11 P_Float12 P_Float13 P_Float14 P_Float15 P_Float16 T_Fusion T_Fusion2 T_Fusion3 T_Fusion4 T_Fusion5 P_Metrics7 T_Float2 T_Float5 T_Float6 T_Float7 T_Float8.
Import ListNotations.
Open Scope R_scope.
Open Scope list_scope.

Section N.
Variables (l1 l2 : sf -> sf) (pw : sf -> sf -> sf).
Notation N64 := (NumSF_with l1 l2 pw).
Lemma ranks64_perm (xs xs' : list (Run N64)) q d : Permutation xs xs' -> Permutation (ranks64 xs q d) (ranks64 xs' q d).
Proof.
  intros H. unfold ranks64. induction H as [|x xs xs' Hp IH|x z xs|xs xs' xs'' Hp IH Hp' IH'].
  - reflexivity.
  - cbn [map concat]. now apply Permutation_app_head.
  - cbn [map concat]. rewrite !app_assoc. apply Permutation_app_tail, Permutation_app_comm.
  - now transitivity (concat (map (fun x : Run N64 => match rank_in (dkeys (@of_query spec_float (r_map x) q)) d with Some r => [r] | None => [] end) xs')).
Qed.
Lemma ranks64_len (xs : list (Run N64)) q d : (length (ranks64 xs q d) <= length xs)%nat.
Proof.
  unfold ranks64. induction xs as [|x xs IH]; [apply le_n|]. cbn [map concat]. rewrite app_length. cbn [length]. destruct (rank_in _ d); cbn [length]; lia.
Qed.
Lemma samer_intro (xs xs' : list (Run N64)) (r r' : result (Run N64)) (P P' : list nat -> R -> Prop) : Permutation xs xs' -> fusedr64 xs r P -> fusedr64 xs' r' P' ->
  (forall q d v v', P (ranks64 xs q d) v -> P' (ranks64 xs' q d) v' -> v = v') -> same64 r r'.
Proof.
  intros Hp (y & Hy & (_ & Hh & Hval & _) & Hv) (y' & Hy' & (_ & Hh' & Hval' & _) & Hv') Heq. exists y, y'. split; [exact Hy|]. split; [exact Hy'|].
  assert (Hiff : forall q d, holds64 y q d <-> holds64 y' q d).
  { intros q d. rewrite Hh, Hh'. split; intros (x & Hx & Hd); exists x; (split; [|exact Hd]); [now apply (Permutation_in x Hp)|now apply (Permutation_in x (Permutation_sym Hp))]. }
  assert (He : forall q d v v', value64 y q d v -> value64 y' q d v' -> v = v') by (intros q d v v' H H'; apply (Heq q d); [now apply Hv|now apply Hv']).
  intros q d v. split; intros H.
  - assert (Hd : holds64 y' q d) by (apply Hiff; destruct H as (s & Hs & _); now exists s). destruct (Hval' q d Hd) as [v' H']. now rewrite (He q d v v' H H').
  - assert (Hd : holds64 y q d) by (apply Hiff; destruct H as (s & Hs & _); now exists s). destruct (Hval q d Hd) as [v' H']. now rewrite <- (He q d v' v H' H).
Qed.
End N.
(** the order in which two runs are given has no effect on rrf and isr *)
Theorem C84_rank_order : forall l1 l2 pw (E : @env (NumSF_with l1 l2 pw)), env_ok E -> forall (xs xs' : list (Run (NumSF_with l1 l2 pw))) name, fusable64 xs -> Permutation xs xs' ->
  (length xs <= 2)%nat ->
  (forall k, (0 <= k <= 2 ^ 52)%Z -> lists_upto (2 ^ 52) xs -> same64 (rrf E xs k name) (rrf E xs' k name)) /\
  (lists_upto (2 ^ 26) xs -> same64 (isr E xs name) (isr E xs' name)).
Proof.
  intros l1 l2 pw E HE xs xs' name Hxs Hp H2. pose proof (fusable_perm l1 l2 pw xs xs' Hp Hxs) as Hxs'.
  assert (Hup' : forall n, lists_upto n xs -> lists_upto n xs') by (intros n Hup x q Hx; apply Hup; now apply (Permutation_in x (Permutation_sym Hp))).
  assert (Hsum : forall (f : nat -> R) q d, (forall r, fmt (f r)) -> rsum64 (map f (ranks64 xs q d)) = rsum64 (map f (ranks64 xs' q d))).
  { intros f q d Hf. apply rsum_two.
    - rewrite map_length. pose proof (ranks64_len l1 l2 pw xs q d). lia.
    - apply Forall_forall. intros t Ht. apply in_map_iff in Ht as (r & <- & _). apply Hf.
    - now apply Permutation_map, ranks64_perm. }
  split.
  - intros k Hk Hup. eapply samer_intro; [exact Hp|exact (C84_rrf l1 l2 pw E HE xs k name Hxs Hk Hup)|exact (C84_rrf l1 l2 pw E HE xs' k name Hxs' Hk (Hup' _ Hup))|].
    cbn beta. intros q d v v' [-> _] [-> _]. apply (Hsum (fun r => rnd64 (1 / (IZR k + INR r)))). intros r. apply fmt_rnd.
  - intros Hup. eapply samer_intro; [exact Hp|exact (C84_isr l1 l2 pw E HE xs name Hxs Hup)|exact (C84_isr l1 l2 pw E HE xs' name Hxs' (Hup' _ Hup))|].
    cbn beta. intros q d v v' -> ->. rewrite (Hsum (fun r => rnd64 (1 / INR r ^ 2)) q d) by (intros r; apply fmt_rnd). now rewrite (Permutation_length (ranks64_perm l1 l2 pw xs xs' q d Hp)).
Qed.
Print Assumptions C84_rank_order.

(** ** three runs *)
Open Scope string_scope.
Open Scope list_scope.
Definition rr1 : Run NumSF := int_run [("a", 7); ("d", 6); ("e", 5); ("f", 4); ("g", 3); ("h", 2); ("c", 1)]%Z.
Definition rr2 : Run NumSF := int_run [("c", 2); ("a", 1)]%Z.
Definition rr3 : Run NumSF := int_run [("d", 7); ("c", 6); ("e", 5); ("f", 4); ("g", 3); ("h", 2); ("a", 1)]%Z.
Definition rr_xs : list (Run NumSF) := [rr1; rr2; rr3].
Definition rr_xs' : list (Run NumSF) := [rr1; rr3; rr2].
Definition rr_y : Run NumSF := match @rrf NumSF env_ex rr_xs 60 "s" with Ok y => y | Err _ => int_run [] end.
Definition rr_y' : Run NumSF := match @rrf NumSF env_ex rr_xs' 60 "s" with Ok y => y | Err _ => int_run [] end.
Definition sc (y : Run NumSF) (d : string) : sf := match @dget2 sf (r_map y) "q" d with Some s => s | None => sf_of_Z 0 end.
(** rrf of three runs with the default k: [a] is ranked 1, 2 and 7, [c] is ranked 7, 1 and 2, and the order of the runs decides which of them comes first *)
Theorem C84_rrf_order_refuted : exists (E : @env N0) (xs xs' : list (Run N0)) (y y' : Run N0) q a c,
  env_ok E /\ fusable64 xs /\ Permutation xs xs' /\ Permutation (ranks64 xs q a) (ranks64 xs q c) /\
  rrf E xs 60 "s" = Ok y /\ rrf E xs' 60 "s" = Ok y' /\
  (exists va vc, value64 y q a va /\ value64 y q c vc /\ vc < va) /\ (exists va vc, value64 y' q a va /\ value64 y' q c vc /\ va < vc).
Proof.
  exists env_ex, rr_xs, rr_xs', rr_y, rr_y', "q", "a", "c".
  split; [exact (env_ex_ok NumSF_ok)|].
  split; [apply (int_fusable [[("a", 7); ("d", 6); ("e", 5); ("f", 4); ("g", 3); ("h", 2); ("c", 1)]; [("c", 2); ("a", 1)]; [("d", 7); ("c", 6); ("e", 5); ("f", 4); ("g", 3); ("h", 2); ("a", 1)]]%Z); [discriminate|cbn; lia|]; repeat constructor; unfold small; cbn; lia|].
  split; [constructor; apply perm_swap|].
  split; [change (Permutation [1; 2; 7]%nat [7; 1; 2]%nat); apply (Permutation_app_comm [1; 2]%nat [7]%nat)|].
  split; [vmr|]. split; [vmr|].
  assert (H1 : is64 (sc rr_y "a") (SF2R radix2 (sc rr_y "a"))) by (split; [vmr|split; [vmr|reflexivity]]).
  assert (H2 : is64 (sc rr_y "c") (SF2R radix2 (sc rr_y "c"))) by (split; [vmr|split; [vmr|reflexivity]]).
  assert (H3 : is64 (sc rr_y' "a") (SF2R radix2 (sc rr_y' "a"))) by (split; [vmr|split; [vmr|reflexivity]]).
  assert (H4 : is64 (sc rr_y' "c") (SF2R radix2 (sc rr_y' "c"))) by (split; [vmr|split; [vmr|reflexivity]]).
  split.
  - exists (SF2R radix2 (sc rr_y "a")), (SF2R radix2 (sc rr_y "c")). split; [exists (sc rr_y "a"); split; [vmr|exact H1]|]. split; [exists (sc rr_y "c"); split; [vmr|exact H2]|].
    apply Rnot_le_lt. intros Hle. assert (Hb : sf_leb (sc rr_y "a") (sc rr_y "c") = false) by vmr. rewrite (leb64 _ _ _ _ H1 H2), (Rle_bool_true _ _ Hle) in Hb. discriminate Hb.
  - exists (SF2R radix2 (sc rr_y' "a")), (SF2R radix2 (sc rr_y' "c")). split; [exists (sc rr_y' "a"); split; [vmr|exact H3]|]. split; [exists (sc rr_y' "c"); split; [vmr|exact H4]|].
    apply Rnot_le_lt. intros Hle. assert (Hb : sf_leb (sc rr_y' "c") (sc rr_y' "a") = false) by vmr. rewrite (leb64 _ _ _ _ H4 H3), (Rle_bool_true _ _ Hle) in Hb. discriminate Hb.
Qed.
Print Assumptions C84_rrf_order_refuted.
