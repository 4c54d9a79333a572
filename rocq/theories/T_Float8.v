(** T_Float8.v: theorem C84, continued: the order of the runs *)
From Coq Require Import Reals ZArith Lra Lia SpecFloat Psatz List String Permutation Sorting.Sorted.
From Flocq Require Import Core.Core IEEE754.BinarySingleNaN.
From Verif Require Import Base Dict Num NumLaws Env EnvEx M_Common M_Qrels M_Run M_Norm M_Fusion Spec_DS Spec_Hist Spec_Metrics Spec_Eval Spec_Norm Spec_Fusion Spec_Float Spec_Float3 Spec_Float4
  P_Base P_Dict P_Common P_History P_Norm P_Fusion P_Fusion2 P_Float P_Float2 P_Float3 P_Float10 P_Float11 P_Float12 P_Float13 P_Float14 P_Float15 P_Float16 T_Fusion T_Fusion2 T_Fusion3 T_Fusion4 T_Fusion5 P_Metrics7 T_Float2 T_Float5 T_Float6 T_Float7.
Import ListNotations.
Open Scope R_scope.
Open Scope list_scope.

Section N.
Variables (l1 l2 : sf -> sf) (pw : sf -> sf -> sf).
Notation N64 := (NumSF_with l1 l2 pw).
Lemma fusable_perm (xs xs' : list (Run N64)) : Permutation xs xs' -> fusable64 xs -> fusable64 xs'.
Proof.
  intros Hp (H1 & H2 & H3 & H4). split; [|split; [|split]].
  - intros ->. apply Permutation_sym, Permutation_nil in Hp. contradiction.
  - rewrite Forall_forall in *. intros x Hx. apply H2. apply (Permutation_in x (Permutation_sym Hp) Hx).
  - now rewrite <- (Permutation_length Hp).
  - intros x x' q Hx Hx'. apply H4; [apply (Permutation_in x (Permutation_sym Hp) Hx)|apply (Permutation_in x' (Permutation_sym Hp) Hx')].
Qed.
Lemma given_perm q d (xs xs' : list (Run N64)) : Permutation xs xs' -> forall l, given64 q d xs l -> exists l', given64 q d xs' l' /\ Permutation l l'.
Proof.
  induction 1 as [|x xs xs' Hp IH|x z xs|xs xs' xs'' Hp IH Hp' IH']; intros l Hl.
  - exists l. split; [exact Hl|reflexivity].
  - inversion Hl as [|? ? r l0 Hv H0|? ? l0 Hn H0]; subst; destruct (IH _ H0) as (l' & H' & P').
    + exists (r :: l'). split; [now constructor|now constructor].
    + exists l'. split; [now apply given_not|exact P'].
  - inversion Hl as [|? ? r l0 Hv H0|? ? l0 Hn H0]; subst; inversion H0 as [|? ? r' l0' Hv' H0'|? ? l0' Hn' H0']; subst.
    + exists (r' :: r :: l0'). split; [now repeat constructor|apply perm_swap].
    + exists (r :: l0). split; [apply given_not; [exact Hn'|]; now apply given_held|reflexivity].
    + exists (r' :: l0'). split; [apply given_held; [exact Hv'|]; now apply given_not|reflexivity].
    + exists l. split; [apply given_not; [exact Hn'|]; now apply given_not|reflexivity].
  - destruct (IH _ Hl) as (l' & H' & P'). destruct (IH' _ H') as (l'' & H'' & P''). exists l''. split; [exact H''|now transitivity l'].
Qed.
Lemma same_intro (xs xs' : list (Run N64)) (r r' : result (Run N64)) P P' : Permutation xs xs' -> Forall run64 xs -> fused64 xs r P -> fused64 xs' r' P' ->
  (forall q d l l' v v', given64 q d xs l -> l <> [] -> Permutation l l' -> P l v -> P' l' v' -> v = v') -> same64 r r'.
Proof.
  intros Hp Hr (y & Hy & (_ & Hh & Hval & _) & Hv) (y' & Hy' & (_ & Hh' & Hval' & _) & Hv') Heq. exists y, y'. split; [exact Hy|]. split; [exact Hy'|].
  assert (Hiff : forall q d, holds64 y q d <-> holds64 y' q d).
  { intros q d. rewrite Hh, Hh'. split; intros (x & Hx & Hd); exists x; (split; [|exact Hd]); [now apply (Permutation_in x Hp)|now apply (Permutation_in x (Permutation_sym Hp))]. }
  assert (He : forall q d v v', value64 y q d v -> value64 y' q d v' -> v = v').
  { intros q d v v' H H'. destruct (given_exists _ _ _ q d xs Hr) as [l Hl]. destruct (given_perm q d xs xs' Hp l Hl) as (l' & Hl' & Pl).
    apply (Heq q d l l' v v' Hl); [|exact Pl|now apply (Hv q d)|now apply (Hv' q d)].
    apply (given_ne l1 l2 pw q d xs); [|exact Hl]. apply Hh. destruct H as (s & Hs & _). now exists s. }
  intros q d v. split; intros H.
  - assert (Hd : holds64 y' q d) by (apply Hiff; destruct H as (s & Hs & _); now exists s). destruct (Hval' q d Hd) as [v' H']. now rewrite (He q d v v' H H').
  - assert (Hd : holds64 y q d) by (apply Hiff; destruct H as (s & Hs & _); now exists s). destruct (Hval q d Hd) as [v' H']. now rewrite <- (He q d v' v H' H).
Qed.
End N.
Lemma perm_max l l' v v' : (forall r : R, In r l <-> In r l') -> is_max_of l v -> is_max_of l' v' -> v = v'.
Proof. intros H [H1 H2] [H1' H2']. apply Rle_antisym; [apply H2', H, H1|apply H2, H, H1']. Qed.
Lemma perm_min l l' v v' : (forall r : R, In r l <-> In r l') -> is_min_of l v -> is_min_of l' v' -> v = v'.
Proof. intros H [H1 H2] [H1' H2']. apply Rle_antisym; [apply H2, H, H1'|apply H2', H, H1]. Qed.
Lemma with_default_perm v n l l' : Permutation l l' -> forall r, In r (with_default v n l) <-> In r (with_default v n l').
Proof.
  intros H r. unfold with_default. rewrite (Permutation_length H), !in_app_iff. assert (In r l <-> In r l') by (split; intros Hi; [now apply (Permutation_in r H)|now apply (Permutation_in r (Permutation_sym H))]). tauto.
Qed.
Lemma med64_perm l l' : Permutation l l' -> med64 l = med64 l'.
Proof.
  intros H. unfold med64. rewrite (Permutation_length H). assert (Hs : @fsort NumR l = @fsort NumR l'); [|now rewrite Hs].
  apply sorted_Rle_unique; [apply fsort_sorted|apply fsort_sorted|]. transitivity l; [apply fsort_perm|]. rewrite H. symmetry. apply fsort_perm.
Qed.
Lemma rsum_two l l' : (length l <= 2)%nat -> Forall fmt l -> Permutation l l' -> rsum64 l = rsum64 l'.
Proof.
  intros Hl Hf H. destruct l as [|a [|b [|c l]]]; cbn in Hl; try lia.
  - apply Permutation_nil in H. now subst.
  - apply Permutation_length_1_inv in H. now subst.
  - inversion_clear Hf as [|? ? Ha Hf']. inversion_clear Hf' as [|? ? Hb _]. apply Permutation_length_2_inv in H as [ -> | -> ]; [reflexivity|]. rewrite !rsum_head by assumption. cbn [fold_left]. unfold radd. f_equal. lra.
Qed.
(** the order in which the runs are given: no effect on CombMAX, CombMIN and CombMED; none on CombSUM, CombANZ and CombMNZ of two runs *)
Theorem C84_order : forall l1 l2 pw (E : @env (NumSF_with l1 l2 pw)), env_ok E -> forall (xs xs' : list (Run (NumSF_with l1 l2 pw))) name, fusable64 xs -> Permutation xs xs' ->
  same64 (comb_max E xs name) (comb_max E xs' name) /\ same64 (comb_min E xs name) (comb_min E xs' name) /\ same64 (comb_med E xs name) (comb_med E xs' name) /\
  ((length xs <= 2)%nat -> same64 (comb_sum E xs name) (comb_sum E xs' name) /\ same64 (comb_anz E xs name) (comb_anz E xs' name) /\ same64 (comb_mnz E xs name) (comb_mnz E xs' name)).
Proof.
  intros l1 l2 pw E HE xs xs' name Hxs Hp. pose proof (proj1 (proj2 Hxs)) as Hr. pose proof (fusable_perm l1 l2 pw xs xs' Hp Hxs) as Hxs'. pose proof (Permutation_length Hp) as Hlen.
  split; [|split; [|split]].
  - eapply same_intro; [exact Hp|exact Hr|exact (max_exact l1 l2 pw E HE xs Hxs name)|exact (max_exact l1 l2 pw E HE xs' Hxs' name)|]. cbn beta. rewrite Hlen. intros q d l l' v v' _ _ P. apply perm_max. now apply with_default_perm.
  - eapply same_intro; [exact Hp|exact Hr|exact (min_exact l1 l2 pw E HE xs Hxs name)|exact (min_exact l1 l2 pw E HE xs' Hxs' name)|]. cbn beta. rewrite Hlen. intros q d l l' v v' _ _ P. apply perm_min. now apply with_default_perm.
  - eapply same_intro; [exact Hp|exact Hr|exact (med_exact l1 l2 pw E HE xs Hxs name)|exact (med_exact l1 l2 pw E HE xs' Hxs' name)|]. cbn beta. intros q d l l' v v' _ _ P [-> _] [-> _]. now apply med64_perm.
  - intros H2. assert (Hs : forall q d l l', given64 q d xs l -> Permutation l l' -> rsum64 l = rsum64 l').
    { intros q d l l' Hl P. apply rsum_two; [apply given_len in Hl; lia|exact (given_fmt l1 l2 pw q d xs l Hl)|exact P]. }
    split; [|split].
    + eapply same_intro; [exact Hp|exact Hr|exact (sum_exact l1 l2 pw E HE xs Hxs name)|exact (sum_exact l1 l2 pw E HE xs' Hxs' name)|]. cbn beta. intros q d l l' v v' Hl _ P -> ->. now apply (Hs q d).
    + eapply same_intro; [exact Hp|exact Hr|exact (anz_exact l1 l2 pw E HE xs Hxs name)|exact (anz_exact l1 l2 pw E HE xs' Hxs' name)|]. cbn beta. intros q d l l' v v' Hl _ P -> ->. rewrite (Permutation_length P). now rewrite (Hs q d l l' Hl P).
    + eapply same_intro; [exact Hp|exact Hr|exact (mnz_exact l1 l2 pw E HE xs Hxs name)|exact (mnz_exact l1 l2 pw E HE xs' Hxs' name)|]. cbn beta. intros q d l l' v v' Hl _ P -> ->. rewrite (Permutation_length P). now rewrite (Hs q d l l' Hl P).
Qed.
Print Assumptions C84_order.

(** ** three runs *)
Open Scope string_scope.
Open Scope list_scope.
Notation N0 := (NumSF_with sf0 sf0 (fun x _ => x)).
Definition int_run (l : list (string * Z)) : Run NumSF := @mkRun NumSF [("q", map (fun p => (fst p, sf_of_Z (snd p))) l)] true None [] [] [].
Lemma int_run_get l d : @dget2 sf (r_map (int_run l)) "q" d = option_map sf_of_Z (@dget Z l d).
Proof. unfold dget2, int_run. cbn [r_map dget String.eqb Ascii.eqb Bool.eqb]. induction l as [|[e z] l IH]; [reflexivity|]. cbn [map dget fst snd]. destruct (String.eqb d e); [reflexivity|exact IH]. Qed.
Lemma int_run_other l q d : q <> "q" -> @dget2 sf (r_map (int_run l)) q d = None.
Proof. intros H. unfold dget2, int_run. cbn [r_map dget]. destruct (String.eqb_spec q "q"); [contradiction|reflexivity]. Qed.
Lemma dget_In_Z (l : list (string * Z)) d z : @dget Z l d = Some z -> In (d, z) l.
Proof. induction l as [|[e y] l IH]; cbn; [discriminate|]. destruct (String.eqb_spec d e); [intros H; inversion H; subst; now left|]. intros H. right. now apply IH. Qed.
Lemma int_run64 l : nodupb (map fst l) = true -> Forall (fun p => small (snd p)) l -> run64 (int_run l : Run N0).
Proof.
  intros Hn Hs. split; [split; [apply nodupb_ok; reflexivity|]|].
  - intros q r Hr. unfold int_run in Hr. cbn [r_map dget] in Hr. destruct (String.eqb q "q"); [|discriminate]. apply some_inj in Hr. subst r. unfold dict_ok, dkeys. rewrite map_map. cbn [fst]. now apply nodupb_ok.
  - intros q d s Hd. destruct (string_dec q "q") as [ -> |Hq]; [|pose proof (eq_trans (eq_sym (int_run_other l q d Hq)) Hd) as He; discriminate He].
    pose proof (eq_trans (eq_sym (int_run_get l d)) Hd) as He. destruct (@dget Z l d) as [z|] eqn:Hz; [|discriminate He]. injection He as <-. apply dget_In_Z in Hz. rewrite Forall_forall in Hs. specialize (Hs _ Hz). cbn in Hs.
    exists (IZR z). split; [now apply fin_ofZ|now apply small_le_200].
Qed.
Lemma int_value l d z : @dget Z l d = Some z -> small z -> value64 (int_run l : Run N0) "q" d (IZR z).
Proof. intros H Hz. exists (sf_of_Z z). split; [etransitivity; [exact (int_run_get l d)|now rewrite H]|now apply fin_ofZ]. Qed.
Lemma int_fusable ls : ls <> [] -> (Z.of_nat (length ls) <= 2 ^ 53)%Z -> Forall (fun l => nodupb (map fst l) = true /\ Forall (fun p => small (snd p)) l) ls -> fusable64 (map int_run ls : list (Run N0)).
Proof.
  intros H1 H2 H3. split; [now destruct ls|]. split; [|split; [now rewrite map_length|]].
  - apply Forall_forall. intros x Hx. apply in_map_iff in Hx as (l & <- & Hl). rewrite Forall_forall in H3. destruct (H3 l Hl). now apply int_run64.
  - intros x x' q Hx Hx'. apply in_map_iff in Hx as (l & <- & _). apply in_map_iff in Hx' as (l' & <- & _). intros H. exact H.
Qed.
Definition flip_xs : list (Run NumSF) := map int_run [[("a", 2 ^ 53); ("c", 1)]; [("a", 1); ("c", 1)]; [("c", 2 ^ 53); ("a", 1)]]%Z.
Lemma flip_ok : fusable64 (flip_xs : list (Run N0)).
Proof. apply int_fusable; [discriminate|cbn; lia|]. repeat constructor; unfold small; cbn; lia. Qed.
Definition flip_y : Run NumSF := match @comb_sum NumSF env_ex flip_xs "s" with Ok y => y | Err _ => int_run [] end.
Definition flip_y' : Run NumSF := match @comb_sum NumSF env_ex (rev flip_xs) "s" with Ok y => y | Err _ => int_run [] end.
(** CombSUM of three runs: the order of the runs decides which of two documents with equal sums comes first *)
Theorem C84_order_refuted : exists (E : @env N0) (xs : list (Run N0)) (y y' : Run N0) q a c la lc,
  env_ok E /\ fusable64 xs /\ given64 q a xs la /\ given64 q c xs lc /\ Rsum la = Rsum lc /\
  comb_sum E xs "s" = Ok y /\ comb_sum E (rev xs) "s" = Ok y' /\
  (exists va vc, value64 y q a va /\ value64 y q c vc /\ va < vc) /\ (exists va vc, value64 y' q a va /\ value64 y' q c vc /\ vc < va).
Proof.
  assert (Hbig : is64 (S754_finite false 4503599627370497 1) (IZR (2 ^ 53 + 2))).
  { split; [vm_compute; reflexivity|]. split; [vm_compute; reflexivity|]. unfold SF2R, F2R. cbn [Fnum Fexp cond_Zopp]. change (bpow radix2 1) with (IZR 2). rewrite <- mult_IZR. reflexivity. }
  assert (Hsm : is64 (sf_of_Z (2 ^ 53)) (IZR (2 ^ 53))) by (apply fin_ofZ; unfold small; lia).
  exists env_ex, flip_xs, flip_y, flip_y', "q", "a", "c", [IZR (2 ^ 53); 1; 1], [1; 1; IZR (2 ^ 53)].
  split; [exact (env_ex_ok NumSF_ok)|]. split; [exact flip_ok|].
  split; [repeat (apply given_held; [apply int_value; [reflexivity|unfold small; lia]|]); constructor|].
  split; [repeat (apply given_held; [apply int_value; [reflexivity|unfold small; lia]|]); constructor|].
  split; [cbn [Rsum fold_right]; lra|]. split; [vmr|]. split; [vmr|].
  split.
  - exists (IZR (2 ^ 53)), (IZR (2 ^ 53 + 2)). split; [exists (sf_of_Z (2 ^ 53)); split; [vmr|exact Hsm]|]. split; [exists (S754_finite false 4503599627370497 1); split; [vmr|exact Hbig]|]. apply IZR_lt. lia.
  - exists (IZR (2 ^ 53 + 2)), (IZR (2 ^ 53)). split; [exists (S754_finite false 4503599627370497 1); split; [vmr|exact Hbig]|]. split; [exists (sf_of_Z (2 ^ 53)); split; [vmr|exact Hsm]|]. apply IZR_lt. lia.
Qed.
Print Assumptions C84_order_refuted.
Definition tie_xs : list (Run NumSF) := map int_run [[("a", 2 ^ 53); ("b", 2 ^ 53)]; [("a", 1); ("b", 0)]]%Z.
Definition tie_s : Run NumSF := match @comb_sum NumSF env_ex tie_xs "s" with Ok y => y | Err _ => int_run [] end.
(** every run scores [a] at least as high as [b] and one of them higher, yet CombSUM ties them (over the reals it does not: C83) *)
Theorem C84_strict_refuted : exists (E : @env N0) (xs : list (Run N0)) (y : Run N0) q a b v,
  env_ok E /\ fusable64 xs /\ (forall x, In x xs -> scores_both64 x q a b) /\
  (exists x ra rb, In x xs /\ value64 x q a ra /\ value64 x q b rb /\ rb < ra) /\
  comb_sum E xs "s" = Ok y /\ value64 y q a v /\ value64 y q b v.
Proof.
  assert (Hsm : is64 (sf_of_Z (2 ^ 53)) (IZR (2 ^ 53))) by (apply fin_ofZ; unfold small; lia).
  exists env_ex, tie_xs, tie_s, "q", "a", "b", (IZR (2 ^ 53)). split; [exact (env_ex_ok NumSF_ok)|].
  split; [apply int_fusable; [discriminate|cbn; lia|]; repeat constructor; unfold small; cbn; lia|].
  split.
  - intros x Hx. assert (H : exists za zb l, x = int_run l /\ @dget Z l "a" = Some za /\ @dget Z l "b" = Some zb /\ small za /\ small zb /\ (zb <= za)%Z).
    { destruct Hx as [ <- |[ <- |[]]]; do 3 eexists; (split; [reflexivity|]); (split; [reflexivity|]); (split; [reflexivity|]); unfold small; lia. }
    destruct H as (za & zb & l & -> & Ha & Hb & Sa & Sb & Hle). pose proof (int_value l "a" za Ha Sa) as Va. pose proof (int_value l "b" zb Hb Sb) as Vb. split.
    + split; intros _; [destruct Vb as (s & Hs & _)|destruct Va as (s & Hs & _)]; now exists s.
    + intros ra rb Hra Hrb. rewrite (val_fun _ _ _ _ _ _ _ _ Hra Va), (val_fun _ _ _ _ _ _ _ _ Hrb Vb). now apply IZR_le.
  - split.
    + exists (int_run [("a", 1); ("b", 0)]%Z), 1, 0. split; [right; now left|]. split; [apply (int_value _ "a" 1%Z); [reflexivity|unfold small; lia]|]. split; [apply (int_value _ "b" 0%Z); [reflexivity|unfold small; lia]|]. lra.
    + split; [vmr|]. split; (exists (sf_of_Z (2 ^ 53)); split; [vmr|exact Hsm]).
Qed.
Print Assumptions C84_strict_refuted.
(** the hypotheses of C84 are met: [flip_xs], with weights 1, 2 and 3 *)
Example C84_case : fusable64 (flip_xs : list (Run N0)) /\ lists_upto (2 ^ 26) (flip_xs : list (Run N0)) /\ weights64 [sf_of_Z 1; sf_of_Z 2; sf_of_Z 3] [1; 2; 3] /\
  (forall x, In x (tie_xs : list (Run N0)) -> ranks_more64 x "q" "a" "b") /\ ranks64 (flip_xs : list (Run N0)) "q" "a" = [1; 1; 2]%nat.
Proof.
  split; [exact flip_ok|]. split; [|split; [|split]].
  - intros x q Hx. destruct (string_dec q "q") as [ -> |Hq].
    + destruct Hx as [ <- |[ <- |[ <- |[]]]]; cbn; lia.
    + assert (H0 : @of_query sf (r_map x) q = []); [|change (Z.of_nat (length (@of_query sf (r_map x) q)) <= 2 ^ 26)%Z; rewrite H0; cbn; lia].
      destruct Hx as [ <- |[ <- |[ <- |[]]]]; unfold of_query, int_run; cbn [r_map dget]; destruct (String.eqb_spec q "q"); try contradiction; reflexivity.
  - assert (H : forall z, small z -> is64 (sf_of_Z z) (IZR z) /\ Rabs (IZR z) <= 2 ^ 200) by (intros z Hz; split; [now apply fin_ofZ|now apply small_le_200]).
    constructor; [apply (H 1%Z); unfold small; lia|]. constructor; [apply (H 2%Z); unfold small; lia|]. constructor; [apply (H 3%Z); unfold small; lia|]. constructor.
  - intros x [ <- |[ <- |[]]] rb Hb; exists 1%nat; (split; [reflexivity|]); assert (Some rb = Some 2%nat) as He by exact (eq_sym Hb); injection He as ->; lia.
  - reflexivity.
Qed.
