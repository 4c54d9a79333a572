(** NumLaws.v: order laws shared by the real and the binary64 instance. *)
From Coq Require Import Reals Lra SpecFloat.
From Verif Require Import Base Num.

Class NumLaws (N : Num) : Prop := {
  law_opp_le : forall a b : F, fleb (fopp a) (fopp b) = fleb b a;
  law_nan_opp : forall a : F, is_nan (fopp a) = is_nan a;
  law_le_total : forall a b : F, is_nan a = false -> is_nan b = false ->
                            fleb a b = true \/ fleb b a = true;
  law_le_trans : forall a b c : F, fleb a b = true -> fleb b c = true -> fleb a c = true;
  law_ofZ_nan : forall z, is_nan (fofZ z : F) = false;
  law_le_nan : forall a b : F, fleb a b = true -> is_nan b = false
}.

Ltac numR :=
  unfold fzero, fone, fnat in *;
  cbn [F fadd fsub fmul fdiv fopp fabs fltb fleb feqb fofZ fdec fsqrt fln flog2 fpow
         fnpow ftrunc NumR] in *.

Lemma Rleb_true a b : Rleb a b = true <-> (a <= b)%R.
Proof. unfold Rleb. destruct (Rle_dec a b); split; auto; discriminate. Qed.
Lemma Rleb_false a b : Rleb a b = false <-> (b < a)%R.
Proof. unfold Rleb. destruct (Rle_dec a b); split; intros; try discriminate; try lra; auto. Qed.
Lemma Rltb_true a b : Rltb a b = true <-> (a < b)%R.
Proof. unfold Rltb. destruct (Rlt_dec a b); split; auto; discriminate. Qed.
Lemma Rltb_false a b : Rltb a b = false <-> (b <= a)%R.
Proof. unfold Rltb. destruct (Rlt_dec a b); split; intros; try discriminate; try lra; auto. Qed.
Lemma Reqb_true a b : Reqb a b = true <-> a = b.
Proof. unfold Reqb. destruct (Req_EM_T a b); split; auto; discriminate. Qed.
Lemma Reqb_false a b : Reqb a b = false <-> a <> b.
Proof. unfold Reqb. destruct (Req_EM_T a b); split; intros; try discriminate; try contradiction; auto. Qed.

Lemma is_nan_R (x : R) : @is_nan NumR x = false.
Proof. unfold is_nan. numR. rewrite (proj2 (Reqb_true x x)) by reflexivity. reflexivity. Qed.

#[export] Instance NumR_laws : NumLaws NumR.
Proof.
  split; intros.
  - numR. unfold Rleb. destruct (Rle_dec (-a) (-b)), (Rle_dec b a); auto; lra.
  - now rewrite !is_nan_R.
  - numR. rewrite !Rleb_true. lra.
  - numR. rewrite Rleb_true in *. lra.
  - apply is_nan_R.
  - apply is_nan_R.
Qed.

(** ** binary64 *)
Section SF.
Variables (l1 l2 : sf -> sf) (pw : sf -> sf -> sf).
Local Instance NSF : Num := NumSF_with l1 l2 pw.

Definition sf_isnan (x : sf) : bool := match x with S754_nan => true | _ => false end.

Lemma SFcompare_refl x : sf_isnan x = false -> SFcompare x x = Some Eq.
Proof.
  destruct x as [b|b| |s m e]; cbn; intros H; try discriminate; auto.
  - now destruct b.
  - destruct s; rewrite Z.compare_refl;
      change Pos.compare_cont with Pos.compare_cont;
      now rewrite Pos.compare_cont_refl.
Qed.

Lemma sf_is_nan_eq (x : sf) : @is_nan NSF x = sf_isnan x.
Proof.
  unfold is_nan. cbn. unfold sf_eqb, SFeqb.
  destruct (sf_isnan x) eqn:Hn.
  - destruct x; try discriminate. reflexivity.
  - now rewrite SFcompare_refl.
Qed.

Lemma pcc_antisym a b : CompOpp (Pos.compare_cont Eq a b) = Pos.compare_cont Eq b a.
Proof. symmetry. apply (Pos.compare_antisym a b). Qed.

Lemma SFcompare_opp x y : SFcompare (SFopp x) (SFopp y) = SFcompare y x.
Proof.
  destruct x as [bx|bx| |sx mx ex], y as [by_|by_| |sy my ey]; cbn; try reflexivity;
    repeat match goal with b : bool |- _ => destruct b end; cbn; try reflexivity.
  - rewrite (Z.compare_antisym ex ey). destruct (Z.compare ex ey) eqn:He; cbn; try reflexivity.
    now rewrite pcc_antisym.
  - rewrite (Z.compare_antisym ex ey). destruct (Z.compare ex ey) eqn:He; cbn; try reflexivity.
    now rewrite pcc_antisym.
Qed.

(** order key of a non-NaN float: lexicographic *)
Definition okey (x : sf) : Z * Z * Z :=
  match x with
  | S754_infinity true => (-2, 0, 0)
  | S754_finite true m e => (-1, -e, - Zpos m)
  | S754_zero _ => (0, 0, 0)
  | S754_finite false m e => (1, e, Zpos m)
  | S754_infinity false => (2, 0, 0)
  | S754_nan => (3, 0, 0)
  end%Z.
Definition lexle (a b : Z * Z * Z) : bool :=
  let '(a1, a2, a3) := a in let '(b1, b2, b3) := b in
  (a1 <? b1)%Z || ((a1 =? b1)%Z && ((a2 <? b2)%Z || ((a2 =? b2)%Z && (a3 <=? b3)%Z))).

Lemma SFleb_okey x y : sf_isnan x = false -> sf_isnan y = false ->
  SFleb x y = lexle (okey x) (okey y).
Proof.
  intros Hx Hy. unfold SFleb.
  destruct x as [bx|bx| |sx mx ex], y as [by_|by_| |sy my ey]; cbn in *; try discriminate;
    repeat match goal with b : bool |- _ => destruct b end; cbn; try reflexivity.
  - change (Pos.compare_cont Eq mx my) with (Pos.compare mx my).
    destruct (Z.compare_spec ex ey); cbn;
    try (destruct (Pos.compare_spec mx my); cbn);
    destruct (Z.ltb_spec (- ex) (- ey)); destruct (Z.eqb_spec (- ex) (- ey)); cbn; try lia;
    destruct (Z.leb_spec (Zneg mx) (Zneg my)); try lia; auto.
  - change (Pos.compare_cont Eq mx my) with (Pos.compare mx my).
    destruct (Z.compare_spec ex ey); cbn;
    try (destruct (Pos.compare_spec mx my); cbn);
    destruct (Z.ltb_spec ex ey); destruct (Z.eqb_spec ex ey); cbn; try lia;
    destruct (Z.leb_spec (Zpos mx) (Zpos my)); try lia; auto.
Qed.

Lemma SFleb_nan x y : SFleb x y = true -> sf_isnan x = false /\ sf_isnan y = false.
Proof. unfold SFleb. destruct x, y; cbn; auto; discriminate. Qed.

Lemma lexle_total a b : lexle a b = true \/ lexle b a = true.
Proof.
  destruct a as [[a1 a2] a3], b as [[b1 b2] b3]. cbn.
  destruct (Z.ltb_spec a1 b1), (Z.eqb_spec a1 b1), (Z.ltb_spec b1 a1), (Z.eqb_spec b1 a1),
    (Z.ltb_spec a2 b2), (Z.eqb_spec a2 b2), (Z.ltb_spec b2 a2), (Z.eqb_spec b2 a2),
    (Z.leb_spec a3 b3), (Z.leb_spec b3 a3); cbn; auto; lia.
Qed.

Lemma lexle_prop a1 a2 a3 b1 b2 b3 : lexle (a1, a2, a3) (b1, b2, b3) = true <->
  (a1 < b1 \/ (a1 = b1 /\ (a2 < b2 \/ (a2 = b2 /\ a3 <= b3))))%Z.
Proof.
  cbn. rewrite orb_true_iff, andb_true_iff, orb_true_iff, andb_true_iff.
  rewrite !Z.ltb_lt, !Z.eqb_eq, Z.leb_le. tauto.
Qed.

Lemma lexle_trans a b c : lexle a b = true -> lexle b c = true -> lexle a c = true.
Proof.
  destruct a as [[a1 a2] a3], b as [[b1 b2] b3], c as [[c1 c2] c3].
  rewrite !lexle_prop. lia.
Qed.

Lemma shr_1_nonneg mrs : (0 <= shr_m mrs)%Z -> (0 <= shr_m (shr_1 mrs))%Z.
Proof.
  destruct mrs as [m r s]. cbn. destruct m as [|[p|p|]|p]; cbn; lia.
Qed.

Lemma iter_shr_nonneg p : forall mrs, (0 <= shr_m mrs)%Z -> (0 <= shr_m (SpecFloat.iter_pos shr_1 p mrs))%Z.
Proof.
  induction p as [p IH|p IH|]; intros mrs H; cbn [SpecFloat.iter_pos].
  - apply IH, IH, shr_1_nonneg, H.
  - apply IH, IH, H.
  - apply shr_1_nonneg, H.
Qed.

Lemma shr_fexp_nonneg m e l : (0 <= m)%Z ->
  (0 <= shr_m (fst (shr_fexp sf_prec sf_emax m e l)))%Z.
Proof.
  intros H. unfold shr_fexp, shr.
  assert (H0 : (0 <= shr_m (shr_record_of_loc m l))%Z) by (destruct l as [|[]]; exact H).
  destruct (fexp sf_prec sf_emax (Zdigits2 m + e) - e)%Z; cbn; auto.
  now apply iter_shr_nonneg.
Qed.

Lemma rne_nonneg m l : (0 <= m)%Z -> (0 <= round_nearest_even m l)%Z.
Proof. intros H. unfold round_nearest_even. destruct l as [|[]]; try lia. destruct (Z.even m); lia. Qed.

Lemma sf_round_aux_nan s m e l : (0 <= m)%Z ->
  sf_isnan (binary_round_aux sf_prec sf_emax s m e l) = false.
Proof.
  intros Hm. unfold binary_round_aux.
  pose proof (shr_fexp_nonneg m e l Hm) as H1.
  destruct (shr_fexp sf_prec sf_emax m e l) as [mrs e'].
  pose proof (shr_fexp_nonneg (round_nearest_even (shr_m mrs) (loc_of_shr_record mrs)) e' loc_Exact
                (rne_nonneg _ _ H1)) as H2.
  destruct (shr_fexp sf_prec sf_emax _ e' loc_Exact) as [mrs' e'']. cbn in H2.
  destruct (shr_m mrs'); cbn; auto; [|lia].
  destruct (e'' <=? _)%Z; reflexivity.
Qed.

Lemma sf_of_Z_nan z : sf_isnan (sf_of_Z z) = false.
Proof.
  unfold sf_of_Z, binary_normalize.
  destruct z as [|p|p]; [reflexivity| |];
    (unfold binary_round; destruct (shl_align p 0 _) as [mz ez];
     apply sf_round_aux_nan; lia).
Qed.

Lemma NumSF_laws : NumLaws NSF.
Proof.
  split; intros.
  - cbn. unfold sf_leb, SFleb. now rewrite SFcompare_opp.
  - rewrite !sf_is_nan_eq. cbn in a. cbn [fopp NSF NumSF_with]. now destruct a.
  - rewrite sf_is_nan_eq in *. cbn. unfold sf_leb. rewrite !SFleb_okey by assumption.
    apply lexle_total.
  - cbn in *. unfold sf_leb in *.
    destruct (SFleb_nan _ _ H) as [Ha Hb]. destruct (SFleb_nan _ _ H0) as [_ Hc].
    rewrite SFleb_okey in * by assumption. eapply lexle_trans; eauto.
  - rewrite sf_is_nan_eq. apply sf_of_Z_nan.
  - rewrite sf_is_nan_eq. now apply SFleb_nan in H.
Qed.

End SF.
