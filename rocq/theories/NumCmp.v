(** NumCmp.v: < and == in terms of <=, for the real and the binary64 instance *)
From Coq Require Import Reals Lra SpecFloat.
From Verif Require Import Base Num NumLaws EnvEx.

Class NumCmp (N : Num) : Prop := {
  cmp_eq : forall a b : F, feqb a b = fleb a b && fleb b a;
  cmp_lt : forall a b : F, fltb a b = fleb a b && negb (fleb b a)
}.

#[export] Instance NumR_cmp : NumCmp NumR.
Proof.
  split; intros a b; numR.
  - unfold Reqb, Rleb. destruct (Req_EM_T a b), (Rle_dec a b), (Rle_dec b a); auto; lra.
  - unfold Rltb, Rleb. destruct (Rlt_dec a b), (Rle_dec a b), (Rle_dec b a); auto; lra.
Qed.

Lemma SFcompare_anti x y : SFcompare y x = option_map CompOpp (SFcompare x y).
Proof.
  destruct x as [bx|bx| |sx mx ex], y as [by_|by_| |sy my ey]; cbn; try reflexivity;
    repeat match goal with b : bool |- _ => destruct b end; cbn; try reflexivity.
  - rewrite (Z.compare_antisym ex ey). destruct (Z.compare ex ey) eqn:He; cbn; try reflexivity.
    now rewrite <- (pcc_antisym mx my).
  - rewrite (Z.compare_antisym ex ey). destruct (Z.compare ex ey) eqn:He; cbn; try reflexivity.
    now rewrite <- (pcc_antisym mx my).
Qed.
Lemma NumSF_cmp l1 l2 pw : NumCmp (NumSF_with l1 l2 pw).
Proof.
  split; intros a b; cbn; unfold sf_eqb, sf_ltb, sf_leb, SFeqb, SFltb, SFleb; rewrite (SFcompare_anti a b);
    destruct (SFcompare a b) as [[]|]; reflexivity.
Qed.
#[export] Instance NumSF_cmp' : NumCmp NumSF.
Proof. apply NumSF_cmp. Qed.

Section L.
Context {N : Num} {HL : NumLaws N} {HC : NumCmp N}.
Lemma feqb_sym (a b : F) : feqb a b = feqb b a.
Proof. rewrite !cmp_eq. apply andb_comm. Qed.
Lemma trichotomy (a b : F) : is_nan a = false -> is_nan b = false ->
  (if fltb b a then 1 else 0) + (if feqb a b then 1 else 0) + (if fltb a b then 1 else 0) = 1.
Proof.
  intros Ha Hb. rewrite !cmp_eq, !cmp_lt. destruct (law_le_total a b Ha Hb) as [H|H]; rewrite H; [destruct (fleb b a)|destruct (fleb a b)]; reflexivity.
Qed.
Lemma nan_le (a b : F) : is_nan a = true -> fleb a b = false /\ fleb b a = false.
Proof.
  unfold is_nan. rewrite cmp_eq. intros H. apply negb_true_iff in H. rewrite andb_diag in H.
  assert (Hn : is_nan a = true) by (unfold is_nan; rewrite cmp_eq, H; reflexivity).
  split.
  - destruct (fleb a b) eqn:Hab; [|reflexivity]. exfalso.
    (* a <= b and b not NaN; -b <= -a gives -a not NaN *)
    assert (Ho : fleb (fopp b) (fopp a) = true) by (rewrite law_opp_le; exact Hab).
    apply law_le_nan in Ho. rewrite law_nan_opp in Ho. congruence.
  - destruct (fleb b a) eqn:Hba; [|reflexivity]. apply law_le_nan in Hba. congruence.
Qed.
Lemma nan_cmp (a b : F) : is_nan a = true \/ is_nan b = true -> fltb b a = false /\ feqb a b = false /\ fltb a b = false.
Proof.
  intros [H|H]; destruct (nan_le _ b H); destruct (nan_le _ a H); rewrite !cmp_eq, !cmp_lt; repeat match goal with H : fleb _ _ = _ |- _ => rewrite H; clear H end; repeat split; now rewrite ?andb_false_r.
Qed.
Lemma flt_nle (a b : F) : is_nan a = false -> is_nan b = false -> fltb a b = negb (fleb b a).
Proof.
  intros Ha Hb. rewrite cmp_lt. destruct (law_le_total a b Ha Hb) as [H|H]; rewrite H; [reflexivity|]. now rewrite andb_false_r.
Qed.
End L.
