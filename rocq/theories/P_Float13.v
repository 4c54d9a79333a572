(** P_Float13.v: the combination formulas in binary64 *)
From Coq Require Import Reals ZArith Lra Lia SpecFloat Psatz List String.
From Flocq Require Import Core.Core IEEE754.BinarySingleNaN.
From Verif Require Import Base Dict Num NumLaws Env EnvEx M_Common M_Qrels M_Run M_Norm M_Fusion Spec_DS Spec_Hist Spec_Metrics Spec_Eval Spec_Norm Spec_Fusion Spec_Float Spec_Float3 Spec_Float4
  P_Base P_Dict P_Common P_History P_Norm P_Fusion P_Float P_Float2 P_Float3 P_Float10 P_Float11 P_Float12.
Import ListNotations.
Open Scope R_scope.

Section N.
Variables (l1 l2 : sf -> sf) (pw : sf -> sf -> sf).
Notation N64 := (NumSF_with l1 l2 pw).
Variable E : @env N64.
Hypothesis HE : env_ok E.

Lemma is64_nan s r : is64 s r -> @is_nan N64 s = false.
Proof. intros H. unfold is_nan. change (@feqb N64 s s) with (sf_eqb s s). rewrite (eqb64 s s r r H H). now rewrite Req_bool_true. Qed.

Definition same_docs64 (x : Run N64) (m : dict (dict sf)) : Prop :=
  @dict_ok (dict sf) m /\ dkeys m = dkeys (r_map x) /\ forall q, dkeys (ofq m q) = dkeys (@ofq sf (r_map x) q).
Lemma holds_key (x : Run N64) q d : holds64 x q d <-> In d (dkeys (@ofq sf (r_map x) q)).
Proof.
  unfold holds64. pose proof (dget2_ofq (V := sf) (r_map x) q d) as H. split.
  - intros [s Hs]. pose proof (eq_trans (eq_sym H) Hs) as Hd. exact (dget_Some_key (V := sf) _ _ _ Hd).
  - intros Hin. apply (key_dget (V := sf)) in Hin as [v Hv]. exists v. exact (eq_trans H Hv).
Qed.
Lemma sorted_ranked64 (y : Run N64) : @dict2_ok sf (r_map y) -> @run_in_order N64 (r_map y) -> ranked64 y.
Proof.
  intros [Hok Hin] [_ Hs] q d d' i j n v v' [Hi _] [Hj _] Hlt (s & Hd & Hv) (s' & Hd' & Hv').
  change (@dget2 sf (r_map y) q d = Some s) in Hd. change (@dget2 sf (r_map y) q d' = Some s') in Hd'. change (nth_error (dkeys (@of_query sf (r_map y) q)) i = Some d) in Hi. change (nth_error (dkeys (@of_query sf (r_map y) q)) j = Some d') in Hj.
  unfold dget2 in Hd, Hd'. unfold of_query in Hi, Hj.
  destruct (@dget (dict sf) (r_map y) q) as [r|] eqn:Hr; [|discriminate Hd].
  specialize (Hs q r Hr). specialize (Hin q r Hr). 
  assert (Hni : nth_error r i = Some (d, s)).
  { unfold dkeys in Hi. rewrite nth_error_map in Hi. destruct (nth_error r i) as [[e u]|] eqn:Hn; [|discriminate]. cbn in Hi. inversion Hi; subst e.
    apply nth_error_In in Hn as Hn'. pose proof (P_Dict.in_dget (V := sf) r d u Hin Hn') as Hu. assert (Hus : Some u = Some s) by exact (eq_trans (eq_sym Hu) Hd). inversion Hus. reflexivity. }
  assert (Hnj : nth_error r j = Some (d', s')).
  { unfold dkeys in Hj. rewrite nth_error_map in Hj. destruct (nth_error r j) as [[e u]|] eqn:Hn; [|discriminate]. cbn in Hj. inversion Hj; subst e.
    apply nth_error_In in Hn as Hn'. pose proof (P_Dict.in_dget (V := sf) r d' u Hin Hn') as Hu. assert (Hus : Some u = Some s') by exact (eq_trans (eq_sym Hu) Hd'). inversion Hus. reflexivity. }
  assert (Hle : sf_leb s' s = true).
  { clear - Hs Hni Hnj Hlt. revert i j Hni Hnj Hlt. induction Hs as [|p r Hs IH Hf]; intros i j Hi Hj Hlt; [now destruct i|].
    destruct j as [|j]; [lia|]. cbn in Hj. destruct i as [|i].
    - cbn in Hi. inversion Hi; subst. rewrite Forall_forall in Hf. exact (Hf (d', s') (nth_error_In _ _ Hj)).
    - cbn in Hi. apply (IH i j); auto. lia. }
  rewrite (leb64 s' s v' v Hv' Hv) in Hle. now destruct (Rle_bool_spec v' v).
Qed.

Lemma fuse_intro tag formula name xs ms : fusable64 xs -> Forall2 same_docs64 xs ms ->
  (forall q d, (exists x, In x xs /\ holds64 x q d) -> exists s v, formula (map (fun m => ofq m q) ms) d = Ok s /\ is64 s v) ->
  exists y, @comb N64 E tag formula name ms = Ok y /\ union64 xs y /\
    forall q d v, value64 y q d v -> exists s, formula (map (fun m => ofq m q) ms) d = Ok s /\ is64 s v.
Proof.
  intros (Hne & _ & _ & Hq) HF Hform.
  pose (φ := fun q d => match formula (map (fun m : dict (dict sf) => ofq m q) ms) d with Ok s => s | Err _ => @fzero N64 end).
  assert (Hml : forall m, In m ms -> exists x, In x xs /\ same_docs64 x m).
  { intros m Hm. clear - HF Hm. induction HF as [|x m' xs ms Hx HF IH]; [easy|]. destruct Hm as [ -> |Hm]; [exists x; split; [now left|auto]|]. destruct (IH Hm) as (z & Hz & Hz'). exists z. split; [now right|auto]. }
  assert (Hxl : forall x, In x xs -> exists m, In m ms /\ same_docs64 x m).
  { intros m Hm. clear - HF Hm. induction HF as [|x m' xs ms Hx HF IH]; [easy|]. destruct Hm as [ -> |Hm]; [exists m'; split; [now left|auto]|]. destruct (IH Hm) as (z & Hz & Hz'). exists z. split; [now right|auto]. }
  assert (Hhas : forall q d, has_doc (map (fun m => ofq m q) ms) d = true <-> exists x, In x xs /\ holds64 x q d).
  { intros q d. rewrite has_doc_in. split.
    - intros (r & Hr & Hd). apply in_map_iff in Hr as (m & <- & Hm). destruct (Hml m Hm) as (x & Hx & _ & _ & Hk). exists x. split; auto. apply holds_key. now rewrite <- Hk.
    - intros (x & Hx & Hd). destruct (Hxl x Hx) as (m & Hm & _ & _ & Hk). exists (ofq m q). split; [apply in_map_iff; eauto|]. rewrite Hk. now apply holds_key. }
  destruct (@comb_G N64 E HE (NumSF_laws l1 l2 pw) tag formula name ms φ) as (y & Hy & Hok & Hk & Hg & Hs).
  - intros ->. inversion HF; subst. easy.
  - intros m Hm. now destruct (Hml m Hm) as (x & _ & Ho & _).
  - intros m m' q Hm Hm' Hin. destruct (Hml m Hm) as (x & Hx & _ & Hkx & _), (Hml m' Hm') as (x' & Hx' & _ & Hkx' & _). change (In q (@dkeys (dict sf) m')). rewrite Hkx'. apply (Hq x x' q Hx Hx'). unfold query_of64. change (In q (@dkeys (dict sf) m)) in Hin. rewrite Hkx in Hin. exact Hin.
  - intros q d Hh. apply Hhas in Hh. destruct (Hform q d Hh) as (s & v & Hs & _). unfold φ. now rewrite Hs.
  - exists y. split; [exact Hy|]. 
    assert (Hval : forall q d, @dget2 sf (r_map y) q d = if has_doc (map (fun m => ofq m q) ms) d then Some (φ q d) else None) by exact Hg.
    split; [split; [|split; [|split]]|].
    + intros x q Hx. destruct (Hxl x Hx) as (m & Hm & _ & Hkm & _). unfold query_of64. pose proof (Hk m q Hm) as Hkk. change (In q (@dkeys (dict sf) (r_map y)) <-> In q (@dkeys (dict sf) m)) in Hkk. rewrite Hkm in Hkk. exact Hkk.
    + intros q d. rewrite <- Hhas. unfold holds64. pose proof (Hval q d) as Hv. destruct (has_doc (map (fun m => ofq m q) ms) d).
      * split; auto. intros _. exists (φ q d). exact Hv.
      * split; [intros [s H]; pose proof (eq_trans (eq_sym Hv) H) as He; discriminate He|discriminate].
    + intros q d [s Hd]. pose proof (eq_trans (eq_sym (Hval q d)) Hd) as Hd'. destruct (has_doc (map (fun m => ofq m q) ms) d) eqn:Hh; [|discriminate Hd'].
      apply Hhas in Hh. destruct (Hform q d Hh) as (s' & v & Hs' & Hv). unfold φ in Hd'. rewrite Hs' in Hd'. injection Hd' as <-. exists v, s'. now split.
    + apply sorted_ranked64; [exact Hok|]. apply Hs. intros q d Hh. apply Hhas in Hh. destruct (Hform q d Hh) as (s & v & Hs' & Hv). unfold φ. rewrite Hs'. exact (is64_nan s v Hv).
    + intros q d v (s & Hd & Hv). pose proof (eq_trans (eq_sym (Hval q d)) Hd) as Hd'. destruct (has_doc (map (fun m => ofq m q) ms) d) eqn:Hh; [|discriminate Hd'].
      apply Hhas in Hh. destruct (Hform q d Hh) as (s' & v' & Hs' & Hv'). unfold φ in Hd'. rewrite Hs' in Hd'. injection Hd' as <-. exists s'. now split.
Qed.
Lemma same_docs_self xs : Forall run64 xs -> Forall2 same_docs64 xs (maps xs).
Proof. intros H. induction H as [|x xs [[Hx _] _] H IH]; cbn; constructor; auto. split; [exact Hx|]. split; reflexivity. Qed.

(** ** the scores of one document *)
Lemma pow200_big r : Rabs r <= 2 ^ 200 -> Rabs r <= big.
Proof. intros H. eapply Rle_trans; [exact H|]. rewrite pow200_bpow. apply bpow_le. lia. Qed.
Lemma some_fun (x : Run N64) q d (s s' : sf) : @dget2 sf (r_map x) q d = Some s -> @dget2 sf (r_map x) q d = Some s' -> s = s'.
Proof. intros H H'. pose proof (eq_trans (eq_sym H) H') as He. now injection He. Qed.
Lemma val_fun (x : Run N64) q d r r' : value64 x q d r -> value64 x q d r' -> r = r'.
Proof. intros (s & Hs & Hr) (s' & Hs' & Hr'). pose proof (some_fun x q d s s' Hs Hs') as <-. eapply is64_fun; eauto. Qed.
Lemma none_not (x : Run N64) q d : @dget2 sf (r_map x) q d = None -> ~ holds64 x q d.
Proof. intros H [s Hs]. pose proof (eq_trans (eq_sym H) Hs) as He. discriminate He. Qed.
Lemma given_exists q d xs : Forall run64 xs -> exists l : list R, given64 (l1 := l1) (l2 := l2) (pw := pw) q d xs l.
Proof.
  intros H. induction H as [|x xs Hx H [l IH]]; [exists []; constructor|].
  destruct (@dget2 sf (r_map x) q d) as [s|] eqn:Hs.
  - destruct (proj2 Hx q d s Hs) as (r & Hr & _). exists (r :: l). constructor; auto. exists s. auto.
  - exists l. constructor; auto. now apply none_not.
Qed.
Lemma given_len q d xs l : given64 (l1 := l1) (l2 := l2) (pw := pw) q d xs l -> (length l <= length xs)%nat.
Proof. induction 1; cbn; lia. Qed.
Lemma given_fun q d xs l : given64 (l1 := l1) (l2 := l2) (pw := pw) q d xs l -> forall l', given64 q d xs l' -> l = l'.
Proof.
  induction 1 as [|x xs r l Hv H IH|x xs l Hn H IH]; intros l' H'; inversion H' as [|? ? r' l'' Hv' H''|? ? ? Hn' H'']; subst; auto.
  - f_equal; auto. eapply val_fun; eauto.
  - destruct Hv as (s & Hs & _). exfalso. apply Hn'. now exists s.
  - destruct Hv' as (s & Hs & _). exfalso. apply Hn. now exists s.
Qed.
Notation rs xs q := (map (fun m : dict (dict sf) => @ofq sf m q) (@maps N64 xs)).
Lemma held_get (x : Run N64) q d r : value64 x q d r -> exists s, @dget sf (@ofq sf (r_map x) q) d = Some s /\ is64 s r.
Proof. intros (s & Hs & Hr). exists s. split; auto. exact (eq_trans (eq_sym (dget2_ofq (V := sf) _ q d)) Hs). Qed.
Lemma not_get (x : Run N64) q d : ~ holds64 x q d -> @dget sf (@ofq sf (r_map x) q) d = None.
Proof. intros H. destruct (@dget sf (@ofq sf (r_map x) q) d) as [s|] eqn:Hs; auto. exfalso. apply H. exists s. exact (eq_trans (dget2_ofq (V := sf) _ q d) Hs). Qed.
Lemma present_cons x xs q d : @present N64 (rs (x :: xs) q) d = (match @dget sf (@ofq sf (r_map x) q) d with Some s => [s] | None => [] end ++ @present N64 (rs xs q) d)%list.
Proof. reflexivity. Qed.
Lemma present_given q d xs l : Forall run64 xs -> given64 q d xs l -> Forall2 term (@present N64 (rs xs q) d) l.
Proof.
  intros Hr H. induction H as [|x xs r l Hv H IH|x xs l Hn H IH]; [constructor| |]; inversion_clear Hr as [|? ? Hx Hxs]; rewrite present_cons.
  - pose proof (bounded_val l1 l2 pw x Hx q d r Hv) as HB. apply held_get in Hv as (s & Hs & Hr). rewrite Hs. cbn [app]. constructor; [split; [exact Hr|now apply pow200_big]|]. now apply IH.
  - apply not_get in Hn. rewrite Hn. cbn [app]. now apply IH.
Qed.
(** with a default for the runs that do not hold the document *)
Inductive default64 (q d : string) (v : R) : list (Run N64) -> list R -> Prop :=
| def_nil : default64 q d v [] []
| def_held x xs r l : value64 x q d r -> default64 q d v xs l -> default64 q d v (x :: xs) (r :: l)
| def_not x xs l : ~ holds64 x q d -> default64 q d v xs l -> default64 q d v (x :: xs) (v :: l).
Lemma default_exists q d v xs : Forall run64 xs -> exists l, default64 q d v xs l.
Proof.
  intros H. induction H as [|x xs Hx H [l IH]]; [exists []; constructor|].
  destruct (@dget2 sf (r_map x) q d) as [s|] eqn:Hs.
  - destruct (proj2 Hx q d s Hs) as (r & Hr & _). exists (r :: l). constructor; auto. exists s. auto.
  - exists (v :: l). apply def_not; auto. now apply none_not.
Qed.
Lemma get_all_cons dflt x xs q d : @get_all N64 dflt (rs (x :: xs) q) d = (match @dget sf (@ofq sf (r_map x) q) d with Some s => s | None => dflt end :: @get_all N64 dflt (rs xs q) d).
Proof. reflexivity. Qed.
Lemma get_all_default q d dflt v xs l : Forall run64 xs -> term dflt v -> default64 q d v xs l -> Forall2 term (@get_all N64 dflt (rs xs q) d) l.
Proof.
  intros Hr Hd H. induction H as [|x xs r l Hv H IH|x xs l Hn H IH]; [constructor| |]; inversion_clear Hr as [|? ? Hx Hxs]; rewrite get_all_cons.
  - pose proof (bounded_val l1 l2 pw x Hx q d r Hv) as HB. apply held_get in Hv as (s & Hs & Hr). rewrite Hs. constructor; [split; [exact Hr|now apply pow200_big]|]. now apply IH.
  - apply not_get in Hn. rewrite Hn. constructor; [exact Hd|]. now apply IH.
Qed.
Lemma default_len q d v xs l : default64 q d v xs l -> length l = length xs.
Proof. induction 1; cbn; lia. Qed.
Lemma default_zero q d xs l : given64 q d xs l -> forall l0, Forall run64 xs -> default64 q d 0 xs l0 -> forall a, fmt a -> fold_left radd l0 a = fold_left radd l a.
Proof.
  induction 1 as [|x xs r l Hv H IH|x xs l Hn H IH]; intros l0 Hr H0 a Ha; inversion H0 as [|? ? r' l'' Hv' H''|? ? l'' Hn' H'']; subst; auto; inversion_clear Hr as [|? ? Hx Hxs].
  - cbn [fold_left]. assert (r = r') as <-. { eapply val_fun; eauto. }
    apply IH; auto. apply fmt_rnd.
  - destruct Hv as (s & Hs & _). exfalso. apply Hn'. now exists s.
  - destruct Hv' as (s & Hs & _). exfalso. apply Hn. now exists s.
  - cbn [fold_left]. unfold radd at 2. rewrite Rplus_0_r, (rnd_fmt a Ha). now apply IH.
Qed.
Lemma default_in q d v xs l l0 : given64 q d xs l -> default64 q d v xs l0 -> (forall r, In r l -> In r l0) /\ (forall r, In r l0 -> In r l \/ r = v).
Proof.
  intros H. revert l0. induction H as [|x xs r l Hv H IH|x xs l Hn H IH]; intros l0 H0; inversion H0 as [|? ? r' l'' Hv' H''|? ? l'' Hn' H'']; subst.
  - split; auto.
  - assert (r = r') as <-. { eapply val_fun; eauto. }
    destruct (IH _ H'') as [I1 I2]. split; intros z [ -> |Hz]; cbn; auto. destruct (I2 z Hz); auto.
  - destruct Hv as (s & Hs & _). exfalso. apply Hn'. now exists s.
  - destruct Hv' as (s & Hs & _). exfalso. apply Hn. now exists s.
  - destruct (IH _ H'') as [I1 I2]. split; intros z Hz; [right; auto|]. destruct Hz as [ -> |Hz]; auto.
Qed.
(** two documents *)
Lemma both_given q a b (xs : list (Run N64)) la : given64 q a xs la -> forall lb, given64 q b xs lb -> (forall x, In x xs -> scores_both64 x q a b) -> Forall2 Rle lb la.
Proof.
  induction 1 as [|x xs r l Hv H IH|x xs l Hn H IH]; intros lb Hb Hd; inversion Hb as [|? ? r' l'' Hv' H''|? ? l'' Hn' H'']; subst; auto.
  - constructor; [exact (proj2 (Hd x (or_introl eq_refl)) r r' Hv Hv')|]. apply IH; auto. intros; apply Hd; now right.
  - exfalso. apply Hn'. apply (proj1 (Hd x (or_introl eq_refl))). destruct Hv as (s & Hs & _). now exists s.
  - exfalso. apply Hn. apply (proj1 (Hd x (or_introl eq_refl))). destruct Hv' as (s & Hs & _). now exists s.
  - apply IH; auto. intros; apply Hd; now right.
Qed.
Lemma both_default64 q a b v (xs : list (Run N64)) la : default64 q a v xs la -> forall lb, default64 q b v xs lb -> (forall x, In x xs -> scores_both64 x q a b) -> Forall2 Rle lb la.
Proof.
  induction 1 as [|x xs r l Hv H IH|x xs l Hn H IH]; intros lb Hb Hd; inversion Hb as [|? ? r' l'' Hv' H''|? ? l'' Hn' H'']; subst; auto.
  - constructor; [exact (proj2 (Hd x (or_introl eq_refl)) r r' Hv Hv')|]. apply IH; auto. intros; apply Hd; now right.
  - exfalso. apply Hn'. apply (proj1 (Hd x (or_introl eq_refl))). destruct Hv as (s & Hs & _). now exists s.
  - exfalso. apply Hn. apply (proj1 (Hd x (or_introl eq_refl))). destruct Hv' as (s & Hs & _). now exists s.
  - constructor; [lra|]. apply IH; auto. intros; apply Hd; now right.
Qed.

(** ** order statistics *)
Lemma fin_maxl ss : forall rr s r, Forall2 term ss rr -> is64 s r -> is64 (@fmaxl N64 s ss) (@fmaxl NumR r rr).
Proof.
  induction ss as [|t ss IH]; intros rr s r H Hs; inversion H as [|? r' ? rr' [Ht _] H']; subst; [exact Hs|]. cbn [fmaxl fold_left].
  apply (IH rr' (@fmax2 N64 s t) (@fmax2 NumR r r')); auto.
  replace (@fmax2 NumR r r') with (Rmax r r'); [now apply fin_max2|]. unfold fmax2. change (@fltb NumR r r') with (Rltb r r'). unfold Rltb, Rmax. destruct (Rle_dec r r'), (Rlt_dec r r'); auto; lra.
Qed.
Lemma fin_minl ss : forall rr s r, Forall2 term ss rr -> is64 s r -> is64 (@fminl N64 s ss) (@fminl NumR r rr).
Proof.
  induction ss as [|t ss IH]; intros rr s r H Hs; inversion H as [|? r' ? rr' [Ht _] H']; subst; [exact Hs|]. cbn [fminl fold_left].
  apply (IH rr' (@fmin2 N64 s t) (@fmin2 NumR r r')); auto.
  replace (@fmin2 NumR r r') with (Rmin r r'); [now apply fin_min2|]. unfold fmin2. change (@fltb NumR r' r) with (Rltb r' r). unfold Rltb, Rmin. destruct (Rle_dec r r'), (Rlt_dec r' r); auto; lra.
Qed.
Lemma fin_insert ss : forall rr s r, Forall2 term ss rr -> term s r -> Forall2 term (@finsert N64 s ss) (@finsert NumR r rr).
Proof.
  induction ss as [|t ss IH]; intros rr s r H Hs; inversion H as [|? r' ? rr' Ht H']; subst; cbn [finsert]; [now constructor|].
  change (@fleb N64 s t) with (sf_leb s t). change (@fleb NumR r r') with (Rleb r r'). rewrite (leb64 s t r r' (proj1 Hs) (proj1 Ht)).
  unfold Rleb. destruct (Rle_dec r r'), (Rle_bool_spec r r'); try lra.
  - constructor; [exact Hs|]. constructor; [exact Ht|exact H'].
  - constructor; [exact Ht|]. exact (IH rr' s r H' Hs).
Qed.
Lemma fin_sort ss rr : Forall2 term ss rr -> Forall2 term (@fsort N64 ss) (@fsort NumR rr).
Proof. induction 1 as [|s r ss rr Hs H IH]; cbn; [constructor|]. now apply fin_insert. Qed.
Lemma F2_nth_term ss rr : Forall2 term ss rr -> forall i, (i < length rr)%nat -> term (nth i ss (@fzero N64)) (nth i rr 0).
Proof. induction 1 as [|s r ss rr Hs H IH]; intros [|i] Hi; cbn in *; try lia; auto. apply IH. lia. Qed.
Lemma term_len ss rr : Forall2 term ss rr -> length ss = length rr.
Proof. induction 1; cbn; auto. Qed.
(** the middle value, or half the rounded sum of the two middle ones *)
Definition med64 (l : list R) : R :=
  if Nat.even (length l) then rnd64 (rnd64 (nth (length l / 2 - 1) (@fsort NumR l) 0 + nth (length l / 2) (@fsort NumR l) 0) / 2) else nth (length l / 2) (@fsort NumR l) 0.
Lemma fsort_len (l : list R) : length (@fsort NumR l) = length l.
Proof.
  assert (Hi : forall l (x : R), length (@finsert NumR x l) = S (length l)) by (clear; induction l as [|y l IH]; intros x; cbn; auto; destruct (Rleb x y); cbn; auto).
  induction l as [|x l IH]; [reflexivity|]. exact (eq_trans (Hi (@fsort NumR l) x) (f_equal S IH)).
Qed.
Lemma big_sum_bounded a b : Rabs a <= big -> Rabs b <= big -> Rabs (a + b) <= bpow radix2 401.
Proof. intros Ha Hb. eapply Rle_trans; [apply Rabs_triang|]. unfold big in *. change 401%Z with (1 + 400)%Z. rewrite bpow_plus. change (bpow radix2 1) with 2. lra. Qed.
Lemma fin_median ss rr : Forall2 term ss rr -> rr <> [] -> is64 (@fmedian N64 ss) (med64 rr).
Proof.
  intros H Hne. pose proof (fin_sort _ _ H) as Hs. pose proof (term_len _ _ H) as Hl. unfold fmedian, med64. cbv zeta. change (@length (@F N64) ss) with (@length sf ss). rewrite Hl.
  assert (Hpos : (0 < length rr)%nat) by (destruct rr; [easy|cbn; lia]).
  assert (Hn : forall i, (i < length rr)%nat -> term (nth i (@fsort N64 ss) (@fzero N64)) (nth i (@fsort NumR rr) 0)) by (intros i Hi; apply F2_nth_term; [exact Hs|now rewrite fsort_len]).
  assert (Hh : (length rr / 2 < length rr)%nat) by (apply Nat.div_lt; lia).
  destruct (Nat.even (length rr)); [|apply Hn, Hh].
  destruct (Hn (length rr / 2)%nat Hh) as [Hb HbB]. destruct (Hn (length rr / 2 - 1)%nat) as [Ha HaB]; [lia|].
  pose proof (big_sum_bounded _ _ HaB HbB) as Hab.
  assert (H900 : bpow radix2 401 <= bpow radix2 900) by (apply bpow_le; lia).
  change (@fdiv N64) with sf_div. change (@fadd N64) with sf_add. apply fin_div; [apply fin_add; auto; apply bounded; lra|apply fin_two|lra|].
  apply bounded. unfold Rdiv. rewrite Rabs_mult, (Rabs_pos_eq (/ 2)) by lra.
  assert (Hr : Rabs (rnd64 (nth (length rr / 2 - 1) (@fsort NumR rr) 0 + nth (length rr / 2) (@fsort NumR rr) 0)) <= bpow radix2 401).
  { assert (Hf : fmt (bpow radix2 401)) by (apply generic_format_bpow; cbn; lia). apply Rabs_le_inv in Hab. apply Rabs_le. split; [apply rnd_ge_fmt; [now apply generic_format_opp|lra]|apply rnd_le_fmt; [exact Hf|lra]]. }
  refine (Rle_trans _ _ _ _ H900). refine (Rle_trans _ _ _ _ Hr). pose proof (Rabs_pos (rnd64 (nth (length rr / 2 - 1) (@fsort NumR rr) 0 + nth (length rr / 2) (@fsort NumR rr) 0))) as Hp.
  match goal with |- ?a * _ <= ?b => change b with a; set (z := a) in * end. clearbody z. clear - Hp. change (0 <= z) in Hp. lra.
Qed.
End N.
