(** P_Strings.v: lemmas on string functions *)
From Verif Require Import Base M_Strings Spec_Strings.
Open Scope string_scope.
Open Scope list_scope.
Open Scope nat_scope.

Lemma sapp_assoc (a b c : string) : ((a ++ b) ++ c)%string = (a ++ (b ++ c))%string.
Proof. induction a; cbn; congruence. Qed.
Lemma sapp_nil_r (a : string) : (a ++ "")%string = a.
Proof. induction a; cbn; congruence. Qed.

(** [nochar c s]: c does not occur in s *)
Fixpoint nochar (c : ascii) (s : string) : bool :=
  match s with EmptyString => true | String a s' => negb (Ascii.eqb c a) && nochar c s' end.

Lemma prefixb_self p s : prefixb p (p ++ s) = true.
Proof. induction p; cbn; [reflexivity|]. now rewrite Ascii.eqb_refl. Qed.
Lemma prefixb_true p s : prefixb p s = true <-> exists t, s = (p ++ t)%string.
Proof.
  split.
  - revert s. induction p as [|a p IH]; intros s H; [exists s; reflexivity|].
    destruct s as [|b s]; [discriminate|]. cbn in H. apply andb_true_iff in H as [H1 H2].
    apply Ascii.eqb_eq in H1. subst. destruct (IH _ H2) as [t ->]. now exists t.
  - intros [t ->]. apply prefixb_self.
Qed.
Lemma substr_in_app p a s : substr_in p s = true -> substr_in p (a ++ s) = true.
Proof.
  intros H. induction a as [|c a IH]; [exact H|]. cbn [append substr_in]. rewrite IH. apply orb_true_r.
Qed.
Lemma substr_in_self p s : substr_in p (p ++ s) = true.
Proof. destruct p; cbn [append substr_in]; [now destruct s|]. change (prefixb ?p ?s || ?x) with (prefixb p s || x).
  replace (String a (p ++ s)) with ((String a p) ++ s)%string by reflexivity. rewrite prefixb_self. reflexivity. Qed.
Lemma substr_in_mid p a s : substr_in p (a ++ p ++ s) = true.
Proof. apply substr_in_app, substr_in_self. Qed.

(** reading past a piece that does not contain the separator's first character *)
Lemma split_go_skip c sep a : nochar c a = true -> forall acc t,
  split_go (String c sep) 0 acc (a ++ t) = split_go (String c sep) 0 (acc ++ a) t.
Proof.
  induction a as [|x a IH]; intros H acc t; [cbn [append]; now rewrite sapp_nil_r|].
  cbn in H. apply andb_true_iff in H as [H1 H2]. cbn [append split_go prefixb].
  apply negb_true_iff in H1. rewrite H1. cbn [andb]. rewrite IH by exact H2.
  rewrite sapp_assoc. reflexivity.
Qed.
Lemma split_go_drop sep n : forall acc u t, String.length u = n ->
  split_go sep n acc (u ++ t) = split_go sep 0 acc t.
Proof.
  induction n as [|n IH]; intros acc u t Hu; destruct u as [|x u]; try discriminate; [reflexivity|].
  cbn [append split_go]. apply IH. now inversion Hu.
Qed.
Lemma split_go_hit c sep acc t :
  split_go (String c sep) 0 acc (String c sep ++ t) = acc :: split_go (String c sep) 0 "" t.
Proof.
  cbn [append split_go]. replace (String c (sep ++ t)) with (String c sep ++ t)%string by reflexivity.
  rewrite prefixb_self. f_equal. apply split_go_drop. cbn. lia.
Qed.
Lemma split_go_end sep acc : split_go sep 0 acc "" = [acc].
Proof. reflexivity. Qed.

Lemma substr_in_skip c p a t : nochar c a = true -> substr_in (String c p) (a ++ t) = substr_in (String c p) t.
Proof.
  induction a as [|x a IH]; [reflexivity|]. cbn. intros H. apply andb_true_iff in H as [H1 H2].
  apply negb_true_iff in H1. rewrite H1. cbn. now apply IH.
Qed.
Lemma substr_in_none c p a : nochar c a = true -> substr_in (String c p) a = false.
Proof. intros H. rewrite <- (sapp_nil_r a), substr_in_skip by exact H. reflexivity. Qed.

(** the first part of a split is a prefix; a split on an occurring separator has two parts *)
Lemma split_go_head sep s : forall skip acc, exists h t l,
  split_go sep skip acc s = h :: l /\ (skip = 0 -> (h ++ t)%string = (acc ++ s)%string).
Proof.
  induction s as [|c s IH]; intros skip acc.
  - exists acc, ""%string, []. now destruct skip.
  - cbn [split_go]. destruct skip as [|k].
    + destruct (prefixb sep (String c s)).
      * exists acc, (String c s), (split_go sep (String.length sep - 1) "" s). auto.
      * destruct (IH 0 (acc ++ String c "")%string) as (h & t & l & H1 & H2). exists h, t, l.
        split; [exact H1|]. intros _. rewrite H2 by reflexivity. now rewrite sapp_assoc.
    + destruct (IH k acc) as (h & t & l & H1 & H2). exists h, t, l. split; [exact H1|discriminate].
Qed.
Lemma split_on_head sep s : exists h t l, split_on sep s = h :: l /\ s = (h ++ t)%string.
Proof.
  destruct (split_go_head sep s 0 "") as (h & t & l & H1 & H2). exists h, t, l. split; [exact H1|].
  symmetry. now apply H2.
Qed.
Lemma split_go_two sep s : sep <> ""%string -> forall acc, substr_in sep s = true ->
  exists h k l, split_go sep 0 acc s = h :: k :: l.
Proof.
  intros Hs. induction s as [|c s IH]; intros acc H.
  - cbn in H. rewrite orb_false_r in H. destruct sep; [easy|discriminate].
  - cbn [split_go]. destruct (prefixb sep (String c s)) eqn:Hp.
    + destruct (split_go_head sep s (String.length sep - 1) "") as (h & t & l & H1 & _). rewrite H1. eauto.
    + cbn [substr_in] in H. rewrite Hp in H. now apply IH.
Qed.

(** digits *)
Lemma digits_nochar c s : all_digits s -> (nat_of_ascii c < 48 \/ 57 < nat_of_ascii c) -> nochar c s = true.
Proof.
  intros H Hc. induction s as [|a s IH]; [reflexivity|]. cbn. destruct H as [H1 H2].
  rewrite (IH H2), andb_true_r. apply negb_true_iff. apply Ascii.eqb_neq. intros ->. lia.
Qed.
Lemma digit_of_digit a : 48 <= nat_of_ascii a <= 57 -> digit_of a = Some (Z.of_nat (nat_of_ascii a) - 48)%Z.
Proof.
  intros H. unfold digit_of. destruct (Nat.leb_spec 48 (nat_of_ascii a)), (Nat.leb_spec (nat_of_ascii a) 57); try lia.
  cbn [andb]. f_equal. lia.
Qed.
Lemma read_digits_numeral s : all_digits s -> forall prev acc n, (s = ""%string -> prev = true) ->
  read_digits prev acc n s = Some (dec_val acc s, n + String.length s, ""%string).
Proof.
  induction s as [|a s IH]; intros H prev acc n Hp.
  - cbn. rewrite Hp by reflexivity. now rewrite Nat.add_0_r.
  - destruct H as [H1 H2]. cbn [read_digits dec_val]. rewrite digit_of_digit by exact H1.
    rewrite IH by auto. f_equal. f_equal. f_equal. cbn. lia.
Qed.
Lemma parse_nat_numeral s n : numeral s n -> parse_nat s = Some n.
Proof.
  intros (H1 & H2 & H3). unfold parse_nat. rewrite read_digits_numeral by (auto; intros; contradiction).
  now rewrite H3.
Qed.
Lemma digit_not_space a : 48 <= nat_of_ascii a <= 57 -> is_space a = false.
Proof.
  intros H. unfold is_space.
  rewrite (proj2 (Nat.leb_gt (nat_of_ascii a) 13)) by lia. rewrite (proj2 (Nat.leb_gt (nat_of_ascii a) 32)) by lia.
  now rewrite !andb_false_r.
Qed.
Lemma rstrip_digits s : all_digits s -> rstrip s = s.
Proof.
  induction s as [|a s IH]; intros H; [reflexivity|]. destruct H as [H1 H2]. cbn [rstrip]. rewrite IH by exact H2.
  destruct s; [now rewrite digit_not_space|reflexivity].
Qed.
Lemma lstrip_digits s : all_digits s -> lstrip s = s.
Proof. destruct s as [|a s]; intros H; [reflexivity|]. cbn. now rewrite digit_not_space by apply H. Qed.
Lemma py_int_numeral s n : numeral s n -> py_int s = Ok n.
Proof.
  intros H. pose proof (parse_nat_numeral s n H) as Hp. destruct H as (H1 & H2 & H3).
  unfold py_int, strip. rewrite rstrip_digits, lstrip_digits by exact H2.
  destruct s as [|a s]; [contradiction|]. cbn [parse_signed]. rewrite Hp. destruct H2 as [H2 _].
  destruct (Ascii.eqb_spec a "-") as [->|Hm]; [cbn in H2; lia|].
  destruct (Ascii.eqb_spec a "+") as [->|Hq]; [cbn in H2; lia|]. reflexivity.
Qed.
Lemma dec_val_app s : forall acc t, dec_val acc (s ++ t) = dec_val (dec_val acc s) t.
Proof. induction s; intros; cbn; auto. Qed.
Lemma all_digits_app s t : all_digits s -> all_digits t -> all_digits (s ++ t).
Proof. induction s; cbn; tauto. Qed.
(** every natural number has a numeral *)
Lemma numeral_exists n : (0 <= n)%Z -> exists s, numeral s n.
Proof.
  intros Hn. refine (Z_lt_induction (fun n => (0 <= n)%Z -> exists s, numeral s n) _ n Hn Hn). clear n Hn.
  intros n IH Hn.
  assert (Hd : forall d, (0 <= d < 10)%Z -> exists a, 48 <= nat_of_ascii a <= 57 /\ Z.of_nat (nat_of_ascii a) = (d + 48)%Z).
  { intros d Hd. exists (ascii_of_nat (Z.to_nat d + 48)). rewrite nat_ascii_embedding by lia. lia. }
  destruct (Z_lt_ge_dec n 10) as [Hlt|Hge].
  - destruct (Hd n ltac:(lia)) as (a & Ha & Hv). exists (String a ""). split; [discriminate|]. split; [cbn; tauto|]. cbn [dec_val]. lia.
  - destruct (IH (n / 10)%Z) as (s & H1 & H2 & H3).
    + split; [apply Z.div_pos; lia|apply Z.div_lt; lia].
    + apply Z.div_pos; lia.
    + pose proof (Z.mod_pos_bound n 10 ltac:(lia)). destruct (Hd (n mod 10)%Z ltac:(lia)) as (a & Ha & Hv).
      exists (s ++ String a "")%string. split; [destruct s; discriminate|]. split.
      * apply all_digits_app; [exact H2|cbn; tauto].
      * rewrite dec_val_app, H3. cbn [dec_val]. pose proof (Z.div_mod n 10 ltac:(lia)). lia.
Qed.

Lemma prefixb_sep p a c t : nochar c p = true -> prefixb p (a ++ String c t) = prefixb p a.
Proof.
  revert a. induction p as [|x p IH]; intros a H; [reflexivity|].
  cbn in H. apply andb_true_iff in H as [H1 H2]. apply negb_true_iff in H1.
  destruct a as [|y a]; cbn.
  - destruct (Ascii.eqb_spec x c) as [->|]; [now rewrite Ascii.eqb_refl in H1|reflexivity].
  - now rewrite IH.
Qed.
Lemma substr_in_sep p a c t : p <> ""%string -> nochar c p = true ->
  substr_in p (a ++ String c t) = substr_in p a || substr_in p t.
Proof.
  intros Hp H. induction a as [|y a IH].
  - cbn [append substr_in]. replace (prefixb p (String c t)) with false; [|].
    + replace (prefixb p "") with false; [reflexivity|]. destruct p; [easy|reflexivity].
    + symmetry. destruct p as [|x p]; [easy|]. cbn in *. apply andb_true_iff in H as [H1 H2]. apply negb_true_iff in H1.
      destruct (Ascii.eqb_spec x c) as [->|]; [now rewrite Ascii.eqb_refl in H1|reflexivity].
  - cbn [append substr_in]. rewrite IH. replace (String y (a ++ String c t)) with (String y a ++ String c t)%string by reflexivity.
    rewrite prefixb_sep by exact H. now rewrite orb_assoc.
Qed.
(** a two-character separator of distinct characters *)
Lemma split_go_skip2 c d a : Ascii.eqb d c = false -> substr_in (String c (String d "")) a = false -> forall acc t,
  split_go (String c (String d "")) 0 acc (a ++ String c t) =
  split_go (String c (String d "")) 0 (acc ++ a) (String c t).
Proof.
  intros Hcd. induction a as [|x a IH]; intros H acc t; [cbn [append]; now rewrite sapp_nil_r|].
  cbn [substr_in] in H. apply orb_false_iff in H as [H1 H2].
  cbn [append]. set (u := String c t) in *. cbn [split_go].
  replace (prefixb (String c (String d "")) (String x (a ++ u))) with false.
  - unfold u. rewrite IH by exact H2. rewrite sapp_assoc. reflexivity.
  - unfold u. symmetry. cbn in *. destruct (Ascii.eqb c x); [|reflexivity]. cbn in *.
    destruct a as [|y a]; cbn in *; [rewrite Hcd; reflexivity|exact H1].
Qed.
