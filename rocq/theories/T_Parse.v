(** T_Parse.v: theorems C13, C14 about metric strings. *)
From Coq Require Import Reals.
From Verif Require Import Base Dict Num Env M_Common M_Qrels M_Run M_Metrics M_Strings M_Evaluate
  Spec_Strings P_Base P_Dict P_Strings EnvEx T_DS.
Open Scope string_scope.
Open Scope list_scope.
Open Scope nat_scope.

(** ** C13 *)
Section P.
Context {N : Num}.
Lemma no_at ks : all_digits ks -> nochar "@" ks = true.
Proof. intros H. apply digits_nochar; [exact H|cbn; lia]. Qed.
Lemma no_dash ks : all_digits ks -> nochar "-" ks = true.
Proof. intros H. apply digits_nochar; [exact H|cbn; lia]. Qed.
Lemma no_r ks : all_digits ks -> nochar "r" ks = true.
Proof. intros H. apply digits_nochar; [exact H|cbn; lia]. Qed.
Lemma no_dot ks : all_digits ks -> nochar "." ks = true.
Proof. intros H. apply digits_nochar; [exact H|cbn; lia]. Qed.

Lemma float_frac_numeral ps p : numeral ps p -> float_frac ps = Ok (fdec p (String.length ps)).
Proof.
  intros (H1 & H2 & H3). unfold float_frac. rewrite rstrip_digits by exact H2.
  destruct ps as [|a ps]; [contradiction|].
  rewrite read_digits_numeral by (auto; discriminate). rewrite H3. cbn [Nat.add]. unfold dec_value.
  set (n := String.length (String a ps)).
  rewrite Z.max_l by lia. rewrite Z.mul_1_r. do 2 f_equal. lia.
Qed.
End P.

Section P2.
Context {N : Num}.
(** the body of a metric string (without level) and what it denotes *)
Definition body_parses (b : string) (m : string) (k : karg) : Prop :=
  substr_in "-l" b = false /\ extract_metric_and_params b = Ok (m, k, 1%Z).
Lemma with_level b m k ls l : body_parses b m k -> numeral ls l ->
  extract_metric_and_params (b ++ "-l" ++ ls) = Ok (m, k, l).
Proof.
  intros [H1 H2] Hl. unfold extract_metric_and_params in *. rewrite H1 in H2. cbn [fst snd] in H2.
  replace (substr_in "-l" (b ++ "-l" ++ ls)) with true by (symmetry; apply substr_in_mid).
  assert (Hs : split_on "-l" (b ++ "-l" ++ ls) = [b; ls]).
  { unfold split_on. change ("-l" ++ ls)%string with (String "-" ("l" ++ ls)).
    rewrite split_go_skip2 by (reflexivity || exact H1).
    change (String "-" ("l" ++ ls)) with ("-l" ++ ls)%string. rewrite split_go_hit. cbn [append]. f_equal.
    rewrite <- (sapp_nil_r ls) at 1. rewrite split_go_skip by (apply no_dash, Hl). reflexivity. }
  rewrite Hs. cbn [bindr fst snd] in *. rewrite (py_int_numeral _ _ Hl).
  destruct (if substr_in "rbp" b then _ else _) as [mk|]; [|discriminate].
  cbn [bindr] in *. inversion H2. reflexivity.
Qed.
Lemma plain_body name : In name cutoff_metrics -> body_parses name name (KInt 0).
Proof.
  intros H. cbn in H. repeat (destruct H as [<-|H]; [split; reflexivity|]). easy.
Qed.
Lemma cut_body name ks k : In name cutoff_metrics -> numeral ks k ->
  body_parses (name ++ "@" ++ ks) name (KInt k).
Proof.
  intros Hn Hk. assert (Hd : all_digits ks) by apply Hk.
  change ("@" ++ ks)%string with (String "@" ks).
  assert (H1 : substr_in "-l" (name ++ String "@" ks) = false).
  { rewrite substr_in_sep by (reflexivity || discriminate). rewrite (substr_in_none "-" "l" ks) by now apply no_dash.
    rewrite orb_false_r. apply (plain_body name Hn). }
  split; [exact H1|]. unfold extract_metric_and_params. rewrite H1. cbn [bindr fst snd].
  assert (H2 : substr_in "rbp" (name ++ String "@" ks) = false).
  { rewrite substr_in_sep by (reflexivity || discriminate). rewrite (substr_in_none "r" "bp" ks) by now apply no_r.
    rewrite orb_false_r. clear - Hn. cbn in Hn. repeat (destruct Hn as [<-|Hn]; [reflexivity|]). easy. }
  rewrite H2.
  assert (H3 : split_on "@" (name ++ String "@" ks) = [name; ks]).
  { unfold split_on. rewrite split_go_skip.
    - change (String "@" ks) with ("@" ++ ks)%string. rewrite split_go_hit. cbn [append]. f_equal.
      rewrite <- (sapp_nil_r ks) at 1. rewrite split_go_skip by now apply no_at. reflexivity.
    - clear - Hn. cbn in Hn. repeat (destruct Hn as [<-|Hn]; [reflexivity|]). easy. }
  rewrite H3. cbn [nth_r nth_error bindr]. now rewrite (py_int_numeral _ _ Hk).
Qed.
Lemma rbp_body sep ps p : In sep ["."; "@"] -> numeral ps p ->
  body_parses ("rbp" ++ sep ++ ps) "rbp" (KFloat (fdec p (String.length ps))).
Proof.
  intros Hs Hp. assert (Hd : all_digits ps) by apply Hp.
  assert (H0 : substr_in "-l" ("rbp" ++ sep ++ ps) = false).
  { destruct Hs as [<-|[<-|[]]]; cbn [append]; apply substr_in_none; cbn; now apply no_dash. }
  split; [exact H0|]. unfold extract_metric_and_params. rewrite H0. cbn [bindr fst snd].
  change (substr_in "rbp" ("rbp" ++ sep ++ ps)) with true. cbv iota.
  pose proof (float_frac_numeral ps p Hp) as Hf.
  destruct Hs as [<-|[<-|[]]].
  - replace (substr_in "." ("rbp" ++ "." ++ ps)) with true by (symmetry; apply substr_in_mid). cbn [bindr].
    assert (H3 : split_on "." ("rbp" ++ "." ++ ps) = ["rbp"; ps]).
    { unfold split_on. cbn [append split_go prefixb Ascii.eqb Bool.eqb andb String.length Nat.sub]. f_equal.
      rewrite <- (sapp_nil_r ps) at 1. rewrite split_go_skip by now apply no_dot. reflexivity. }
    rewrite H3. cbn [nth_r nth_error bindr]. now rewrite Hf.
  - replace (substr_in "." ("rbp" ++ "@" ++ ps)) with false
      by (symmetry; cbn [append]; apply substr_in_none; cbn; now apply no_dot).
    replace (substr_in "@" ("rbp" ++ "@" ++ ps)) with true by (symmetry; apply substr_in_mid). cbn [bindr].
    assert (H3 : split_on "@" ("rbp" ++ "@" ++ ps) = ["rbp"; ps]).
    { unfold split_on. cbn [append split_go prefixb Ascii.eqb Bool.eqb andb String.length Nat.sub]. f_equal.
      rewrite <- (sapp_nil_r ps) at 1. rewrite split_go_skip by now apply no_at. reflexivity. }
    rewrite H3. cbn [nth_r nth_error bindr]. now rewrite Hf.
Qed.
End P2.

Theorem C13_metric_strings : forall (N : Num) name ks k ls l,
  In name cutoff_metrics -> numeral ks k -> numeral ls l ->
  extract_metric_and_params name = Ok (name, KInt 0, 1%Z) /\
  extract_metric_and_params (name ++ "@" ++ ks) = Ok (name, KInt k, 1%Z) /\
  extract_metric_and_params (name ++ "-l" ++ ls) = Ok (name, KInt 0, l) /\
  extract_metric_and_params ((name ++ "@" ++ ks) ++ "-l" ++ ls) = Ok (name, KInt k, l).
Proof.
  intros N name ks k ls l Hn Hk Hl. split; [apply plain_body, Hn|]. split; [now apply cut_body|].
  split; apply with_level; auto using plain_body, cut_body.
Qed.
(** ["rbp.P"] and ["rbp@P"] denote persistence 0.P, i.e. P / 10^(number of digits) *)
Theorem C13_rbp_strings : forall (N : Num) sep ps p ls l,
  In sep ["."; "@"] -> numeral ps p -> numeral ls l ->
  extract_metric_and_params ("rbp" ++ sep ++ ps) = Ok ("rbp", KFloat (fdec p (String.length ps)), 1%Z) /\
  extract_metric_and_params (("rbp" ++ sep ++ ps) ++ "-l" ++ ls) = Ok ("rbp", KFloat (fdec p (String.length ps)), l).
Proof.
  intros N sep ps p ls l Hs Hp Hl. split; [apply rbp_body; auto|]. apply with_level; auto. now apply rbp_body.
Qed.
Theorem C13_rbp_needs_persistence : forall (N : Num) ls, all_digits ls ->
  extract_metric_and_params (N := N) "rbp" = Err ValueError /\
  extract_metric_and_params (N := N) ("rbp-l" ++ ls) = Err ValueError.
Proof.
  intros N ls H. split; [reflexivity|]. unfold extract_metric_and_params.
  assert (Hs : split_on "-l" ("rbp-l" ++ ls) = ["rbp"; ls]).
  { unfold split_on. cbn [append split_go prefixb Ascii.eqb Bool.eqb andb String.length Nat.sub]. f_equal.
    rewrite <- (sapp_nil_r ls) at 1. rewrite split_go_skip by now apply no_dash. reflexivity. }
  change (substr_in "-l" ("rbp-l" ++ ls)) with true. cbv iota. rewrite Hs. reflexivity.
Qed.
(** every natural number is written by some numeral, so the above covers every cut-off *)
Theorem C13_every_number : forall n, (0 <= n)%Z -> exists s, numeral s n.
Proof. exact numeral_exists. Qed.
Print Assumptions C13_metric_strings.
Print Assumptions C13_rbp_strings.
Print Assumptions C13_rbp_needs_persistence.
Print Assumptions C13_every_number.

(** ** C14 *)
Lemma metric_switch_known (N : Num) (E : env N) m : In m all_metrics -> exists f, metric_switch E m = Ok f.
Proof.
  intros H. cbn in H. repeat (destruct H as [<-|H]; [eexists; reflexivity|]). easy.
Qed.
Lemma metric_switch_unknown (N : Num) (E : env N) m : ~ In m all_metrics -> metric_switch E m = Err ValueError.
Proof.
  intros H. unfold metric_switch.
  repeat match goal with |- (if String.eqb m ?s then _ else _) = _ =>
    destruct (String.eqb_spec m s); [exfalso; apply H; subst; cbn; tauto|] end. reflexivity.
Qed.
Definition only_value_error {A} (r : result A) : Prop := forall e, r = Err e -> e = ValueError.
Lemma ove_bind {A B} (r : result A) (f : A -> result B) : only_value_error r ->
  (forall a, r = Ok a -> only_value_error (f a)) -> only_value_error (bindr r f).
Proof. intros H1 H2 e. destruct r as [a|e']; cbn; [now apply H2|intros H; inversion H; subst; now apply H1]. Qed.
Lemma ove_ok {A} (a : A) : only_value_error (Ok a).
Proof. intros e H. discriminate. Qed.
Lemma ove_ve {A} : only_value_error (Err (A := A) ValueError).
Proof. intros e H. now inversion H. Qed.
Lemma ove_int s : only_value_error (py_int s).
Proof. unfold py_int. destruct (parse_signed (strip s)); auto using @ove_ok, @ove_ve. Qed.
Lemma ove_frac (N : Num) s : only_value_error (float_frac (N := N) s).
Proof.
  unfold float_frac. destruct (rstrip s) as [|c t]; [apply ove_ok|].
  match goal with |- context [match ?x with Some _ => _ | None => Err ValueError end] =>
    destruct x as [[[m n] [|c' ex]]|] end; auto using @ove_ok, @ove_ve.
  destruct (Ascii.eqb c' "e" || Ascii.eqb c' "E"); auto using @ove_ve.
  destruct (parse_signed ex); auto using @ove_ok, @ove_ve.
Qed.
Lemma extract_errors (N : Num) s : only_value_error (extract_metric_and_params (N := N) s).
Proof.
  unfold extract_metric_and_params. apply ove_bind.
  { destruct (substr_in "-l" s); [|apply ove_ok].
    destruct (split_on "-l" s) as [|m [|l [|? ?]]]; auto using @ove_ok, @ove_ve. }
  intros [m l] _. cbn [fst snd]. apply ove_bind.
  - destruct (substr_in "rbp" m).
    + assert (Hparts : forall c, only_value_error (do m0 <- nth_r (split_on (String c "") m) 0;
          do k <- nth_r (split_on (String c "") m) 1; do p <- float_frac k; Ok (m0, KFloat p)) \/ substr_in (String c "") m = false).
      { intros c. destruct (substr_in (String c "") m) eqn:Hc; [left|now right].
        destruct (split_go_two (String c "") m ltac:(discriminate) "" Hc) as (h & k & t & Ht).
        unfold split_on. rewrite Ht. cbn [nth_r nth_error bindr].
        apply ove_bind; [apply ove_frac|]. intros p _. apply ove_ok. }
      destruct (substr_in "." m) eqn:H1; [|destruct (substr_in "@" m) eqn:H2]; cbn [bindr]; [| |apply ove_ve].
      * destruct (Hparts "."%char) as [H|H]; [exact H|congruence].
      * destruct (Hparts "@"%char) as [H|H]; [exact H|congruence].
    + destruct (split_on_head "@" m) as (h & t & ll & Hh & _). rewrite Hh. cbn [bindr nth_r nth_error].
      apply ove_bind; [destruct ll; auto using @ove_ok, ove_int|]. intros; apply ove_ok.
  - intros [m' k] _. apply ove_bind; [destruct l; auto using @ove_ok, ove_int|]. intros; apply ove_ok.
Qed.
(** the metric name that is parsed out of a string is a prefix of the string *)
Lemma extract_prefix (N : Num) s m k l : extract_metric_and_params (N := N) s = Ok (m, k, l) -> prefixb m s = true.
Proof.
  unfold extract_metric_and_params. intros H. apply prefixb_true.
  destruct (if substr_in "-l" s then _ else _) as [[b lv]|] eqn:Hb; [|discriminate].
  assert (exists t, s = (b ++ t)%string) as [t ->].
  { destruct (substr_in "-l" s).
    - destruct (split_on_head "-l" s) as (h & t & ll & Hh & Ht). rewrite Hh in Hb.
      destruct ll as [|? [|? ?]]; inversion Hb; subst. now exists t.
    - inversion Hb; subst. exists "". now rewrite sapp_nil_r. }
  clear Hb. cbn [bindr fst snd] in H.
  assert (Hm : forall c, exists t', b = (match split_on (String c "") b with h :: _ => h | [] => "" end ++ t')%string).
  { intros c. destruct (split_on_head (String c "") b) as (h & t' & ll & Hh & Ht). rewrite Hh. now exists t'. }
  assert (exists t', b = (m ++ t')%string) as [t' ->]; [|exists (t' ++ t)%string; now rewrite sapp_assoc].
  destruct (substr_in "rbp" b).
  - assert (Hg : forall c, (do mk <- (do m0 <- nth_r (split_on (String c "") b) 0;
          do k0 <- nth_r (split_on (String c "") b) 1; do p <- float_frac k0; Ok (m0, KFloat p));
          do l0 <- match lv with Some l1 => py_int l1 | None => Ok 1%Z end; Ok (fst mk, snd mk, l0)) = Ok (m, k, l) ->
          exists t', b = (m ++ t')%string).
    { intros c Hc. destruct (Hm c) as [t' Ht']. exists t'. rewrite Ht' at 1. f_equal.
      destruct (split_on (String c "") b) as [|h ll]; [discriminate|]. cbn [nth_r nth_error bindr] in Hc.
      destruct (nth_r (h :: ll) 1); [|discriminate]. cbn [bindr] in Hc. destruct (float_frac a); [|discriminate].
      cbn [bindr fst snd] in Hc. destruct (match lv with Some _ => _ | None => _ end); [|discriminate].
      cbn [bindr] in Hc. now inversion Hc. }
    destruct (substr_in "." b); [|destruct (substr_in "@" b)]; cbn [bindr] in H; [| |discriminate].
    + exact (Hg "."%char H).
    + exact (Hg "@"%char H).
  - destruct (Hm "@"%char) as [t' Ht']. exists t'. rewrite Ht' at 1. f_equal.
    destruct (split_on "@" b) as [|h ll]; [discriminate|]. cbn [nth_r nth_error bindr] in H.
    destruct (match ll with [] => _ | _ => _ end); [|discriminate].
    cbn [bindr fst snd] in H. destruct (match lv with Some _ => _ | None => _ end); [|discriminate].
    cbn [bindr] in H. now inversion H.
Qed.

(** the inputs get past the key check and the conversion *)
Definition inputs_accepted {N : Num} (E : env N) (q : qarg) (r : rarg) (mk : bool) : Prop :=
  let r' := if mk then match q, r with QObj x, RObj y => RObj (Run_make_comparable E y x) | _, _ => r end else r in
  check_keys q r' = Ok tt /\ is_Ok (snd (convert_qrels E q)) = true /\ is_Ok (snd (convert_run E r')) = true.

(** A metric string none of whose prefixes is a supported metric name is refused; the
    inputs are not scored. *)
Theorem C14_unknown_metric : forall (N : Num) (E : env N) q r s mean std save mk,
  (forall name, In name all_metrics -> prefixb name s = false) ->
  inputs_accepted E q r mk ->
  ev_res (evaluate E q r [s] mean std save mk) = Err ValueError.
Proof.
  intros N E q r s mean std save mk Hs (H1 & H2 & H3). unfold evaluate.
  set (r' := if mk then _ else r) in *. rewrite H1.
  destruct (convert_qrels E q) as [q' [tq|e]]; [|discriminate].
  destruct (convert_run E r') as [r'' [tr|e]]; [|discriminate].
  unfold compute_scores. cbn [foldr_m].
  pose proof (extract_errors N s) as He.
  destruct (extract_metric_and_params s) as [[[m k] l]|e] eqn:Hx; cbn [bindr].
  - rewrite metric_switch_unknown; [reflexivity|]. intros Hin. apply Hs in Hin. now apply extract_prefix in Hx; rewrite Hx in Hin.
  - cbn. now rewrite (He e).
Qed.
(** more generally the metric name parsed out of the string must be a supported one *)
Theorem C14_unknown_name : forall (N : Num) (E : env N) q r s mean std save mk,
  (forall name k l, extract_metric_and_params s = Ok (name, k, l) -> ~ In name all_metrics) ->
  inputs_accepted E q r mk ->
  ev_res (evaluate E q r [s] mean std save mk) = Err ValueError.
Proof.
  intros N E q r s mean std save mk Hs (H1 & H2 & H3). unfold evaluate.
  set (r' := if mk then _ else r) in *. rewrite H1.
  destruct (convert_qrels E q) as [q' [tq|e]]; [|discriminate].
  destruct (convert_run E r') as [r'' [tr|e]]; [|discriminate].
  unfold compute_scores. cbn [foldr_m].
  pose proof (extract_errors N s) as He.
  destruct (extract_metric_and_params s) as [[[m k] l]|e] eqn:Hx; cbn [bindr].
  - rewrite metric_switch_unknown; [reflexivity|]. now apply (Hs m k l).
  - cbn. now rewrite (He e).
Qed.
(** every supported name is accepted *)
Theorem C14_known_names : forall (N : Num) (E : env N) name, In name all_metrics ->
  exists f, metric_switch E name = Ok f.
Proof. exact metric_switch_known. Qed.
(** "r_precision", given as an alias in the documentation, is refused *)
Theorem C14_r_precision_alias_refuted : forall (N : Num) (E : env N) q r t mean std save mk,
  inputs_accepted E q r mk ->
  ev_res (evaluate E q r [("r_precision" ++ t)%string] mean std save mk) = Err ValueError.
Proof.
  intros N E q r t mean std save mk H. apply C14_unknown_metric; [|exact H].
  intros name Hin. cbn in Hin. repeat (destruct Hin as [<-|Hin]; [reflexivity|]). easy.
Qed.
Print Assumptions C14_unknown_metric.
Print Assumptions C14_unknown_name.
Print Assumptions C14_r_precision_alias_refuted.

(** ** examples *)
Example ex_numeral : numeral "95" 95.
Proof. split; [discriminate|]. split; [cbn; lia|reflexivity]. Qed.
Example ex_parse : @extract_metric_and_params NumSF "ndcg@10-l2" = Ok ("ndcg", KInt 10, 2%Z).
Proof. reflexivity. Qed.
Example ex_parse_rbp : @extract_metric_and_params NumSF "rbp.95" = Ok ("rbp", @KFloat NumSF (sf_dec 95 2), 1%Z).
Proof. vmr. Qed.
Example ex_parse_bad : @extract_metric_and_params NumSF "map@ten" = Err ValueError.
Proof. reflexivity. Qed.
Example ex_accepted : inputs_accepted (N := NumSF) env_ex
   (QDict [("q1", [("d1", fl 1)])]) (RDict [("q1", [("d2", fl 3)])]) true.
Proof. split; [|split]; reflexivity. Qed.
