(** P_Trec.v: the model's line, field and integer readers meet the specification *)
From Coq Require Import Lia.
From Verif Require Import Base Dict Num Env M_Common M_Qrels M_Run M_Strings M_Text M_Compare M_IO Spec_DS Spec_Strings Spec_IO Spec_Trec P_Base P_Dict P_Common P_Strings P_IO.
Open Scope string_scope.
Open Scope list_scope.
Open Scope nat_scope.

(** ** fields *)
Lemma blank_app a b : blank a -> blank b -> blank (a ++ b).
Proof. induction a as [|c a IH]; cbn [append blank]; [auto|]. intros [H1 H2] Hb. auto. Qed.
Lemma words_blank w : blank w -> forall t, words_go "" (w ++ t) = words_go "" t.
Proof. induction w as [|c w IH]; [reflexivity|]. intros [H1 H2] t. cbn [append words_go]. rewrite H1. now apply IH. Qed.
Lemma fields_words s fs : fields s fs -> words s = fs.
Proof.
  unfold words. induction 1 as [w Hw|w f rest fs Hw Hf Hr _ IH].
  - rewrite <- (sapp_nil_r w). rewrite words_blank by exact Hw. reflexivity.
  - rewrite words_blank by exact Hw. destruct Hr as [-> |(c & t & -> & Hc)].
    + rewrite (words_last f "") by auto. f_equal. exact IH.
    + rewrite words_sep by assumption. f_equal. rewrite <- IH. cbn [words_go]. now rewrite Hc.
Qed.
Lemma fields_total s : exists fs, fields s fs.
Proof.
  induction s as [|c s (fs & IH)]; [exists []; now constructor|]. destruct (is_space c) eqn:Hc.
  - exists fs. inversion IH as [w Hw|w f rest fs' Hw Hf Hr Hfs]; subst; [constructor; now split|].
    change (String c (w ++ f ++ rest)) with ((String c w) ++ f ++ rest)%string. constructor; auto. now split.
  - assert (Hs : word (String c "")) by (split; [discriminate|cbn; auto]).
    inversion IH as [w Hw|w f rest fs' Hw Hf Hr Hfs]; subst.
    + exists [String c ""]. change (String c s) with ("" ++ String c "" ++ s)%string. constructor; [exact I|exact Hs| |now constructor].
      destruct s as [|a s]; [now left|right; exists a, s; split; [reflexivity|apply Hw]].
    + destruct w as [|a w].
      * exists (String c f :: fs'). cbn [append]. change (String c (f ++ rest)) with ("" ++ (String c f) ++ rest)%string. constructor; [exact I| |exact Hr|exact Hfs].
        split; [discriminate|]. cbn. split; [exact Hc|apply Hf].
      * exists (String c "" :: f :: fs'). change (String c (String a w ++ f ++ rest)) with ("" ++ String c "" ++ (String a w ++ f ++ rest))%string. constructor; [exact I|exact Hs| |exact IH].
        right. cbn [append]. exists a, (w ++ f ++ rest)%string. split; [reflexivity|apply Hw].
Qed.
Lemma words_fields s fs : words s = fs <-> fields s fs.
Proof.
  split; [|apply fields_words]. intros <-. destruct (fields_total s) as (fs & H). now rewrite (fields_words s fs H).
Qed.

(** ** lines *)
Lemma words_newline l : words (l ++ newline) = words l.
Proof.
  apply words_fields. destruct (fields_total l) as (fs & H). rewrite (fields_words _ _ H). induction H as [w Hw|w f rest fs Hw Hf Hr H IH].
  - constructor. apply blank_app; [exact Hw|]. cbn. auto.
  - rewrite !sapp_assoc. constructor; auto. right. destruct Hr as [-> |(c & t & -> & Hc)]; [exists (ascii_of_nat 10), ""; split; reflexivity|].
    exists c, (t ++ newline)%string. split; [reflexivity|exact Hc].
Qed.
Lemma no_break_cons c s : no_break (String c s) <-> is_nl c = false /\ is_cr c = false /\ no_break s.
Proof.
  unfold no_break. cbn [char_in]. unfold is_nl, is_cr. assert (Hc : forall k, (k < 256)%nat -> nat_of_ascii c = k <-> ascii_of_nat k = c).
  { intros k Hk. split; [intros <-; apply ascii_nat_embedding|intros <-; now apply nat_ascii_embedding]. }
  pose proof (Hc 10 ltac:(lia)). pose proof (Hc 13 ltac:(lia)).
  destruct (Nat.eqb_spec (nat_of_ascii c) 10), (Nat.eqb_spec (nat_of_ascii c) 13); split; intros Hx; repeat split; try discriminate; try tauto; try (destruct Hx as (X & Y & Z); discriminate).
Qed.
Lemma lines_go_skip l : no_break l -> forall acc t, lines_go acc false (l ++ t) = lines_go (acc ++ l) false t.
Proof.
  induction l as [|c l IH]; intros Hl acc t; [cbn [append]; now rewrite sapp_nil_r|]. apply no_break_cons in Hl as (H1 & H2 & Hl).
  cbn [append lines_go]. rewrite H1, H2, IH by exact Hl. now rewrite sapp_assoc.
Qed.
Lemma lines_go_lf acc t : lines_go acc false (LF ++ t) = (acc ++ newline)%string :: lines_go "" false t.
Proof. reflexivity. Qed.
Lemma lines_go_cr acc t : lines_go acc false (CR ++ t) = (acc ++ newline)%string :: lines_go "" true t.
Proof. reflexivity. Qed.
Lemma lines_go_true t : (forall t', t <> (LF ++ t')%string) -> lines_go "" true t = lines_go "" false t.
Proof.
  intros H. destruct t as [|c t]; [reflexivity|]. cbn [lines_go]. destruct (is_nl c) eqn:Hc; [|reflexivity]. exfalso. apply (H t). cbn [append LF]. f_equal.
  unfold is_nl in Hc. apply Nat.eqb_eq in Hc. now rewrite <- Hc, ascii_nat_embedding.
Qed.
Lemma lines_words t ls : lines_of t ls -> map words (py_lines t) = map words ls.
Proof.
  unfold py_lines. induction 1 as [|l Hne Hl|l t ls Hl H IH|l t ls Hl H IH|l t ls Hl Ht H IH].
  - reflexivity.
  - rewrite <- (sapp_nil_r l) at 1. rewrite lines_go_skip by exact Hl. cbn [append lines_go]. now destruct l.
  - rewrite lines_go_skip by exact Hl. rewrite lines_go_lf. cbn [append map]. now rewrite words_newline, IH.
  - rewrite lines_go_skip by exact Hl. rewrite lines_go_cr. cbn [append map]. rewrite words_newline. f_equal. exact IH.
  - rewrite lines_go_skip by exact Hl. rewrite lines_go_cr, lines_go_true by exact Ht. cbn [append map]. now rewrite words_newline, IH.
Qed.
(** every text has lines *)
Lemma split_break s : exists l t, s = (l ++ t)%string /\ no_break l /\ (t = "" \/ exists u, t = (LF ++ u)%string \/ t = (CR ++ u)%string).
Proof.
  induction s as [|c s (l & t & -> & Hl & Ht)]; [exists "", ""; repeat split; auto|].
  destruct (is_nl c) eqn:H1; [|destruct (is_cr c) eqn:H2].
  - exists "", (String c (l ++ t)). split; [reflexivity|]. split; [split; intros []|]. right. exists (l ++ t)%string. left. unfold is_nl in H1. apply Nat.eqb_eq in H1. cbn [LF append]. now rewrite <- H1, ascii_nat_embedding.
  - exists "", (String c (l ++ t)). split; [reflexivity|]. split; [split; intros []|]. right. exists (l ++ t)%string. right. unfold is_cr in H2. apply Nat.eqb_eq in H2. cbn [CR append]. now rewrite <- H2, ascii_nat_embedding.
  - exists (String c l), t. split; [reflexivity|]. split; [now apply no_break_cons|exact Ht].
Qed.
Lemma sapp_length a b : String.length (a ++ b) = String.length a + String.length b.
Proof. induction a as [|c a IH]; cbn; auto. Qed.
Lemma lines_total s : exists ls, lines_of s ls.
Proof.
  remember (String.length s) as n eqn:Hn. revert s Hn. induction n as [n IH] using lt_wf_ind. intros s Hn.
  destruct (split_break s) as (l & t & -> & Hl & Ht). rewrite sapp_length in Hn. destruct Ht as [-> |(u & [-> | ->])].
  - rewrite sapp_nil_r. destruct l as [|c l]; [exists []; constructor|exists [String c l]; constructor; [discriminate|exact Hl]].
  - destruct (IH (String.length u)) with (s := u) as (ls & H); [rewrite sapp_length in Hn; cbn in Hn; lia|reflexivity|]. exists (l :: ls). now constructor.
  - assert (Hd : (exists u', u = (LF ++ u')%string) \/ forall u', u <> (LF ++ u')%string).
    { destruct u as [|c u]; [right; discriminate|]. destruct (Ascii.eqb_spec c (ascii_of_nat 10)) as [-> |Hne]; [left; now exists u|right; intros u' He; injection He as ? ?; congruence]. }
    destruct Hd as [(u' & ->)|Hd].
    + destruct (IH (String.length u')) with (s := u') as (ls & H); [rewrite !sapp_length in Hn; cbn in Hn; lia|reflexivity|]. exists (l :: ls). now constructor.
    + destruct (IH (String.length u)) with (s := u) as (ls & H); [rewrite sapp_length in Hn; cbn in Hn; lia|reflexivity|]. exists (l :: ls). now constructor.
Qed.

(** ** integers *)
Lemma digit_iff c d : digit_of c = Some d <-> is_digit c d.
Proof.
  split.
  - unfold digit_of, is_digit. cbv zeta. destruct (Nat.leb_spec 48 (nat_of_ascii c)), (Nat.leb_spec (nat_of_ascii c) 57); cbn [andb]; try discriminate. intros H1. injection H1 as <-. lia.
  - intros [H ->]. now apply digit_of_digit.
Qed.
Lemma us_not_digit : digit_of "_" = None. Proof. reflexivity. Qed.
(** the reader, from a state in which a digit has been read *)
Lemma read_app s v : digit_groups s v -> forall n t, exists n', read_digits false 0 n (s ++ t) = read_digits true v n' t.
Proof.
  induction 1 as [c d Hd|s v c d Hs IH Hd|s v c d Hs IH Hd]; intros n t; apply digit_iff in Hd.
  - exists (S n). cbn [append read_digits]. rewrite Hd. f_equal.
  - rewrite sapp_assoc. destruct (IH n (String c "" ++ t)%string) as (n' & ->). exists (S n'). cbn [append read_digits]. now rewrite Hd.
  - rewrite !sapp_assoc. destruct (IH n ("_" ++ String c "" ++ t)%string) as (n' & ->). exists (S n'). cbn [append read_digits]. rewrite us_not_digit. cbn [Ascii.eqb andb]. now rewrite Hd.
Qed.
Lemma groups_parse s v : digit_groups s v -> parse_nat s = Some v.
Proof.
  intros H. unfold parse_nat. rewrite <- (sapp_nil_r s). destruct (read_app s v H 0 "") as (n' & ->). reflexivity.
Qed.
(** conversely: [done] has been read and denotes [acc] *)
Lemma read_groups s : forall done acc n v m, digit_groups done acc -> read_digits true acc n s = Some (v, m, "") -> digit_groups (done ++ s) v.
Proof.
  assert (Hgen : forall k s, String.length s <= k -> forall done acc n v m, digit_groups done acc -> read_digits true acc n s = Some (v, m, "") -> digit_groups (done ++ s) v).
  2: intros done acc n v m; apply (Hgen (String.length s)); auto.
  induction k as [|k IH]; intros [|c s'] Hk done acc n v m Hd H; cbn [String.length] in Hk; try lia.
  - cbn [read_digits] in H. injection H as <- <-. now rewrite sapp_nil_r.
  - cbn [read_digits] in H. injection H as <- <-. now rewrite sapp_nil_r.
  - cbn [read_digits] in H. destruct (digit_of c) as [d|] eqn:Hc.
    + apply digit_iff in Hc. change (String c s') with (String c "" ++ s')%string. rewrite <- sapp_assoc. eapply IH; [lia| |exact H]. now constructor.
    + destruct (Ascii.eqb_spec c "_") as [-> |Hne]; cbn [andb] in H; [|discriminate].
      destruct s' as [|c' s'']; cbn [read_digits] in H; [discriminate|]. destruct (digit_of c') as [d|] eqn:Hc'; [|rewrite andb_false_r in H; discriminate].
      apply digit_iff in Hc'. change (String "_" (String c' s'')) with ("_" ++ String c' "" ++ s'')%string.
      replace (done ++ "_" ++ String c' "" ++ s'')%string with ((done ++ "_" ++ String c' "") ++ s'')%string by now rewrite !sapp_assoc.
      eapply IH; [cbn in Hk; lia| |exact H]. now constructor.
Qed.
Lemma parse_groups s v : parse_nat s = Some v -> digit_groups s v.
Proof.
  unfold parse_nat. destruct s as [|c s]; [discriminate|]. cbn [read_digits]. destruct (digit_of c) as [d|] eqn:Hc.
  - destruct (read_digits true (10 * 0 + d) 1 s) as [[[w m] [|? ?]]|] eqn:H; try discriminate. intros Hv. injection Hv as ->.
    change (String c s) with (String c "" ++ s)%string. eapply read_groups; [|exact H]. constructor. now apply digit_iff.
  - rewrite andb_false_r. discriminate.
Qed.
Lemma groups_not_nil s v : digit_groups s v -> exists c s' d, s = String c s' /\ is_digit c d.
Proof.
  induction 1 as [c d Hd|s v c d Hs (c' & s' & d' & -> & Hd') Hd|s v c d Hs (c' & s' & d' & -> & Hd') Hd]; [now exists c, "", d|exists c', (s' ++ String c "")%string, d'; split; [reflexivity|exact Hd']|].
  exists c', (s' ++ "_" ++ String c "")%string, d'. split; [reflexivity|exact Hd'].
Qed.
Lemma groups_no_space s v : digit_groups s v -> no_space s.
Proof.
  assert (Happ : forall a b, no_space a -> no_space b -> no_space (a ++ b)) by (induction a as [|c a IH]; [auto|intros b [H1 H2] Hb; cbn; auto]).
  induction 1 as [c d [Hd _]|s v c d Hs IH [Hd _]|s v c d Hs IH [Hd _]]; pose proof (digit_not_space c Hd) as Hc; [cbn; auto|apply Happ; cbn; auto|]. apply Happ; [exact IH|]. cbn. auto.
Qed.
Lemma lstrip_split s : exists b, blank b /\ s = (b ++ lstrip s)%string.
Proof.
  induction s as [|c s (b & Hb & Hs)]; [now exists ""|]. cbn [lstrip]. destruct (is_space c) eqn:Hc; [|now exists ""]. exists (String c b). split; [now split|]. cbn [append]. now rewrite <- Hs.
Qed.
Lemma rstrip_split s : exists b, blank b /\ s = (rstrip s ++ b)%string.
Proof.
  induction s as [|c s (b & Hb & Hs)]; [now exists ""|]. cbn [rstrip]. destruct (rstrip s) as [|c' s'] eqn:Hr.
  - destruct (is_space c) eqn:Hc; [|exists b; split; [exact Hb|cbn [append]; now rewrite Hs at 1]]. exists (String c b). split; [now split|]. cbn [append]. now rewrite Hs at 1.
  - exists b. split; [exact Hb|]. cbn [append]. f_equal. exact Hs.
Qed.
Lemma strip_split s : exists b a, blank b /\ blank a /\ s = (b ++ strip s ++ a)%string.
Proof.
  unfold strip. destruct (rstrip_split s) as (a & Ha & Hs). destruct (lstrip_split (rstrip s)) as (b & Hb & Hr). exists b, a. split; [exact Hb|]. split; [exact Ha|].
  rewrite Hs at 1. rewrite Hr at 1. now rewrite sapp_assoc.
Qed.
Lemma lstrip_blank b : blank b -> forall s, lstrip (b ++ s) = lstrip s.
Proof. induction b as [|c b IH]; [reflexivity|]. intros [H1 H2] s. cbn [append lstrip]. rewrite H1. auto. Qed.
Lemma rstrip_nil b : blank b -> rstrip b = "".
Proof. induction b as [|c b IH]; [reflexivity|]. intros [H1 H2]. cbn [rstrip]. now rewrite (IH H2), H1. Qed.
Lemma rstrip_blank s : forall b, blank b -> rstrip (s ++ b) = rstrip s.
Proof.
  induction s as [|c s IH]; intros b Hb; [now apply rstrip_nil|]. cbn [append rstrip]. now rewrite IH.
Qed.
Lemma rstrip_blank_l b : blank b -> forall w, word w -> rstrip (b ++ w) = (b ++ w)%string.
Proof.
  intros Hb w Hw. assert (Hr : rstrip w = w).
  { destruct Hw as [Hne Hw]. clear Hne Hb. induction w as [|c w IH]; [reflexivity|]. destruct Hw as [H1 H2]. cbn [rstrip]. rewrite (IH H2). destruct w; [now rewrite H1|reflexivity]. }
  induction b as [|c b IH]; [exact Hr|]. destruct Hb as [H1 H2]. cbn [append rstrip]. rewrite (IH H2). destruct (b ++ w)%string eqn:He; [|reflexivity]. destruct b; [|discriminate]. cbn in He. destruct Hw. congruence.
Qed.
Lemma strip_around b w a : blank b -> word w -> blank a -> strip (b ++ w ++ a) = w.
Proof.
  intros Hb Hw Ha. unfold strip. rewrite <- sapp_assoc, rstrip_blank by exact Ha. rewrite rstrip_blank_l by assumption. rewrite lstrip_blank by exact Hb.
  destruct w as [|c w]; [reflexivity|]. cbn [lstrip]. destruct Hw as [_ [Hc _]]. now rewrite Hc.
Qed.
Lemma int_iff s v : py_int s = Ok v <-> int_text s v.
Proof.
  unfold py_int. split.
  - intros H. destruct (strip_split s) as (b & a & Hb & Ha & Hs). destruct (parse_signed (strip s)) as [z|] eqn:Hp; [|discriminate]. injection H as ->.
    rewrite Hs. clear Hs. revert Hp. generalize (strip s) as w. intros w Hp. unfold parse_signed in Hp. destruct w as [|c w]; [discriminate|].
    destruct (Ascii.eqb_spec c "-") as [-> |H1]; [|destruct (Ascii.eqb_spec c "+") as [-> |H2]].
    + destruct (parse_nat w) as [n|] eqn:Hn; [|discriminate]. injection Hp as <-. exists b, "-", w, a, n. split; [reflexivity|]. split; [exact Hb|]. split; [exact Ha|]. split; [now apply parse_groups|]. right. auto.
    + exists b, "+", w, a, v. split; [reflexivity|]. split; [exact Hb|]. split; [exact Ha|]. split; [now apply parse_groups|]. left. auto.
    + exists b, "", (String c w), a, v. split; [reflexivity|]. split; [exact Hb|]. split; [exact Ha|]. split; [now apply parse_groups|]. left. auto.
  - intros (b & sg & body & a & n & -> & Hb & Ha & Hg & Hv). pose proof (groups_no_space _ _ Hg) as Hns. pose proof (groups_parse _ _ Hg) as Hp.
    destruct (groups_not_nil _ _ Hg) as (c & s' & d & Hbody & [Hd _]).
    assert (Hw : word (sg ++ body)).
    { split; [destruct sg; [cbn; congruence|discriminate]|]. destruct Hv as [[[-> | ->] _]|[-> _]]; cbn [append no_space]; auto. }
    replace (b ++ sg ++ body ++ a)%string with (b ++ (sg ++ body) ++ a)%string by now rewrite !sapp_assoc. rewrite strip_around by assumption.
    destruct Hv as [[[-> | ->] ->]|[-> ->]]; cbn [append]; unfold parse_signed.
    + rewrite Hbody in *. cbn [append]. assert (Hm : Ascii.eqb c "-" = false) by (apply Ascii.eqb_neq; intros ->; cbn in Hd; lia).
      assert (Hq : Ascii.eqb c "+" = false) by (apply Ascii.eqb_neq; intros ->; cbn in Hd; lia). rewrite Hm, Hq, Hp. reflexivity.
    + change (Ascii.eqb "+" "-") with false. change (Ascii.eqb "+" "+") with true. cbv iota. now rewrite Hp.
    + change (Ascii.eqb "-" "-") with true. cbv iota. now rewrite Hp.
Qed.
Lemma not_int s : (forall v, ~ int_text s v) -> py_int s = Err ValueError.
Proof.
  intros H. unfold py_int. destruct (parse_signed (strip s)) as [v|] eqn:Hp; [|reflexivity]. exfalso. apply (H v). apply int_iff. unfold py_int. now rewrite Hp.
Qed.
