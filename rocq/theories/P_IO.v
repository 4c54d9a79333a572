(** P_IO.v: TREC text *)
From Coq Require Import Lia DecimalString DecimalPos.
From Verif Require Import Base Dict Num Env M_Common M_Qrels M_Run M_Strings M_Text M_Compare M_IO Spec_Strings Spec_IO P_Base P_Dict P_Strings P_Compare.
Open Scope string_scope.
Open Scope list_scope.
Open Scope nat_scope.

(** ** [int(str(z)) = z] *)
Lemma uint_digits u : all_digits (NilEmpty.string_of_uint u).
Proof. induction u; cbn [NilEmpty.string_of_uint all_digits]; auto; split; auto; cbv; lia. Qed.
Lemma uint_acc u : forall acc, dec_val (Zpos acc) (NilEmpty.string_of_uint u) = Zpos (Pos.of_uint_acc u acc).
Proof.
  induction u; intros acc; cbn [NilEmpty.string_of_uint dec_val Pos.of_uint_acc]; try reflexivity.
  all: match goal with |- context [(?x + (Z.of_nat ?y - 48))%Z] => let y' := eval vm_compute in (Z.of_nat y - 48)%Z in change (Z.of_nat y - 48)%Z with y' end.
  all: rewrite <- IHu; f_equal; lia.
Qed.
Lemma uint_val u : dec_val 0 (NilEmpty.string_of_uint u) = Z.of_N (Pos.of_uint u).
Proof.
  induction u; cbn [NilEmpty.string_of_uint dec_val Pos.of_uint]; try reflexivity.
  all: try (match goal with |- dec_val ?z _ = _ => let z' := eval vm_compute in z in change z with z' end).
  all: first [exact IHu | rewrite uint_acc; reflexivity].
Qed.
Lemma pos_numeral p : numeral (NilZero.string_of_uint (Pos.to_uint p)) (Zpos p).
Proof.
  assert (Hn : Pos.to_uint p <> Decimal.Nil) by (intros Hc; pose proof (DecimalPos.Unsigned.of_to p) as Ho; rewrite Hc in Ho; discriminate Ho).
  assert (Hs : NilZero.string_of_uint (Pos.to_uint p) = NilEmpty.string_of_uint (Pos.to_uint p)) by (destruct (Pos.to_uint p); [congruence|reflexivity..]).
  rewrite Hs. split; [destruct (Pos.to_uint p); [congruence|discriminate..]|]. split; [apply uint_digits|].
  rewrite uint_val, DecimalPos.Unsigned.of_to. reflexivity.
Qed.
Lemma digits_no_space s : all_digits s -> no_space s.
Proof. induction s as [|c s IH]; [trivial|]. intros [H1 H2]. split; [now apply digit_not_space|auto]. Qed.
Lemma str_int_word z : word (str_int z).
Proof.
  unfold str_int. destruct z as [|p|p]; cbn [Z.to_int NilZero.string_of_int].
  - split; [discriminate|]. cbn. auto.
  - destruct (pos_numeral p) as (H1 & H2 & _). split; [exact H1|now apply digits_no_space].
  - destruct (pos_numeral p) as (H1 & H2 & _). split; [discriminate|]. split; [reflexivity|now apply digits_no_space].
Qed.
Lemma strip_word s : word s -> strip s = s.
Proof.
  intros [Hne Hs]. unfold strip.
  assert (Hr : forall t, no_space t -> rstrip t = t).
  { induction t as [|c t IH]; [reflexivity|]. intros [H1 H2]. cbn [rstrip]. rewrite IH by exact H2. destruct t; [now rewrite H1|reflexivity]. }
  rewrite Hr by exact Hs. destruct s as [|c s]; [congruence|]. destruct Hs as [H1 _]. cbn [lstrip]. now rewrite H1.
Qed.
Lemma py_int_str z : py_int (str_int z) = Ok z.
Proof.
  unfold py_int. rewrite strip_word by apply str_int_word. unfold str_int. destruct z as [|p|p]; cbn [Z.to_int NilZero.string_of_int].
  - reflexivity.
  - pose proof (pos_numeral p) as H. pose proof (py_int_numeral _ _ H) as Hp. unfold py_int in Hp. rewrite strip_word in Hp; [exact Hp|]. destruct H as (H1 & H2 & _). split; [exact H1|now apply digits_no_space].
  - pose proof (parse_nat_numeral _ _ (pos_numeral p)) as H. cbn [parse_signed]. change (Ascii.eqb "-" "-") with true. cbv iota. rewrite H. reflexivity.
Qed.

(** ** [line.split()] *)
Lemma words_go_word w : no_space w -> forall acc t, words_go acc (w ++ t) = words_go (acc ++ w) t.
Proof.
  induction w as [|c w IH]; intros Hw acc t; [now rewrite sapp_nil_r|]. destruct Hw as [H1 H2]. cbn [append words_go]. rewrite H1, IH by exact H2. f_equal. now rewrite sapp_assoc.
Qed.
Lemma words_sep w c t : word w -> is_space c = true -> words_go "" (w ++ String c t) = w :: words_go "" t.
Proof. intros [Hne Hw] Hc. rewrite words_go_word by exact Hw. cbn [append words_go]. rewrite Hc. destruct w; [congruence|reflexivity]. Qed.
Lemma words_last w e : word w -> e = "" \/ e = newline -> words_go "" (w ++ e) = [w].
Proof.
  intros Hw [ -> | -> ]; [|unfold newline; now rewrite words_sep by (assumption || reflexivity)].
  destruct Hw as [Hne Hw]. rewrite words_go_word by exact Hw. cbn [append words_go]. destruct w; [congruence|reflexivity].
Qed.
Lemma words_cons w t : word w -> words_go "" (w ++ " " ++ t) = w :: words_go "" t.
Proof. intros Hw. apply words_sep; [exact Hw|reflexivity]. Qed.

(** ** [for line in f] *)
Fixpoint one_line (s : string) : Prop := match s with EmptyString => True | String c s' => is_nl c = false /\ is_cr c = false /\ one_line s' end.
Lemma one_line_app a b : one_line a -> one_line b -> one_line (a ++ b).
Proof. induction a as [|c a IH]; [auto|]. intros (H1 & H2 & H3) Hb. cbn [append one_line]. auto. Qed.
Lemma no_space_one_line s : no_space s -> one_line s.
Proof.
  induction s as [|c s IH]; [trivial|]. intros [H1 H2]. cbn [one_line]. split; [|split; [|auto]].
  - unfold is_nl. apply Nat.eqb_neq. intros Hc. unfold is_space in H1. rewrite Hc in H1. discriminate.
  - unfold is_cr. apply Nat.eqb_neq. intros Hc. unfold is_space in H1. rewrite Hc in H1. discriminate.
Qed.
Lemma lines_go_line l : one_line l -> forall acc cr t, l <> "" -> lines_go acc cr (l ++ t) = lines_go (acc ++ l) false t.
Proof.
  induction l as [|c l IH]; intros Hl acc cr t Hne; [congruence|]. destruct Hl as (H1 & H2 & H3). cbn [append lines_go]. rewrite H1, H2.
  destruct l as [|c' l]; [reflexivity|]. rewrite IH by (auto; discriminate). f_equal. now rewrite sapp_assoc.
Qed.
Inductive lined : list string -> Prop :=
| lined_nil : lined []
| lined_last l : one_line l -> l <> "" -> lined [l]
| lined_cons l cs : one_line l -> l <> "" -> lined cs -> lined ((l ++ newline)%string :: cs).
Lemma concat_cons (c : string) cs : String.concat "" (c :: cs) = (c ++ String.concat "" cs)%string.
Proof. destruct cs; cbn [String.concat]; [now rewrite sapp_nil_r|reflexivity]. Qed.
Lemma lines_concat cs : lined cs -> py_lines (String.concat "" cs) = cs.
Proof.
  unfold py_lines. induction 1 as [|l Hl Hne|l cs Hl Hne Hc IH].
  - reflexivity.
  - cbn [String.concat]. rewrite <- (sapp_nil_r l) at 1. rewrite lines_go_line by assumption. cbn. destruct l; [congruence|reflexivity].
  - rewrite concat_cons, sapp_assoc, lines_go_line by assumption. cbn [append]. change (newline ++ String.concat "" cs)%string with (String (ascii_of_nat 10) (String.concat "" cs)).
    cbn [lines_go]. change (is_nl (ascii_of_nat 10)) with true. cbv iota. f_equal. exact IH.
Qed.
Lemma lined_app a b : (forall c, In c a -> exists l, one_line l /\ l <> "" /\ c = (l ++ newline)%string) -> lined b -> lined (a ++ b).
Proof.
  induction a as [|c a IH]; intros Ha Hb; [exact Hb|]. cbn [app]. destruct (Ha c (or_introl eq_refl)) as (l & H1 & H2 & ->). constructor; [assumption..|]. apply IH; [|exact Hb]. intros; apply Ha; now right.
Qed.

(** ** the chunks that are written *)
Section Chunks.
Context {V : Type} (line : string -> nat -> string -> V -> string).
Definition chunks_of (n i : nat) (q : string) (len j : nat) (r : dict V) : list string :=
  map (fun jdv => (line q (fst jdv) (fst (snd jdv)) (snd (snd jdv)) ++ (if negb (Nat.eqb i (n - 1)) || negb (Nat.eqb (fst jdv) (len - 1)) then newline else ""))%string) (enum_from j r).
Definition all_chunks (n i : nat) (m : dict (dict V)) : list string :=
  flat_map (fun iqr => chunks_of n (fst iqr) (fst (snd iqr)) (length (snd (snd iqr))) 0 (snd (snd iqr))) (enum_from i m).
Lemma trec_text_chunks m : trec_text line m = String.concat "" (all_chunks (length m) 0 m).
Proof. reflexivity. Qed.
(** the chunk of a triple: its line at its position, with or without line end *)
Definition chunk_for (c : string) (t : nat * (string * string * V)) : Prop :=
  exists e, (e = "" \/ e = newline) /\ c = (line (fst (fst (snd t))) (fst t) (snd (fst (snd t))) (snd (snd t)) ++ e)%string.
(** the triples with the position of the document within its query *)
Definition ranked (m : dict (dict V)) : list (nat * (string * string * V)) :=
  flat_map (fun qr => map (fun jdv => (fst jdv, (fst qr, fst (snd jdv), snd (snd jdv)))) (enumerate (snd qr))) m.
Lemma map_snd_enum {A} (l : list A) k : map snd (enum_from k l) = l.
Proof. revert k. induction l as [|a l IH]; intros k; cbn; [reflexivity|]. now rewrite IH. Qed.
Lemma ranked_triples m : map snd (ranked m) = triples m.
Proof.
  unfold ranked, triples. induction m as [|[q r] m IH]; cbn [flat_map]; [reflexivity|]. rewrite map_app, IH. f_equal. rewrite map_map. cbn [fst snd].
  transitivity (map (fun dv : string * V => (q, fst dv, snd dv)) (map snd (enumerate r))); [now rewrite map_map|]. unfold enumerate. now rewrite map_snd_enum.
Qed.
Lemma Forall2_app' {A B} (R : A -> B -> Prop) l1 l2 m1 m2 : Forall2 R l1 m1 -> Forall2 R l2 m2 -> Forall2 R (l1 ++ l2) (m1 ++ m2).
Proof. induction 1; cbn; auto. Qed.
Lemma chunks_ranked n m : forall i, Forall2 chunk_for (all_chunks n i m) (ranked m).
Proof.
  unfold all_chunks, ranked. induction m as [|[q r] m IH]; intros i; cbn [enum_from flat_map]; [constructor|]. apply Forall2_app'; [|apply IH]. cbn [fst snd]. unfold chunks_of, enumerate.
  assert (Hj : forall len j, Forall2 chunk_for (map (fun jdv => (line q (fst jdv) (fst (snd jdv)) (snd (snd jdv)) ++ (if negb (Nat.eqb i (n - 1)) || negb (Nat.eqb (fst jdv) (len - 1)) then newline else ""))%string) (enum_from j r))
            (map (fun jdv => (fst jdv, (q, fst (snd jdv), snd (snd jdv)))) (enum_from j r))); [|apply Hj].
  intros len. induction r as [|dv r IHr]; intros j; cbn [enum_from map]; [constructor|]. constructor; [|apply IHr].
  eexists. split; [|reflexivity]. cbn [fst snd]. destruct (_ || _); auto.
Qed.
Definition good_line (t : string * string * V) : Prop := forall j, one_line (line (fst (fst t)) j (snd (fst t)) (snd t)) /\ line (fst (fst t)) j (snd (fst t)) (snd t) <> "".
Lemma chunks_nl n i q len r : i <> n - 1 -> (forall dv, In dv r -> good_line (q, fst dv, snd dv)) -> forall j c, In c (chunks_of n i q len j r) -> exists l, one_line l /\ l <> "" /\ c = (l ++ newline)%string.
Proof.
  intros Hi Hg j c Hc. unfold chunks_of in Hc. apply in_map_iff in Hc as ([k [d v]] & <- & Hin). cbn [fst snd]. rewrite (proj2 (Nat.eqb_neq _ _) Hi). cbn [negb orb].
  assert (Hd : In (d, v) r) by (rewrite <- (map_snd_enum r j); apply in_map_iff; eexists; split; [|exact Hin]; reflexivity). destruct (Hg (d, v) Hd k) as [H1 H2]. cbn [fst snd] in *. eauto.
Qed.
Lemma chunks_end n i q r : forall j len, len = j + length r -> (forall dv, In dv r -> good_line (q, fst dv, snd dv)) -> lined (chunks_of n i q len j r).
Proof.
  unfold chunks_of. induction r as [|[d v] r IH]; intros j len Hlen Hg; cbn [enum_from map]; [constructor|]. cbn [fst snd]. cbn [length] in Hlen.
  destruct (Hg (d, v) (or_introl eq_refl) j) as [H1 H2]. cbn [fst snd] in H1, H2.
  destruct (negb (Nat.eqb i (n - 1)) || negb (Nat.eqb j (len - 1))) eqn:Hb.
  - constructor; [assumption..|]. apply IH; [lia|]. intros dv Hdv. apply Hg. now right.
  - apply orb_false_iff in Hb as [_ Hj]. apply negb_false_iff, Nat.eqb_eq in Hj. destruct r; [|cbn in Hlen; lia]. cbn [enum_from map]. rewrite sapp_nil_r. now constructor.
Qed.
Lemma chunks_lined m : forall n i, n = i + length m -> (forall t, In t (triples m) -> good_line t) -> lined (all_chunks n i m).
Proof.
  unfold all_chunks, triples. induction m as [|[q r] m IH]; intros n i Hn Hg; cbn [enum_from flat_map]; [constructor|]. cbn [fst snd]. cbn [length] in Hn.
  assert (Hr : forall dv, In dv r -> good_line (q, fst dv, snd dv)).
  { intros dv Hdv. apply Hg. cbn [flat_map]. apply in_or_app. left. apply in_map_iff. exists dv. auto. }
  destruct m as [|qr m].
  - cbn [enum_from flat_map]. rewrite app_nil_r. now apply chunks_end.
  - apply lined_app; [apply chunks_nl; [cbn [length] in Hn; lia|exact Hr]|]. apply IH; [lia|]. intros t Ht. apply Hg. cbn [flat_map]. apply in_or_app. now right.
Qed.
Lemma trec_lines m : (forall t, In t (triples m) -> good_line t) ->
  exists cs, py_lines (trec_text line m) = cs /\ Forall2 chunk_for cs (ranked m).
Proof.
  intros Hg. exists (all_chunks (length m) 0 m). split; [|apply chunks_ranked]. rewrite trec_text_chunks. apply lines_concat. now apply chunks_lined.
Qed.
End Chunks.

(** ** putting the triples back into a dictionary *)
Section Rebuild.
Context {V : Type}.
Definition put (acc : dict (dict V)) (t : string * string * V) : dict (dict V) := dset2 acc (fst (fst t)) (snd (fst t)) (snd t).
Definition keep_nonempty (m : dict (dict V)) : dict (dict V) := filter (fun qr => match snd qr with [] => false | _ => true end) m.
Lemma dset_new (d : dict (dict V)) k v : ~ In k (dkeys d) -> dset d k v = d ++ [(k, v)].
Proof.
  induction d as [|[k' v'] d IH]; intros H; [reflexivity|]. cbn [dset]. cbn in H. destruct (String.eqb_spec k k') as [ -> |]; [exfalso; tauto|]. cbn [app]. f_equal. apply IH. tauto.
Qed.
Lemma dset_new' (d : dict V) k v : ~ In k (dkeys d) -> dset d k v = d ++ [(k, v)].
Proof.
  induction d as [|[k' v'] d IH]; intros H; [reflexivity|]. cbn [dset]. cbn in H. destruct (String.eqb_spec k k') as [ -> |]; [exfalso; tauto|]. cbn [app]. f_equal. apply IH. tauto.
Qed.
Lemma dset_at_end (d : dict (dict V)) k v w : ~ In k (dkeys d) -> dset (d ++ [(k, v)]) k w = d ++ [(k, w)].
Proof.
  induction d as [|[k' v'] d IH]; intros H; cbn [app dset]; [now rewrite String.eqb_refl|]. cbn in H. destruct (String.eqb_spec k k') as [ -> |]; [exfalso; tauto|]. f_equal. apply IH. tauto.
Qed.
Lemma dget_at_end (d : dict (dict V)) k v : ~ In k (dkeys d) -> dget (d ++ [(k, v)]) k = Some v.
Proof.
  induction d as [|[k' v'] d IH]; intros H; cbn [app dget]; [now rewrite String.eqb_refl|]. cbn in H. destruct (String.eqb_spec k k') as [ -> |]; [exfalso; tauto|]. apply IH. tauto.
Qed.
Lemma put_row q (r : dict V) : forall acc pre, ~ In q (dkeys acc) -> NoDup (dkeys pre ++ dkeys r) ->
  fold_left put (map (fun dv => (q, fst dv, snd dv)) r) (acc ++ [(q, pre)]) = acc ++ [(q, pre ++ r)].
Proof.
  induction r as [|[d v] r IH]; intros acc pre Hq Hn; cbn [map fold_left]; [now rewrite app_nil_r|].
  unfold put at 2. cbn [fst snd]. unfold dset2. rewrite dget_at_end by exact Hq.
  assert (Hd : ~ In d (dkeys pre)) by (cbn in Hn; apply NoDup_remove_2 in Hn; intros Hc; apply Hn, in_or_app; now left).
  rewrite dset_new', dset_at_end by assumption. rewrite IH; [now rewrite <- app_assoc|exact Hq|]. unfold dkeys in *. rewrite map_app, <- app_assoc. exact Hn.
Qed.
Lemma rebuild_go (m : dict (dict V)) : forall acc, NoDup (dkeys acc ++ dkeys m) -> (forall q r, In (q, r) m -> dict_ok r) ->
  fold_left put (triples m) acc = acc ++ keep_nonempty m.
Proof.
  induction m as [|[q r] m IH]; intros acc Hn Hr; cbn [triples flat_map fold_left keep_nonempty filter]; [now rewrite app_nil_r|].
  rewrite fold_left_app. cbn [fst snd]. assert (Hq : ~ In q (dkeys acc)) by (cbn in Hn; apply NoDup_remove_2 in Hn; intros Hc; apply Hn, in_or_app; now left).
  destruct r as [|[d v] r].
  - cbn [map fold_left]. apply IH; [|intros; apply (Hr q0); now right]. cbn in Hn. now apply NoDup_remove_1 in Hn.
  - cbn [map fold_left]. unfold put at 3. cbn [fst snd]. unfold dset2. rewrite (proj2 (dget_None acc q) Hq). rewrite dset_new by exact Hq. cbn [dset].
    rewrite put_row; [|exact Hq|exact (Hr q _ (or_introl eq_refl))]. fold (triples m). rewrite IH.
    + rewrite <- app_assoc. reflexivity.
    + unfold dkeys in *. rewrite map_app, <- app_assoc. exact Hn.
    + intros; apply (Hr q0); now right.
Qed.
Lemma in_dget (m : dict V) q r : dict_ok m -> In (q, r) m -> dget m q = Some r.
Proof.
  unfold dict_ok. induction m as [|[k v] m IH]; intros Hn Hin; [destruct Hin|]. cbn [dget]. inversion Hn as [|? ? Hni Hn']; subst. destruct Hin as [Hin|Hin].
  - injection Hin as -> ->. now rewrite String.eqb_refl.
  - destruct (String.eqb_spec q k) as [ -> |]; [exfalso; apply Hni; apply in_map_iff; exists (k, r); auto|]. now apply IH.
Qed.
End Rebuild.
Lemma dget_in {V} (m : dict V) q r : dget m q = Some r -> In (q, r) m.
Proof. induction m as [|[k v] m IH]; [discriminate|]. cbn [dget]. destruct (String.eqb_spec q k) as [ -> |]; intros H; [injection H as ->; now left|right; auto]. Qed.
Section Rebuild2.
Context {V : Type}.
Lemma rebuild (m : dict (dict V)) : dict2_ok m -> fold_left put (triples m) [] = keep_nonempty m.
Proof. intros [H1 H2]. rewrite rebuild_go; [reflexivity|exact H1|]. intros q r Hin. apply (H2 q). now apply in_dget. Qed.
Lemma keep_get (m : dict (dict V)) q : dict_ok m -> dget (keep_nonempty m) q = match dget m q with Some [] => None | o => o end.
Proof.
  unfold dict_ok. induction m as [|[k r] m IH]; intros Hn; [reflexivity|]. cbn [dkeys map fst] in Hn. inversion Hn as [|? ? Hni Hn']; subst. cbn [keep_nonempty filter dget snd].
  destruct r as [|dv r]; cbn [dget].
  - change (dget (keep_nonempty m) q = match (if String.eqb q k then Some [] else dget m q) with Some [] => None | o => o end). rewrite IH by exact Hn'. destruct (String.eqb_spec q k) as [ -> |]; [|reflexivity]. rewrite (proj2 (dget_None m k) Hni). reflexivity.
  - destruct (String.eqb_spec q k) as [ -> |]; [reflexivity|]. now apply IH.
Qed.
Lemma keep_ok (m : dict (dict V)) : dict2_ok m -> dict2_ok (keep_nonempty m).
Proof.
  intros [H1 H2]. split.
  - unfold dict_ok, keep_nonempty in *. clear H2. induction m as [|[k r] m IH]; [constructor|]. cbn [dkeys map fst] in H1. inversion H1 as [|? ? Hni Hn']; subst. cbn [filter snd].
    assert (Hin : forall x, In x (dkeys (filter (fun qr : string * dict V => match snd qr with [] => false | _ => true end) m)) -> In x (dkeys m)).
    { intros x Hx. unfold dkeys in *. apply in_map_iff in Hx as (y & <- & Hy). apply filter_In in Hy as [Hy _]. now apply in_map. }
    destruct r; [now apply IH|]. cbn [dkeys map fst]. constructor; [intros Hc; apply Hni; now apply Hin|now apply IH].
  - intros q r Hq. rewrite keep_get in Hq by exact H1. destruct (dget m q) as [[|dv r0]|] eqn:Hm; try discriminate. injection Hq as <-. now apply (H2 q).
Qed.
Lemma keep_same (m : dict (dict V)) : dict2_ok m -> same_without_empty m (keep_nonempty m).
Proof.
  intros [H1 H2]. split.
  - intros q d. unfold dget2. rewrite keep_get by exact H1. destruct (dget m q) as [[|dv r]|]; reflexivity.
  - intros q. rewrite dmem_in. split.
    + intros H. apply key_dget in H as (r & Hr). rewrite keep_get in Hr by exact H1. unfold dget2. destruct (dget m q) as [[|[d v] r0]|]; try discriminate. exists d, v. cbn [dget]. now rewrite String.eqb_refl.
    + intros (d & v & H). unfold dget2 in H. destruct (in_dec string_dec q (dkeys (keep_nonempty m))) as [|Hni]; [assumption|]. exfalso. apply (proj2 (dget_None _ _)) in Hni.
      rewrite keep_get in Hni by exact H1. destruct (dget m q) as [[|dv r]|]; try discriminate.
Qed.
Lemma in_triples (m : dict (dict V)) q d v : dict2_ok m -> In (q, d, v) (triples m) <-> dget2 m q d = Some v.
Proof.
  intros [H1 H2]. unfold triples, dget2. rewrite in_flat_map. split.
  - intros ([q' r] & Hin & Ht). apply in_map_iff in Ht as ([d' v'] & Ht & Hd). cbn [fst snd] in Ht. injection Ht as -> -> ->. rewrite (in_dget m q r H1 Hin). apply in_dget; [|exact Hd]. apply (H2 q). now apply in_dget.
  - destruct (dget m q) as [r|] eqn:Hq; [|discriminate]. intros Hd. exists (q, r). split; [now apply dget_in|]. apply in_map_iff. exists (d, v). split; [reflexivity|now apply dget_in].
Qed.
End Rebuild2.
