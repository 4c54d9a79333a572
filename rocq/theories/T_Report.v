(** T_Report.v: the superscripts of a report (C63) *)
From Coq Require Import Lia Sorted.
From Verif Require Import Base Dict Num NumLaws NumCmp Env M_Common M_Qrels M_Run M_Metrics M_Strings M_Text M_Evaluate M_Compare M_Report
  Spec_DS Spec_Compare Spec_Report P_Base P_Dict P_Strings P_Optimize P_Compare T_Compare T_Compare2.
Open Scope string_scope.
Open Scope list_scope.
Open Scope nat_scope.

Lemma concat_nil_cons (a : string) l : String.concat "" (a :: l) = (a ++ String.concat "" l)%string.
Proof. destruct l; cbn; [now rewrite sapp_nil_r|reflexivity]. Qed.

Section R.
Context {N : Num} (rp : report N).

Lemma beats_spec model other metric b : beats rp model other metric = Ok b -> (b = true <-> outperforms rp model other metric).
Proof.
  unfold beats, comparison_of, outperforms. intros H. destruct (fsd_get (rp_comparisons rp) [model; other]) as [e|] eqn:He; cbn [bindr] in H; [|discriminate].
  unfold dget_r at 1 in H. destruct (dget e metric) as [[[p sig]|]|] eqn:Hm; cbn [bindr] in H; try discriminate. cbn [snd] in H. destruct sig.
  - unfold result_of, dget_r in H. destruct (dget (rp_results rp) model) as [d1|] eqn:H1; cbn [bindr] in H; [|discriminate].
    destruct (dget d1 metric) as [a|] eqn:Ha; cbn [bindr] in H; [|discriminate]. destruct (dget (rp_results rp) other) as [d2|] eqn:H2; cbn [bindr] in H; [|discriminate].
    destruct (dget d2 metric) as [c|] eqn:Hc; cbn [bindr] in H; [|discriminate]. injection H as <-. split.
    + intros Hb. exists e, p, a, c. unfold dget2. rewrite H1, H2. auto 10.
    + intros (e' & p' & a' & b' & E1 & E2 & E3 & E4 & E5). unfold dget2 in E3, E4. rewrite H1, Ha in E3. rewrite H2, Hc in E4. congruence.
  - injection H as <-. split; [discriminate|]. intros (e' & p' & a' & b' & E1 & E2 & _). injection E1 as <-. congruence.
Qed.

Lemma letters_go (alphabet : list string) (keep : bool -> bool) (model metric : string) : forall (names : list string) k ls,
  map_m (fun jm => if String.eqb model (snd jm) then Ok "" else do b <- beats rp model (snd jm) metric; if keep b then nth_r alphabet (fst jm) else Ok "") (enum_from k names) = Ok ls ->
  exists js, StronglySorted lt js /\ Forall (fun j => k <= j) js /\ Forall (fun j => j < length alphabet) js /\ String.concat "" ls = String.concat "" (map (fun j => nth j alphabet "") js) /\
    (forall j, In j js <-> k <= j /\ exists other b, nth_error names (j - k) = Some other /\ other <> model /\ beats rp model other metric = Ok b /\ keep b = true) /\
    (forall other, In other names -> other <> model -> exists b, beats rp model other metric = Ok b).
Proof.
  induction names as [|o names IH]; intros k ls H; cbn [enum_from map_m] in H.
  - injection H as <-. exists []. do 4 (split; [constructor|]). split; [|intros other []]. intros j. split; [intros []|]. intros (_ & o & b & H & _). destruct (j - k); discriminate.
  - cbn [fst snd] in H.
    destruct (if String.eqb model o then _ else _) as [c|] eqn:Hc in H; cbn [bindr] in H; [|discriminate].
    destruct (map_m _ (enum_from (S k) names)) as [ls'|] eqn:Hl; cbn [bindr] in H; [|discriminate]. injection H as <-.
    destruct (IH (S k) ls' Hl) as (js & J1 & J2 & J3 & J4 & J5 & J6).
    assert (Hshift : forall j (P : string -> Prop), (S k <= j /\ exists other, nth_error names (j - S k) = Some other /\ P other) <-> (k < j /\ exists other, nth_error (o :: names) (j - k) = Some other /\ P other)).
    { intros j P. split; intros (Hj & other & Ho & HP); (split; [lia|]); exists other; (split; [|exact HP]).
      - replace (j - k) with (S (j - S k)) by lia. exact Ho.
      - replace (j - k) with (S (j - S k)) in Ho by lia. exact Ho. }
    assert (Hcases : (exists b, o <> model /\ beats rp model o metric = Ok b /\ keep b = true /\ nth_error alphabet k = Some c) \/
       (c = "" /\ (o = model \/ exists b, o <> model /\ beats rp model o metric = Ok b /\ keep b = false))).
    { destruct (String.eqb_spec model o) as [ <- |Hne]; [right; split; [now injection Hc as <-|now left]|].
      destruct (beats rp model o metric) as [b|] eqn:Hb; cbn [bindr] in Hc; [|discriminate]. destruct (keep b) eqn:Hk.
      - left. exists b. unfold nth_r in Hc. destruct (nth_error alphabet k) as [c'|]; [|discriminate]. injection Hc as <-. auto.
      - right. split; [now injection Hc as <-|]. right. eauto. }
    destruct Hcases as [(b & Hne & Hb & Hk & Hn)|(-> & Hno)].
    + exists (k :: js). split; [constructor; [exact J1|]; eapply Forall_impl; [|exact J2]; intros j Hj; cbn in *; lia|].
      split; [constructor; [lia|]; eapply Forall_impl; [|exact J2]; intros j Hj; cbn in *; lia|].
      split; [constructor; [apply nth_error_Some; congruence|exact J3]|].
      split; [cbn [map]; rewrite !concat_nil_cons, J4; f_equal; symmetry; now apply nth_error_nth|].
      split.
      * intros j. split.
        -- intros [ <- |Hj]; [split; [lia|]; exists o, b; rewrite Nat.sub_diag; auto|]. apply J5 in Hj as (Hj & other & b' & Ho & HP).
           destruct (proj1 (Hshift j (fun o => exists b, o <> model /\ beats rp model o metric = Ok b /\ keep b = true))) as (Hj' & o' & Ho' & b'' & HP'); [split; [exact Hj|]; exists other; split; [exact Ho|exists b'; exact HP]|].
           split; [lia|]. exists o', b''. auto.
        -- intros (Hj & other & b' & Ho & HP). destruct (Nat.eq_dec k j) as [ -> |Hkj]; [now left|]. right. apply J5.
           destruct (proj2 (Hshift j (fun o => exists b, o <> model /\ beats rp model o metric = Ok b /\ keep b = true))) as (Hj' & o' & Ho' & b'' & HP'); [split; [lia|]; exists other; split; [exact Ho|exists b'; exact HP]|].
           split; [lia|]. exists o', b''. auto.
      * intros other [ <- |Ho] Hm; [eauto|]. now apply J6.
    + exists js. split; [exact J1|]. split; [eapply Forall_impl; [|exact J2]; intros j Hj; cbn in *; lia|]. split; [exact J3|].
      split; [rewrite concat_nil_cons; exact J4|]. split.
      * intros j. split.
        -- intros Hj. apply J5 in Hj as (Hj & other & b' & Ho & HP).
           destruct (proj1 (Hshift j (fun o => exists b, o <> model /\ beats rp model o metric = Ok b /\ keep b = true))) as (Hj' & o' & Ho' & b'' & HP'); [split; [exact Hj|]; exists other; split; [exact Ho|exists b'; exact HP]|].
           split; [lia|]. exists o', b''. auto.
        -- intros (Hj & other & b' & Ho & HP). apply J5. destruct (Nat.eq_dec k j) as [ -> |Hkj].
           ++ exfalso. rewrite Nat.sub_diag in Ho. cbn in Ho. injection Ho as <-. destruct HP as (Hm & Hb' & Hk'). destruct Hno as [Hno|(b2 & _ & Hb2 & Hk2)]; [contradiction|congruence].
           ++ destruct (proj2 (Hshift j (fun o => exists b, o <> model /\ beats rp model o metric = Ok b /\ keep b = true))) as (Hj' & o' & Ho' & b'' & HP'); [split; [lia|]; exists other; split; [exact Ho|exists b'; exact HP]|].
              split; [lia|]. exists o', b''. auto.
      * intros other [ <- |Ho] Hm; [|now apply J6]. destruct Hno as [Hno|(b2 & _ & Hb2 & _)]; [contradiction|eauto].
Qed.

Lemma letters_spec alphabet keep model metric s : letters rp alphabet keep model metric = Ok s ->
  exists js, letters_of alphabet js s /\
    (forall j, In j js <-> exists other b, nth_error (rp_names rp) j = Some other /\ other <> model /\ beats rp model other metric = Ok b /\ keep b = true) /\
    (forall other, In other (rp_names rp) -> other <> model -> exists b, beats rp model other metric = Ok b).
Proof.
  unfold letters. destruct (map_m _ (enumerate (rp_names rp))) as [ls|] eqn:Hl; cbn [bindr]; intros H; [|discriminate]. injection H as <-.
  destruct (letters_go alphabet keep model metric (rp_names rp) 0 ls Hl) as (js & J1 & _ & J3 & J4 & J5 & J6). exists js. split; [repeat split; assumption|]. split; [|exact J6].
  intros j. rewrite J5, Nat.sub_0_r. split; [intros (_ & H); exact H|]. intros H. split; [lia|exact H].
Qed.

Lemma letters_total (alphabet : list string) (keep : bool -> bool) model metric : length (rp_names rp) <= length alphabet ->
  (forall other, In other (rp_names rp) -> other <> model -> exists b, beats rp model other metric = Ok b) -> exists s, letters rp alphabet keep model metric = Ok s.
Proof.
  intros Hlen Hb. unfold letters.
  assert (Hg : forall l k, k + length l <= length alphabet -> (forall other, In other l -> other <> model -> exists b, beats rp model other metric = Ok b) ->
    exists ls, map_m (fun jm => if String.eqb model (snd jm) then Ok "" else do b <- beats rp model (snd jm) metric; if keep b then nth_r alphabet (fst jm) else Ok "") (enum_from k l) = Ok ls).
  { induction l as [|o l IH]; intros k Hk Ho; cbn [enum_from map_m]; [eauto|]. cbn [fst snd]. cbn [length] in Hk.
    destruct (IH (S k)) as (ls & Hls); [lia|intros; apply Ho; [now right|assumption]|].
    assert (Hc : exists c, (if String.eqb model o then Ok "" else do b <- beats rp model o metric; if keep b then nth_r alphabet k else Ok "") = Ok c).
    { destruct (String.eqb_spec model o) as [|Hne]; [eauto|]. destruct (Ho o (or_introl eq_refl) (not_eq_sym Hne)) as (b & ->). cbn [bindr]. destruct (keep b); [|eauto].
      unfold nth_r. destruct (nth_error alphabet k) eqn:Hn; [eauto|]. apply nth_error_None in Hn. lia. }
    destruct Hc as (c & ->). cbn [bindr]. rewrite Hls. cbn [bindr]. eauto. }
  destruct (Hg (rp_names rp) 0) as (ls & Hls); [cbn; lia|exact Hb|]. unfold enumerate. rewrite Hls. cbn [bindr]. eauto.
Qed.
End R.

(** The letters of both alphabets can be told apart, also when they are written one after the other. *)
Definition distinct_letters (alphabet : list string) : bool :=
  forallb (fun i => negb (String.eqb (nth i alphabet "") "") &&
     forallb (fun j => Bool.eqb (prefixb (nth i alphabet "") (nth j alphabet "")) (Nat.eqb i j)) (seq 0 (length alphabet))) (seq 0 (length alphabet)).
Lemma prefixb_app (a s : string) : prefixb a (a ++ s) = true.
Proof. induction a as [|c a IH]; [reflexivity|]. cbn. now rewrite Ascii.eqb_refl. Qed.
Lemma app_prefix (a b s t : string) : (a ++ s = b ++ t)%string -> prefixb a b = true \/ prefixb b a = true.
Proof.
  revert b. induction a as [|c a IH]; intros b H; [now left|]. destruct b as [|d b]; [now right|]. injection H as -> H. cbn. rewrite Ascii.eqb_refl. now apply IH.
Qed.
Lemma app_cancel (a s t : string) : (a ++ s = a ++ t)%string -> s = t.
Proof. induction a as [|c a IH]; intros H; [exact H|]. injection H as H. now apply IH. Qed.
Lemma letters_unique alphabet : distinct_letters alphabet = true -> forall js js' s, letters_of alphabet js s -> letters_of alphabet js' s -> js = js'.
Proof.
  intros Hd. unfold distinct_letters in Hd. rewrite forallb_forall in Hd.
  assert (Hne : forall i, i < length alphabet -> nth i alphabet "" <> "").
  { intros i Hi He. specialize (Hd i). rewrite in_seq in Hd. specialize (Hd (conj (Nat.le_0_l _) Hi)). rewrite He in Hd. discriminate. }
  assert (Hpre : forall i j, i < length alphabet -> j < length alphabet -> prefixb (nth i alphabet "") (nth j alphabet "") = true -> i = j).
  { intros i j Hi Hj Hp. specialize (Hd i). rewrite in_seq in Hd. specialize (Hd (conj (Nat.le_0_l _) Hi)). apply andb_true_iff in Hd as [_ Hd]. rewrite forallb_forall in Hd.
    specialize (Hd j). rewrite in_seq in Hd. specialize (Hd (conj (Nat.le_0_l _) Hj)). rewrite Hp in Hd. apply Bool.eqb_prop in Hd. symmetry in Hd. now apply Nat.eqb_eq in Hd. }
  clear Hd. intros js js' s (_ & F1 & ->) (_ & F2 & He). revert js' F2 He.
  induction js as [|j js IH]; intros [|j' js'] F2 He; [reflexivity| | |].
  - exfalso. cbn [map] in He. rewrite concat_nil_cons in He. inversion F2 as [|? ? H1 H2]; subst. apply (Hne j' H1). destruct (nth j' alphabet ""); [reflexivity|discriminate].
  - exfalso. cbn [map] in He. rewrite concat_nil_cons in He. inversion F1 as [|? ? H1 H2]; subst. apply (Hne j H1). destruct (nth j alphabet ""); [reflexivity|discriminate].
  - cbn [map] in He. rewrite !concat_nil_cons in He. inversion F1 as [|? ? H1 H1']; subst. inversion F2 as [|? ? H2 H2']; subst.
    assert (j = j') as <- by (destruct (app_prefix _ _ _ _ He) as [Hp|Hp]; [|symmetry]; now apply Hpre).
    f_equal. apply IH; auto. now apply app_cancel in He.
Qed.
Theorem C63_alphabets : length chars = 26 /\ length super_chars = 26 /\
  (forall js js' s, letters_of chars js s -> letters_of chars js' s -> js = js') /\
  (forall js js' s, letters_of super_chars js s -> letters_of super_chars js' s -> js = js').
Proof. split; [reflexivity|]. split; [reflexivity|]. split; apply letters_unique; vm_compute; reflexivity. Qed.

(** ** C63: the superscript of a score (in the text table, and in LaTeX) consists of the letters of
    exactly the other models that are significantly outperformed; the LaTeX phantoms of the rest. *)
Theorem C63_superscripts : forall (N : Num) (rp : report N) model metric s,
  (get_superscript_for_table rp model metric = Ok s -> marks rp super_chars model (fun other => outperforms rp model other metric) s) /\
  (get_superscript_for_latex rp model metric = Ok s -> marks rp chars model (fun other => outperforms rp model other metric) s) /\
  (get_phantoms_for_latex rp model metric = Ok s -> marks rp chars model (fun other => ~ outperforms rp model other metric) s).
Proof.
  intros N rp model metric s.
  assert (Hpos : forall alphabet, letters rp alphabet (fun b => b) model metric = Ok s -> exists js, letters_of alphabet js s /\
     forall j, In j js <-> exists other, nth_error (rp_names rp) j = Some other /\ other <> model /\ outperforms rp model other metric).
  { intros alphabet H. destruct (letters_spec rp _ _ _ _ _ H) as (js & J1 & J2 & J3). exists js. split; [exact J1|]. intros j. rewrite J2. split.
    - intros (other & b & Ho & Hm & Hb & Hk). exists other. split; [exact Ho|]. split; [exact Hm|]. now apply (beats_spec rp _ _ _ _ Hb).
    - intros (other & Ho & Hm & Hp). destruct (J3 other (nth_error_In _ _ Ho) Hm) as (b & Hb). exists other, b. repeat (split; [assumption|]). now apply (beats_spec rp _ _ _ _ Hb). }
  split; [exact (Hpos super_chars)|]. split; [exact (Hpos chars)|].
  intros H. destruct (letters_spec rp _ _ _ _ _ H) as (js & J1 & J2 & J3). exists js. split; [exact J1|]. intros j. rewrite J2. split.
  - intros (other & b & Ho & Hm & Hb & Hk). exists other. split; [exact Ho|]. split; [exact Hm|]. intros Hp. apply (beats_spec rp _ _ _ _ Hb) in Hp as ->. discriminate.
  - intros (other & Ho & Hm & Hp). destruct (J3 other (nth_error_In _ _ Ho) Hm) as (b & Hb). exists other, b. repeat (split; [assumption|]).
    destruct b; [|reflexivity]. exfalso. apply Hp. now apply (beats_spec rp _ _ _ _ Hb).
Qed.

(** For the report of a comparison of at most 26 models they can all be computed. *)
Theorem C63_total : forall (N : Num) (E : env N) (T : tests N) y xs metrics test n max_p digits percent mk y' xs' rep,
  dict_ok (q_map y) -> Forall (fun x => dict2_ok (r_map x)) xs ->
  compare E T y xs metrics test n max_p digits percent mk = (y', xs', Ok rep) -> length xs <= 26 ->
  forall model metric, In model (rp_names rep) -> In metric metrics ->
  is_Ok (get_superscript_for_table rep model metric) = true /\ is_Ok (get_superscript_for_latex rep model metric) = true /\
  is_Ok (get_phantoms_for_latex rep model metric) = true.
Proof.
  intros N E T y xs metrics test n max_p digits percent mk y' xs' rep Hy Hxs H Hlen model metric Hmod Hmet.
  destruct (C68_results _ _ _ _ _ _ _ _ _ _ _ _ _ _ _ Hy Hxs H) as (L1 & _ & _ & _ & _ & Hst & Hres & _).
  assert (Hcmp : forall other, In other (rp_names rep) -> other <> model -> exists e ps, fsd_get (rp_comparisons rep) [model; other] = Ok e /\ dget e metric = Some (Some ps)).
  { intros other Ho Hne. destruct (in_dec string_dec test ["fisher"; "student"; "tukey"]) as [Ht|Ht].
    2: { pose proof (C61_other_tests _ E T y xs metrics test n max_p digits percent mk Ht) as Hx. rewrite H in Hx. discriminate. }
    destruct Ht as [Ht|[Ht|[Ht|[]]]].
    - destruct (C61_comparisons _ _ _ _ _ _ _ _ _ _ _ _ _ _ _ Hy Hxs H) as (_ & Hc). destruct (Hc (or_introl (eq_sym Ht))) as (_ & Hp).
      destruct (Hst model Hmod) as (x1 & S1). destruct (Hst other Ho) as (x2 & S2). destruct (Hp model other x1 x2 metric S1 S2 (not_eq_sym Hne) Hmet) as (e & p & _ & _ & H1 & H2 & _). eauto.
    - destruct (C61_comparisons _ _ _ _ _ _ _ _ _ _ _ _ _ _ _ Hy Hxs H) as (_ & Hc). destruct (Hc (or_intror (eq_sym Ht))) as (_ & Hp).
      destruct (Hst model Hmod) as (x1 & S1). destruct (Hst other Ho) as (x2 & S2). destruct (Hp model other x1 x2 metric S1 S2 (not_eq_sym Hne) Hmet) as (e & p & _ & _ & H1 & H2 & _). eauto.
    - subst test. destruct (C61_tukey _ _ _ _ _ _ _ _ _ _ _ _ _ _ Hy Hxs H) as (Hc & _). destruct (Hc metric Hmet) as (ss & pf & _ & _ & Hp).
      destruct (Hp model other Hmod Ho) as (e & i & j & H1 & H2 & _). eauto. }
  assert (Hval : forall a, In a (rp_names rep) -> exists d v, dget (rp_results rep) a = Some d /\ dget d metric = Some v).
  { intros a Ha. destruct (Hst a Ha) as (x & S). destruct (Hres a x metric S Hmet) as (l & _ & Hd). unfold dget2 in Hd. destruct (dget (rp_results rep) a) as [d|] eqn:Hx; [|discriminate]. eauto. }
  assert (Hb : forall other, In other (rp_names rep) -> other <> model -> exists b, beats rep model other metric = Ok b).
  { intros other Ho Hne. destruct (Hcmp other Ho Hne) as (e & ps & H1 & H2). unfold beats, comparison_of. rewrite H1. cbn [bindr]. unfold dget_r at 1. rewrite H2. cbn [bindr].
    destruct (snd ps); [|eauto]. unfold result_of, dget_r. destruct (Hval model Hmod) as (d1 & v1 & -> & Hv1). destruct (Hval other Ho) as (d2 & v2 & -> & Hv2). cbn [bindr]. rewrite Hv1, Hv2. cbn [bindr]. eauto. }
  rewrite <- L1 in Hlen.
  assert (Hok : forall alphabet keep, length alphabet = 26 -> is_Ok (letters rep alphabet keep model metric) = true).
  { intros alphabet keep Ha. destruct (letters_total rep alphabet keep model metric) as (s & ->); [rewrite Ha; exact Hlen|exact Hb|reflexivity]. }
  split; [|split]; apply Hok; reflexivity.
Qed.

(** With more than 26 models neither table can be made. *)
Lemma map_m_fails {A B} (f : A -> result B) l a : In a l -> is_Ok (f a) = false -> is_Ok (map_m f l) = false.
Proof.
  intros Ha Hf. destruct (map_m f l) as [ys|] eqn:H; [|reflexivity]. destruct (map_m_in f l ys H a Ha) as (b & Hb & _). rewrite Hb in Hf. discriminate.
Qed.
Theorem C63_too_many : forall (N : Num) (fm : format N) (rp : report N),
  (26 < length (rp_names rp) -> is_Ok (to_latex fm rp) = false) /\
  (26 < length (rp_results rp) -> is_Ok (to_table fm rp) = false).
Proof.
  intros N fm rp.
  assert (Hnone : nth_r chars 26 = Err IndexError) by reflexivity.
  split; intros H.
  - unfold to_latex. match goal with |- is_Ok (bindr ?r _) = _ => destruct r as [bests|]; [|reflexivity] end. cbn [bindr].
    destruct (get_stat_test_label (rp_test rp)) as [lab|]; [|reflexivity]. cbn [bindr]. destruct (map_m get_metric_label (rp_metrics rp)) as [labs|]; [|reflexivity]. cbn [bindr].
    destruct (nth_error (rp_names rp) 26) as [a|] eqn:Hn; [|apply nth_error_None in Hn; lia].
    assert (Hf : is_Ok (map_m (latex_row fm rp bests) (enumerate (rp_names rp))) = false).
    { apply (map_m_fails _ _ (26, a)); [now apply enumerate_in|]. unfold latex_row. cbn [fst]. rewrite Hnone. reflexivity. }
    destruct (map_m (latex_row fm rp bests) (enumerate (rp_names rp))); [discriminate|reflexivity].
  - unfold to_table. destruct (nth_error (rp_results rp) 26) as [[run v]|] eqn:Hn; [|apply nth_error_None in Hn; lia].
    assert (Hf : is_Ok (map_m (table_row fm rp) (enumerate (rp_results rp))) = false).
    { apply (map_m_fails _ _ (26, (run, v))); [now apply enumerate_in|]. unfold table_row. rewrite Hnone. reflexivity. }
    destruct (map_m (table_row fm rp) (enumerate (rp_results rp))); [discriminate|reflexivity].
Qed.
