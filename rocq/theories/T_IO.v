(** T_IO.v: TREC qrels files (C08) *)
From Coq Require Import Lia Reals.
From Verif Require Import Base Dict Num NumLaws Env EnvEx M_Common M_Qrels M_Run M_Strings M_Text M_Compare M_IO Spec_DS Spec_Strings Spec_IO P_Base P_Dict P_Common P_History P_Strings P_Compare P_IO P_IO2.
Open Scope string_scope.
Open Scope list_scope.
Open Scope nat_scope.

Section P.
Context {N : Num}.
Lemma space_app a b : no_space a -> no_space b -> no_space (a ++ b).
Proof. induction a as [|c a IH]; [auto|]. intros [H1 H2] Hb. cbn [append no_space]. auto. Qed.
Lemma sep_line a t : no_space a -> one_line t -> one_line (a ++ " " ++ t).
Proof. intros Ha Ht. apply one_line_app; [now apply no_space_one_line|]. cbn [append one_line]. repeat split; auto. Qed.
Lemma qrels_line_good q d (v : Z) : word q -> word d -> good_line qrels_line (q, d, v).
Proof.
  intros Hq Hd j. cbn [fst snd]. unfold qrels_line. destruct (str_int_word v) as [_ Hv]. split.
  - apply (sep_line q ("0 " ++ d ++ " " ++ str_int v)); [apply Hq|]. apply (sep_line "0" (d ++ " " ++ str_int v)); [cbn; auto|]. apply sep_line; [apply Hd|now apply no_space_one_line].
  - destruct Hq as [Hq _]. destruct q; [congruence|discriminate].
Qed.
Lemma qrels_line_words q j d v e : word q -> word d -> e = "" \/ e = newline -> words (qrels_line q j d v ++ e) = [q; "0"; d; str_int v].
Proof.
  intros Hq Hd He. unfold words, qrels_line.
  replace ((q ++ " 0 " ++ d ++ " " ++ str_int v) ++ e)%string with (q ++ " " ++ ("0" ++ " " ++ (d ++ " " ++ (str_int v ++ e))))%string by now rewrite !sapp_assoc.
  rewrite words_cons by exact Hq. rewrite words_cons by (split; [discriminate|cbn; auto]). rewrite words_cons by exact Hd. rewrite words_last; [reflexivity|apply str_int_word|exact He].
Qed.
Lemma parse_qrels_chunks cs ts : Forall2 (chunk_for qrels_line) cs ts -> (forall t, In t ts -> word (fst (fst (snd t))) /\ word (snd (fst (snd t)))) ->
  map words cs = map (fun t => [fst (fst (snd t)); "0"; snd (fst (snd t)); str_int (snd (snd t))]) ts /\
  forall acc, foldr_m qrels_parse_line cs acc = Ok (fold_left put (map snd ts) acc).
Proof.
  induction 1 as [|c t cs ts Hc Hf IH]; intros Hw; [split; reflexivity|]. destruct (IH (fun t H => Hw t (or_intror H))) as [IH1 IH2]. destruct (Hw t (or_introl eq_refl)) as [Hq Hd].
  destruct Hc as (e & He & ->). split.
  - cbn [map]. rewrite IH1, qrels_line_words by assumption. reflexivity.
  - intros acc. cbn [foldr_m map fold_left]. unfold qrels_parse_line at 1. rewrite qrels_line_words by assumption. cbn [bindr]. rewrite py_int_str. cbn [bindr]. apply IH2.
Qed.
Lemma in_ranked {V} (m : dict (dict V)) t : dict2_ok m -> In t (ranked m) -> dget2 m (fst (fst (snd t))) (snd (fst (snd t))) = Some (snd (snd t)).
Proof.
  intros Hm Ht. apply (in_triples m); [exact Hm|]. rewrite <- ranked_triples. apply in_map_iff. exists t. split; [now destruct t as [? [[? ?] ?]]|exact Ht].
Qed.
Lemma qrels_text m : dict2_ok m -> ids_are_words m ->
  map words (py_lines (trec_text qrels_line m)) = map (fun t => [fst (fst t); "0"; snd (fst t); str_int (snd t)]) (triples m) /\
  qrels_parse (trec_text qrels_line m) = Ok (keep_nonempty m).
Proof.
  intros Hm Hw. destruct (trec_lines qrels_line m) as (cs & Hl & Hf).
  { intros [[q d] v] Ht. apply (in_triples m q d v Hm) in Ht. destruct (Hw q d v Ht). now apply qrels_line_good. }
  assert (Hr : forall t, In t (ranked m) -> word (fst (fst (snd t))) /\ word (snd (fst (snd t)))) by (intros t Ht; eapply Hw, in_ranked; eauto).
  destruct (parse_qrels_chunks cs (ranked m) Hf Hr) as [H1 H2]. unfold qrels_parse. rewrite Hl. split.
  - rewrite H1, <- (ranked_triples m), map_map. reflexivity.
  - rewrite H2, ranked_triples, rebuild by exact Hm. reflexivity.
Qed.
Lemma keep_some {V} (m : dict (dict V)) : dict2_ok m -> some_doc m -> has_doc (keep_nonempty m).
Proof. intros Hm (q & d & v & H). destruct (keep_same m Hm) as [H1 _]. exists q, d, v. now rewrite H1. Qed.
Lemma keep_none {V} (m : dict (dict V)) : dict2_ok m -> ~ some_doc m -> ~ has_doc (keep_nonempty m).
Proof. intros Hm Hn (q & d & v & H). apply Hn. destruct (keep_same m Hm) as [H1 _]. rewrite H1 in H. now exists q, d, v. Qed.
Lemma same_canon (E : env N) (HE : env_ok E) {V} (negf : V -> F) (m : dict (dict V)) : dict2_ok m ->
  same_without_empty m (canon E negf (keep_nonempty m)) /\ (no_empty_query m -> smap_eq (smap_of (canon E negf (keep_nonempty m))) (smap_of m)).
Proof.
  intros Hm. pose proof (keep_ok m Hm) as Hk. destruct (keep_same m Hm) as [H1 H2].
  assert (Hs : same_without_empty m (canon E negf (keep_nonempty m))).
  { split; intros; [now rewrite canon_get2 by (assumption || apply Hk)|]. rewrite canon_mem by (apply Hk). apply H2. }
  split; [exact Hs|]. intros Hne. destruct Hs as [S1 S2]. split; cbn; [|exact S1]. intros q. destruct (dmem m q) eqn:Hq; [apply S2, Hne, Hq|].
  destruct (dmem (canon E negf (keep_nonempty m)) q) eqn:Hc; [|reflexivity]. apply S2 in Hc as (d & v & Hc). unfold dget2 in Hc. unfold dmem in Hq. destruct (dget m q); discriminate.
Qed.
End P.

(** Saving qrels as TREC text and reading the file back, by whatever names the kind is requested, even if other files changed in between:
    the same judgments, without the queries that have none. *)
Theorem C08_round_trip : forall (N : Num) (E : env N), env_ok E -> forall fs (y : Qrels) path kind kind',
  dict2_ok (q_map y) -> ids_are_words (q_map y) -> some_doc (q_map y) ->
  asks_for path kind "trec" -> asks_for path kind' "trec" ->
  exists fs', @Qrels_save N fs y path kind = Ok fs' /\ (forall p, p <> path -> dget fs' p = dget fs p) /\
    forall fs'', dget fs'' path = dget fs' path ->
    exists z, Qrels_from_file E fs'' path kind' = Ok z /\ q_name z = None /\ dict2_ok (q_map z) /\ same_without_empty (q_map y) (q_map z) /\
      (no_empty_query (q_map y) -> smap_eq (smap_of (q_map z)) (smap_of (q_map y))).
Proof.
  intros N E HE fs y path kind kind' Hm Hw Hd Hk Hk'. apply (qrels_kind _ _ "trec") in Hk; [|cbn; unfold is_qrels_kind; cbn; tauto]. apply (qrels_kind _ _ "trec") in Hk'; [|cbn; unfold is_qrels_kind; cbn; tauto].
  unfold Qrels_save. rewrite Hk. cbn [bindr]. eexists. split; [reflexivity|]. split; [intros p Hp; apply dget_dset_neq; congruence|]. intros fs'' Hf.
  unfold Qrels_from_file, read_text. rewrite Hk'. cbn [bindr]. change (String.eqb "trec" "json") with false. change (String.eqb "trec" "gz") with false. cbv iota.
  rewrite dget_dset_eq in Hf. change (String.eqb "trec" "json") with false in Hf. change (String.eqb "trec" "parquet") with false in Hf. cbv iota in Hf. rewrite Hf. cbn [bindr].
  destruct (qrels_text (q_map y) Hm Hw) as [_ Hp]. rewrite Hp. cbn [bindr]. unfold Qrels_from_dict. pose proof (keep_ok _ Hm) as Ho.
  rewrite build_from_dict_ok; [|exact Ho|now apply keep_some]. cbn [bindr]. eexists. split; [reflexivity|]. cbn [q_map q_name]. split; [reflexivity|]. split; [now apply canon_ok|]. now apply same_canon.
Qed.
Print Assumptions C08_round_trip.

(** The text: one line "query 0 document judgment" per judgment, in the order in which the object holds them. *)
Theorem C08_text : forall (N : Num) fs (y : Qrels) path kind, dict2_ok (q_map y) -> ids_are_words (q_map y) -> asks_for path kind "trec" ->
  exists fs' text, @Qrels_save N fs y path kind = Ok fs' /\ dget fs' path = Some (FText text) /\
    map words (py_lines text) = flat_map (fun qr => map (fun dv => [fst qr; "0"; fst dv; str_int (snd dv)]) (snd qr)) (q_map y).
Proof.
  intros N fs y path kind Hm Hw Hk. apply (qrels_kind _ _ "trec") in Hk; [|cbn; unfold is_qrels_kind; cbn; tauto]. unfold Qrels_save. rewrite Hk. cbn [bindr].
  do 2 eexists. split; [reflexivity|]. rewrite dget_dset_eq. split; [reflexivity|]. destruct (qrels_text (q_map y) Hm Hw) as [-> _]. unfold triples.
  generalize (q_map y) as m. induction m as [|qr m IH]; cbn [flat_map map]; [reflexivity|]. rewrite map_app, IH, map_map. reflexivity.
Qed.
Print Assumptions C08_text.

(** Qrels without any judgment are saved, but the file cannot be read back. *)
Theorem C08_no_judgment : forall (N : Num) (E : env N), env_ok E -> forall fs (y : Qrels) path kind,
  dict2_ok (q_map y) -> ~ some_doc (q_map y) -> asks_for path kind "trec" ->
  exists fs', @Qrels_save N fs y path kind = Ok fs' /\ Qrels_from_file E fs' path kind = Err ValueError.
Proof.
  intros N E HE fs y path kind Hm Hd Hk. apply (qrels_kind _ _ "trec") in Hk; [|cbn; unfold is_qrels_kind; cbn; tauto].
  unfold Qrels_save. rewrite Hk. cbn [bindr]. eexists. split; [reflexivity|].
  unfold Qrels_from_file, read_text. rewrite Hk. cbn [bindr]. change (String.eqb "trec" "json") with false. change (String.eqb "trec" "gz") with false. change (String.eqb "trec" "parquet") with false. cbv iota.
  rewrite dget_dset_eq. cbn [bindr].
  assert (Hw : ids_are_words (q_map y)) by (intros q d v H; exfalso; apply Hd; now exists q, d, v).
  destruct (qrels_text (q_map y) Hm Hw) as [_ Hp]. rewrite Hp. cbn [bindr]. unfold Qrels_from_dict. pose proof (keep_ok _ Hm) as Ho.
  rewrite build_from_dict_err; [reflexivity|exact Ho|now apply keep_none].
Qed.
Print Assumptions C08_no_judgment.

(** ** Examples and limits *)
Definition y_ex : Qrels := mkQrels [("q1", [("d1", 1%Z); ("d2", (-12)%Z)]); ("empty", []); ("q2", [("d1", 305%Z)])] false None.
Example ex_C08_hyps : dict2_ok (q_map y_ex) /\ ids_are_words (q_map y_ex) /\ some_doc (q_map y_ex) /\ asks_for "dir/qrels.v2.txt" None "trec".
Proof.
  assert (Hm : dict2_ok (q_map y_ex)).
  { split; [unfold dict_ok; cbn; repeat constructor; cbn; intuition discriminate|]. intros q r Hq. cbn in Hq.
    repeat match type of Hq with (if ?b then _ else _) = _ => destruct b; [injection Hq as <-; unfold dict_ok; cbn; repeat constructor; cbn; intuition discriminate|] end. discriminate. }
  split; [exact Hm|]. split; [|split].
  - intros q d v H. apply (in_triples _ q d v Hm) in H. cbn in H. repeat destruct H as [H|H]; try (injection H as <- <- <-; split; split; [discriminate|cbn; tauto|discriminate|cbn; tauto]). destruct H.
  - exists "q1", "d1", 1%Z. reflexivity.
  - exists "txt". split; [cbn; tauto|]. exists "dir/", "qrels.v2". split; [reflexivity|]. split; [right; now exists "dir"|]. repeat split; try (cbn; intuition discriminate). exists "q"%char. split; [now left|discriminate].
Qed.
Example ex_C08 : exists fs', @Qrels_save NumR [] y_ex "dir/qrels.v2.txt" None = Ok fs' /\
  dget fs' "dir/qrels.v2.txt" = Some (FText ("q1 0 d1 1" ++ newline ++ "q1 0 d2 -12" ++ newline ++ "q2 0 d1 305")).
Proof. eexists. split; [reflexivity|]. vm_compute. reflexivity. Qed.

(** Without the hypothesis on ids the file can be misread silently: a line end inside an id. *)
Theorem C08_any_id_refuted : ~ (forall (E : env NumR) (y : Qrels) fs' z, env_ok E -> dict2_ok (q_map y) -> no_empty_query (q_map y) ->
  @Qrels_save NumR [] y "q.trec" None = Ok fs' -> Qrels_from_file E fs' "q.trec" None = Ok z -> forall q d, dget2 (q_map z) q d = dget2 (q_map y) q d).
Proof.
  intros H. set (id := ("d 7" ++ newline ++ "q 0 e")%string). set (y := mkQrels [("q", [(id, 1%Z)])] true None).
  assert (Hm : dict2_ok (q_map y)).
  { split; [unfold dict_ok; cbn; repeat constructor; cbn; auto|]. intros q r Hq. cbn in Hq. destruct (String.eqb q "q"); [|discriminate]. injection Hq as <-. unfold dict_ok. cbn. repeat constructor; auto. }
  assert (Hne : no_empty_query (q_map y)).
  { intros q Hq. unfold dmem, dget2 in *. cbn in *. destruct (String.eqb q "q"); [|discriminate]. exists id, 1%Z. cbn [dget]. now rewrite String.eqb_refl. }
  set (m := [("q", [("d", 7%Z); ("e", 1%Z)])]).
  assert (Hm' : dict2_ok m).
  { split; [unfold dict_ok; cbn; repeat constructor; cbn; auto|]. intros q r Hq. cbn in Hq. destruct (String.eqb q "q"); [|discriminate]. injection Hq as <-. unfold dict_ok. cbn. repeat constructor; cbn; intuition discriminate. }
  assert (Hb : build_from_dict (@env_ex NumR) q_negf m = Ok (canon (@env_ex NumR) q_negf m)) by (apply build_from_dict_ok; [exact Hm'|exists "q", "d", 7%Z; reflexivity]).
  specialize (H (@env_ex NumR) y [("q.trec", FText (trec_text qrels_line (q_map y)))] (mkQrels (canon (@env_ex NumR) q_negf m) true None) (env_ex_ok NumR_laws) Hm Hne eq_refl).
  assert (Hp : qrels_parse (trec_text qrels_line (q_map y)) = Ok m) by (vm_compute; reflexivity).
  assert (Hl : Qrels_from_file (@env_ex NumR) [("q.trec", FText (trec_text qrels_line (q_map y)))] "q.trec" None = Ok (mkQrels (canon (@env_ex NumR) q_negf m) true None)).
  { unfold Qrels_from_file. change (get_file_kind qrels_kinds "q.trec" None) with (Ok "trec"). cbn [bindr]. change (String.eqb "trec" "json") with false. cbv iota. unfold read_text. cbn [dget]. rewrite String.eqb_refl. change (String.eqb "trec" "gz") with false. cbv iota. cbn [bindr]. rewrite Hp. cbn [bindr]. unfold Qrels_from_dict. rewrite Hb. reflexivity. }
  specialize (H Hl "q" "d"). cbn [q_map] in H. rewrite canon_get2 in H by (exact Hm' || exact (env_ex_ok NumR_laws)). vm_compute in H. discriminate H.
Qed.
Print Assumptions C08_any_id_refuted.
