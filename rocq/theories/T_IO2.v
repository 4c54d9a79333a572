(** T_IO2.v: TREC run files (C09) *)
From Coq Require Import Lia Reals.
From Verif Require Import Base Dict Num NumLaws Env EnvEx M_Common M_Qrels M_Run M_Strings M_Text M_Compare M_IO Spec_DS Spec_Hist Spec_Strings Spec_IO P_Base P_Dict P_Common P_History P_Strings P_Compare P_IO P_IO2 T_IO.
Open Scope string_scope.
Open Scope list_scope.
Open Scope nat_scope.

Section P.
Context {N : Num} (fl : floats N).
(** the float is written without white space and [float] reads it back *)
Definition float_ok (v : @F N) : Prop := word (fl_show fl v) /\ fl_read fl (fl_show fl v) = Ok v.
Definition scores_ok (m : dict (dict (@F N))) : Prop := forall q d v, dget2 m q d = Some v -> float_ok v.

Lemma run_line_good nm q d v : word q -> word d -> word (fl_show fl v) -> word (py_name nm) -> good_line (run_line fl nm) (q, d, v).
Proof.
  intros Hq Hd Hv Hn j. cbn [fst snd]. unfold run_line. destruct (str_int_word (Z.of_nat j + 1)) as [_ Hj]. split.
  - apply (sep_line q ("Q0 " ++ d ++ " " ++ str_int (Z.of_nat j + 1) ++ " " ++ fl_show fl v ++ " " ++ py_name nm)); [apply Hq|].
    apply (sep_line "Q0" (d ++ " " ++ str_int (Z.of_nat j + 1) ++ " " ++ fl_show fl v ++ " " ++ py_name nm)); [cbn; auto|]. apply sep_line; [apply Hd|]. apply sep_line; [exact Hj|]. apply sep_line; [apply Hv|]. apply no_space_one_line, Hn.
  - destruct Hq as [Hq _]. destruct q; [congruence|discriminate].
Qed.
Lemma run_line_words nm q j d v e : word q -> word d -> word (fl_show fl v) -> word (py_name nm) -> e = "" \/ e = newline ->
  words (run_line fl nm q j d v ++ e) = [q; "Q0"; d; str_int (Z.of_nat j + 1); fl_show fl v; py_name nm].
Proof.
  intros Hq Hd Hv Hn He. unfold words, run_line.
  replace ((q ++ " Q0 " ++ d ++ " " ++ str_int (Z.of_nat j + 1) ++ " " ++ fl_show fl v ++ " " ++ py_name nm) ++ e)%string
    with (q ++ " " ++ ("Q0" ++ " " ++ (d ++ " " ++ (str_int (Z.of_nat j + 1) ++ " " ++ (fl_show fl v ++ " " ++ (py_name nm ++ e))))))%string by now rewrite !sapp_assoc.
  rewrite words_cons by exact Hq. rewrite words_cons by (split; [discriminate|cbn; auto]). rewrite words_cons by exact Hd. rewrite words_cons by apply str_int_word. rewrite words_cons by exact Hv. rewrite words_last; [reflexivity|exact Hn|exact He].
Qed.
Lemma parse_run_chunks nm cs ts : word (py_name nm) -> Forall2 (chunk_for (run_line fl nm)) cs ts ->
  (forall t, In t ts -> word (fst (fst (snd t))) /\ word (snd (fst (snd t))) /\ float_ok (snd (snd t))) ->
  map words cs = map (fun t => [fst (fst (snd t)); "Q0"; snd (fst (snd t)); str_int (Z.of_nat (fst t) + 1); fl_show fl (snd (snd t)); py_name nm]) ts /\
  forall acc name, foldr_m (run_parse_line fl) cs (acc, name) = Ok (fold_left put (map snd ts) acc, match ts, name with _ :: _, None => Some (py_name nm) | _, _ => name end).
Proof.
  intros Hn. induction 1 as [|c t cs ts Hc Hf IH]; intros Hw; [split; [reflexivity|]; intros; reflexivity|]. destruct (IH (fun t H => Hw t (or_intror H))) as [IH1 IH2]. destruct (Hw t (or_introl eq_refl)) as (Hq & Hd & Hv & Hr).
  destruct Hc as (e & He & ->). split.
  - cbn [map]. rewrite IH1, run_line_words by assumption. reflexivity.
  - intros acc name. cbn [foldr_m map fold_left]. unfold run_parse_line at 1. rewrite run_line_words by assumption. rewrite Hr. cbn [bindr fst snd]. rewrite IH2. destruct name; destruct ts; reflexivity.
Qed.
Lemma run_text nm m : dict2_ok m -> ids_are_words m -> scores_ok m -> word (py_name nm) ->
  map words (py_lines (trec_text (run_line fl nm) m)) = map (fun t => [fst (fst (snd t)); "Q0"; snd (fst (snd t)); str_int (Z.of_nat (fst t) + 1); fl_show fl (snd (snd t)); py_name nm]) (ranked m) /\
  forall name, run_parse fl (trec_text (run_line fl nm) m) name = Ok (keep_nonempty m, match triples m, name with _ :: _, None => Some (py_name nm) | _, _ => name end).
Proof.
  intros Hm Hw Hs Hn. destruct (trec_lines (run_line fl nm) m) as (cs & Hl & Hf).
  { intros [[q d] v] Ht. apply (in_triples m q d v Hm) in Ht. destruct (Hw q d v Ht). apply run_line_good; try assumption. apply (Hs q d v Ht). }
  assert (Hr : forall t, In t (ranked m) -> word (fst (fst (snd t))) /\ word (snd (fst (snd t))) /\ float_ok (snd (snd t))).
  { intros t Ht. apply in_ranked in Ht; [|exact Hm]. destruct (Hw _ _ _ Ht). split; [assumption|]. split; [assumption|]. eapply Hs, Ht. }
  destruct (parse_run_chunks nm cs (ranked m) Hn Hf Hr) as [H1 H2]. unfold run_parse. rewrite Hl. split; [exact H1|]. intros name. rewrite H2, <- (ranked_triples m), (ranked_triples m), rebuild by exact Hm.
  rewrite <- (ranked_triples m). destruct (ranked m); reflexivity.
Qed.
Lemma some_triples {V} (m : dict (dict V)) : dict2_ok m -> some_doc m -> triples m <> [].
Proof. intros Hm (q & d & v & H) Hc. apply (in_triples m q d v Hm) in H. rewrite Hc in H. destruct H. Qed.
End P.

(** What [save] writes and how it leaves the object. *)
Section Saved.
Context {N : Num} (E : env N) (HE : env_ok E).
Definition saved (x : Run N) : Run N := if r_sorted x then x else Run_sort E x.
Lemma saved_ok x : dict2_ok (r_map x) -> dict2_ok (r_map (saved x)) /\ smap_eq (smap_of (r_map (saved x))) (smap_of (r_map x)) /\ r_name (saved x) = r_name x.
Proof.
  intros Hm. unfold saved. destruct (r_sorted x); [split; [exact Hm|split; [split; reflexivity|reflexivity]]|]. split; [|split; [|reflexivity]].
  - exact (canon_ok E HE r_negf _ Hm).
  - exact (canon_smap E HE r_negf _ Hm).
Qed.
Lemma saved_words x : dict2_ok (r_map x) -> ids_are_words (r_map x) -> ids_are_words (r_map (saved x)).
Proof. intros Hm Hw q d v H. destruct (saved_ok x Hm) as (_ & [_ Hg] & _). cbn in Hg. rewrite Hg in H. eauto. Qed.
Lemma saved_scores fl x : dict2_ok (r_map x) -> scores_ok fl (r_map x) -> scores_ok fl (r_map (saved x)).
Proof. intros Hm Hw q d v H. destruct (saved_ok x Hm) as (_ & [_ Hg] & _). cbn in Hg. rewrite Hg in H. eauto. Qed.
Lemma saved_some x : dict2_ok (r_map x) -> some_doc (r_map x) -> some_doc (r_map (saved x)).
Proof. intros Hm (q & d & v & H). destruct (saved_ok x Hm) as (_ & [_ Hg] & _). cbn in Hg. exists q, d, v. now rewrite Hg. Qed.
Lemma saved_order x : NumLaws N -> run_inv x -> run_in_order (r_map (saved x)).
Proof.
  intros HL (Hm & Hn & Hs). unfold saved. destruct (r_sorted x) eqn:Hx.
  - apply is_sorted_in_order; [exact HL|now apply Hs].
  - apply is_sorted_in_order; [exact HL|]. exact (canon_sorted E HE r_negf _ Hm Hn).
Qed.
Lemma same_trans {V} (a a' b : dict (dict V)) : smap_eq (smap_of a') (smap_of a) -> same_without_empty a' b -> same_without_empty a b.
Proof.
  intros [_ Hg] [H1 H2]. cbn in Hg. split; intros; [now rewrite H1|]. rewrite H2. split; intros (d & v & H); exists d, v; [now rewrite <- Hg|now rewrite Hg].
Qed.
End Saved.

(** Saving a run as TREC text and reading it back: the same scores, without the queries that have no result; the name is the
    requested one, or else the one written.  The process that reads ([E']) may be another one than the one that wrote ([E]). *)
Theorem C09_round_trip : forall (N : Num) (E E' : env N) (fl : floats N), env_ok E -> env_ok E' -> forall fs (x : Run N) path kind kind' name,
  dict2_ok (r_map x) -> ids_are_words (r_map x) -> scores_ok fl (r_map x) -> some_doc (r_map x) ->
  (forall n, r_name x = Some n -> word n) -> asks_for path kind "trec" -> asks_for path kind' "trec" ->
  exists x' fs', Run_save E fl fs x path kind = (x', Ok fs') /\ (forall p, p <> path -> dget fs' p = dget fs p) /\
    smap_eq (smap_of (r_map x')) (smap_of (r_map x)) /\ r_name x' = r_name x /\
    forall fs'', dget fs'' path = dget fs' path ->
    exists z, Run_from_file E' fl fs'' path kind' name = Ok z /\ dict2_ok (r_map z) /\
      r_name z = Some (match name, r_name x with Some n, _ => n | None, Some n => n | None, None => "None" end) /\
      same_without_empty (r_map x) (r_map z) /\ (no_empty_query (r_map x) -> smap_eq (smap_of (r_map z)) (smap_of (r_map x))).
Proof.
  intros N E E' fl HE HE' fs x path kind kind' name Hm Hw Hs Hd Hn Hk Hk'. apply (run_kind _ _ "trec") in Hk; [|unfold is_run_kind; cbn; tauto]. apply (run_kind _ _ "trec") in Hk'; [|unfold is_run_kind; cbn; tauto].
  unfold Run_save. rewrite Hk. fold (saved E x). destruct (saved_ok E HE x Hm) as (Hm' & Hg & Hnm). do 2 eexists. split; [reflexivity|]. split; [intros p Hp; apply dget_dset_neq; congruence|].
  split; [exact Hg|]. split; [exact Hnm|]. intros fs'' Hf.
  unfold Run_from_file, read_text. rewrite Hk'. cbn [bindr]. change (String.eqb "trec" "json") with false. change (String.eqb "trec" "lz4") with false. change (String.eqb "trec" "gz") with false. cbv iota.
  rewrite dget_dset_eq in Hf. change (String.eqb "trec" "json") with false in Hf. change (String.eqb "trec" "lz4") with false in Hf. change (String.eqb "trec" "parquet") with false in Hf. cbv iota in Hf. rewrite Hf. cbn [bindr].
  assert (Hpn : word (py_name (r_name (saved E x)))).
  { rewrite Hnm. destruct (r_name x) as [n|] eqn:Hx; [apply Hn; exact eq_refl|]. split; [discriminate|cbn; tauto]. }
  destruct (run_text fl (r_name (saved E x)) (r_map (saved E x)) Hm' (saved_words E HE x Hm Hw) (saved_scores E HE fl x Hm Hs) Hpn) as [_ Hp]. rewrite Hp. cbn [bindr fst snd]. unfold Run_from_dict.
  pose proof (keep_ok _ Hm') as Ho. pose proof (saved_some E HE x Hm Hd) as Hd'. rewrite build_from_dict_ok; [|exact Ho|now apply keep_some]. cbn [bindr]. eexists. split; [reflexivity|]. cbn [r_map r_name].
  split; [now apply canon_ok|]. split.
  - pose proof (some_triples _ Hm' Hd'). destruct (triples (r_map (saved E x))); [congruence|]. rewrite Hnm. destruct name, (r_name x); reflexivity.
  - destruct (same_canon E' HE' r_negf (r_map (saved E x)) Hm') as [S1 S2]. split; [exact (same_trans _ _ _ Hg S1)|]. intros Hne. eapply smap_eq_trans; [|exact Hg]. apply S2.
    intros q Hq. destruct Hg as [Gh Gg]. cbn in Gh, Gg. rewrite Gh in Hq. destruct (Hne q Hq) as (d & v & H). exists d, v. now rewrite Gg.
Qed.
Print Assumptions C09_round_trip.

(** The text: per query the documents by non-increasing score with ranks 1, 2, ...; the queries in increasing order. *)
Theorem C09_text : forall (N : Num) (HL : NumLaws N) (E : env N) (fl : floats N), env_ok E -> forall fs (x : Run N) path kind,
  run_inv x -> ids_are_words (r_map x) -> scores_ok fl (r_map x) ->
  (forall n, r_name x = Some n -> word n) -> asks_for path kind "trec" ->
  exists x' fs' text, Run_save E fl fs x path kind = (x', Ok fs') /\ dget fs' path = Some (FText text) /\
    smap_eq (smap_of (r_map x')) (smap_of (r_map x)) /\ run_in_order (r_map x') /\
    map words (py_lines text) =
      flat_map (fun qr => map (fun rdv => [fst qr; "Q0"; fst (snd rdv); str_int (Z.of_nat (fst rdv)); fl_show fl (snd (snd rdv)); match r_name x with Some n => n | None => "None" end])
                              (combine (seq 1 (length (snd qr))) (snd qr))) (r_map x').
Proof.
  intros N HL E fl HE fs x path kind Hi Hw Hs Hn Hk. apply (run_kind _ _ "trec") in Hk; [|unfold is_run_kind; cbn; tauto]. unfold Run_save. rewrite Hk. fold (saved E x). pose proof (proj1 Hi) as Hm.
  destruct (saved_ok E HE x Hm) as (Hm' & Hg & Hnm). do 3 eexists. split; [reflexivity|]. rewrite dget_dset_eq. split; [reflexivity|]. split; [exact Hg|]. split; [now apply saved_order|].
  assert (Hpn : word (py_name (r_name (saved E x)))).
  { rewrite Hnm. destruct (r_name x) as [n|] eqn:Hx; [apply Hn; exact eq_refl|]. split; [discriminate|cbn; tauto]. }
  destruct (run_text fl (r_name (saved E x)) (r_map (saved E x)) Hm' (saved_words E HE x Hm Hw) (saved_scores E HE fl x Hm Hs) Hpn) as [-> _]. rewrite Hnm.
  change (match r_name x with Some n => n | None => "None" end) with (py_name (r_name x)). unfold ranked. generalize (r_map (saved E x)) as m. induction m as [|[q r] m IH]; cbn [flat_map map]; [reflexivity|]. rewrite map_app, IH, map_map. f_equal. cbn [fst snd]. clear.
  unfold enumerate. change (seq 1 (length r)) with (seq (S 0) (length r)). generalize 0 as k. induction r as [|dv r IH]; intros k; cbn [enum_from map length seq combine]; [reflexivity|]. f_equal; [|apply IH]. cbn [fst snd]. do 3 f_equal. f_equal. f_equal. lia.
Qed.
Print Assumptions C09_text.

Theorem C09_no_result : forall (N : Num) (E : env N) (fl : floats N), env_ok E -> forall fs (x : Run N) path kind name,
  dict2_ok (r_map x) -> ~ some_doc (r_map x) -> (forall n, r_name x = Some n -> word n) -> asks_for path kind "trec" ->
  exists x' fs', Run_save E fl fs x path kind = (x', Ok fs') /\ Run_from_file E fl fs' path kind name = Err ValueError.
Proof.
  intros N E fl HE fs x path kind name Hm Hd Hn Hk. apply (run_kind _ _ "trec") in Hk; [|unfold is_run_kind; cbn; tauto].
  unfold Run_save. rewrite Hk. fold (saved E x). destruct (saved_ok E HE x Hm) as (Hm' & Hg & Hnm). do 2 eexists. split; [reflexivity|].
  unfold Run_from_file, read_text. rewrite Hk. cbn [bindr]. change (String.eqb "trec" "json") with false. change (String.eqb "trec" "lz4") with false. change (String.eqb "trec" "gz") with false. change (String.eqb "trec" "parquet") with false. cbv iota.
  rewrite dget_dset_eq. cbn [bindr].
  assert (Hpn : word (py_name (r_name (saved E x)))).
  { rewrite Hnm. destruct (r_name x) as [n|] eqn:Hx; [apply Hn; exact eq_refl|]. split; [discriminate|cbn; tauto]. }
  assert (Hno : ~ some_doc (r_map (saved E x))) by (intros (q & d & v & H); apply Hd; exists q, d, v; destruct Hg as [_ Gg]; cbn in Gg; now rewrite <- Gg).
  assert (Hw : ids_are_words (r_map (saved E x))) by (intros q d v H; exfalso; apply Hno; now exists q, d, v).
  assert (Hs : scores_ok fl (r_map (saved E x))) by (intros q d v H; exfalso; apply Hno; now exists q, d, v).
  destruct (run_text fl _ _ Hm' Hw Hs Hpn) as [_ Hp]. rewrite Hp. cbn [bindr fst snd]. unfold Run_from_dict. rewrite build_from_dict_err; [reflexivity|now apply keep_ok|now apply keep_none].
Qed.
Print Assumptions C09_no_result.

(** ** Examples and limits *)
Definition fl_ex : floats NumSF :=
  Floats (fun v => if @feqb NumSF v (@fdec NumSF 5 1) then "0.5" else "2.25")
         (fun s => if String.eqb s "0.5" then Ok (@fdec NumSF 5 1) else if String.eqb s "2.25" then Ok (@fdec NumSF 225 2) else Err ValueError)
         (fun v => negb (@is_nan NumSF v)) (@fdec NumSF 0 0).
Definition x_ex (name : option string) : Run NumSF :=
  mkRun [("q2", [("d1", @fdec NumSF 5 1); ("d2", @fdec NumSF 225 2)]); ("empty", []); ("q1", [("d1", @fdec NumSF 5 1)])] false name [] [] [].
Lemma x_ex_ok name : dict2_ok (r_map (x_ex name)).
Proof.
  split; [unfold dict_ok; cbn; repeat constructor; cbn; intuition discriminate|]. intros q r Hq. cbn [x_ex r_map dget] in Hq.
  repeat match type of Hq with (if ?b then _ else _) = _ => destruct b; [injection Hq as <-; unfold dict_ok; cbn; repeat constructor; cbn; intuition discriminate|] end. discriminate.
Qed.
Lemma float_ok_ex k : k = @fdec NumSF 5 1 \/ k = @fdec NumSF 225 2 -> float_ok fl_ex k.
Proof. intros [ -> | -> ]; (split; [split; [vm_compute; discriminate|vm_compute; tauto]|vm_compute; reflexivity]). Qed.
Example ex_C09_hyps name : dict2_ok (r_map (x_ex name)) /\ ids_are_words (r_map (x_ex name)) /\ scores_ok fl_ex (r_map (x_ex name)) /\ some_doc (r_map (x_ex name)) /\ asks_for "runs/a.trec" None "trec".
Proof.
  split; [apply x_ex_ok|]. split; [|split; [|split]].
  - intros q d v H. apply (in_triples _ q d v (x_ex_ok name)) in H. cbn in H. repeat destruct H as [H|H]; try (injection H as <- <- _; split; split; [discriminate|cbn; tauto|discriminate|cbn; tauto]). destruct H.
  - intros q d v H. apply (in_triples _ q d v (x_ex_ok name)) in H. cbn [x_ex r_map triples flat_map map fst snd app In] in H. apply float_ok_ex. repeat destruct H as [H|H]; try (injection H as _ _ <-; tauto). destruct H.
  - exists "q1", "d1", (@fdec NumSF 5 1). reflexivity.
  - exists "trec". split; [cbn; tauto|]. exists "runs/", "a". split; [reflexivity|]. split; [right; now exists "runs"|]. repeat split; try (cbn; intuition discriminate). exists "a"%char. split; [now left|discriminate].
Qed.
Definition read_back (name : option string) : option (result (Run NumSF)) :=
  match snd (Run_save env_ex fl_ex [] (x_ex name) "runs/a.trec" None) with Ok fs => Some (Run_from_file env_ex fl_ex fs "runs/a.trec" None None) | Err _ => None end.
Example ex_C09 : dget match snd (Run_save env_ex fl_ex [] (x_ex (Some "bm25")) "runs/a.trec" None) with Ok fs => fs | Err _ => [] end "runs/a.trec"
  = Some (FText ("q1 Q0 d1 1 0.5 bm25" ++ newline ++ "q2 Q0 d2 1 2.25 bm25" ++ newline ++ "q2 Q0 d1 2 0.5 bm25")).
Proof. vmr. Qed.

(** The name of a run without name is not restored ... *)
Theorem C09_no_name_refuted : ~ (forall (E : env NumSF) (fl : floats NumSF) (x : Run NumSF) x' fs' z, env_ok E -> dict2_ok (r_map x) -> ids_are_words (r_map x) -> scores_ok fl (r_map x) ->
  Run_save E fl [] x "runs/a.trec" None = (x', Ok fs') -> Run_from_file E fl fs' "runs/a.trec" None None = Ok z -> r_name z = r_name x).
Proof.
  intros H. destruct (ex_C09_hyps None) as (H1 & H2 & H3 & H4 & H5).
  destruct (C09_round_trip NumSF env_ex env_ex fl_ex (env_ex_ok NumSF_ok) (env_ex_ok NumSF_ok) [] (x_ex None) "runs/a.trec" None None None H1 H2 H3 H4 ltac:(discriminate) H5 H5) as (x' & fs' & Hs & _ & _ & _ & Hr).
  destruct (Hr fs' eq_refl) as (z & Hz & _ & Hn & _). specialize (H env_ex fl_ex (x_ex None) x' fs' z (env_ex_ok NumSF_ok) H1 H2 H3 Hs Hz). rewrite Hn in H. discriminate H.
Qed.
Print Assumptions C09_no_name_refuted.
(** ... and a name with a blank makes a file that cannot be read. *)
Theorem C09_name_with_blank_refuted : ~ (forall (E : env NumSF) (fl : floats NumSF) (x : Run NumSF) x' fs', env_ok E -> dict2_ok (r_map x) -> ids_are_words (r_map x) -> scores_ok fl (r_map x) -> some_doc (r_map x) ->
  Run_save E fl [] x "runs/a.trec" None = (x', Ok fs') -> exists z, Run_from_file E fl fs' "runs/a.trec" None None = Ok z).
Proof.
  intros H. destruct (ex_C09_hyps (Some "bm25 rm3")) as (H1 & H2 & H3 & H4 & H5).
  assert (Hb : read_back (Some "bm25 rm3") = Some (Err ValueError)) by vmr. unfold read_back in Hb.
  specialize (H env_ex fl_ex (x_ex (Some "bm25 rm3")) (fst (Run_save env_ex fl_ex [] (x_ex (Some "bm25 rm3")) "runs/a.trec" None))).
  destruct (Run_save env_ex fl_ex [] (x_ex (Some "bm25 rm3")) "runs/a.trec" None) as [x' [fs'|e]]; cbn [fst snd] in *; [|discriminate].
  destruct (H fs' (env_ex_ok NumSF_ok) H1 H2 H3 H4 eq_refl) as (z & Hz). rewrite Hz in Hb. discriminate Hb.
Qed.
Print Assumptions C09_name_with_blank_refuted.
