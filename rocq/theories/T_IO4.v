(** T_IO4.v: data frames and parquet files (C11) *)
From Coq Require Import Lia Reals.
From Verif Require Import Base Dict Num NumLaws Env EnvEx M_Common M_Qrels M_Run M_Strings M_Text M_Compare M_IO Spec_DS Spec_Hist Spec_IO P_Base P_Dict P_Common P_History P_Norm P_Compare P_IO P_IO2 T_IO T_IO2.
Open Scope string_scope.
Open Scope list_scope.
Open Scope nat_scope.

Section Group.
Context {V : Type}.
Fixpoint last_of (l : list (string * V)) (d : string) : option V :=
  match l with [] => None | (d', v) :: l' => match last_of l' d with Some w => Some w | None => if String.eqb d d' then Some v else None end end.
Lemma dict_of_list_last l d : dget (dict_of_list l) d = last_of l d.
Proof.
  unfold dict_of_list. assert (H : forall acc, dget (fold_left (fun acc kv => dset acc (fst kv) (snd kv)) l acc) d = match last_of l d with Some w => Some w | None => dget acc d end).
  { induction l as [|[k v] l IH]; intros acc; cbn [fold_left last_of fst snd]; [reflexivity|]. rewrite IH. destruct (last_of l d); [reflexivity|]. rewrite dget_dset. destruct (String.eqb d k); reflexivity. }
  rewrite H. destruct (last_of l d); reflexivity.
Qed.
Lemma last_of_rows (rows : list (string * string * V)) q d :
  last_of (map (fun r => (snd (fst r), snd r)) (filter (fun r => String.eqb (fst (fst r)) q) rows)) d = last_row rows q d.
Proof.
  induction rows as [|[[q' d'] v] rows IH]; [reflexivity|]. cbn [filter last_row fst snd]. rewrite (String.eqb_sym q q'). destruct (String.eqb q' q).
  - cbn [map last_of fst snd]. rewrite IH. destruct (last_row rows q d); [reflexivity|]. cbn [andb]. reflexivity.
  - rewrite IH. destruct (last_row rows q d); reflexivity.
Qed.
Lemma last_row_in (rows : list (string * string * V)) q d v : last_row rows q d = Some v -> In (q, d, v) rows.
Proof.
  induction rows as [|[[q' d'] w] rows IH]; [discriminate|]. cbn [last_row]. destruct (last_row rows q d) as [u|].
  - intros H. right. auto.
  - destruct (String.eqb_spec q q') as [ -> |]; [|discriminate]. destruct (String.eqb_spec d d') as [ -> |]; [|discriminate]. cbn [andb]. intros H. injection H as ->. now left.
Qed.
Lemma in_last_row (rows : list (string * string * V)) q d v : In (q, d, v) rows -> exists w, last_row rows q d = Some w.
Proof.
  induction rows as [|[[q' d'] w] rows IH]; [intros []|]. intros [H|H]; cbn [last_row].
  - injection H as -> -> ->. destruct (last_row rows q d) as [u|]; [eauto|]. rewrite !String.eqb_refl. cbn [andb]. eauto.
  - destruct (IH H) as (u & ->). eauto.
Qed.
Lemma group_get (rows : list (string * string * V)) q : dget (group rows) q =
  if in_dec string_dec q (map (fun r => fst (fst r)) rows) then Some (dict_of_list (map (fun r => (snd (fst r), snd r)) (filter (fun r => String.eqb (fst (fst r)) q) rows))) else None.
Proof.
  unfold group. rewrite const_map_get. destruct (in_dec string_dec q (str_sort _)) as [H|H]; rewrite str_sort_in, nodup_In in H; destruct (in_dec string_dec q (map (fun r => fst (fst r)) rows)); tauto || reflexivity.
Qed.
Lemma group_keys (rows : list (string * string * V)) : dkeys (group rows) = str_sort (nodup string_dec (map (fun r => fst (fst r)) rows)).
Proof. unfold group, dkeys. rewrite map_map. cbn [fst]. apply map_id. Qed.
Lemma group_ok (rows : list (string * string * V)) : dict2_ok (group rows).
Proof.
  split.
  - unfold dict_ok. rewrite group_keys. apply str_sort_nodup, NoDup_nodup.
  - intros q r H. rewrite group_get in H. destruct (in_dec _ _ _); [|discriminate]. injection H as <-. apply dict_of_list_ok.
Qed.
Lemma group_holds (rows : list (string * string * V)) : holds_rows (group rows) rows.
Proof.
  split.
  - intros q d. unfold dget2. rewrite group_get. destruct (in_dec string_dec q (map (fun r => fst (fst r)) rows)) as [H|H].
    + now rewrite dict_of_list_last, last_of_rows.
    + destruct (last_row rows q d) as [v|] eqn:Hl; [|reflexivity]. exfalso. apply H. apply last_row_in in Hl. apply in_map_iff. exists (q, d, v). auto.
  - intros q. rewrite dmem_in, group_keys, str_sort_in, nodup_In, in_map_iff. split.
    + intros ([[q' d] v] & Hq & H). cbn in Hq. subst. eauto.
    + intros (d & v & H). exists (q, d, v). auto.
Qed.
Lemma group_some (rows : list (string * string * V)) : rows <> [] -> has_doc (group rows).
Proof.
  intros H. destruct rows as [|[[q d] v] rows]; [congruence|]. destruct (in_last_row ((q, d, v) :: rows) q d v (or_introl eq_refl)) as (w & Hw). exists q, d, w. now rewrite (proj1 (group_holds _)).
Qed.
Lemma zip3_triples (rows : list (string * string * V)) : zip3 (map (fun r => fst (fst r)) rows) (map (fun r => snd (fst r)) rows) (map snd rows) = rows.
Proof. unfold zip3. induction rows as [|[[q d] v] rows IH]; cbn; [reflexivity|]. now rewrite IH. Qed.
Lemma zip3_nil (qs ds : list string) (vs : list V) : length ds = length qs -> length vs = length qs -> zip3 qs ds vs = [] <-> qs = [].
Proof. intros H1 H2. destruct qs, ds, vs; try discriminate; cbn; split; intros; try discriminate; reflexivity. Qed.
(** the rows of a container *)
Lemma triples_last (m : dict (dict V)) q d : dict2_ok m -> last_row (triples m) q d = dget2 m q d.
Proof.
  intros Hm. destruct (last_row (triples m) q d) as [v|] eqn:Hl.
  - apply last_row_in in Hl. apply (in_triples m q d v Hm) in Hl. now rewrite Hl.
  - destruct (dget2 m q d) as [v|] eqn:Hg; [|reflexivity]. apply (in_triples m q d v Hm) in Hg. apply in_last_row in Hg as (w & Hw). congruence.
Qed.
Lemma holds_same (m b : dict (dict V)) : dict2_ok m -> holds_rows b (triples m) -> same_without_empty m b.
Proof.
  intros Hm [H1 H2]. split.
  - intros q d. rewrite H1. now apply triples_last.
  - intros q. rewrite H2. split; intros (d & v & H); exists d, v; now apply (in_triples m q d v Hm).
Qed.
Lemma same_all (m b : dict (dict V)) : same_without_empty m b -> no_empty_query m -> smap_eq (smap_of b) (smap_of m).
Proof.
  intros [S1 S2] Hne. split; cbn; [|exact S1]. intros q. destruct (dmem m q) eqn:Hq; [apply S2, Hne, Hq|].
  destruct (dmem b q) eqn:Hc; [|reflexivity]. apply S2 in Hc as (d & v & Hc). unfold dget2 in Hc. unfold dmem in Hq. destruct (dget m q); discriminate.
Qed.
End Group.
Lemma holds_canon {N : Num} (E : env N) (HE : env_ok E) {V} (negf : V -> F) m (rows : list (string * string * V)) : dict2_ok m -> holds_rows m rows -> holds_rows (canon E negf m) rows.
Proof. intros Hm [H1 H2]. split; intros; [rewrite canon_get2 by assumption|rewrite canon_mem by apply Hm]; auto. Qed.

(** The three columns of a data frame; [qs], [ds] and [vs] are the columns from top to bottom. *)
Definition qrels_columns {N : Num} (df : @frame N) (qc dc sc : string) (qs ds : list string) (vs : list Z) : Prop :=
  dget df qc = Some (CStr qs) /\ dget df dc = Some (CStr ds) /\ dget df sc = Some (CInt vs) /\ length ds = length qs /\ length vs = length qs.
Definition run_columns {N : Num} (df : @frame N) (qc dc sc : string) (qs ds : list string) (vs : list (@F N)) : Prop :=
  dget df qc = Some (CStr qs) /\ dget df dc = Some (CStr ds) /\ dget df sc = Some (CFloat vs) /\ length ds = length qs /\ length vs = length qs.

(** Loading a data frame with the right columns: exactly its rows, the last one of repeated (query, document) pairs; a frame
    without rows is refused. *)
Theorem C11_from_df : forall (N : Num) (E : env N), env_ok E -> forall df qc dc sc qs ds,
  (forall vs, qrels_columns df qc dc sc qs ds vs ->
     (qs = [] -> Qrels_from_df E df qc dc sc = Err ValueError) /\
     (qs <> [] -> exists z, Qrels_from_df E df qc dc sc = Ok z /\ dict2_ok (q_map z) /\ holds_rows (q_map z) (combine (combine qs ds) vs))) /\
  (forall vs name, run_columns df qc dc sc qs ds vs ->
     (qs = [] -> Run_from_df E df qc dc sc name = Err ValueError) /\
     (qs <> [] -> exists z, Run_from_df E df qc dc sc name = Ok z /\ r_name z = name /\ dict2_ok (r_map z) /\ holds_rows (r_map z) (combine (combine qs ds) vs))).
Proof.
  intros N E HE df qc dc sc qs ds. split.
  - intros vs (H1 & H2 & H3 & L1 & L2). unfold Qrels_from_df, dget_r. rewrite H1, H2, H3. cbn [bindr]. unfold Qrels_from_dict. pose proof (zip3_nil qs ds vs L1 L2) as Hz. split; intros Hq.
    + rewrite (proj2 Hz Hq). reflexivity.
    + rewrite build_from_dict_ok; [|apply group_ok|apply group_some; now rewrite Hz]. cbn [bindr]. eexists. split; [reflexivity|]. cbn [q_map]. split; [apply canon_ok; [exact HE|apply group_ok]|]. apply holds_canon; [exact HE|apply group_ok|apply group_holds].
  - intros vs name (H1 & H2 & H3 & L1 & L2). unfold Run_from_df, dget_r. rewrite H1, H2, H3. cbn [bindr]. unfold Run_from_dict. pose proof (zip3_nil qs ds vs L1 L2) as Hz. split; intros Hq.
    + rewrite (proj2 Hz Hq). reflexivity.
    + rewrite build_from_dict_ok; [|apply group_ok|apply group_some; now rewrite Hz]. cbn [bindr]. eexists. split; [reflexivity|]. cbn [r_map r_name]. split; [reflexivity|]. split; [apply canon_ok; [exact HE|apply group_ok]|]. apply holds_canon; [exact HE|apply group_ok|apply group_holds].
Qed.
Print Assumptions C11_from_df.

(** Wrong columns. *)
Definition dtype {N : Num} (c : @column N) : string := match c with CStr _ => "object" | CInt _ => "int64" | CFloat _ => "float64" | COther _ => "other" end.
Definition dtypes_are {N : Num} (df : @frame N) (qc dc sc ty : string) : Prop :=
  exists q d s, dget df qc = Some q /\ dget df dc = Some d /\ dget df sc = Some s /\ dtype q = "object" /\ dtype d = "object" /\ dtype s = ty.
Theorem C11_bad_columns : forall (N : Num) (E : env N) df qc dc sc name,
  ((exists z, Qrels_from_df E df qc dc sc = Ok z) -> dtypes_are df qc dc sc "int64") /\
  ((exists z, Run_from_df E df qc dc sc name = Ok z) -> dtypes_are df qc dc sc "float64") /\
  ((forall c, In c [qc; dc; sc] -> dmem df c = true) ->
     (~ dtypes_are df qc dc sc "int64" -> Qrels_from_df E df qc dc sc = Err AssertionError) /\
     (~ dtypes_are df qc dc sc "float64" -> Run_from_df E df qc dc sc name = Err AssertionError)) /\
  (dmem df qc = false -> Qrels_from_df E df qc dc sc = Err KeyError /\ Run_from_df E df qc dc sc name = Err KeyError).
Proof.
  intros N E df qc dc sc name. unfold Qrels_from_df, Run_from_df, dget_r, dtypes_are, dmem. split; [|split; [|split]].
  - intros (z & Hz). destruct (dget df qc) as [[]|]; try discriminate. destruct (dget df dc) as [[]|]; try discriminate. destruct (dget df sc) as [[]|]; try discriminate. do 3 eexists. repeat (split; [reflexivity|]). reflexivity.
  - intros (z & Hz). destruct (dget df qc) as [[]|]; try discriminate. destruct (dget df dc) as [[]|]; try discriminate. destruct (dget df sc) as [[]|]; try discriminate. do 3 eexists. repeat (split; [reflexivity|]). reflexivity.
  - intros Hc. pose proof (Hc qc ltac:(cbn; tauto)) as Hq. pose proof (Hc dc ltac:(cbn; tauto)) as Hd. pose proof (Hc sc ltac:(cbn; tauto)) as Hs. clear Hc.
    destruct (dget df qc) as [q|]; [|discriminate]. destruct (dget df dc) as [d|]; [|discriminate]. destruct (dget df sc) as [s|]; [|discriminate]. cbn [bindr].
    split; intros Hn; (destruct q; [|reflexivity..]); (destruct d; [|reflexivity..]); destruct s; try reflexivity; exfalso; apply Hn; do 3 eexists; repeat (split; [reflexivity|]); reflexivity.
  - destruct (dget df qc); [discriminate|]. split; reflexivity.
Qed.
Print Assumptions C11_bad_columns.

(** Export and import. *)
Theorem C11_round_trip : forall (N : Num) (E : env N), env_ok E ->
  (forall y, dict2_ok (q_map y) -> some_doc (q_map y) -> exists z, Qrels_from_df E (Qrels_to_dataframe y) "q_id" "doc_id" "score" = Ok z /\ dict2_ok (q_map z) /\
     same_without_empty (q_map y) (q_map z) /\ (no_empty_query (q_map y) -> smap_eq (smap_of (q_map z)) (smap_of (q_map y)))) /\
  (forall x name, dict2_ok (r_map x) -> some_doc (r_map x) -> exists z, Run_from_df E (Run_to_dataframe x) "q_id" "doc_id" "score" name = Ok z /\ dict2_ok (r_map z) /\ r_name z = name /\
     same_without_empty (r_map x) (r_map z) /\ (no_empty_query (r_map x) -> smap_eq (smap_of (r_map z)) (smap_of (r_map x)))).
Proof.
  intros N E HE. split.
  - intros y Hm Hd. pose proof (some_triples _ Hm Hd) as Ht.
    destruct (proj1 (C11_from_df N E HE (Qrels_to_dataframe y) "q_id" "doc_id" "score" (map (fun r => fst (fst r)) (triples (q_map y))) (map (fun r => snd (fst r)) (triples (q_map y)))) (map snd (triples (q_map y)))) as [_ H].
    { unfold qrels_columns, Qrels_to_dataframe. cbn [dget]. split; [reflexivity|]. split; [reflexivity|]. split; [destruct (triples (q_map y)); [congruence|reflexivity]|]. rewrite !map_length. auto. }
    destruct H as (z & Hz & Ho & Hh); [destruct (triples (q_map y)); [congruence|discriminate]|]. exists z. split; [exact Hz|]. split; [exact Ho|].
    pose proof (zip3_triples (triples (q_map y))) as Hzip. unfold zip3 in Hzip. rewrite Hzip in Hh. pose proof (holds_same _ _ Hm Hh) as Hs. split; [exact Hs|]. now apply same_all.
  - intros x name Hm Hd. pose proof (some_triples _ Hm Hd) as Ht.
    destruct (proj2 (C11_from_df N E HE (Run_to_dataframe x) "q_id" "doc_id" "score" (map (fun r => fst (fst r)) (triples (r_map x))) (map (fun r => snd (fst r)) (triples (r_map x)))) (map snd (triples (r_map x))) name) as [_ H].
    { unfold run_columns, Run_to_dataframe. cbn [dget]. split; [reflexivity|]. split; [reflexivity|]. split; [destruct (triples (r_map x)); [congruence|reflexivity]|]. rewrite !map_length. auto. }
    destruct H as (z & Hz & Hn & Ho & Hh); [destruct (triples (r_map x)); [congruence|discriminate]|]. exists z. split; [exact Hz|]. split; [exact Ho|]. split; [exact Hn|].
    pose proof (zip3_triples (triples (r_map x))) as Hzip. unfold zip3 in Hzip. rewrite Hzip in Hh. pose proof (holds_same _ _ Hm Hh) as Hs. split; [exact Hs|]. now apply same_all.
Qed.
Print Assumptions C11_round_trip.

(** An object without documents exports a frame that is refused: the score column of an empty frame has no numeric type. *)
Theorem C11_no_document : forall (N : Num) (E : env N),
  (forall y, dict2_ok (q_map y) -> ~ some_doc (q_map y) -> Qrels_from_df E (@Qrels_to_dataframe N y) "q_id" "doc_id" "score" = Err AssertionError) /\
  (forall x name, dict2_ok (r_map x) -> ~ some_doc (r_map x) -> Run_from_df E (Run_to_dataframe x) "q_id" "doc_id" "score" name = Err AssertionError).
Proof.
  intros N E. assert (Hn : forall V (m : dict (dict V)), dict2_ok m -> ~ some_doc m -> triples m = []).
  { intros V m Hm Hn. destruct (triples m) as [|[[q d] v] l] eqn:Ht; [reflexivity|]. exfalso. apply Hn. exists q, d, v. apply (in_triples m q d v Hm). rewrite Ht. now left. }
  split; intros; unfold Qrels_from_df, Run_from_df, Qrels_to_dataframe, Run_to_dataframe; rewrite Hn by assumption; reflexivity.
Qed.
Print Assumptions C11_no_document.

(** Parquet files. *)
Theorem C11_parquet : forall (N : Num) (E : env N) (fl : floats N), env_ok E -> forall path kind, asks_for path kind "parquet" ->
  (forall fs y, dict2_ok (q_map y) -> some_doc (q_map y) -> exists fs' z, Qrels_save fs y path kind = Ok fs' /\
     Qrels_from_parquet E fs' path "q_id" "doc_id" "score" [] = Ok z /\ dict2_ok (q_map z) /\ same_without_empty (q_map y) (q_map z)) /\
  (forall fs x name, dict2_ok (r_map x) -> some_doc (r_map x) -> exists x' fs' z, Run_save E fl fs x path kind = (x', Ok fs') /\
     Run_from_parquet E fs' path "q_id" "doc_id" "score" [] name = Ok z /\ dict2_ok (r_map z) /\ r_name z = name /\ same_without_empty (r_map x) (r_map z)).
Proof.
  intros N E fl HE path kind Hk. destruct (C11_round_trip N E HE) as [R1 R2]. split.
  - intros fs y Hm Hd. apply (qrels_kind _ _ "parquet") in Hk; [|unfold is_qrels_kind; cbn; tauto]. destruct (R1 y Hm Hd) as (z & Hz & H1 & H2 & _). unfold Qrels_save. rewrite Hk. cbn [bindr]. eexists. exists z. split; [reflexivity|].
    unfold Qrels_from_parquet, read_parquet. rewrite dget_dset_eq. change (String.eqb "parquet" "json") with false. change (String.eqb "parquet" "parquet") with true. cbv iota. cbn [bindr]. auto.
  - intros fs x name Hm Hd. apply (run_kind _ _ "parquet") in Hk; [|unfold is_run_kind; cbn; tauto]. destruct (saved_ok E HE x Hm) as (Hm' & Hg & _). destruct (R2 (saved E x) name Hm' (saved_some E HE x Hm Hd)) as (z & Hz & H1 & Hn & H2 & _). unfold Run_save. rewrite Hk. fold (saved E x).
    do 2 eexists. exists z. split; [reflexivity|]. unfold Run_from_parquet, read_parquet. rewrite dget_dset_eq. change (String.eqb "parquet" "json") with false. change (String.eqb "parquet" "lz4") with false. change (String.eqb "parquet" "parquet") with true. cbv iota. cbn [bindr].
    split; [exact Hz|]. split; [exact H1|]. split; [exact Hn|]. exact (same_trans _ _ _ Hg H2).
Qed.
Print Assumptions C11_parquet.

(** Extra keyword arguments for pandas never arrive: unless the first key happens to name an engine, the call fails. *)
Theorem C11_pd_kwargs_refuted : forall (N : Num) (E : env N), ~ (forall fs path key kwargs z,
  Qrels_from_parquet E fs path "q_id" "doc_id" "score" [] = Ok z -> Qrels_from_parquet E fs path "q_id" "doc_id" "score" (key :: kwargs) = Ok z).
Proof.
  intros N E H. set (y := mkQrels [("q", [("d", 1%Z)])] true None). set (fs := [("p", FParquet (@Qrels_to_dataframe N y))] : dict (file N Z)).
  assert (Hb : exists z, Qrels_from_parquet E fs "p" "q_id" "doc_id" "score" [] = Ok z).
  { unfold Qrels_from_parquet, read_parquet, fs. cbn [dget bindr]. change (String.eqb "p" "p") with true. cbv iota. cbn [bindr]. unfold Qrels_from_df, dget_r, Qrels_to_dataframe, y, triples. cbn [q_map flat_map map app fst snd dget bindr]. change (dget_r (V:=@column N)) with (dget_r (V:=@column N)).
    change (String.eqb "q_id" "q_id") with true. change (String.eqb "doc_id" "q_id") with false. change (String.eqb "doc_id" "doc_id") with true. change (String.eqb "score" "q_id") with false. change (String.eqb "score" "doc_id") with false. change (String.eqb "score" "score") with true. cbv iota. cbn [bindr].
    unfold Qrels_from_dict. rewrite build_from_dict_ok; [eexists; reflexivity|apply group_ok|]. apply group_some. discriminate. }
  destruct Hb as (z & Hz). specialize (H fs "p" "columns" [] z Hz). discriminate H.
Qed.
Print Assumptions C11_pd_kwargs_refuted.

(** ** Examples *)
Example ex_C11_duplicates : exists z, Qrels_from_df (@env_ex NumSF) [("a", CStr ["q"; "q"; "p"; "q"]); ("b", CStr ["d"; "e"; "d"; "d"]); ("c", CInt [1; 2; 3; 4]%Z)] "a" "b" "c" = Ok z /\
  q_map z = [("p", [("d", 3%Z)]); ("q", [("d", 4%Z); ("e", 2%Z)])].
Proof. eexists. split; vm_compute; reflexivity. Qed.
Example ex_C11_hyps : dict2_ok (q_map y_ex) /\ some_doc (q_map y_ex) /\ asks_for "y.parq" None "parquet" /\ (forall name, dict2_ok (r_map (x_ex name)) /\ some_doc (r_map (x_ex name))) /\
  qrels_columns (@Qrels_to_dataframe NumSF y_ex) "q_id" "doc_id" "score" ["q1"; "q1"; "q2"] ["d1"; "d2"; "d1"] [1; -12; 305]%Z.
Proof.
  split; [apply ex_C08_hyps|]. split; [apply ex_C08_hyps|]. split; [|split; [intros name; split; apply (ex_C09_hyps name)|]].
  - exists "parq". split; [cbn; tauto|]. exists "", "y". split; [reflexivity|]. split; [now left|]. repeat split; try (cbn; intuition discriminate). exists "y"%char. split; [now left|discriminate].
  - repeat split.
Qed.
(** an empty query disappears *)
Theorem C11_empty_query_refuted : forall (N : Num) (E : env N), env_ok E -> ~ (forall y z, dict2_ok (q_map y) -> Qrels_from_df E (@Qrels_to_dataframe N y) "q_id" "doc_id" "score" = Ok z -> forall q, dmem (q_map z) q = dmem (q_map y) q).
Proof.
  intros N E HE H. destruct ex_C08_hyps as (Hm & _ & Hd & _). destruct (proj1 (C11_round_trip N E HE) y_ex Hm Hd) as (z & Hz & _ & [_ Hs] & _). specialize (H y_ex z Hm Hz "empty"). change (dmem (q_map y_ex) "empty") with true in H.
  apply Hs in H as (d & v & H). vm_compute in H. discriminate H.
Qed.
Print Assumptions C11_empty_query_refuted.
