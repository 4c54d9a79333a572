(** T_Trec.v: what a TREC file means, and how a number may be written (C96) *)
From Coq Require Import Lia.
From Verif Require Import Base Dict Num NumLaws Env EnvEx M_Common M_Qrels M_Run M_Metrics M_Strings M_Text M_Evaluate M_Compare M_IO Spec_DS Spec_Strings Spec_IO Spec_Trec
  P_Base P_Dict P_Common P_History P_Strings P_Compare P_IO P_IO2 P_Trec T_Parse T_IO4.
Open Scope string_scope.
Open Scope list_scope.
Open Scope nat_scope.

(** ** rows stored one after the other *)
Section Put.
Context {V : Type}.
Lemma last_row_app (a b : list (string * string * V)) q d : last_row (a ++ b) q d = match last_row b q d with Some w => Some w | None => last_row a q d end.
Proof.
  induction a as [|[[q' d'] v] a IH]; cbn [app last_row]; [now destruct (last_row b q d)|]. rewrite IH. destruct (last_row b q d); [reflexivity|]. reflexivity.
Qed.
Lemma dget2_put (m : dict (dict V)) q d v q' d' : dget2 (dset2 m q d v) q' d' = if String.eqb q' q && String.eqb d' d then Some v else dget2 m q' d'.
Proof.
  unfold dget2, dset2. destruct (String.eqb_spec q' q) as [-> |Hq]; cbn [andb].
  - rewrite dget_dset_eq. destruct (String.eqb_spec d' d) as [-> |Hd]; [destruct (dget m q); now rewrite dget_dset_eq|].
    destruct (dget m q); rewrite dget_dset_neq by congruence; reflexivity.
  - rewrite dget_dset_neq by congruence. reflexivity.
Qed.
Lemma dmem_dset2 (m : dict (dict V)) q d v q' : dmem (dset2 m q d v) q' = String.eqb q' q || dmem m q'.
Proof.
  unfold dmem, dset2. destruct (String.eqb_spec q' q) as [-> |Hq]; cbn [orb]; [now rewrite dget_dset_eq|]. now rewrite dget_dset_neq by congruence.
Qed.
Lemma dict2_ok_dset2 (m : dict (dict V)) q d v : dict2_ok m -> dict2_ok (dset2 m q d v).
Proof.
  intros [H1 H2]. unfold dset2. split; [now apply dict_ok_dset|]. intros q' r Hr. destruct (string_dec q' q) as [-> |Hne].
  - rewrite dget_dset_eq in Hr. injection Hr as <-. apply dict_ok_dset. destruct (dget m q) as [r|] eqn:Hq; [exact (H2 q r Hq)|constructor].
  - rewrite dget_dset_neq in Hr by congruence. exact (H2 q' r Hr).
Qed.
Lemma put_holds (rows : list (string * string * V)) : forall acc done, dict2_ok acc -> holds_rows acc done ->
  dict2_ok (fold_left put rows acc) /\ holds_rows (fold_left put rows acc) (done ++ rows).
Proof.
  induction rows as [|[[q d] v] rows IH]; intros acc done Ho Hh; cbn [fold_left]; [now rewrite app_nil_r|].
  specialize (IH (put acc (q, d, v)) (done ++ [(q, d, v)])). rewrite <- app_assoc in IH. cbn [app] in IH. apply IH; clear IH; unfold put; cbn [fst snd]; [now apply dict2_ok_dset2|].
  destruct Hh as [H1 H2]. split.
  - intros q' d'. rewrite dget2_put, last_row_app, <- H1. cbn [last_row]. destruct (String.eqb q' q && String.eqb d' d); reflexivity.
  - intros q'. rewrite dmem_dset2, orb_true_iff, H2. split.
    + intros [Hq|(d' & v' & Hi)]; [apply String.eqb_eq in Hq as ->; exists d, v; apply in_or_app; right; now left|exists d', v'; apply in_or_app; now left].
    + intros (d' & v' & Hi). apply in_app_or in Hi as [Hi|[Hi|[]]]; [right; eauto|left; injection Hi as <- _ _; apply String.eqb_refl].
Qed.
Lemma put_from_nil (rows : list (string * string * V)) : dict2_ok (fold_left put rows []) /\ holds_rows (fold_left put rows []) rows.
Proof.
  apply (put_holds rows [] []); [split; [constructor|intros q r Hr; discriminate]|]. split; [reflexivity|]. intros q. split; [discriminate|intros (d & v & [])].
Qed.
Lemma holds_some (m : dict (dict V)) rows : rows <> [] -> holds_rows m rows -> has_doc m.
Proof.
  intros Hr [H1 _]. destruct rows as [|[[q d] v] rows]; [congruence|]. destruct (in_last_row ((q, d, v) :: rows) q d v (or_introl eq_refl)) as (w & Hw). exists q, d, w. now rewrite H1.
Qed.
End Put.

Section P.
Context {N : Num}.
Lemma foldr_words {A} (f : A -> list string -> result A) l1 l2 : map words l1 = map words l2 ->
  forall a, foldr_m (fun a l => f a (words l)) l1 a = foldr_m (fun a l => f a (words l)) l2 a.
Proof.
  revert l2. induction l1 as [|x l1 IH]; intros [|y l2] H a; try discriminate; [reflexivity|]. cbn [map] in H. injection H as H1 H2. cbn [foldr_m]. rewrite H1.
  destruct (f a (words y)); cbn [bindr]; [now apply IH|reflexivity].
Qed.
Lemma qrels_parse_lines text ls : lines_of text ls -> qrels_parse text = foldr_m qrels_parse_line ls [].
Proof.
  intros H. exact (foldr_words (fun acc ws => match ws with [q; _; d; rel] => do v <- py_int rel; Ok (dset2 acc q d v) | _ => Err ValueError end) _ _ (lines_words text ls H) []).
Qed.
Lemma qrels_line_ok line row : judgment_line line row -> forall acc, qrels_parse_line acc line = Ok (put acc row).
Proof.
  destruct row as [[q d] v]. intros (it & rel & Hf & Hi) acc. unfold qrels_parse_line. rewrite (fields_words _ _ Hf). apply int_iff in Hi. rewrite Hi. reflexivity.
Qed.
Lemma qrels_line_bad line : (forall row, ~ judgment_line line row) -> forall acc, qrels_parse_line acc line = Err ValueError.
Proof.
  intros H acc. unfold qrels_parse_line. destruct (words line) as [|q [|it [|d [|rel [|? ?]]]]] eqn:Hw; try reflexivity.
  rewrite not_int; [reflexivity|]. intros v Hv. apply (H (q, d, v)). exists it, rel. split; [now apply words_fields|exact Hv].
Qed.
Lemma qrels_parse_line_err acc line e : qrels_parse_line acc line = Err e -> e = ValueError.
Proof.
  unfold qrels_parse_line. destruct (words line) as [|q [|it [|d [|rel [|? ?]]]]]; try (intros H; now injection H).
  unfold py_int. destruct (parse_signed (strip rel)); cbn [bindr]; [discriminate|]. intros H. now injection H.
Qed.
Lemma foldr_ok {A B C} (f : A -> B -> result A) (g : A -> C -> A) (R : B -> C -> Prop) ls rows : (forall l r a, R l r -> f a l = Ok (g a r)) ->
  Forall2 R ls rows -> forall a, foldr_m f ls a = Ok (fold_left g rows a).
Proof.
  intros Hf. induction 1 as [|l r ls rows H _ IH]; intros a; [reflexivity|]. cbn [foldr_m fold_left]. rewrite (Hf l r a H). cbn [bindr]. apply IH.
Qed.
Lemma foldr_bad {A B} (f : A -> B -> result A) ls line : (forall a l e, f a l = Err e -> e = ValueError) -> In line ls -> (forall a, f a line = Err ValueError) ->
  forall a, foldr_m f ls a = Err ValueError.
Proof.
  intros He Hin Hl. induction ls as [|x ls IH]; intros a; [destruct Hin|]. cbn [foldr_m]. destruct Hin as [-> |Hin]; [now rewrite Hl|].
  destruct (f a x) as [a'|e] eqn:Hx; cbn [bindr]; [now apply IH|]. now rewrite (He _ _ _ Hx).
Qed.
End P.

(** The text a reader is given: a plain file, or a gzipped one. *)
Definition file_text {N : Num} {V} (fs : dict (file N V)) (path : string) (kind : option string) (text : string) : Prop :=
  asks_for path kind "trec" /\ dget fs path = Some (FText text) \/ asks_for path kind "gz" /\ dget fs path = Some (FGzip text).

(** Every text has lines, and every line fields. *)
Theorem C96_lines : (forall text, exists ls, lines_of text ls) /\ (forall line, exists fs, fields line fs).
Proof. split; [exact lines_total|exact fields_total]. Qed.

(** Qrels.from_file on any text: the judgments of its lines, the last one of repeated (query, document) pairs; if a single line
    is not made of four fields the last of which is an integer, or there is no line, ValueError. *)
Theorem C96_qrels_file : forall (N : Num) (E : env N), env_ok E -> forall fs path kind text ls, file_text fs path kind text -> lines_of text ls ->
  (forall rows, Forall2 judgment_line ls rows -> ls <> [] ->
     exists z, @Qrels_from_file N E fs path kind = Ok z /\ q_name z = None /\ dict2_ok (q_map z) /\ holds_rows (q_map z) rows) /\
  (ls = [] \/ (exists line, In line ls /\ forall row, ~ judgment_line line row) -> @Qrels_from_file N E fs path kind = Err ValueError).
Proof.
  intros N E HE fs path kind text ls Ht Hl.
  assert (Hf : Qrels_from_file E fs path kind = do d <- foldr_m qrels_parse_line ls []; Qrels_from_dict E d).
  { unfold Qrels_from_file. destruct Ht as [[Hk Ht]|[Hk Ht]].
    - apply (qrels_kind _ _ "trec") in Hk; [|cbn; unfold is_qrels_kind; cbn; tauto]. rewrite Hk. unfold read_text. rewrite Ht. cbn [bindr String.eqb Ascii.eqb Bool.eqb]. now rewrite (qrels_parse_lines text ls Hl).
    - apply (qrels_kind _ _ "gz") in Hk; [|cbn; unfold is_qrels_kind; cbn; tauto]. rewrite Hk. unfold read_text. rewrite Ht. cbn [bindr String.eqb Ascii.eqb Bool.eqb]. now rewrite (qrels_parse_lines text ls Hl). }
  rewrite Hf. split.
  - intros rows Hr Hne. rewrite (foldr_ok qrels_parse_line put judgment_line ls rows (fun l r a H => qrels_line_ok l r H a) Hr). cbn [bindr]. destruct (put_from_nil rows) as [Ho Hh].
    assert (Hrn : rows <> []) by (intros ->; inversion Hr; subst; congruence).
    unfold Qrels_from_dict. rewrite build_from_dict_ok; [|exact Ho|exact (holds_some _ _ Hrn Hh)]. cbn [bindr]. eexists. split; [reflexivity|]. cbn [q_map q_name]. split; [reflexivity|].
    split; [now apply canon_ok|now apply holds_canon].
  - intros [-> |(line & Hin & Hb)]; [reflexivity|]. rewrite (foldr_bad qrels_parse_line ls line qrels_parse_line_err Hin (qrels_line_bad line Hb)). reflexivity.
Qed.

(** Run.from_file: the scores of the lines, and the name given or else that of the first line; [float_reads] tells that float() can only
    raise ValueError. *)
Theorem C96_run_file : forall (N : Num) (E : env N) (fl : floats N), env_ok E -> (forall s e, fl_read fl s = Err e -> e = ValueError) ->
  forall fs path kind text ls name, file_text fs path kind text -> lines_of text ls ->
  (forall rows, Forall2 (score_line (fl_read fl)) ls rows -> ls <> [] ->
     exists z n, Run_from_file E fl fs path kind name = Ok z /\ r_name z = Some n /\
       match name with Some given => n = given | None => names_run (hd "" ls) n end /\ dict2_ok (r_map z) /\ holds_rows (r_map z) rows) /\
  (ls = [] \/ (exists line, In line ls /\ forall row, ~ score_line (fl_read fl) line row) -> Run_from_file E fl fs path kind name = Err ValueError).
Proof.
  intros N E fl HE He fs path kind text ls name Ht Hl.
  assert (Hp : run_parse fl text name = foldr_m (run_parse_line fl) ls (([] : dict (dict F)), name)).
  { exact (foldr_words (fun (st : dict (dict F) * option string) ws => match ws with
      | [q; _; d; _; rel; run_name] => do v <- fl_read fl rel; Ok (dset2 (fst st) q d v, match snd st with None => Some run_name | n => n end) | _ => Err ValueError end)
      _ _ (lines_words text ls Hl) ([], name)). }
  assert (Hf : Run_from_file E fl fs path kind name = do dn <- foldr_m (run_parse_line fl) ls (([] : dict (dict F)), name); Run_from_dict E (fst dn) (snd dn)).
  { unfold Run_from_file. destruct Ht as [[Hk Ht]|[Hk Ht]].
    - apply (run_kind _ _ "trec") in Hk; [|cbn; unfold is_run_kind; cbn; tauto]. rewrite Hk. unfold read_text. rewrite Ht. cbn [bindr String.eqb Ascii.eqb Bool.eqb]. now rewrite Hp.
    - apply (run_kind _ _ "gz") in Hk; [|cbn; unfold is_run_kind; cbn; tauto]. rewrite Hk. unfold read_text. rewrite Ht. cbn [bindr String.eqb Ascii.eqb Bool.eqb]. now rewrite Hp. }
  rewrite Hf. clear Hp Hf Ht. split.
  - intros rows Hr Hne.
    assert (Hgo : forall ls rows, Forall2 (score_line (fl_read fl)) ls rows -> forall acc nm, exists nm', foldr_m (run_parse_line fl) ls (acc, nm) = Ok (fold_left put rows acc, nm') /\
      match nm with Some g => nm' = Some g | None => ls = [] \/ exists n, nm' = Some n /\ names_run (hd "" ls) n end).
    { clear. induction 1 as [|line [[q d] v] ls rows (it & rank & s & n & Hw & Hv) _ IH]; intros acc nm; [exists nm; split; [reflexivity|destruct nm; auto]|].
      assert (Hl : run_parse_line fl (acc, nm) line = Ok (put acc (q, d, v), match nm with None => Some n | o => o end))
        by (unfold run_parse_line; rewrite (fields_words _ _ Hw), Hv; destruct nm; reflexivity).
      cbn [foldr_m fold_left]. rewrite Hl. cbn [bindr].
      destruct (IH (put acc (q, d, v)) (match nm with None => Some n | o => o end)) as (nm' & H1 & H2). exists nm'. split; [exact H1|].
      destruct nm as [g|]; [exact H2|]. right. exists n. split; [exact H2|]. cbn [hd]. exists q, it, d, rank, s. exact Hw. }
    destruct (Hgo ls rows Hr [] name) as (nm' & Hm & Hn). rewrite Hm. cbn [bindr fst snd]. destruct (put_from_nil rows) as [Ho Hh].
    assert (Hrn : rows <> []) by (intros ->; inversion Hr; subst; congruence).
    unfold Run_from_dict. rewrite build_from_dict_ok; [|exact Ho|exact (holds_some _ _ Hrn Hh)]. cbn [bindr].
    assert (Hnm : exists n, nm' = Some n /\ match name with Some given => n = given | None => names_run (hd "" ls) n end).
    { destruct name as [g|]; [subst; now exists g|]. destruct Hn as [Hn|Hn]; [congruence|exact Hn]. }
    destruct Hnm as (n & -> & Hnm). eexists. exists n. split; [reflexivity|]. cbn [r_map r_name]. split; [reflexivity|]. split; [exact Hnm|].
    split; [now apply canon_ok|now apply holds_canon].
  - intros [-> |(line & Hin & Hb)]; [reflexivity|]. rewrite (foldr_bad (run_parse_line fl) ls line); [reflexivity| |exact Hin|].
    + intros st l e. unfold run_parse_line. destruct (words l) as [|q [|it [|d [|rk [|s [|n [|? ?]]]]]]]; try (intros H; now injection H).
      destruct (fl_read fl s) eqn:Hs; cbn [bindr]; [discriminate|]. intros H. injection H as <-. now apply (He s).
    + intros st. unfold run_parse_line. destruct (words line) as [|q [|it [|d [|rk [|s [|n [|? ?]]]]]]] eqn:Hw; try reflexivity.
      destruct (fl_read fl s) as [v|e] eqn:Hs; cbn [bindr]; [|now rewrite (He s e Hs)]. exfalso. apply (Hb (q, d, v)). exists it, rk, s, n. split; [now apply words_fields|exact Hs].
Qed.

(** ** numbers in metric strings *)
Section M.
Context {N : Num}.
Lemma int_no c s v : int_text s v -> ~ (48 <= nat_of_ascii c <= 57) -> is_space c = false -> c <> "_"%char -> c <> "+"%char -> c <> "-"%char -> nochar c s = true.
Proof.
  intros (b & sg & body & a & n & -> & Hb & Ha & Hg & Hv) Hd Hs H1 H2 H3.
  assert (Happ : forall x y, nochar c x = true -> nochar c y = true -> nochar c (x ++ y) = true).
  { induction x as [|k x IH]; intros y Hx Hy; [exact Hy|]. cbn in *. apply andb_true_iff in Hx as [Hx Hx']. rewrite Hx. cbn. auto. }
  assert (Hbl : forall w, blank w -> nochar c w = true).
  { induction w as [|k w IH]; [reflexivity|]. intros [Hk Hw]. cbn. rewrite (IH Hw), andb_true_r. apply negb_true_iff, Ascii.eqb_neq. intros ->. congruence. }
  assert (Hdig : forall k d, is_digit k d -> nochar c (String k "") = true).
  { intros k d [Hk _]. cbn. rewrite andb_true_r. apply negb_true_iff, Ascii.eqb_neq. intros ->. contradiction. }
  assert (Hbody : nochar c body = true).
  { clear Hv. induction Hg as [k d Hk|s w k d _ IH Hk|s w k d _ IH Hk]; [eauto|apply Happ; eauto|]. apply Happ; [exact IH|]. apply Happ; [|eauto]. cbn. rewrite andb_true_r. apply negb_true_iff, Ascii.eqb_neq. exact H1. }
  apply Happ; [auto|]. apply Happ; [|apply Happ; auto]. destruct Hv as [[[-> | ->] _]|[-> _]]; [reflexivity| |]; cbn; rewrite andb_true_r; apply negb_true_iff, Ascii.eqb_neq; assumption.
Qed.
(** a piece without "@", "-l" and "rbp" *)
Definition simple (s : string) : Prop := nochar "@" s = true /\ substr_in "-l" s = false /\ substr_in "rbp" s = false.
Lemma nochar_l s : nochar "l" s = true -> substr_in "-l" s = false.
Proof.
  induction s as [|c s IH]; [reflexivity|]. cbn [nochar]. intros H. apply andb_true_iff in H as [_ H]. cbn [substr_in]. rewrite (IH H), orb_false_r. cbn [prefixb].
  destruct s as [|k s]; [now rewrite andb_false_r|]. cbn [nochar] in H. apply andb_true_iff in H as [H _]. apply negb_true_iff in H. cbn [prefixb]. rewrite H. cbn [andb]. apply andb_false_r.
Qed.
Lemma int_simple s v : int_text s v -> simple s.
Proof.
  intros H. split; [|split].
  - apply (int_no "@" s v H); try discriminate; [cbv; lia|reflexivity].
  - apply nochar_l, (int_no "l" s v H); try discriminate; [cbv; lia|reflexivity].
  - apply substr_in_none, (int_no "r" s v H); try discriminate; [cbv; lia|reflexivity].
Qed.
Lemma body_simple name ks : In name cutoff_metrics -> simple ks ->
  substr_in "-l" (name ++ "@" ++ ks) = false /\ substr_in "rbp" (name ++ "@" ++ ks) = false /\ split_on "@" (name ++ "@" ++ ks) = [name; ks].
Proof.
  intros Hn (K1 & K2 & K3). change ("@" ++ ks)%string with (String "@" ks). split; [|split].
  - rewrite substr_in_sep by (reflexivity || discriminate). rewrite K2, orb_false_r. apply (plain_body (N := N) name Hn).
  - rewrite substr_in_sep by (reflexivity || discriminate). rewrite K3, orb_false_r. clear - Hn. cbn in Hn. repeat (destruct Hn as [<-|Hn]; [reflexivity|]). easy.
  - unfold split_on. rewrite split_go_skip.
    + change (String "@" ks) with ("@" ++ ks)%string. rewrite split_go_hit. cbn [append]. f_equal.
      rewrite <- (sapp_nil_r ks) at 1. rewrite split_go_skip by exact K1. reflexivity.
    + clear - Hn. cbn in Hn. repeat (destruct Hn as [<-|Hn]; [reflexivity|]). easy.
Qed.
Lemma extract_cut name ks : In name cutoff_metrics -> simple ks ->
  extract_metric_and_params (N := N) (name ++ "@" ++ ks) = do k <- py_int ks; Ok (name, KInt k, 1%Z).
Proof.
  intros Hn Hk. destruct (body_simple name ks Hn Hk) as (H1 & H2 & H3). unfold extract_metric_and_params. rewrite H1. cbn [bindr fst snd]. rewrite H2, H3. cbn [nth_r nth_error bindr].
  destruct (py_int ks); reflexivity.
Qed.
Lemma split_simple ls : substr_in "-l" ls = false -> split_on "-l" ls = [ls].
Proof.
  unfold split_on. intros H. assert (Hg : forall acc, split_go "-l" 0 acc ls = [(acc ++ ls)%string]); [|exact (Hg "")].
  induction ls as [|c ls IH]; intros acc; [cbn; now rewrite sapp_nil_r|]. cbn [substr_in] in H. apply orb_false_iff in H as [H1 H2]. cbn [split_go]. rewrite H1, (IH H2). now rewrite sapp_assoc.
Qed.
Lemma extract_level name ks ls : In name cutoff_metrics -> simple ks -> substr_in "-l" ls = false ->
  extract_metric_and_params (N := N) ((name ++ "@" ++ ks) ++ "-l" ++ ls) = do k <- py_int ks; do l <- py_int ls; Ok (name, KInt k, l).
Proof.
  intros Hn Hk Hl. destruct (body_simple name ks Hn Hk) as (H1 & H2 & H3). unfold extract_metric_and_params.
  replace (substr_in "-l" ((name ++ "@" ++ ks) ++ "-l" ++ ls)) with true by (symmetry; apply substr_in_mid).
  assert (Hs : split_on "-l" ((name ++ "@" ++ ks) ++ "-l" ++ ls) = [(name ++ "@" ++ ks)%string; ls]).
  { pose proof (split_simple ls Hl) as Hls. unfold split_on in *. change ("-l" ++ ls)%string with (String "-" ("l" ++ ls)).
    rewrite split_go_skip2 by (reflexivity || exact H1).
    change (String "-" ("l" ++ ls)) with ("-l" ++ ls)%string. rewrite split_go_hit. cbn [append]. f_equal. exact Hls. }
  rewrite Hs. cbn [bindr fst snd]. rewrite H2, H3. cbn [nth_r nth_error bindr]. destruct (py_int ks); cbn [bindr fst snd]; [|reflexivity]. destruct (py_int ls); reflexivity.
Qed.
Lemma extract_bad (E : env N) q r s mean std save mk : extract_metric_and_params (N := N) s = Err ValueError -> inputs_accepted E q r mk ->
  ev_res (evaluate E q r [s] mean std save mk) = Err ValueError.
Proof.
  intros Hs (H1 & H2 & H3). unfold evaluate. set (r' := if mk then _ else r) in *. rewrite H1.
  destruct (convert_qrels E q) as [q' [tq|e]]; [|discriminate]. destruct (convert_run E r') as [r'' [tr|e]]; [|discriminate].
  unfold compute_scores. cbn [foldr_m]. rewrite Hs. reflexivity.
Qed.
Lemma extract_same (E : env N) q r s1 s2 m k l mean std mk : extract_metric_and_params (N := N) s1 = Ok (m, k, l) -> extract_metric_and_params (N := N) s2 = Ok (m, k, l) ->
  s1 <> m -> s2 <> m -> ev_res (evaluate E q r [s1] mean std false mk) = ev_res (evaluate E q r [s2] mean std false mk).
Proof.
  intros H1 H2 N1 N2. unfold evaluate. set (r' := if mk then _ else r). destruct (check_keys q r'); [|reflexivity].
  destruct (convert_qrels E q) as [q' [tq|e]]; [|reflexivity]. destruct (convert_run E r') as [r'' [tr|e]]; [|reflexivity].
  unfold compute_scores. cbn [foldr_m]. rewrite H1, H2. cbn [bindr]. destruct (metric_switch E m) as [f|]; cbn [bindr]; [|reflexivity].
  destruct (f tq tr k l) as [sc|]; cbn [bindr]; [|reflexivity]. cbn [snd dset].
  destruct r''; cbn [length Nat.eqb ev_res];
    (destruct mean; cbn [last_key fold_left fst map];
     [unfold dget_r; cbn [dget]; rewrite !String.eqb_refl; reflexivity|
      unfold dget_r; cbn [dget]; rewrite (proj2 (String.eqb_neq m s1)), (proj2 (String.eqb_neq m s2)) by congruence; reflexivity]).
Qed.
Lemma at_not_name name ks t : (name ++ "@" ++ ks)%string = t -> nochar "@" t = true -> False.
Proof.
  intros <- H. assert (Hs : substr_in "@" (name ++ "@" ++ ks) = true) by apply substr_in_mid. rewrite (substr_in_none "@" "" _ H) in Hs. discriminate.
Qed.
Lemma name_no_at name : In name cutoff_metrics -> nochar "@" name = true.
Proof. intros Hn. cbn in Hn. repeat (destruct Hn as [<-|Hn]; [reflexivity|]). easy. Qed.
End M.

(** "ndcg@ +1_0" is "ndcg@10": however int() lets the cut-off and the level be written, evaluate gives the result for the
    plain number. *)
Theorem C96_number_spelling : forall (N : Num) (E : env N) q r name ks k ls l mean std mk,
  In name cutoff_metrics -> int_text ks k -> int_text ls l ->
  ev_res (evaluate E q r [(name ++ "@" ++ ks)%string] mean std false mk) = ev_res (evaluate E q r [(name ++ "@" ++ str_int k)%string] mean std false mk) /\
  ev_res (evaluate E q r [((name ++ "@" ++ ks) ++ "-l" ++ ls)%string] mean std false mk) =
    ev_res (evaluate E q r [((name ++ "@" ++ str_int k) ++ "-l" ++ str_int l)%string] mean std false mk).
Proof.
  intros N E q r name ks k ls l mean std mk Hn Hk Hl.
  assert (Hstr : forall z, int_text (str_int z) z) by (intros z; apply int_iff, py_int_str).
  pose proof (int_simple ks k Hk) as Sk. pose proof (int_simple _ _ (Hstr k)) as Sk'. pose proof (int_simple ls l Hl) as (_ & Sl & _). pose proof (int_simple _ _ (Hstr l)) as (_ & Sl' & _).
  pose proof (proj2 (int_iff ks k) Hk) as Pk. pose proof (proj2 (int_iff ls l) Hl) as Pl. split.
  - apply (extract_same E q r _ _ name (KInt k) 1%Z).
    + rewrite extract_cut by assumption. now rewrite Pk.
    + rewrite extract_cut by assumption. now rewrite py_int_str.
    + intros H. exact (at_not_name name ks name H (name_no_at name Hn)).
    + intros H. exact (at_not_name name (str_int k) name H (name_no_at name Hn)).
  - apply (extract_same E q r _ _ name (KInt k) l).
    + rewrite extract_level by assumption. now rewrite Pk, Pl.
    + rewrite extract_level by assumption. now rewrite !py_int_str.
    + rewrite !sapp_assoc. intros H. exact (at_not_name name (ks ++ "-l" ++ ls) name H (name_no_at name Hn)).
    + rewrite !sapp_assoc. intros H. exact (at_not_name name (str_int k ++ "-l" ++ str_int l) name H (name_no_at name Hn)).
Qed.
(** Anything else after "@" or "-l" is refused with ValueError. *)
Theorem C96_number_refused : forall (N : Num) (E : env N) q r name ks ls mean std save mk, In name cutoff_metrics -> simple ks -> substr_in "-l" ls = false -> inputs_accepted E q r mk ->
  ((forall k, ~ int_text ks k) -> ev_res (evaluate E q r [(name ++ "@" ++ ks)%string] mean std save mk) = Err ValueError) /\
  ((forall k, ~ int_text ks k) \/ (forall l, ~ int_text ls l) -> ev_res (evaluate E q r [((name ++ "@" ++ ks) ++ "-l" ++ ls)%string] mean std save mk) = Err ValueError).
Proof.
  intros N E q r name ks ls mean std save mk Hn Hk Hl Ha. split.
  - intros H. apply extract_bad; [|exact Ha]. rewrite extract_cut by assumption. now rewrite not_int.
  - intros H. apply extract_bad; [|exact Ha]. rewrite extract_level by assumption. destruct H as [H|H]; [now rewrite (not_int ks H)|].
    destruct (py_int ks) as [k|e] eqn:Hp; cbn [bindr]; [now rewrite (not_int ls H)|]. unfold py_int in Hp. destruct (parse_signed (strip ks)); [discriminate|]. now injection Hp as <-.
Qed.
(** ... but what follows a second "@" is ignored: "precision@5@10x" is precision@5 *)
Theorem C96_second_cutoff_refuted : forall (N : Num) (E : env N) q r mean std mk,
  ev_res (evaluate E q r ["precision@5@10x"] mean std false mk) = ev_res (evaluate E q r ["precision@5"] mean std false mk).
Proof. intros N E q r mean std mk. apply (extract_same E q r _ _ "precision" (KInt 5) 1%Z); [reflexivity|reflexivity|discriminate|discriminate]. Qed.

(** ** the hypotheses can be met *)
Example ex_int : int_text " +1_0 " 10 /\ (forall v, ~ int_text "1__0" v) /\ (forall v, ~ int_text "3x" v) /\ (forall v, ~ int_text "" v) /\ simple " +1_0 ".
Proof.
  split; [apply int_iff; reflexivity|]. split; [intros v H; apply int_iff in H; discriminate H|]. split; [intros v H; apply int_iff in H; discriminate H|].
  split; [intros v H; apply int_iff in H; discriminate H|]. split; [reflexivity|split; reflexivity].
Qed.
(** a file with Windows line ends, tabs, a repeated judgment and no line end at its end *)
Definition ex_text : string := ("q1 0 d1 1" ++ CR ++ LF ++ "  q2" ++ String (ascii_of_nat 9) "x d7 -2 " ++ LF ++ "q1 0 d1 +03")%string.
Definition ex_lines : list string := ["q1 0 d1 1"; ("  q2" ++ String (ascii_of_nat 9) "x d7 -2 ")%string; "q1 0 d1 +03"].
Example ex_trec : lines_of ex_text ex_lines /\ Forall2 judgment_line ex_lines [("q1", "d1", 1%Z); ("q2", "d7", (-2)%Z); ("q1", "d1", 3%Z)] /\
  file_text [("qrels.txt", @FText NumSF Z ex_text)] "qrels.txt" None ex_text.
Proof.
  assert (Hnb : forall s, forallb (fun c => negb (Nat.eqb (nat_of_ascii c) 10 || Nat.eqb (nat_of_ascii c) 13)) (list_ascii_of_string s) = true -> no_break s).
  { induction s as [|c s IH]; cbn [list_ascii_of_string forallb]; [intros _; split; intros []|]. intros H. apply andb_true_iff in H as [H1 H2]. apply negb_true_iff, orb_false_iff in H1 as [H1 H1'].
    apply no_break_cons. unfold is_nl, is_cr. auto. }
  split; [|split].
  - unfold ex_text, ex_lines. apply line_crlf; [apply Hnb; reflexivity|].
    replace ("  q2" ++ String (ascii_of_nat 9) "x d7 -2 " ++ LF ++ "q1 0 d1 +03")%string with (("  q2" ++ String (ascii_of_nat 9) "x d7 -2 ") ++ LF ++ "q1 0 d1 +03")%string by reflexivity.
    apply line_lf; [apply Hnb; reflexivity|]. apply last_line; [discriminate|apply Hnb; reflexivity].
  - repeat constructor; unfold judgment_line; do 2 eexists; (split; [apply words_fields; reflexivity|apply int_iff; reflexivity]).
  - left. split; [|reflexivity]. exists "txt". split; [cbn; tauto|]. exists "", "qrels". split; [reflexivity|]. split; [now left|]. cbn. split; [intuition discriminate|]. split; [intuition discriminate|]. split; [intuition discriminate|].
    exists "q"%char. split; [now left|discriminate].
Qed.
Print Assumptions C96_lines.
Print Assumptions C96_qrels_file.
Print Assumptions C96_run_file.
Print Assumptions C96_number_spelling.
Print Assumptions C96_number_refused.
Print Assumptions C96_second_cutoff_refuted.
