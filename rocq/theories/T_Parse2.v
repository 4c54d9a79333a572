(** T_Parse2.v: theorem C14: a negative cut-off is refused by evaluate *)
From Verif Require Import Base Dict Num Env M_Common M_Qrels M_Run M_Metrics M_Strings M_Evaluate
  Spec_Strings Spec_IO P_Base P_Dict P_Strings P_IO EnvEx T_DS T_Parse.
Open Scope string_scope.
Open Scope list_scope.
Open Scope nat_scope.

(** the metrics that take a cut-off; "r-precision" and "bpref" ignore it *)
Definition true_cutoff_metrics : list string :=
  ["hits"; "hit_rate"; "precision"; "recall"; "f1"; "mrr"; "map"; "dcg"; "dcg_burges"; "ndcg"; "ndcg_burges"].

Lemma py_int_neg ks k : numeral ks k -> py_int ("-" ++ ks) = Ok (- k)%Z.
Proof.
  intros H. pose proof (parse_nat_numeral ks k H) as Hp. destruct H as (H1 & H2 & _). unfold py_int. rewrite strip_word.
  - cbn [append parse_signed]. change (Ascii.eqb "-" "-") with true. cbv iota. now rewrite Hp.
  - split; [discriminate|]. cbn [append no_space]. split; [reflexivity|]. now apply digits_no_space.
Qed.
Section P.
Context {N : Num}.
Lemma neg_body name ks k : In name cutoff_metrics -> numeral ks k -> body_parses (name ++ "@-" ++ ks) name (KInt (- k)).
Proof.
  intros Hn Hk. assert (Hd : all_digits ks) by apply Hk. change ("@-" ++ ks)%string with (String "@" ("-" ++ ks)).
  assert (Hl : substr_in "-l" ("-" ++ ks) = false).
  { change ("-" ++ ks)%string with ("" ++ String "-" ks)%string. destruct ks as [|c ks']; [reflexivity|]. cbn [append substr_in prefixb].
    change (Ascii.eqb "-" "-") with true. cbn [andb]. assert (Hc : Ascii.eqb "l" c = false) by (apply Ascii.eqb_neq; intros <-; destruct Hd as [Hd _]; cbn in Hd; lia).
    rewrite Hc. cbn [andb orb]. exact (substr_in_none "-" "l" (String c ks') (no_dash _ Hd)). }
  assert (H1 : substr_in "-l" (name ++ String "@" ("-" ++ ks)) = false).
  { rewrite substr_in_sep by (reflexivity || discriminate). rewrite Hl, orb_false_r. apply (plain_body name Hn). }
  split; [exact H1|]. unfold extract_metric_and_params. rewrite H1. cbn [bindr fst snd].
  assert (H2 : substr_in "rbp" (name ++ String "@" ("-" ++ ks)) = false).
  { rewrite substr_in_sep by (reflexivity || discriminate). rewrite (substr_in_none "r" "bp" ("-" ++ ks)) by (cbn [append nochar]; change (Ascii.eqb "r" "-") with false; cbn [negb andb]; now apply no_r).
    rewrite orb_false_r. clear - Hn. cbn in Hn. repeat (destruct Hn as [<-|Hn]; [reflexivity|]). easy. }
  rewrite H2.
  assert (H3 : split_on "@" (name ++ String "@" ("-" ++ ks)) = [name; ("-" ++ ks)%string]).
  { unfold split_on. rewrite split_go_skip.
    - change (String "@" ("-" ++ ks)) with ("@" ++ ("-" ++ ks))%string. rewrite split_go_hit. cbn [append]. f_equal.
      change (String "-" ks) with ("-" ++ ks)%string. rewrite <- (sapp_nil_r ("-" ++ ks)) at 1. rewrite split_go_skip; [reflexivity|]. cbn [append nochar]. change (Ascii.eqb "@" "-") with false. cbn [negb andb]. now apply no_at.
    - clear - Hn. cbn in Hn. repeat (destruct Hn as [<-|Hn]; [reflexivity|]). easy. }
  rewrite H3. cbn [nth_r nth_error bindr]. now rewrite (py_int_neg _ _ Hk).
Qed.
Lemma neg_refused (E : env N) name k f q r l : In name true_cutoff_metrics -> metric_switch E name = Ok f -> (0 < k)%Z -> f q r (KInt (- k)) l = Err AssertionError.
Proof.
  intros Hn Hf Hk. assert (Hz : (0 <=? - k)%Z = false) by (apply Z.leb_gt; lia).
  cbn in Hn. repeat (destruct Hn as [<-|Hn]; [cbv [metric_switch String.eqb Ascii.eqb Bool.eqb] in Hf; injection Hf as <-;
    cbn [int_k]; unfold hits, hit_rate, precision, recall, f1, reciprocal_rank, average_precision, dcg, dcg_burges, ndcg, ndcg_burges, lift4, with_k, assertr; rewrite Hz; reflexivity|]). destruct Hn.
Qed.
End P.

(** "precision@-3", with or without a relevance level, is parsed as a cut-off of -3, and evaluate raises
    AssertionError; nothing is computed. *)
Theorem C14_negative_cutoff : forall (N : Num) (E : env N) q r name ks k ls l mean std save mk,
  In name true_cutoff_metrics -> numeral ks k -> (0 < k)%Z -> numeral ls l -> inputs_accepted E q r mk ->
  ev_res (evaluate E q r [(name ++ "@-" ++ ks)%string] mean std save mk) = Err AssertionError /\
  ev_res (evaluate E q r [((name ++ "@-" ++ ks) ++ "-l" ++ ls)%string] mean std save mk) = Err AssertionError.
Proof.
  intros N E q r name ks k ls l mean std save mk Hn Hk Hpos Hl (H1 & H2 & H3).
  assert (Hc : In name cutoff_metrics) by (cbn in Hn |- *; tauto).
  pose proof (neg_body (N := N) name ks k Hc Hk) as Hb. pose proof (with_level _ _ _ ls l Hb Hl) as Hw. destruct Hb as [_ Hb].
  destruct (metric_switch_known N E name) as [f Hf]; [apply in_or_app; now left|].
  assert (Hgen : forall s l', extract_metric_and_params s = Ok (name, KInt (- k), l') -> ev_res (evaluate E q r [s] mean std save mk) = Err AssertionError).
  { intros s l' Hs. unfold evaluate. set (r' := if mk then _ else r) in *. rewrite H1.
    destruct (convert_qrels E q) as [q' [tq|e]]; [|discriminate]. destruct (convert_run E r') as [r'' [tr|e]]; [|discriminate].
    unfold compute_scores. cbn [foldr_m]. rewrite Hs. cbn [bindr]. rewrite Hf. cbn [bindr]. now rewrite (neg_refused E name k f _ _ _ Hn Hf Hpos). }
  split; [exact (Hgen _ _ Hb)|exact (Hgen _ _ Hw)].
Qed.
Print Assumptions C14_negative_cutoff.

Example C14_negative_example :
  ev_res (@evaluate NumSF env_ex (@QDict NumSF [("q1", [("a", sf_of_Z 1)])]) (@RDict NumSF [("q1", [("a", sf_of_Z 1)])]) ["precision@-3"] true false false false) = Err AssertionError.
Proof. vmr. Qed.
