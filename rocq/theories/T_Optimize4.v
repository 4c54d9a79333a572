(** T_Optimize4.v: the optimisation report (C59); examples and assumptions of C57-C59 *)
From Coq Require Import Reals Lra Lia Permutation SpecFloat DecimalString DecimalZ DecimalPos.
From Verif Require Import Base Dict Num NumLaws Env EnvEx M_Common M_Qrels M_Run M_Metrics M_Strings M_Text M_Evaluate M_Norm M_Fusion M_Train M_Optimize M_History
  Spec_DS Spec_Metrics Spec_Optimize P_Base P_Dict P_Common P_DS P_Strings P_Metrics P_Optimize T_Fusion6 T_Optimize T_Optimize2 T_Optimize3.
Open Scope string_scope.
Open Scope list_scope.
Open Scope nat_scope.

Section Argmax.
Context {N : Num} (HL : NumLaws N).
Lemma lt_of (a b : F) : is_nan a = false -> is_nan b = false -> fleb a b = false -> fleb b a = true.
Proof. intros Ha Hb H. destruct (law_le_total a b Ha Hb) as [H'|H']; [congruence|exact H']. Qed.
Lemma le_refl' (a : F) : is_nan a = false -> fleb a a = true.
Proof. intros Ha. destruct (law_le_total a a Ha Ha); assumption. Qed.
Lemma argmax_go_spec l : forall (pre : list F) best at_, (forall v, In v (pre ++ l) -> is_nan v = false) ->
  nth_error pre at_ = Some best -> (forall w, In w pre -> fleb w best = true) ->
  (forall j w, j < at_ -> nth_error pre j = Some w -> fleb best w = false) ->
  let i := argmax_go best at_ (length pre) l in
  exists v, nth_error (pre ++ l) i = Some v /\ (forall w, In w (pre ++ l) -> fleb w v = true) /\
    (forall j w, j < i -> nth_error (pre ++ l) j = Some w -> fleb v w = false).
Proof.
  induction l as [|x l IH]; intros pre best at_ Hnan Hb Hmax Hfirst i.
  - exists best. rewrite app_nil_r. subst i. cbn [argmax_go]. split; [exact Hb|]. split; assumption.
  - assert (Hlt : at_ < length pre) by (apply nth_error_Some; congruence).
    assert (Hbn : is_nan best = false) by (apply Hnan; apply in_or_app; left; eapply nth_error_In; exact Hb).
    assert (Hxn : is_nan x = false) by (apply Hnan; apply in_or_app; right; now left).
    assert (Happ : pre ++ x :: l = (pre ++ [x]) ++ l) by (rewrite <- app_assoc; reflexivity).
    subst i. cbn [argmax_go]. rewrite Hbn. rewrite Happ in *.
    assert (Hlen : S (length pre) = length (pre ++ [x])) by (rewrite app_length; cbn; lia). rewrite Hlen.
    destruct (fleb x best) eqn:Hxb.
    + apply IH; [exact Hnan| | |].
      * rewrite nth_error_app1 by exact Hlt. exact Hb.
      * intros w Hw. apply in_app_or in Hw as [Hw|[<-|[]]]; [now apply Hmax|exact Hxb].
      * intros j w Hj Hw. rewrite nth_error_app1 in Hw by lia. now apply (Hfirst j).
    + assert (Hbx : fleb best x = true) by (apply lt_of; assumption).
      apply IH; [exact Hnan| | |].
      * rewrite nth_error_app2 by lia. rewrite Nat.sub_diag. reflexivity.
      * intros w Hw. apply in_app_or in Hw as [Hw|[<-|[]]]; [|now apply le_refl'].
        apply (law_le_trans w best x); [now apply Hmax|exact Hbx].
      * intros j w Hj Hw. rewrite nth_error_app1 in Hw by exact Hj.
        destruct (fleb x w) eqn:Hxw; [|reflexivity]. exfalso.
        assert (fleb x best = true); [|congruence]. apply (law_le_trans x w best Hxw). apply Hmax. eapply nth_error_In; exact Hw.
Qed.
End Argmax.

Lemma nth_error_enum {A} (l : list A) : forall k j, nth_error (enum_from k l) j = option_map (fun a => (k + j, a)) (nth_error l j).
Proof.
  induction l as [|a l IH]; intros k [|j]; cbn; try reflexivity; [now rewrite Nat.add_0_r|].
  rewrite IH. destruct (nth_error l j); cbn; [|reflexivity]. repeat f_equal. lia.
Qed.

(** C59: the table has one row per trial, in the order of the report; exactly one row is
    highlighted, and it is the first one with the largest score. *)
Theorem C59_table : forall (N : Num), NumLaws N -> forall method configs (results : list (@F N)) metric title h1 h2 rows,
  length configs = length results -> (forall v, In v results -> is_nan v = false) ->
  to_table (OptReport method configs results metric) = Ok (title, h1, h2, rows) ->
  map fst rows = combine configs results /\
  exists i v, nth_error results i = Some v /\ (forall w, In w results -> fleb w v = true) /\
    (forall j w, j < i -> nth_error results j = Some w -> fleb v w = false) /\
    (forall j row, nth_error rows j = Some row -> (snd row = true <-> j = i)).
Proof.
  intros N HL method configs results metric title h1 h2 rows Hlen Hnan H. unfold to_table in H. cbn [or_method or_metric or_results or_configs] in H.
  destruct (dget_r or_method_labels method) as [t|]; cbn [bindr] in H; [|discriminate].
  destruct (dget_r or_hyperparams_labels method) as [t1|]; cbn [bindr] in H; [|discriminate].
  destruct (or_metric_label metric) as [t2|]; cbn [bindr] in H; [|discriminate].
  destruct results as [|v0 rest]; cbn [argmax bindr] in H; [discriminate|]. remember (v0 :: rest) as results eqn:Hres.
  injection H as <- <- <- <-.
  destruct (argmax_go_spec HL rest [v0] v0 0) as (v & Hv & Hmax & Hfirst).
  { intros w Hw. apply Hnan. subst results. exact Hw. }
  { reflexivity. }
  { intros w [<-|[]]. apply (le_refl' HL). apply Hnan. subst results. now left. }
  { intros j w Hj. lia. }
  change ([v0] ++ rest) with (v0 :: rest) in *. rewrite <- Hres in *. cbn [length] in *. split.
  - rewrite map_map. cbn [fst]. unfold enumerate.
    assert (Hg : forall (l : list (string * F)) k, map (fun x => (fst (snd x), snd (snd x))) (enum_from k l) = l).
    { induction l as [|[c s] l IH]; intros k; cbn; [reflexivity|]. f_equal. apply IH. }
    apply Hg.
  - exists (argmax_go v0 0 1 rest), v. split; [exact Hv|]. split; [exact Hmax|]. split; [exact Hfirst|].
    intros j row Hrow. rewrite nth_error_map in Hrow. unfold enumerate in Hrow. rewrite nth_error_enum in Hrow.
    destruct (nth_error (combine configs results) j) as [[c s]|]; cbn [option_map] in Hrow; [|discriminate].
    injection Hrow as <-. cbn [fst snd]. cbn [Nat.add]. apply Nat.eqb_eq.
Qed.

(** If only one trial has the largest score, the highlighted row is the trial the optimiser returns *)
Theorem C59_agrees : forall (N : Num), NumLaws N -> forall method configs (results : list (@F N)) metric title h1 h2 rows i,
  length configs = length results -> (forall v, In v results -> is_nan v = false) ->
  to_table (OptReport method configs results metric) = Ok (title, h1, h2, rows) ->
  last_best results i -> (forall v j w, nth_error results i = Some v -> nth_error results j = Some w -> j <> i -> fleb v w = false) ->
  forall j row, nth_error rows j = Some row -> (snd row = true <-> j = i).
Proof.
  intros N HL method configs results metric title h1 h2 rows i Hlen Hnan H (v & Hv & _ & Hmax & _) Hu j row Hrow.
  destruct (C59_table N HL _ _ _ _ _ _ _ _ Hlen Hnan H) as (_ & i0 & v0 & Hv0 & Hmax0 & _ & Hhl).
  rewrite (Hhl j row Hrow). assert (Hi : i0 = i); [|subst; reflexivity].
  destruct (Nat.eq_dec i0 i) as [|Hne]; [assumption|]. exfalso.
  specialize (Hu v i0 v0 Hv Hv0 Hne).
  assert (fleb v v0 = true) by (apply Hmax0; eapply nth_error_In; exact Hv). congruence.
Qed.

(** A report can be shown if the metric (with or without a cut-off) is one of ten; it is a KeyError
    for the others that optimize_fusion accepts: bpref, rbp.p, dcg, map-l2 ... *)
Definition shown_metrics : list string :=
  ["hits"; "hit_rate"; "precision"; "recall"; "f1"; "r-precision"; "mrr"; "map"; "ndcg"; "ndcg_burges"].
Theorem C59_shown : forall (N : Num) method configs (results : list (@F N)) name cutoff metric,
  In method hyper_methods -> results <> [] -> In name shown_metrics -> nochar "@" cutoff = true ->
  (metric = name \/ metric = name ++ "@" ++ cutoff)%string ->
  exists t, to_table (OptReport method configs results metric) = Ok t.
Proof.
  intros N method configs results name cutoff metric Hm Hr Hn Hc Hmetric. unfold to_table. cbn [or_method or_metric or_results or_configs].
  assert (H1 : exists t, dget_r or_method_labels method = Ok t) by (cbn in Hm; repeat (destruct Hm as [<-|Hm]; [eexists; reflexivity|]); destruct Hm).
  assert (H2 : exists t, dget_r or_hyperparams_labels method = Ok t) by (cbn in Hm; repeat (destruct Hm as [<-|Hm]; [eexists; reflexivity|]); destruct Hm).
  assert (H3 : exists t, or_metric_label metric = Ok t).
  { assert (Hd : exists t, dget_r or_metric_labels name = Ok t /\ nochar "@" name = true)
      by (cbn in Hn; repeat (destruct Hn as [<-|Hn]; [eexists; split; reflexivity|]); destruct Hn).
    destruct Hd as (t & Ht & Hno). unfold or_metric_label. destruct Hmetric as [ -> | -> ].
    - rewrite (substr_in_none "@" "" name Hno). eauto.
    - rewrite (substr_in_skip "@" "" name _ Hno). rewrite substr_in_self. unfold split_on.
      rewrite (split_go_skip "@" "" name Hno "" ("@" ++ cutoff)). rewrite (split_go_hit "@" "" _ cutoff).
      assert (Hl : split_go "@" 0 "" cutoff = [cutoff]).
      { pose proof (split_go_skip "@" "" cutoff Hc "" "") as Hs. rewrite sapp_nil_r in Hs. exact Hs. }
      rewrite Hl. cbn [append split_go nth_r nth_error bindr]. rewrite Ht. cbn [bindr]. eauto. }
  destruct H1 as [t1 ->], H2 as [t2 ->], H3 as [t3 ->]. cbn [bindr]. destruct results; [congruence|]. cbn [argmax bindr]. eauto.
Qed.
Theorem C59_labels_refuted : forall (N : Num) method configs (results : list (@F N)) metric,
  In metric ["bpref"; "rbp.95"; "map-l2"; "dcg"; "dcg_burges@5"] -> exists e, to_table (OptReport method configs results metric) = Err e.
Proof.
  intros N method configs results metric Hm. unfold to_table. cbn [or_method or_metric or_results or_configs].
  destruct (dget_r or_method_labels method); cbn [bindr]; [|eauto]. destruct (dget_r or_hyperparams_labels method); cbn [bindr]; [|eauto].
  assert (H : or_metric_label metric = Err KeyError) by (cbn in Hm; repeat (destruct Hm as [<-|Hm]; [reflexivity|]); destruct Hm).
  rewrite H. cbn [bindr]. eauto.
Qed.

(** [str] of an int is injective, so the rows of integer grids are not merged *)
Theorem str_int_inj : forall a b, str_int a = str_int b -> a = b.
Proof.
  intros a b H. unfold str_int in H.
  assert (Hn : forall p, Decimal.rev (Pos.to_little_uint p) <> Decimal.Nil) by apply DecimalPos.Unsigned.to_uint_nonnil.
  assert (Hr : forall z, DecimalString.NilZero.int_of_string (DecimalString.NilZero.string_of_int (Z.to_int z)) = Some (Z.to_int z)).
  { intros z. apply DecimalString.NilZero.isi; destruct z; cbn; try discriminate; intros Hc; injection Hc; apply Hn. }
  apply (f_equal DecimalString.NilZero.int_of_string) in H. rewrite !Hr in H. injection H. apply DecimalZ.to_int_inj.
Qed.

(** ** a concrete run on binary64 *)
Definition o_y : Qrels := @qrels_hist NumSF env_ex Qrels_empty [QAddScore "q1" "a" 1; QAddScore "q1" "b" 2; QAddScore "q2" "c" 1].
Definition o_x (l : list Z) : Run NumSF := @run_hist NumSF env_ex Run_empty
  (map (fun qds => @RAddScore NumSF (fst qds) (fst (snd qds)) (@fofZ NumSF (snd (snd qds))))
       [("q1", ("a", nth 0 l 0%Z)); ("q1", ("b", nth 1 l 0%Z)); ("q1", ("x", nth 2 l 0%Z)); ("q2", ("x", nth 3 l 0%Z)); ("q2", ("c", nth 4 l 0%Z))]).
Definition o_x1 := o_x [3; 2; 1; 5; 4]%Z.
Definition o_x2 := o_x [1; 2; 3; 2; 9]%Z.
Definition o_run metric kws := @optimize_fusion NumSF env_ex ins_sort sh_sf o_y [o_x1; o_x2] None "rrf" metric true kws.

(** C59: on ties the highlighted row is not the configuration returned.  All trials of this run have
    the same score; optimize_fusion returns k = 30, the table of its report highlights k = 10. *)
Theorem C59_ties_refuted : exists ps rep title h1 h2 rows,
  snd (o_run "hits" [("max_k", @PZ NumSF 30)]) = Ok (ps, Some rep) /\ ps = [("k", Some (@PZ NumSF 30))] /\
  to_table rep = Ok (title, h1, h2, rows) /\ map (fun row => (fst (fst row), snd row)) rows = [("10", true); ("20", false); ("30", false)].
Proof.
  exists [("k", Some (@PZ NumSF 30))], (@OptReport NumSF "rrf" ["10"; "20"; "30"] [@fdec NumSF 15 1; @fdec NumSF 15 1; @fdec NumSF 15 1] "hits"),
    "RRF", "k", "Hits", [("10", @fdec NumSF 15 1, true); ("20", @fdec NumSF 15 1, false); ("30", @fdec NumSF 15 1, false)].
  split; [vmr|]. split; [reflexivity|]. split; [vmr|]. reflexivity.
Qed.

(** C57: weights (0, 1), (0.5, 0.5), (1, 0); the second is the best *)
Definition sh_half : @shower NumSF := @Shower NumSF (fun _ => "0.5")
  (fun w => if @feqb NumSF (nth 0 w (@fofZ NumSF 0)) (@fofZ NumSF 0) then "(0.0, 1.0)" else if @feqb NumSF (nth 0 w (@fofZ NumSF 0)) (@fofZ NumSF 1) then "(1.0, 0.0)" else "(0.5, 0.5)").
Example ex_C57 : exists s1 s2 s3,
  snd (@optimize_fusion NumSF env_ex ins_sort sh_half o_y [o_x2; o_x1] None "wsum" "mrr" true [("step", @PF NumSF (@fdec NumSF 5 1))])
  = Ok ([("weights", Some (@PL NumSF [@fdec NumSF 5 1; @fdec NumSF 5 1]))],
        Some (OptReport "wsum" ["(0.0, 1.0)"; "(0.5, 0.5)"; "(1.0, 0.0)"] [s1; s2; s3] "mrr")) /\
  @fltb NumSF s1 s2 = true /\ @fltb NumSF s3 s2 = true.
Proof. exists (@fdec NumSF 75 2), (@fdec NumSF 1 0), (@fdec NumSF 75 2). split; [vmr|]. split; vmr. Qed.
Example ex_C57_hyps : dict_ok (q_map o_y) /\ NumLaws NumSF /\ In "wsum" plain_methods.
Proof.
  split; [|split]; [|apply NumSF_ok|cbn; tauto]. unfold dict_ok. vm_compute. repeat constructor; cbn; intuition discriminate.
Qed.
Example ex_C57_which : 1 < length [o_x2; o_x1] /\ same_keys_check [o_x2; o_x1] = true /\
  (forall x, In x [o_x2; o_x1] -> keys_eqb (r_map x) (q_map o_y) = true) /\ normalize_runs env_ex [o_x2; o_x1] None = Ok [o_x2; o_x1] /\
  options_of "isr" = None /\
  @optimize_fusion NumSF env_ex ins_sort sh_half o_y [o_x2; o_x1] None "rrf" "mrr" true [("min_w", @PZ NumSF 5)] = (o_y, [o_x2; o_x1], Err TypeError).
Proof.
  assert (H1 : 1 < length [o_x2; o_x1]) by (cbn; auto). assert (H2 : same_keys_check [o_x2; o_x1] = true) by vmr.
  assert (H3 : forall x, In x [o_x2; o_x1] -> keys_eqb (r_map x) (q_map o_y) = true) by (intros x [<-|[<-|[]]]; vmr).
  split; [exact H1|]. split; [exact H2|]. split; [exact H3|]. split; [reflexivity|]. split; [reflexivity|].
  apply (C57_which_error NumSF env_ex ins_sort sh_half o_y [o_x2; o_x1] None "rrf" "mrr" true [("min_w", @PZ NumSF 5)] [o_x2; o_x1] H1 H2 H3 eq_refl).
  - intros _. cbn. tauto.
  - exists "min_w", (@PZ NumSF 5). split; [reflexivity|]. cbn. intuition discriminate.
Qed.
(** C58: step 0.5 over the reals has two pairs besides (0.5, 0.5) *)
Example ex_C58 : let sh := @Shower NumR (fun _ => "0.05") (fun _ => "") in
  digits_after_point (@s_float NumR sh (1 / 20)%R) 2 /\ exists m, (1 / 20 * 10 ^ 2 = IZR m)%R.
Proof.
  split; [|exists 5%Z; cbn; lra]. exists "0", "05". split; [reflexivity|]. split; [reflexivity|].
  intros (u & b & H). destruct u as [|x [|y [|z u]]]; cbn in H; inversion H.
Qed.
Example ex_C58_no_point : ~ in_text "." "1e-05".
Proof. intros (a & b & H). destruct a as [|x [|y [|z [|t [|u [|v w]]]]]]; cbn in H; inversion H. Qed.
(** C59: a table with a tie *)
Example ex_C59 : to_table (@OptReport NumSF "rrf" ["10"; "20"; "30"] [@fofZ NumSF 1; @fofZ NumSF 3; @fofZ NumSF 3] "ndcg@10")
  = Ok ("RRF", "k", "NDCG@10", [("10", @fofZ NumSF 1, false); ("20", @fofZ NumSF 3, true); ("30", @fofZ NumSF 3, false)]).
Proof. vmr. Qed.

Print Assumptions C57_best_trial.
Print Assumptions C57_float_grid.
Print Assumptions C57_int_grid.
Print Assumptions C58_exact.
Print Assumptions C58_binary64_refuted.
Print Assumptions C58_no_point_refuted.
Print Assumptions C59_table.
Print Assumptions C59_agrees.
Print Assumptions C59_shown.
Print Assumptions C59_labels_refuted.
Print Assumptions C59_ties_refuted.
Print Assumptions str_int_inj.
