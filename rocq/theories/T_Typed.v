(** T_Typed.v: evaluate on lists prepared by the caller (C90) *)
From Coq Require Import Reals Lra.
From Verif Require Import Base Dict Num NumLaws Env EnvEx M_Common M_Qrels M_Run M_History M_Metrics M_Evaluate
  Spec_DS Spec_Hist Spec_Strings Spec_Metrics Spec_MetricsAPI Spec_Eval
  P_Base P_Dict P_Common P_History P_DS P_Metrics P_Metrics4 P_Metrics6 P_Metrics7 T_DS T_Metrics T_Parse P_Eval P_Eval2 P_Eval3 P_Eval4 P_Eval5 Ex_Metrics T_MetaEx.
Open Scope string_scope.
Open Scope list_scope.
Open Scope nat_scope.

(** The lists are used as they are: query by query, by position, the documents in the listed
    order.  Nothing is saved and the arguments do not change. *)
Theorem C90_lists : forall (E : env NumR), env_ok E ->
  forall (js : list (dict Z)) (rl : list (dict R)) metrics mean std save mk,
  aligned E js rl -> Forall judgments_desc js ->
  (forall s, In s metrics -> exists name k lvl, denotes s name k lvl /\ Forall (fun j => metric_defined name j lvl) js) ->
  (length metrics = 1 -> mean = true) ->
  let out := @evaluate NumR E (@QTyped NumR (qrels_arg E js)) (@RTyped NumR (run_arg E rl)) metrics mean std save mk in
  ev_q out = @QTyped NumR (qrels_arg E js) /\ ev_r out = @RTyped NumR (run_arg E rl) /\
  exists scores,
    (forall s name k lvl, In s metrics -> denotes s name k lvl ->
       Forall2 (fun jr v => metric_value name (fst jr) lvl (dkeys (snd jr)) k v) (combine js rl) (scores s)) /\
    returns metrics mean std scores (ev_res out).
Proof.
  intros E HE js rl metrics mean std save mk Hal Hd Hmet Hms. cbn zeta.
  set (P := fun (s : string) (vs : list R) => forall name k lvl, denotes s name k lvl ->
       Forall2 (fun jr v => metric_value name (fst jr) lvl (dkeys (snd jr)) k v) (combine js rl) vs).
  destruct (compute_scores_spec E (qrels_arg E js) (run_arg E rl) metrics P) as (m & d & D1 & D2 & D3 & D4 & D5).
  { intros s Hs. destruct (Hmet s Hs) as (name & k & lvl & (He & Hn & Hk & Hl) & Hdef).
    destruct (metric_array E name k lvl js rl HE Hn Hk Hl Hal Hd Hdef) as (f & vs & F1 & F2 & F3).
    exists name, k, lvl, f, vs. split; [exact He|]. split; [exact F1|]. split; [exact F2|].
    intros name' k' lvl' (He' & _). assert (Hee : Ok (name, k, lvl) = Ok (name', k', lvl')) by (rewrite <- He; exact He').
    injection Hee as <- <- <-. exact F3. }
  set (scores := fun s => match @dget (list R) d s with Some vs => vs | None => [] end).
  assert (Hsc : forall s, In s metrics -> @dget (list R) d s = Some (scores s)).
  { intros s Hs. unfold scores. apply D3 in Hs.
    assert (Hgen : forall o : option (list R), o <> None -> o = Some (match o with Some vs => vs | None => [] end)) by (intros [o|]; congruence).
    apply Hgen. intros Hn. apply dget_None in Hn. contradiction. }
  assert (Hnone : forall s, ~ In s metrics -> @dget (list R) d s = None) by (intros s Hs; apply dget_None; now rewrite D3).
  assert (Hout : @evaluate NumR E (@QTyped NumR (qrels_arg E js)) (@RTyped NumR (run_arg E rl)) metrics mean std save mk =
    EvalOut (@QTyped NumR (qrels_arg E js)) (@RTyped NumR (run_arg E rl))
      (let m := if mean then last_key d m else m in
       let o := map (fun kv => (fst kv, reported mean std (snd kv))) d in
       if length metrics =? 1 then do v <- dget_r o m; Ok (OutOne v) else Ok (OutDict o))).
  { unfold evaluate. assert (Hc : (if mk then @RTyped NumR (run_arg E rl) else @RTyped NumR (run_arg E rl)) = @RTyped NumR (run_arg E rl)) by now destruct mk.
    cbn [check_keys]. destruct mk; cbn [check_keys convert_qrels convert_run]; rewrite D1;
    rewrite (map_ext _ _ (fun kv => f_equal (pair (fst kv)) (summarise_R mean std (snd kv)))); destruct mean; reflexivity. }
  rewrite Hout. cbn [ev_q ev_r ev_res]. split; [reflexivity|]. split; [reflexivity|].
  exists scores. split.
  - intros s name k lvl Hs Hden. exact (D4 s (scores s) (Hsc s Hs) name k lvl Hden).
  - cbn zeta. unfold returns. destruct metrics as [|s [|s2 ms]].
    + exists (map (fun kv => (fst kv, reported mean std (snd kv))) d). split; [reflexivity|].
      intros s. split; [intros []|]. intros Hs. rewrite dget_map_vals.
      exact (f_equal (option_map (reported mean std)) (Hnone s Hs)).
    + rewrite (Hms eq_refl) in *. destruct (D5 s eq_refl) as (k & lvl & vs & He & Hdd).
      assert (Hv : scores s = vs) by (unfold scores; rewrite Hdd; cbn; now rewrite String.eqb_refl).
      rewrite Hdd. cbn [length Nat.eqb map fst snd]. unfold last_key. cbn [fold_left fst].
      unfold dget_r. cbn [dget]. rewrite String.eqb_refl. cbn [bindr]. now rewrite Hv.
    + exists (map (fun kv => (fst kv, reported mean std (snd kv))) d). split; [reflexivity|].
      intros s'. rewrite dget_map_vals. split; intros Hs.
      * exact (f_equal (option_map (reported mean std)) (Hsc s' Hs)).
      * exact (f_equal (option_map (reported mean std)) (Hnone s' Hs)).
Qed.

(** Passing the lists an object hands out gives the same result as passing the object. *)
Theorem C90_objects_as_lists : forall (N : Num) (E : env N) (y : Qrels) (x : Run N) metrics mean std save,
  (forall q, In q (dkeys (q_map y)) <-> In q (dkeys (r_map x))) ->
  let q := @QObj N y in let tq := @QTyped N (snd (Qrels_to_typed_list E y)) in
  let r := RObj x in let tr := RTyped (snd (Run_to_typed_list E x)) in
  let res q r save := ev_res (evaluate E q r metrics mean std save false) in
  res tq tr save = res q r false /\ res q tr save = res q r false /\ res tq r false = res q r false.
Proof.
  intros N E y x metrics mean std save Hk. cbn zeta.
  assert (Hc : check_keys (QObj y) (RObj x) = Ok tt) by (cbn [check_keys]; unfold assertr; now rewrite (proj2 (keys_eqb_spec (q_map y) (r_map x)) Hk)).
  unfold evaluate. rewrite Hc. cbn [check_keys]. unfold convert_qrels, convert_run.
  destruct (Qrels_to_typed_list E y) as [y' tq], (Run_to_typed_list E x) as [x' tr]. cbn [snd].
  destruct (compute_scores E tq tr metrics) as [[m d]|e]; cbn [ev_res]; (split; [reflexivity|split; reflexivity]).
Qed.
Print Assumptions C90_lists.
Print Assumptions C90_objects_as_lists.

(** ** a concrete case *)
Definition ty_js : list (dict Z) := [[("b", 2%Z); ("a", 1%Z)]; [("c", 1%Z)]].
Definition ty_rl : list (dict R) := [[("a", 3%R); ("b", 1%R)]; [("d", 2%R); ("c", 1%R)]].
Example ex_C90 : aligned env_ex ty_js ty_rl /\ Forall judgments_desc ty_js /\
  forall s, In s ex_ms -> exists name k lvl, denotes s name k lvl /\ Forall (fun j => metric_defined name j lvl) ty_js.
Proof.
  split; [|split].
  - constructor; [|constructor; [|constructor]]; (split; [repeat constructor; cbn; intuition discriminate|split; [repeat constructor; cbn; intuition discriminate|apply ids_distinctb_ok; vmr]]).
  - repeat constructor; cbn; lia.
  - intros s Hs. destruct (ms_ok [("q", [])] s Hs) as (name & k & lvl & Hd & Hq). exists name, k, lvl. split; [exact Hd|].
    specialize (Hq "q" (or_introl eq_refl)). assert (Hb : name <> "bpref"). { intros ->. specialize (Hq eq_refl). cbn in Hq. lia. }
    apply Forall_forall. intros j _ Hn. contradiction.
Qed.

(** ** what the caller is responsible for, in binary64 *)
Definition sfj (j : dict Z) : @rows NumSF := to_rows env_ex (@q_tof NumSF) j.
Definition sfr (r : dict (@F NumSF)) : @rows NumSF := to_rows env_ex (@r_tof NumSF) r.
Definition listed (js : list (@rows NumSF)) (rl : list (@rows NumSF)) (s : string) : result (@outcome NumSF) :=
  ev_res (@evaluate NumSF env_ex (@QTyped NumSF js) (@RTyped NumSF rl) [s] true false true false).
(** the listed order is the ranking, whatever the scores: "b" scores higher than "a" *)
Theorem C90_unsorted_list_refuted : 
  score_of (sf_qrels [QAddScore "q" "b" 1]) (sf_run [@RAddScore NumSF "q" "a" (sf_of_Z 1); @RAddScore NumSF "q" "b" (sf_of_Z 3)]) "mrr" = Ok (@OutOne NumSF (@OMean NumSF (sf_of_Z 1))) /\
  listed [sfj [("b", 1%Z)]] [sfr [("a", sf_of_Z 1); ("b", sf_of_Z 3)]] "mrr" = Ok (@OutOne NumSF (@OMean NumSF (@fdec NumSF 5 1))).
Proof. split; vmr. Qed.
(** results listed beyond the last judged query are ignored without an error *)
Theorem C90_longer_run_refuted : 
  listed [sfj [("b", 1%Z)]] [sfr [("b", sf_of_Z 1)]; sfr [("a", sf_of_Z 1)]] "mrr" = Ok (@OutOne NumSF (@OMean NumSF (sf_of_Z 1))).
Proof. vmr. Qed.
Print Assumptions C90_unsorted_list_refuted.
Print Assumptions C90_longer_run_refuted.
