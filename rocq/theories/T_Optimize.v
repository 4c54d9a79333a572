(** T_Optimize.v: theorems about optimize_fusion (C57), for every number type satisfying the order
    laws: the real numbers and binary64 *)
From Coq Require Import Lia Permutation.
From Verif Require Import Base Dict Num NumLaws Env M_Common M_Qrels M_Run M_Metrics M_Text M_Evaluate M_Norm M_Fusion M_Train M_Optimize
  Spec_DS Spec_Optimize P_Base P_Dict P_Common P_DS P_Optimize.
Open Scope string_scope.
Open Scope list_scope.
Open Scope nat_scope.

Lemma chosen_map {N : Num} {A B} (f : A -> B) trials scores best :
  chosen trials scores best -> chosen (map f trials) scores (option_map f best).
Proof.
  destruct best as [b|]; cbn; [|auto]. intros (i & H1 & H2). exists i. split; [exact H1|]. now rewrite nth_error_map, H2.
Qed.

Section Plain.
Context {N : Num} {HL : NumLaws N} (E : env N).
Lemma plain_search {T} (fusion : list (Run N) -> T -> result (Run N)) metric show y zs trials s' best rep :
  dict_ok (q_map y) ->
  grid_search (plain_trial E fusion metric) show (y, zs) trials = (s', Ok (best, rep)) ->
  same_qrels E y (fst s') /\ snd s' = zs /\ exists scores,
    Forall2 (fun t s => exists z, fusion zs t = Ok z /\ evaluates_to E y z metric s) trials scores /\
    chosen trials scores best /\
    (NoDup (map show trials) -> dkeys rep = map show trials /\ dvals rep = scores).
Proof.
  intros Hy H. unfold grid_search in H.
  set (sc := fun t => match fusion zs t with Err e => Err e | Ok z => do v <- snd (trial_eval E y z metric); Ok (t, v) end).
  apply (search_loop_ok _ _ (fun s => same_qrels E y (fst s) /\ snd s = zs) sc) in H.
  - destruct H as ((H1 & H2) & bvs & H3 & H4 & H5). split; [exact H1|]. split; [exact H2|]. exists (map snd bvs).
    assert (Hfst : map fst bvs = trials).
    { clear - H3. induction H3 as [|t [b v] trials bvs Ht H3 IH]; cbn; [reflexivity|]. f_equal; [|exact IH].
      unfold sc in Ht. destruct (fusion zs t) as [z|]; [|discriminate]. destruct (snd (trial_eval E y z metric)); cbn in Ht; [|discriminate]. congruence. }
    split; [|split].
    + clear - H3. induction H3 as [|t [b v] trials bvs Ht H3 IH]; cbn; constructor; auto.
      unfold sc in Ht. destruct (fusion zs t) as [z|]; [|discriminate]. exists z. split; [reflexivity|]. apply trial_eval_to.
      destruct (snd (trial_eval E y z metric)); cbn in Ht; [|discriminate]. congruence.
    + rewrite H4, <- Hfst. apply run_best_chosen; exact HL.
    + intros Hn. rewrite fill_dict in H5; [|exact Hn|].
      * cbn [app] in H5. subst rep. assert (Hl : length (map show trials) = length (map snd bvs)) by (rewrite <- Hfst, !map_length; reflexivity).
        unfold dkeys, dvals. split.
        -- clear - Hl. revert Hl. generalize (map show trials), (map snd bvs). induction l; intros [|v l']; cbn; intros; try discriminate; [reflexivity|f_equal; auto].
        -- clear - Hl. revert Hl. generalize (map show trials), (map snd bvs). induction l; intros [|v l']; cbn; intros; try discriminate; [reflexivity|f_equal; auto].
      * rewrite <- Hfst, !map_length. reflexivity.
  - intros [y1 zs1] t [Hs1 Hs2]. cbn [fst snd] in *. subst zs1. unfold plain_trial, sc. cbn [fst snd].
    destruct (fusion zs t) as [z|e]; [|split; [intros _; split; auto|reflexivity]].
    destruct (trial_eval_same E y y1 z metric Hy Hs1) as [T1 T2].
    destruct (trial_eval E y1 z metric) as [y2 r]. cbn [fst snd] in *. subst r. split; [intros _; split; auto|reflexivity].
  - split; [now left|reflexivity].
Qed.

Lemma finish_search {T} (fusion : list (Run N) -> T -> result (Run N)) metric show y zs trials name inj y' zs' ps rep :
  dict_ok (q_map y) ->
  finish name inj (grid_search (plain_trial E fusion metric) show (y, zs) trials) = (y', zs', Ok (ps, rep)) ->
  same_qrels E y y' /\ zs' = zs /\ exists scores best,
    Forall2 (fun t s => exists z, fusion zs t = Ok z /\ evaluates_to E y z metric s) trials scores /\
    ps = [(name, option_map inj best)] /\ chosen trials scores best /\
    (NoDup (map show trials) -> dkeys rep = map show trials /\ dvals rep = scores).
Proof.
  intros Hy H. unfold finish in H. destruct (grid_search _ show (y, zs) trials) as [s' [[best rep']|e]] eqn:Hg; cbn [snd fst bindr] in H; [|discriminate].
  injection H as Hs <- <-. destruct (plain_search fusion metric show y zs trials s' best rep' Hy Hg) as (H1 & H2 & scores & H3 & H4 & H5).
  rewrite Hs in H1, H2. cbn in H1, H2. split; [exact H1|]. split; [exact H2|]. exists scores, best. auto.
Qed.
End Plain.

Lemma F2_map_l {A B C} (f : A -> B) (P : B -> C -> Prop) l1 l2 : Forall2 (fun a c => P (f a) c) l1 l2 -> Forall2 P (map f l1) l2.
Proof. induction 1; cbn; constructor; auto. Qed.
Lemma F2_imp {A B} (P Q : A -> B -> Prop) l1 l2 : (forall a b, P a b -> Q a b) -> Forall2 P l1 l2 -> Forall2 Q l1 l2.
Proof. intros H. induction 1; constructor; auto. Qed.

(** ** C57: the returned parameters are those of the last best trial of the grid.  The score of a
    trial is what evaluate reports for the run that fuse builds with the trial's parameters.
    The runs are unchanged, the qrels at most sorted. *)
Theorem C57_best_trial : forall (N : Num), NumLaws N ->
  forall (E : env N) pysort sh y xs norm method metric rep kws y' xs' ps r,
  dict_ok (q_map y) -> In method plain_methods ->
  optimize_fusion E pysort sh y xs norm method metric rep kws = (y', xs', Ok (ps, r)) ->
  xs' = xs /\ (y' = y \/ y' = fst (Qrels_to_typed_list E y)) /\
  exists key trials scores, trial_grid sh method (length xs) kws = Ok (key, trials) /\
    Forall2 (fun t s => exists z, fuse E pysort xs norm method [(key, fst t)] = Ok z /\ evaluates_to E y z metric s) trials scores /\
    (exists best, ps = [(key, best)] /\ chosen (map fst trials) scores best) /\
    (rep = false -> r = None) /\
    (rep = true -> NoDup (map snd trials) -> r = Some (OptReport method (map snd trials) scores metric)).
Proof.
  intros N HL E pysort sh y xs norm method metric rep kws y' xs' ps r Hy Hm H. unfold optimize_fusion in H.
  destruct (assertr (1 <? length xs)) as [[]|] eqn:A1; cbn [bindr] in H; [|discriminate].
  destruct (assertr (same_keys_check xs)) as [[]|] eqn:A2; cbn [bindr] in H; [|discriminate].
  destruct (assertr (forallb _ xs)) as [[]|] eqn:A3; cbn [bindr] in H; [|discriminate].
  destruct (normalize_runs E xs norm) as [zs|] eqn:A4; cbn [bindr] in H; [|discriminate].
  assert (Hlen := normalize_length E xs norm zs A4).
  assert (Hfuse : forall ps, fuse E pysort xs norm method ps = do f <- fusion_switch E pysort method; f zs ps).
  { intros ps0. unfold fuse. rewrite A1. cbn [bindr]. rewrite A2. cbn [bindr]. rewrite A4. reflexivity. }
  assert (Hgo : forall {T} (fusion : list (Run N) -> T -> result (Run N)) show trials key (inj : T -> @pval N) y1 zs1 p1 rep1,
     (forall t, (do f <- fusion_switch E pysort method; f zs [(key, inj t)]) = fusion zs t) ->
     finish key inj (grid_search (plain_trial E fusion metric) show (y, zs) trials) = (y1, zs1, Ok (p1, rep1)) ->
     zs1 = zs /\ same_qrels E y y1 /\ exists scores, 
      Forall2 (fun t s => exists z, fuse E pysort xs norm method [(key, fst t)] = Ok z /\ evaluates_to E y z metric s) (map (fun t => (inj t, show t)) trials) scores /\
      (exists best, p1 = [(key, best)] /\ chosen (map fst (map (fun t => (inj t, show t)) trials)) scores best) /\
      (NoDup (map snd (map (fun t => (inj t, show t)) trials)) -> dkeys rep1 = map snd (map (fun t => (inj t, show t)) trials) /\ dvals rep1 = scores)).
  { intros T fusion show trials key inj y1 zs1 p1 rep1 Hf Hs.
    destruct (finish_search E fusion metric show y zs trials key inj y1 zs1 p1 rep1 Hy Hs) as (F1 & F2 & scores & best & F3 & F4 & F5 & F6).
    split; [exact F2|]. split; [exact F1|]. exists scores. split; [|split].
    - apply F2_map_l. eapply F2_imp; [|exact F3]. intros t s (z & Z1 & Z2). exists z. cbn [fst]. rewrite Hfuse, Hf. auto.
    - exists (option_map inj best). split; [exact F4|]. rewrite map_map. cbn [fst]. now apply chosen_map.
    - rewrite map_map. cbn [snd]. exact F6. }
  (* from the optimiser's outcome to the result *)
  assert (Hend : forall out key trials, trial_grid sh method (length xs) kws = Ok (key, trials) ->
     (let '(y', zs', r) := out in (y', match norm with None => zs' | Some _ => xs end,
       do pr <- r; Ok (fst pr, if rep then Some (OptReport method (dkeys (snd pr)) (dvals (snd pr)) metric) else None))) = (y', xs', Ok (ps, r)) ->
     (forall y1 zs1 p1 rep1, out = (y1, zs1, Ok (p1, rep1)) -> zs1 = zs /\ same_qrels E y y1 /\ exists scores,
        Forall2 (fun t s => exists z, fuse E pysort xs norm method [(key, fst t)] = Ok z /\ evaluates_to E y z metric s) trials scores /\
        (exists best, p1 = [(key, best)] /\ chosen (map fst trials) scores best) /\
        (NoDup (map snd trials) -> dkeys rep1 = map snd trials /\ dvals rep1 = scores)) ->
     xs' = xs /\ (y' = y \/ y' = fst (Qrels_to_typed_list E y)) /\ exists key trials scores, trial_grid sh method (length xs) kws = Ok (key, trials) /\
    Forall2 (fun t s => exists z, fuse E pysort xs norm method [(key, fst t)] = Ok z /\ evaluates_to E y z metric s) trials scores /\
    (exists best, ps = [(key, best)] /\ chosen (map fst trials) scores best) /\
    (rep = false -> r = None) /\
    (rep = true -> NoDup (map snd trials) -> r = Some (OptReport method (map snd trials) scores metric))).
  { intros [[y1 zs1] [[p1 rep1]|e]] key trials Ht He Ho; cbn [bindr] in He; [|discriminate].
    specialize (Ho y1 zs1 p1 rep1 eq_refl). destruct Ho as (-> & O0 & scores & O1 & O2 & O3). cbn [fst snd] in He. injection He as <- <- <- <-.
    split. { destruct norm; [reflexivity|]. cbn in A4. now injection A4 as <-. }
    split; [exact O0|]. exists key, trials, scores. split; [exact Ht|]. split; [exact O1|]. split; [exact O2|]. split.
    - now intros ->.
    - intros -> Hn. destruct (O3 Hn) as [-> ->]. reflexivity. }
  destruct (if rep then has_hyperparams method else Ok tt) as [[]|]; cbn [bindr] in H; [|discriminate].
  unfold plain_methods in Hm. cbn [In] in Hm.
  assert (Hw : forall fusion, (forall t, (do f <- fusion_switch E pysort method; f zs [("weights", PL t)]) = fusion zs t) ->
     optimization_switch E pysort sh method = Ok (@optimize_weights N E sh fusion) ->
     trial_grid sh method (length xs) kws = (do w <- get_possible_weights sh (kwarg kws "step" (PF (fdec 1 1)));
        Ok ("weights", map (fun t => (PL t, s_tuple sh t)) (get_trial_configs w (length xs)))) ->
     xs' = xs /\ (y' = y \/ y' = fst (Qrels_to_typed_list E y)) /\ exists key trials scores, trial_grid sh method (length xs) kws = Ok (key, trials) /\
    Forall2 (fun t s => exists z, fuse E pysort xs norm method [(key, fst t)] = Ok z /\ evaluates_to E y z metric s) trials scores /\
    (exists best, ps = [(key, best)] /\ chosen (map fst trials) scores best) /\
    (rep = false -> r = None) /\
    (rep = true -> NoDup (map snd trials) -> r = Some (OptReport method (map snd trials) scores metric))).
  { intros fusion Hf Hsw Hg. rewrite Hsw in H. cbn [bindr] in H. unfold optimize_weights in H.
    destruct (only _ kws) as [[]|]; cbn [bindr] in H; [|cbn in H; discriminate].
    destruct (get_possible_weights sh _) as [w|] eqn:Hpw; cbn [bindr] in H, Hg; [|cbn in H; discriminate].
    rewrite Hlen in H. match type of H with context [finish ?a ?b ?c] => refine (Hend (finish a b c) _ _ Hg H _) end. intros y1 zs1 p1 rep1 Ho. eapply Hgo; [|exact Ho]. exact Hf. }
  assert (Hfl : forall fusion key lo hi, (forall t, (do f <- fusion_switch E pysort method; f zs [(key, PF t)]) = fusion zs t) ->
     optimization_switch E pysort sh method = Ok (@opt_float N E sh fusion key lo hi) ->
     trial_grid sh method (length xs) kws = (do l <- floats sh lo hi kws; Ok (key, l)) ->
     xs' = xs /\ (y' = y \/ y' = fst (Qrels_to_typed_list E y)) /\ exists key trials scores, trial_grid sh method (length xs) kws = Ok (key, trials) /\
    Forall2 (fun t s => exists z, fuse E pysort xs norm method [(key, fst t)] = Ok z /\ evaluates_to E y z metric s) trials scores /\
    (exists best, ps = [(key, best)] /\ chosen (map fst trials) scores best) /\
    (rep = false -> r = None) /\
    (rep = true -> NoDup (map snd trials) -> r = Some (OptReport method (map snd trials) scores metric))).
  { intros fusion key lo hi Hf Hsw Hg. rewrite Hsw in H. cbn [bindr] in H. unfold opt_float in H.
    destruct (only _ kws) as [[]|]; cbn [bindr] in H; [|cbn in H; discriminate].
    unfold floats in Hg.
    destruct (float_grid sh _ _ _) as [w|] eqn:Hpw; cbn [bindr] in H, Hg; [|cbn in H; discriminate].
    match type of H with context [finish ?a ?b ?c] => refine (Hend (finish a b c) _ _ Hg H _) end. intros y1 zs1 p1 rep1 Ho. eapply Hgo; [|exact Ho]. exact Hf. }
  destruct Hm as [<-|[<-|[<-|[<-|[<-|[<-|[<-|[<-|[<-|[]]]]]]]]]].
  - apply (Hfl (fun xs g => comb_gmnz E xs g "comb_gmnz") "gamma" "min_gamma" "max_gamma"); reflexivity.
  - apply (Hfl (fun xs s => logn_isr E xs s "logn_isr") "sigma" "min_sigma" "max_sigma"); reflexivity.
  - apply (Hfl (fun xs p => rbc E xs p "rbc") "phi" "min_phi" "max_phi"); reflexivity.
  - assert (Hsw : optimization_switch E pysort sh "rrf" = Ok (@optimize_rrf N E)) by reflexivity. rewrite Hsw in H. cbn [bindr] in H. unfold optimize_rrf in H.
    destruct (only _ kws) as [[]|]; cbn [bindr] in H; [|cbn in H; discriminate].
    assert (Hg : trial_grid sh "rrf" (length xs) kws = (do a <- as_Z (kwarg kws "min_k" (PZ 10)); do b <- as_Z (kwarg kws "max_k" (PZ 100)); do s <- as_Z (kwarg kws "step" (PZ 10));
       do l <- py_range a (b + 1) s; Ok ("k", map (fun k => (PZ k, str_int k)) l))) by reflexivity.
    destruct (as_Z (kwarg kws "min_k" _)) as [a|]; cbn [bindr] in H, Hg; [|cbn in H; discriminate].
    destruct (as_Z (kwarg kws "max_k" _)) as [b|]; cbn [bindr] in H, Hg; [|cbn in H; discriminate].
    destruct (as_Z (kwarg kws "step" _)) as [s|]; cbn [bindr] in H, Hg; [|cbn in H; discriminate].
    destruct (py_range a (b + 1) s) as [l|] eqn:Hpw; cbn [bindr] in H, Hg; [|cbn in H; discriminate].
    match type of H with context [finish ?a ?b ?c] => refine (Hend (finish a b c) _ _ Hg H _) end. intros y1 zs1 p1 rep1 Ho. eapply Hgo; [|exact Ho]. reflexivity.
  - apply (Hw (fun xs w => mixed E xs w "mixed")); reflexivity.
  - apply (Hw (fun xs w => weighted_bordafuse E xs w "weighted_bordafuse")); reflexivity.
  - apply (Hw (fun xs w => weighted_condorcet E pysort xs w "weighted_condorcet")); reflexivity.
  - apply (Hw (fun xs w => wmnz E xs w "wmnz")); reflexivity.
  - apply (Hw (fun xs w => wsum E xs w "weighted_sum")); reflexivity.
Qed.
Print Assumptions C57_best_trial.
