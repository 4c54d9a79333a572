(** T_Tuned.v: fuse with the parameters returned by optimize_fusion reaches the score reported (C100) *)
From Coq Require Import Lia Permutation.
From Verif Require Import Base Dict Num NumLaws Env EnvEx M_Common M_Qrels M_Run M_Metrics M_Text M_Evaluate M_Norm M_Fusion M_Train M_Optimize M_History
  Spec_DS Spec_Optimize Spec_Tuned P_Base P_Dict P_Common P_DS P_Optimize T_Fusion6 T_Optimize T_Optimize2 T_Optimize3 T_Optimize4.
Open Scope string_scope.
Open Scope list_scope.
Open Scope nat_scope.

Section P.
Context {N : Num} {HL : NumLaws N} (E : env N).

Lemma same_keys_all (xs : list (Run N)) : same_keys_check xs = true <->
  forall x x' q, In x xs -> In x' xs -> In q (dkeys (r_map x)) -> In q (dkeys (r_map x')).
Proof.
  induction xs as [|x xs IH]; cbn [same_keys_check]; [split; [intros _ ? ? ? []|reflexivity]|].
  rewrite Bool.andb_true_iff, forallb_forall. split.
  - intros [H1 H2] a b q [<-|Ha] [<-|Hb] Hq; auto.
    + apply H1 in Hb. rewrite keys_eqb_spec in Hb. now apply Hb.
    + apply H1 in Ha. rewrite keys_eqb_spec in Ha. now apply Ha.
    + rewrite IH in H2. eauto.
  - intros H. split.
    + intros b Hb. apply keys_eqb_spec. intros q. split; apply H; auto; [now left|now right|now right|now left].
    + apply IH. intros a b q Ha Hb. apply H; now right.
Qed.
Lemma sorted_run_keys (x : Run N) q : dict2_ok (r_map x) -> In q (dkeys (r_map (sorted_run E x))) <-> In q (dkeys (r_map x)).
Proof.
  intros [Hx _]. unfold sorted_run, Run_to_typed_list. destruct (r_sorted x); cbn [fst]; [tauto|]. unfold Run_sort. cbn [Run_with_map r_map].
  change (sort_dict_of_dict_by_value E r_negf (sort_dict_by_key (r_map x))) with (canon E r_negf (r_map x)). rewrite canon_keys by exact Hx.
  split; apply Permutation_in; [apply Permutation_sym|]; apply str_sort_perm.
Qed.
Lemma same_keys_sorted xs : Forall (fun x => dict2_ok (r_map x)) xs -> same_keys_check (map (sorted_run E) xs) = same_keys_check xs.
Proof.
  intros Hx. rewrite Forall_forall in Hx. apply Bool.eq_iff_eq_true. rewrite !same_keys_all. split.
  - intros H x x' q H1 H2 Hq. rewrite <- (sorted_run_keys x' q (Hx _ H2)). apply (H (sorted_run E x)); try (now apply in_map). now apply sorted_run_keys; auto.
  - intros H a b q Ha Hb. apply in_map_iff in Ha as (x & <- & H1). apply in_map_iff in Hb as (x' & <- & H2).
    rewrite !sorted_run_keys by auto. now apply H.
Qed.
Lemma map_m_maps {B} (h : nat -> dict (dict F) -> result B) : forall k (xs xs' : list (Run N)), map (@r_map N) xs = map (@r_map N) xs' ->
  map_m (fun ix => h (fst ix) (r_map (snd ix))) (enum_from k xs) = map_m (fun ix => h (fst ix) (r_map (snd ix))) (enum_from k xs').
Proof.
  intros k xs. revert k. induction xs as [|x xs IH]; intros k [|x' xs'] H; try discriminate; [reflexivity|].
  cbn [map] in H. injection H as Hx H. cbn [enum_from map_m fst snd]. rewrite Hx, (IH (S k) xs' H). reflexivity.
Qed.
Lemma rescore_with_maps {P} nm (f : P -> dict F -> result (dict F)) ps xs xs' : map (@r_map N) xs = map (@r_map N) xs' -> rescore_with E nm f ps xs = rescore_with E nm f ps xs'.
Proof. intros H. unfold rescore_with, enumerate. exact (map_m_maps (fun i m => do p <- nth_r ps i; per_query E nm (fun _ => f p) m) 0 xs xs' H). Qed.
Lemma probfuse_maps xs xs' probs nm : map (@r_map N) xs = map (@r_map N) xs' -> probfuse E xs probs nm = probfuse E xs' probs nm.
Proof. intros H. unfold probfuse. now rewrite (rescore_with_maps _ _ _ xs xs' H). Qed.
Lemma slidefuse_maps xs xs' probs w nm : map (@r_map N) xs = map (@r_map N) xs' -> slidefuse E xs probs w nm = slidefuse E xs' probs w nm.
Proof. intros H. unfold slidefuse. now rewrite (rescore_with_maps _ _ _ xs xs' H). Qed.
Lemma stored_sorted_maps zs : (forall z, In z zs -> stored_sorted E z) -> map (@r_map N) (map (sorted_run E) zs) = map (@r_map N) zs.
Proof.
  intros H. rewrite map_map. apply map_ext_in. intros z Hz. unfold sorted_run, Run_to_typed_list.
  destruct (H z Hz) as [ -> | Hm ]; [reflexivity|]. destruct (r_sorted z); cbn [fst]; auto.
Qed.
Lemma slide_train_runs : forall xs y y1 zs1 probs, slidefuse_train E y xs = (y1, zs1, Ok probs) -> zs1 = map (sorted_run E) xs.
Proof.
  unfold slidefuse_train. induction xs as [|x xs IH]; intros y y1 zs1 probs H; cbn [train_each] in H; [now injection H as _ <- _|].
  destruct (estimate_probs E y x) as [[y2 x2] [a|e]] eqn:He; [|discriminate].
  destruct (train_each (estimate_probs E) y2 xs) as [[y3 xs3] [l|e]] eqn:Ht; [|discriminate]. injection H as <- <- <-.
  cbn [map]. f_equal; [|eapply IH; eauto]. unfold estimate_probs, train_hits in He. now injection He as _ <- _.
Qed.
Lemma last_top (scores : list F) i : last_best scores i -> exists s, nth_error scores i = Some s /\ top_score scores s /\ fleb (fofZ 0) s = true.
Proof.
  intros (v & H1 & H2 & H3 & _). exists v. split; [exact H1|]. split; [|exact H2]. split; [eapply nth_error_In; eauto|].
  intros w Hw Hn. apply In_nth_error in Hw as (j & Hj). eapply H3; eauto.
Qed.
Lemma F2_nth {A B} (P : A -> B -> Prop) l1 l2 i a b : Forall2 P l1 l2 -> nth_error l1 i = Some a -> nth_error l2 i = Some b -> P a b.
Proof. intros H. revert i. induction H; intros [|i] H1 H2; cbn in *; try discriminate; [congruence|eauto]. Qed.
Lemma evaluates_after y y' z metric v : dict_ok (q_map y) -> y' = y \/ y' = fst (Qrels_to_typed_list E y) -> evaluates_to E y z metric v -> evaluates_to E y' z metric v.
Proof.
  intros Hy Hs He. apply trial_eval_to. rewrite (proj2 (trial_eval_same E y y' z metric Hy Hs)).
  unfold evaluates_to in He. unfold trial_eval. cbn [snd]. rewrite He. reflexivity.
Qed.
Lemma int_grid_texts (kws : @params N) lo hi a b l : int_grid kws lo hi a b l -> NoDup (map str_int l).
Proof.
  intros (x & y & _ & _ & H). destruct (C57_int_grid x y 1 eq_refl) as (l' & H1 & H2 & _). rewrite H1 in H. injection H as <-.
  apply FinFun.Injective_map_NoDup; [exact str_int_inj|exact H2].
Qed.
End P.

(** Tune, fuse the same runs with the parameters found, evaluate against the same qrels: the
    outcome is a largest score of the report.  For the two methods that are trained and tuned this
    needs norm=None, or normalised runs that are stored sorted. *)
Theorem C100_reproduces : forall (N : Num), NumLaws N ->
  forall (E : env N) pysort sh y xs norm method metric kws y' xs' ps configs results args,
  dict_ok (q_map y) -> Forall (fun x => dict2_ok (r_map x)) xs -> In method hyper_methods ->
  (In method ["probfuse"; "slidefuse"] -> norm = None \/ forall zs z, normalize_runs E xs norm = Ok zs -> In z zs -> stored_sorted E z) ->
  (In method plain_methods -> forall key trials, trial_grid sh method (length xs) kws = Ok (key, trials) -> NoDup (map snd trials)) ->
  optimize_fusion E pysort sh y xs norm method metric true kws = (y', xs', Ok (ps, Some (OptReport method configs results metric))) ->
  given ps args ->
  exists z s, fuse E pysort xs' norm method args = Ok z /\ evaluates_to E y' z metric s /\ top_score results s.
Proof.
  intros N HL E pysort sh y xs norm method metric kws y' xs' ps configs results args Hy Hxs Hm Hn Ht H Hg.
  assert (Hc : In method plain_methods \/ method = "probfuse" \/ method = "slidefuse") by (cbn in Hm |- *; decompose [or] Hm; subst; tauto).
  assert (Hlen : 1 < length xs /\ same_keys_check xs = true).
  { unfold optimize_fusion in H. destruct (1 <? length xs) eqn:A1; cbn [assertr bindr] in H; [|discriminate]. apply Nat.ltb_lt in A1.
    destruct (same_keys_check xs); cbn [assertr bindr] in H; [auto|discriminate]. }
  assert (Hfuse : forall us f, 1 < length us -> same_keys_check us = true -> fusion_switch E pysort method = Ok f ->
     fuse E pysort us norm method args = do zs <- normalize_runs E us norm; f zs args).
  { intros us f H1 H2 Hf. unfold fuse. rewrite (proj2 (Nat.ltb_lt _ _) H1), H2. cbn [assertr bindr]. rewrite Hf. reflexivity. }
  assert (Hlen' : 1 < length (map (sorted_run E) xs) /\ same_keys_check (map (sorted_run E) xs) = true).
  { rewrite map_length, same_keys_sorted by exact Hxs. exact Hlen. }
  destruct Hc as [Hc|[-> | ->]].
  - destruct (C57_best_trial N HL E pysort sh y xs norm method metric true kws y' xs' ps _ Hy Hc H) as (-> & Hy' & key & trials & scores & T1 & T2 & (best & T3 & T4) & _ & T5).
    specialize (T5 eq_refl (Ht Hc key trials T1)). injection T5 as -> ->. unfold given in Hg. rewrite T3 in Hg.
    destruct args as [|[k v] [|]]; try discriminate. cbn in Hg. injection Hg as <- ->. cbn [chosen] in T4. destruct T4 as (i & Hb & Hi).
    destruct (last_top _ _ Hb) as (s & S1 & S2 & _). rewrite nth_error_map in Hi. destruct (nth_error trials i) as [t|] eqn:Hti; [|discriminate]. cbn in Hi. injection Hi as <-.
    destruct (F2_nth _ _ _ _ _ _ T2 Hti S1) as (z & Z1 & Z2). exists z, s. split; [exact Z1|]. split; [|exact S2]. eapply evaluates_after; eauto.
  - destruct (C57_probfuse N HL E pysort sh y xs norm metric true kws y' xs' ps _ Hy H) as (zs & ns & probs & scores & best & P1 & P2 & P3 & P4 & P5 & P6 & P7 & P8 & P9 & P10).
    specialize (P10 eq_refl (int_grid_texts _ _ _ _ _ _ P2)). injection P10 as -> ->. unfold given in Hg. rewrite P6 in Hg.
    destruct args as [|[k v] [|]]; try discriminate. cbn in Hg. injection Hg as <- Hb. destruct best as [p|]; [|discriminate]. cbn in Hb. injection Hb as <-.
    cbn [chosen] in P7. destruct P7 as (i & Hb & Hi). destruct (last_top _ _ Hb) as (s & S1 & S2 & _).
    assert (Hni : exists n, nth_error ns i = Some n).
    { destruct (nth_error ns i) eqn:Hni; eauto. apply nth_error_None in Hni. rewrite <- P5 in Hni. apply nth_error_None in Hni. congruence. }
    destruct Hni as (n & Hni).
    assert (Hcomb : nth_error (combine probs scores) i = Some (p, s)).
    { clear - Hi S1. revert scores i Hi S1. induction probs as [|a probs IH]; intros [|b scores] [|i] Hi S1; cbn in *; try discriminate; [congruence|auto]. }
    destruct (F2_nth _ _ _ _ _ _ P3 Hni Hcomb) as (y1 & zs1 & z & Z1 & Z2 & Z3). cbn [fst snd] in *.
    assert (Hzs1 : zs1 = map (sorted_run E) zs).
    { destruct (prob_train_same E y y zs n (or_introl eq_refl)) as (_ & _ & _ & T). rewrite Z1 in T. cbn in T. auto. }
    exists z, s. split; [|split; [eapply evaluates_after; eauto|exact S2]].
    assert (Hcall : forall us, with_arg (probfuse E) "probs" as_LL None "probfuse" us [("probs", PLL p)] = probfuse E us p "probfuse") by reflexivity.
    destruct norm as [nm|].
    + subst xs'. rewrite (Hfuse xs _ (proj1 Hlen) (proj2 Hlen) eq_refl), P1. cbn [bindr]. rewrite Hcall, <- Z2, Hzs1.
      apply probfuse_maps. symmetry. apply stored_sorted_maps. destruct (Hn (or_introl eq_refl)) as [Hn0|Hn0]; [discriminate|]. intros u Hu. now apply (Hn0 zs).
    + destruct ns as [|n0 ns]; [destruct i; discriminate|]. change (map (fun x => fst (Run_to_typed_list E x)) xs) with (map (sorted_run E) xs) in P9. subst xs'.
      cbn in P1. injection P1 as <-. rewrite (Hfuse _ _ (proj1 Hlen') (proj2 Hlen') eq_refl). cbn [normalize_runs bindr]. rewrite Hcall, <- Z2, Hzs1. reflexivity.
  - destruct (C57_slidefuse N HL E pysort sh y xs norm metric true kws y' xs' ps _ Hy H) as (zs & y1 & zs1 & probs & ws & scores & best & P1 & P2 & P3 & P4 & P5 & P6 & P7 & P8 & P9).
    specialize (P9 eq_refl (int_grid_texts _ _ _ _ _ _ P3)). injection P9 as -> ->. unfold given in Hg. rewrite P5 in Hg.
    destruct args as [|[k v] [|[k' v'] [|]]]; try discriminate. cbn in Hg. injection Hg as <- <- <- Hb. destruct best as [w|]; [|discriminate]. cbn in Hb. injection Hb as <-.
    cbn [chosen] in P6. destruct P6 as (i & Hb & Hi). destruct (last_top _ _ Hb) as (s & S1 & S2 & _).
    destruct (F2_nth _ _ _ _ _ _ P4 Hi S1) as (z & Z1 & Z2). apply slide_train_runs in P2 as Hzs1.
    exists z, s. split; [|split; [eapply evaluates_after; eauto|exact S2]].
    assert (Hcall : forall us, slide_call E us [("probs", PLL probs); ("w", PZ w)] = slidefuse E us probs w "slidefuse") by reflexivity.
    destruct norm as [nm|].
    + subst xs'. rewrite (Hfuse xs _ (proj1 Hlen) (proj2 Hlen) eq_refl), P1. cbn [bindr]. rewrite Hcall, <- Z1, Hzs1.
      apply slidefuse_maps. symmetry. apply stored_sorted_maps. destruct (Hn (or_intror (or_introl eq_refl))) as [Hn0|Hn0]; [discriminate|]. intros u Hu. now apply (Hn0 zs).
    + subst xs'. cbn in P1. injection P1 as <-. rewrite Hzs1. rewrite (Hfuse _ _ (proj1 Hlen') (proj2 Hlen') eq_refl). cbn [normalize_runs bindr]. rewrite Hcall, <- Z1, Hzs1. reflexivity.
Qed.
Print Assumptions C100_reproduces.

(** parameters are found as soon as some trial's score is at least 0 *)
Theorem C100_found : forall (N : Num), NumLaws N ->
  forall (E : env N) pysort sh y xs norm method metric kws y' xs' ps configs results s,
  dict_ok (q_map y) -> In method hyper_methods ->
  (In method plain_methods -> forall key trials, trial_grid sh method (length xs) kws = Ok (key, trials) -> NoDup (map snd trials)) ->
  optimize_fusion E pysort sh y xs norm method metric true kws = (y', xs', Ok (ps, Some (OptReport method configs results metric))) ->
  In s results -> fleb (fofZ 0) s = true -> exists args, given ps args.
Proof.
  intros N HL E pysort sh y xs norm method metric kws y' xs' ps configs results s Hy Hm Ht H Hin Hs.
  assert (Hc : In method plain_methods \/ method = "probfuse" \/ method = "slidefuse") by (cbn in Hm |- *; decompose [or] Hm; subst; tauto).
  destruct Hc as [Hc|[-> | ->]].
  - destruct (C57_best_trial N HL E pysort sh y xs norm method metric true kws y' xs' ps _ Hy Hc H) as (-> & Hy' & key & trials & scores & T1 & T2 & (best & T3 & T4) & _ & T5).
    specialize (T5 eq_refl (Ht Hc key trials T1)). injection T5 as -> ->. destruct best as [v|]; [|cbn in T4; rewrite (T4 s Hin) in Hs; discriminate].
    exists [(key, v)]. exact T3.
  - destruct (C57_probfuse N HL E pysort sh y xs norm metric true kws y' xs' ps _ Hy H) as (zs & ns & probs & scores & best & P1 & P2 & P3 & P4 & P5 & P6 & P7 & P8 & P9 & P10).
    specialize (P10 eq_refl (int_grid_texts _ _ _ _ _ _ P2)). injection P10 as -> ->. destruct best as [p|]; [|cbn in P7; rewrite (P7 s Hin) in Hs; discriminate].
    exists [("probs", PLL p)]. exact P6.
  - destruct (C57_slidefuse N HL E pysort sh y xs norm metric true kws y' xs' ps _ Hy H) as (zs & y1 & zs1 & probs & ws & scores & best & P1 & P2 & P3 & P4 & P5 & P6 & P7 & P8 & P9).
    specialize (P9 eq_refl (int_grid_texts _ _ _ _ _ _ P3)). injection P9 as -> ->. destruct best as [w|]; [|cbn in P6; rewrite (P6 s Hin) in Hs; discriminate].
    exists [("probs", PLL probs); ("w", PZ w)]. exact P5.
Qed.
Print Assumptions C100_found.

(** Without sorted storage and with a normalisation the score is not reproduced: the trial sorted the
    normalised runs while training, fuse normalises the caller's runs anew and reads them as stored. *)
Definition tu_y : Qrels := @qrels_hist NumSF env_ex Qrels_empty [QAddScore "q1" "a" 1].
Definition tu_x : Run NumSF := @run_hist NumSF env_ex Run_empty [@RAddScore NumSF "q1" "b" (@fofZ NumSF 1); @RAddScore NumSF "q1" "a" (@fofZ NumSF 2)].
Definition tu_kws : @params NumSF := [("min_n_segments", @PZ NumSF 2); ("max_n_segments", @PZ NumSF 2)].
Definition tu_args : @params NumSF := [("probs", @PLL NumSF [[@fofZ NumSF 1; @fofZ NumSF 0]; [@fofZ NumSF 1; @fofZ NumSF 0]])].
Theorem C100_unsorted_refuted : exists y' xs' z,
  @optimize_fusion NumSF env_ex ins_sort sh_sf tu_y [tu_x; tu_x] (Some "max") "probfuse" "mrr" true tu_kws
  = (y', xs', Ok (map (fun kv => (fst kv, Some (snd kv))) tu_args, Some (@OptReport NumSF "probfuse" ["2"] [@fofZ NumSF 1] "mrr"))) /\
  fuse env_ex ins_sort xs' (Some "max") "probfuse" tu_args = Ok z /\ evaluates_to env_ex y' z "mrr" (@fdec NumSF 5 1).
Proof.
  exists (fst (fst (@optimize_fusion NumSF env_ex ins_sort sh_sf tu_y [tu_x; tu_x] (Some "max") "probfuse" "mrr" true tu_kws))), [tu_x; tu_x],
    (match fuse env_ex ins_sort [tu_x; tu_x] (Some "max") "probfuse" tu_args with Ok z => z | Err _ => tu_x end).
  split; [vmr|]. split; [vmr|]. unfold evaluates_to. vmr.
Qed.
Print Assumptions C100_unsorted_refuted.

(** the hypotheses met: no normalisation, unsorted runs; a normalisation, sorted runs *)
Example ex_C100 : exists y' xs',
  @optimize_fusion NumSF env_ex ins_sort sh_sf tu_y [tu_x; tu_x] None "probfuse" "mrr" true tu_kws
  = (y', xs', Ok (map (fun kv => (fst kv, Some (snd kv))) tu_args, Some (@OptReport NumSF "probfuse" ["2"] [@fofZ NumSF 1] "mrr"))) /\
  dict_ok (q_map tu_y) /\ Forall (fun x => dict2_ok (r_map x)) [tu_x; tu_x] /\ In "probfuse" hyper_methods.
Proof.
  exists (fst (fst (@optimize_fusion NumSF env_ex ins_sort sh_sf tu_y [tu_x; tu_x] None "probfuse" "mrr" true tu_kws))),
    (snd (fst (@optimize_fusion NumSF env_ex ins_sort sh_sf tu_y [tu_x; tu_x] None "probfuse" "mrr" true tu_kws))).
  assert (Hx : dict2_ok (r_map tu_x)).
  { split; unfold dict_ok.
    - assert (Hk : dkeys (r_map tu_x) = ["q1"]) by vmr. rewrite Hk. repeat constructor; cbn; tauto.
    - intros k d Hd. assert (Hk : map (fun kd => (fst kd, dkeys (snd kd))) (r_map tu_x) = [("q1", ["b"; "a"])]) by vmr.
      apply dget_Some_in in Hd. apply (in_map (fun kd => (fst kd, dkeys (snd kd)))) in Hd. rewrite Hk in Hd. destruct Hd as [Hd|[]]. injection Hd as _ Hd. cbn [snd] in Hd. unfold dict_ok. change (NoDup (@dkeys (@F NumSF) d)). refine (eq_ind _ (@NoDup string) _ _ Hd).
      repeat constructor; cbn; intuition discriminate. }
  split; [vmr|]. split; [|split].
  - unfold dict_ok. assert (Hk : dkeys (q_map tu_y) = ["q1"]) by vmr. rewrite Hk. repeat constructor; cbn; tauto.
  - constructor; [exact Hx|]. constructor; [exact Hx|constructor].
  - cbn. tauto.
Qed.
Example ex_C100_sorted : forall zs z, normalize_runs env_ex [Run_sort env_ex tu_x; Run_sort env_ex tu_x] (Some "max") = Ok zs -> In z zs -> stored_sorted env_ex z.
Proof.
  intros zs z H Hz. right.
  assert (Hn : normalize_runs env_ex [Run_sort env_ex tu_x; Run_sort env_ex tu_x] (Some "max")
    = Ok (match normalize_runs env_ex [Run_sort env_ex tu_x; Run_sort env_ex tu_x] (Some "max") with Ok l => l | Err _ => [] end)) by (rewrite H; reflexivity).
  assert (Hall : map (fun u => r_map (Run_sort env_ex u)) (match normalize_runs env_ex [Run_sort env_ex tu_x; Run_sort env_ex tu_x] (Some "max") with Ok l => l | Err _ => [] end)
    = map (@r_map NumSF) (match normalize_runs env_ex [Run_sort env_ex tu_x; Run_sort env_ex tu_x] (Some "max") with Ok l => l | Err _ => [] end)) by vmr.
  rewrite H in Hall. clear - Hall Hz. induction zs as [|u zs IH]; [destruct Hz|]. cbn [map] in Hall. injection Hall as H1 H2. destruct Hz as [<-|Hz]; auto.
Qed.
