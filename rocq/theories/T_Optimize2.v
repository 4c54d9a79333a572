(** T_Optimize2.v: optimize_fusion for the methods that are trained (C57), and what it rejects *)
From Coq Require Import Lia Permutation.
From Verif Require Import Base Dict Num NumLaws Env M_Common M_Qrels M_Run M_Metrics M_Text M_Evaluate M_Norm M_Fusion M_Train M_Optimize
  Spec_DS Spec_Optimize P_Base P_Dict P_Common P_DS P_Optimize T_Optimize.
Open Scope string_scope.
Open Scope list_scope.
Open Scope nat_scope.

(** the integer grid min..max of a keyword pair *)
Definition int_grid {N : Num} (kws : @params N) (lo hi : string) (dlo dhi : Z) (l : list Z) : Prop :=
  exists a b, as_Z (kwarg kws lo (PZ dlo)) = Ok a /\ as_Z (kwarg kws hi (PZ dhi)) = Ok b /\ py_range a (b + 1) 1 = Ok l.

(** ** C57, SlideFuse: trained once, then the window is tuned *)
Theorem C57_slidefuse : forall (N : Num), NumLaws N ->
  forall (E : env N) pysort sh y xs norm metric rep kws y' xs' ps r,
  dict_ok (q_map y) ->
  optimize_fusion E pysort sh y xs norm "slidefuse" metric rep kws = (y', xs', Ok (ps, r)) ->
  exists zs y1 zs1 probs ws scores best, normalize_runs E xs norm = Ok zs /\ slidefuse_train E y zs = (y1, zs1, Ok probs) /\
    int_grid kws "min_w" "max_w" 1 100 ws /\
    Forall2 (fun w s => exists z, slidefuse E zs1 probs w "slidefuse" = Ok z /\ evaluates_to E y z metric s) ws scores /\
    ps = [("probs", Some (PLL probs)); ("w", option_map (@PZ N) best)] /\ chosen ws scores best /\
    xs' = match norm with None => zs1 | Some _ => xs end /\ (y' = y \/ y' = fst (Qrels_to_typed_list E y)) /\
    (rep = true -> NoDup (map str_int ws) -> r = Some (OptReport "slidefuse" (map str_int ws) scores metric)).
Proof.
  intros N HL E pysort sh y xs norm metric rep kws y' xs' ps r Hy H. unfold optimize_fusion in H.
  destruct (assertr (1 <? length xs)) as [[]|] eqn:A1; cbn [bindr] in H; [|discriminate].
  destruct (assertr (same_keys_check xs)) as [[]|] eqn:A2; cbn [bindr] in H; [|discriminate].
  destruct (assertr (forallb _ xs)) as [[]|] eqn:A3; cbn [bindr] in H; [|discriminate].
  destruct (normalize_runs E xs norm) as [zs|] eqn:A4; cbn [bindr] in H; [|discriminate].
  assert (Hh : (if rep then has_hyperparams "slidefuse" else Ok tt) = Ok tt) by now destruct rep.
  rewrite Hh in H. cbn [bindr] in H. assert (Hsw : optimization_switch E pysort sh "slidefuse" = Ok (@optimize_slidefuse N E)) by reflexivity.
  rewrite Hsw in H. cbn [bindr] in H. unfold optimize_slidefuse in H.
  destruct (only _ kws) as [[]|]; cbn [bindr] in H; [|cbn in H; discriminate].
  destruct (as_Z (kwarg kws "min_w" _)) as [a|] eqn:Ha; cbn [bindr] in H; [|cbn in H; discriminate].
  destruct (as_Z (kwarg kws "max_w" _)) as [b|] eqn:Hb; cbn [bindr] in H; [|cbn in H; discriminate].
  destruct (py_range a (b + 1) 1) as [ws|] eqn:Hpw; cbn [bindr] in H; [|cbn in H; discriminate].
  pose proof (slide_train_qrels E y zs) as Hy1.
  destruct (slidefuse_train E y zs) as [[y1 zs1] [probs|e]] eqn:Ht; [|cbn in H; discriminate]. cbn [fst] in Hy1.
  destruct (finish _ _ _) as [[y2 zs2] rr] eqn:Hf. destruct rr as [[ps2 rep2]|e]; cbn [bindr] in H; [|cbn in H; discriminate].
  assert (Hok1 : dict_ok (q_map y1)).
  { destruct Hy1 as [ -> | -> ]; [exact Hy|]. unfold Qrels_to_typed_list. destruct (q_sorted y); cbn [fst]; [exact Hy|]. unfold Qrels_sort. cbn [q_map].
    change (sort_dict_of_dict_by_value E q_negf (sort_dict_by_key (q_map y))) with (canon E q_negf (q_map y)).
    unfold dict_ok. rewrite canon_keys by exact Hy. eapply Permutation_NoDup; [apply str_sort_perm|exact Hy]. }
  destruct (finish_search E _ metric str_int y1 zs1 ws "w" (@PZ N) y2 zs2 ps2 rep2 Hok1 Hf) as (F1 & -> & scores & best & F3 & F4 & F5 & F6).
  cbn [fst snd bindr] in H. injection H as <- <- <- <-.
  exists zs, y1, zs1, probs, ws, scores, best. split; [reflexivity|]. split; [exact Ht|]. split; [exists a, b; auto|]. split.
  { eapply F2_imp; [|exact F3]. intros w s (z & Z1 & Z2). exists z. split; [exact Z1|]. eapply evaluates_same; eauto. }
  split; [now rewrite F4|]. split; [exact F5|]. split; [reflexivity|]. split.
  { destruct Hy1 as [ -> | -> ]; [exact F1|]. destruct F1 as [ -> | -> ]; [now right|]. right. now rewrite typed_again. }
  intros -> Hn. destruct (F6 Hn) as [-> ->]. reflexivity.
Qed.
(** ** C57, ProbFuse: trained for every number of segments *)
Theorem C57_probfuse : forall (N : Num), NumLaws N ->
  forall (E : env N) pysort sh y xs norm metric rep kws y' xs' ps r,
  dict_ok (q_map y) ->
  optimize_fusion E pysort sh y xs norm "probfuse" metric rep kws = (y', xs', Ok (ps, r)) ->
  exists zs ns probs scores best, normalize_runs E xs norm = Ok zs /\
    int_grid kws "min_n_segments" "max_n_segments" 1 100 ns /\
    Forall2 (fun n ps => exists y1 zs1 z, probfuse_train E y zs n = (y1, zs1, Ok (fst ps)) /\
        probfuse E zs1 (fst ps) "probfuse" = Ok z /\ evaluates_to E y z metric (snd ps)) ns (combine probs scores) /\
    length probs = length ns /\ length scores = length ns /\
    ps = [("probs", option_map (@PLL N) best)] /\ chosen probs scores best /\
    (y' = y \/ y' = fst (Qrels_to_typed_list E y)) /\
    xs' = match norm, ns with None, _ :: _ => map (fun x => fst (Run_to_typed_list E x)) xs | _, _ => xs end /\
    (rep = true -> NoDup (map str_int ns) -> r = Some (OptReport "probfuse" (map str_int ns) scores metric)).
Proof.
  intros N HL E pysort sh y xs norm metric rep kws y' xs' ps r Hy H. unfold optimize_fusion in H.
  destruct (assertr (1 <? length xs)) as [[]|] eqn:A1; cbn [bindr] in H; [|discriminate].
  destruct (assertr (same_keys_check xs)) as [[]|] eqn:A2; cbn [bindr] in H; [|discriminate].
  destruct (assertr (forallb _ xs)) as [[]|] eqn:A3; cbn [bindr] in H; [|discriminate].
  destruct (normalize_runs E xs norm) as [zs|] eqn:A4; cbn [bindr] in H; [|discriminate].
  assert (Hh : (if rep then has_hyperparams "probfuse" else Ok tt) = Ok tt) by now destruct rep.
  rewrite Hh in H. cbn [bindr] in H. assert (Hsw : optimization_switch E pysort sh "probfuse" = Ok (@optimize_probfuse N E)) by reflexivity.
  rewrite Hsw in H. cbn [bindr] in H. unfold optimize_probfuse in H.
  destruct (only _ kws) as [[]|]; cbn [bindr] in H; [|cbn in H; discriminate].
  destruct (as_Z (kwarg kws "min_n_segments" _)) as [a|] eqn:Ha; cbn [bindr] in H; [|cbn in H; discriminate].
  destruct (as_Z (kwarg kws "max_n_segments" _)) as [b|] eqn:Hb; cbn [bindr] in H; [|cbn in H; discriminate].
  destruct (py_range a (b + 1) 1) as [ns|] eqn:Hpw; cbn [bindr] in H; [|cbn in H; discriminate].
  unfold finish, grid_search in H.
  destruct (search_loop _ _ _ _ _ _ _) as [s' [[best rep']|e]] eqn:Hs; cbn [snd fst bindr] in H; [|destruct s'; discriminate].
  destruct s' as [y2 zs2]. injection H as <- Hxs' <- <-.
  set (zsS := map (sorted_run E) zs).
  set (sc := fun n => match snd (probfuse_train E y zs n) with Err e => Err e | Ok p =>
     match probfuse E zsS p "probfuse" with Err e => Err e | Ok z => do v <- snd (trial_eval E y z metric); Ok (p, v) end end).
  assert (Hstep : forall s t, same_qrels E y (fst s) /\ (snd s = zs \/ snd s = zsS) ->
     (is_Ok (snd (prob_trial E metric s t)) = true -> same_qrels E y (fst (fst (prob_trial E metric s t))) /\ snd (fst (prob_trial E metric s t)) = zsS) /\
     snd (prob_trial E metric s t) = sc t).
  { intros [y1 zs1] n [Hs1 Hs2]. cbn [fst snd] in *. unfold prob_trial, sc. cbn [fst snd].
    assert (Htr : snd (probfuse_train E y1 zs1 n) = snd (probfuse_train E y zs n) /\ same_qrels E y (fst (fst (probfuse_train E y1 zs1 n))) /\
       (is_Ok (snd (probfuse_train E y zs n)) = true -> snd (fst (probfuse_train E y1 zs1 n)) = zsS)).
    { destruct (prob_train_same E y y1 zs n Hs1) as (P1 & P2 & P3 & P4). destruct Hs2 as [ -> | -> ].
      - split; [exact P2|]. split; [right; exact P3|]. rewrite P2 in P4. exact P4.
      - split; [exact P1|]. destruct (prob_train_same E y y1 zsS n Hs1) as (Q1 & Q2 & Q3 & Q4). split; [right; exact Q3|].
        intros Hok. fold zsS in P1. rewrite P1 in Q4. rewrite (Q4 Hok). unfold zsS. rewrite map_map. apply map_ext. intros. apply sorted_run_again. }
    destruct Htr as (T1 & T2 & T3). destruct (probfuse_train E y1 zs1 n) as [[y3 zs3] r3]. cbn [fst snd] in *. rewrite <- T1 in *.
    destruct r3 as [p|e]; [|split; [cbn; discriminate|reflexivity]]. specialize (T3 eq_refl). subst zs3.
    destruct (probfuse E zsS p "probfuse") as [z|e]; [|split; [cbn; discriminate|reflexivity]].
    destruct (trial_eval_same E y y3 z metric Hy T2) as [U1 U2].
    destruct (trial_eval E y3 z metric) as [y4 rr]. cbn [fst snd] in *. subst rr. split; [intros _; auto|reflexivity]. }
  assert (Hlast : zs2 = match ns with [] => zs | _ => zsS end).
  { destruct ns as [|n ns]; cbn [search_loop] in Hs; [now injection Hs|].
    destruct (Hstep (y, zs) n (conj (or_introl eq_refl) (or_introl eq_refl))) as [HS _].
    destruct (prob_trial E metric (y, zs) n) as [s1 [[b1 v1]|e1]]; [|discriminate]. destruct (HS eq_refl) as [HS1 HS2].
    assert (Hin : forall bs b0 rep0, search_loop (prob_trial E metric) str_int s1 ns bs b0 rep0 = (y2, zs2, Ok (best, rep')) -> zs2 = zsS).
    { intros bs b0 rep0 Hr. eapply (search_loop_ok _ _ (fun s => same_qrels E y (fst s) /\ snd s = zsS) sc) in Hr; [|intros s t [S1 S2]; apply Hstep; auto|exact (conj HS1 HS2)].
      destruct Hr as ((_ & Hz) & _). exact Hz. }
    destruct (fleb _ _) in Hs; exact (Hin _ _ _ Hs). }
  apply (search_loop_ok _ _ (fun s => same_qrels E y (fst s) /\ (snd s = zs \/ snd s = zsS)) sc) in Hs.
  - destruct Hs as ((Hy2 & _) & bvs & H3 & H4 & H5). exists zs, ns, (map fst bvs), (map snd bvs), best.
    assert (Hlen : length bvs = length ns) by (clear - H3; induction H3; cbn; congruence).
    split; [reflexivity|]. split; [exists a, b; auto|]. split; [|split; [|split; [|split; [|split; [|split; [|split]]]]]].
    + replace (combine (map fst bvs) (map snd bvs)) with bvs by (clear; induction bvs as [|[u v] l IH]; cbn; congruence).
      clear - H3 Hy. induction H3 as [|n [p v] ns bvs Ht H3 IH]; constructor; auto. clear IH H3.
      unfold sc in Ht. cbn [fst snd].
      destruct (prob_train_same E y y zs n (or_introl eq_refl)) as (_ & _ & _ & T).
      destruct (probfuse_train E y zs n) as [[y1 zs1] [p'|e]]; cbn [snd fst is_Ok] in *; [|discriminate].
      destruct (probfuse E zsS p' "probfuse") as [z|] eqn:Hz; [|discriminate].
      destruct (snd (trial_eval E y z metric)) as [v'|] eqn:Hv; cbn [bindr] in Ht; [|discriminate]. injection Ht as -> ->.
      exists y1, zs1, z. split; [reflexivity|]. rewrite (T eq_refl). split; [exact Hz|]. now apply trial_eval_to.
    + now rewrite map_length.
    + now rewrite map_length.
    + reflexivity.
    + rewrite H4. apply run_best_chosen; exact HL.
    + exact Hy2.
    + rewrite <- Hxs', Hlast. destruct norm; [now destruct ns|]. cbn in A4. injection A4 as ->. destruct ns; reflexivity.
    + intros -> Hn. rewrite H5, fill_dict; [|exact Hn|now rewrite !map_length]. cbn [app].
      assert (Hl : length (map str_int ns) = length (map snd bvs)) by now rewrite !map_length.
      assert (Hk : forall (ks : list string) (vs : list F), length ks = length vs -> dkeys (combine ks vs) = ks /\ dvals (combine ks vs) = vs).
      { clear. induction ks; intros [|v vs]; cbn; intros; try discriminate; [auto|]. destruct (IHks vs) as [K1 K2]; [lia|]. unfold dkeys, dvals in *. split; cbn; f_equal; auto. }
      destruct (Hk _ _ Hl) as [-> ->]. reflexivity.
  - intros s t Hs1. destruct (Hstep s t Hs1) as [T1 T2]. split; [|exact T2]. intros Hok. destruct (T1 Hok); auto.
  - cbn [fst snd]. split; [now left|now left].
Qed.
(** ** C57: the methods with nothing to tune return what training returns *)
Theorem C57_training_only : forall (N : Num) (E : env N) pysort sh y xs norm metric zs,
  1 < length xs -> same_keys_check xs = true -> (forall x, In x xs -> keys_eqb (r_map x) (q_map y) = true) ->
  normalize_runs E xs norm = Ok zs ->
  let got method := snd (optimize_fusion E pysort sh y xs norm method metric false []) in
  got "bayesfuse" = (do p <- snd (bayesfuse_train E y zs); Ok ([("log_odds", Some (PLL p))], None)) /\
  got "mapfuse" = (do p <- snd (mapfuse_train E y zs); Ok ([("map_scores", Some (PL p))], None)) /\
  got "posfuse" = (do p <- snd (posfuse_train E y zs); Ok ([("probs", Some (PLL p))], None)) /\
  got "segfuse" = (do p <- snd (segfuse_train E y zs); Ok ([("probs", Some (PLL p))], None)).
Proof.
  intros N E pysort sh y xs norm metric zs H1 H2 H3 H4 got. unfold got, optimize_fusion.
  assert (A1 : (1 <? length xs) = true) by now apply Nat.ltb_lt. rewrite A1, H2. cbn [assertr bindr].
  assert (A3 : forallb (fun x => keys_eqb (r_map x) (q_map y)) xs = true) by (apply forallb_forall; exact H3).
  rewrite A3. cbn [assertr bindr]. rewrite H4. cbn [bindr].
  split; [|split; [|split]]; (match goal with |- context [optimization_switch ?a ?b ?c ?d] => let e := eval cbv delta [optimization_switch] beta in (optimization_switch a b c d) in change (optimization_switch a b c d) with e end; cbn [String.eqb Ascii.eqb Bool.eqb bindr]; unfold train_only; cbn [only dkeys map forallb bindr]);
    match goal with |- context [?f E y zs] => destruct (f E y zs) as [[y1 zs1] [p|e]] end; reflexivity.
Qed.
(** ** C57: what is refused, and that nothing is modified then *)
Theorem C57_refused : forall (N : Num) (E : env N) pysort sh y xs norm method metric rep kws,
  (length xs <= 1 \/ same_keys_check xs = false \/ exists x, In x xs /\ keys_eqb (r_map x) (q_map y) = false) ->
  optimize_fusion E pysort sh y xs norm method metric rep kws = (y, xs, Err AssertionError).
Proof.
  intros N E pysort sh y xs norm method metric rep kws H. unfold optimize_fusion.
  destruct (Nat.ltb_spec 1 (length xs)); cbn [assertr bindr]; [|reflexivity].
  destruct (same_keys_check xs) eqn:Hs; cbn [assertr bindr]; [|reflexivity].
  destruct (forallb _ xs) eqn:Hf; cbn [assertr bindr]; [|reflexivity]. exfalso.
  destruct H as [H|[H|(x & Hx & H)]]; [lia|congruence|]. rewrite forallb_forall in Hf. rewrite (Hf x Hx) in H. discriminate.
Qed.
(** a report is asked for and the method has no hyper-parameters: ValueError, and nothing was trained *)
Theorem C57_report_refused : forall (N : Num) (E : env N) pysort sh y xs norm method metric kws zs,
  1 < length xs -> same_keys_check xs = true -> (forall x, In x xs -> keys_eqb (r_map x) (q_map y) = true) -> normalize_runs E xs norm = Ok zs ->
  In method ["bayesfuse"; "mapfuse"; "posfuse"; "segfuse"] ->
  optimize_fusion E pysort sh y xs norm method metric true kws = (y, xs, Err ValueError).
Proof.
  intros N E pysort sh y xs norm method metric kws zs H1 H2 H3 H4 Hm. unfold optimize_fusion.
  assert (A1 : (1 <? length xs) = true) by now apply Nat.ltb_lt. rewrite A1, H2. cbn [assertr bindr].
  assert (A3 : forallb (fun x => keys_eqb (r_map x) (q_map y)) xs = true) by (apply forallb_forall; exact H3).
  rewrite A3. cbn [assertr bindr]. rewrite H4. cbn [bindr].
  assert (Hh : has_hyperparams method = Err ValueError) by (cbn in Hm; repeat (destruct Hm as [<-|Hm]; [reflexivity|]); destruct Hm).
  rewrite Hh. reflexivity.
Qed.
Theorem C57_unknown_method : forall (N : Num) (E : env N) pysort sh y xs norm method metric rep kws y' xs' r,
  ~ In method (hyper_methods ++ ["bayesfuse"; "mapfuse"; "posfuse"; "segfuse"]) ->
  optimize_fusion E pysort sh y xs norm method metric rep kws = (y', xs', Ok r) -> False.
Proof.
  intros N E pysort sh y xs norm method metric rep kws y' xs' r Hm H. unfold optimize_fusion in H.
  assert (Hsw : optimization_switch E pysort sh method = Err ValueError).
  { unfold optimization_switch.
    repeat match goal with |- (if String.eqb method ?s then _ else _) = _ =>
      destruct (String.eqb_spec method s) as [->|_]; [exfalso; apply Hm; cbn; tauto|] end. reflexivity. }
  rewrite Hsw in H.
  destruct (assertr (1 <? length xs)) as [[]|]; cbn [bindr] in H; [|discriminate].
  destruct (assertr (same_keys_check xs)) as [[]|]; cbn [bindr] in H; [|discriminate].
  destruct (assertr (forallb _ xs)) as [[]|]; cbn [bindr] in H; [|discriminate].
  destruct (normalize_runs E xs norm) as [zs|]; cbn [bindr] in H; [|discriminate].
  destruct (if rep then has_hyperparams method else Ok tt); cbn [bindr] in H; discriminate.
Qed.
(** ** C57: which exception *)
(** the keyword arguments each method takes *)
Definition options_of (method : string) : option (list string) :=
  dget [("gmnz", ["min_gamma"; "max_gamma"; "step"; "show_progress"]); ("logn_isr", ["min_sigma"; "max_sigma"; "step"; "show_progress"]);
        ("rbc", ["min_phi"; "max_phi"; "step"; "show_progress"]); ("rrf", ["min_k"; "max_k"; "step"; "show_progress"]);
        ("mixed", ["step"; "show_progress"]); ("w_bordafuse", ["step"; "show_progress"]); ("w_condorcet", ["step"; "show_progress"]);
        ("wmnz", ["step"; "show_progress"]); ("wsum", ["step"; "show_progress"]);
        ("probfuse", ["min_n_segments"; "max_n_segments"; "show_progress"]); ("slidefuse", ["min_w"; "max_w"; "show_progress"]);
        ("bayesfuse", []); ("mapfuse", []); ("posfuse", []); ("segfuse", [])] method.
Lemma only_refuses {N : Num} (allowed : list string) (ps : @params N) k v : dget ps k = Some v -> ~ In k allowed -> only allowed ps = Err TypeError.
Proof.
  intros Hk Hn. unfold only. destruct (forallb _ _) eqn:Hf; [|reflexivity]. exfalso. rewrite forallb_forall in Hf.
  assert (Hin : In k (dkeys ps)) by (apply dget_Some_in in Hk; unfold dkeys; apply (in_map fst) in Hk; exact Hk).
  specialize (Hf k Hin). apply existsb_exists in Hf as (a & Ha & He). apply String.eqb_eq in He. subst a. contradiction.
Qed.
(** valid runs, a known method and a keyword it does not take: TypeError; an unknown method:
    ValueError; either way nothing has changed *)
Theorem C57_which_error : forall (N : Num) (E : env N) pysort sh y xs norm method metric rep kws zs,
  1 < length xs -> same_keys_check xs = true -> (forall x, In x xs -> keys_eqb (r_map x) (q_map y) = true) -> normalize_runs E xs norm = Ok zs ->
  match options_of method with
  | None => optimize_fusion E pysort sh y xs norm method metric rep kws = (y, xs, Err ValueError)
  | Some options => (rep = true -> In method hyper_methods) ->
      (exists k v, dget kws k = Some v /\ ~ In k options) -> 
      optimize_fusion E pysort sh y xs norm method metric rep kws = (y, xs, Err TypeError)
  end.
Proof.
  intros N E pysort sh y xs norm method metric rep kws zs H1 H2 H3 H4.
  assert (A1 : (1 <? length xs) = true) by now apply Nat.ltb_lt.
  assert (A3 : forallb (fun x => keys_eqb (r_map x) (q_map y)) xs = true) by (apply forallb_forall; exact H3).
  destruct (options_of method) as [options|] eqn:Ho.
  - intros Hrep (k & v & Hk & Hn).
    assert (Hh : (if rep then has_hyperparams method else Ok tt) = Ok tt).
    { destruct rep; [|reflexivity]. unfold has_hyperparams. rewrite (proj2 (existsb_exists _ _)); [reflexivity|]. exists method. split; [now apply Hrep|apply String.eqb_refl]. }
    unfold optimize_fusion. rewrite A1, H2. cbn [assertr bindr]. rewrite A3. cbn [assertr bindr]. rewrite H4. cbn [bindr]. rewrite Hh. cbn [bindr].
    unfold options_of in Ho. cbn [dget] in Ho.
    repeat match type of Ho with (if String.eqb ?s method then _ else _) = _ =>
      destruct (String.eqb_spec s method) as [<-|_];
        [injection Ho as <-; unfold optimization_switch; cbn [String.eqb Ascii.eqb Bool.eqb bindr];
         unfold optimize_comb_gmnz, optimize_logn_isr, optimize_rbc, opt_float, optimize_rrf, optimize_mixed, optimize_weighted_bordafuse,
           optimize_weighted_condorcet, optimize_wmnz, optimize_wsum, optimize_weights, optimize_probfuse, optimize_slidefuse, train_only;
         rewrite (only_refuses _ kws k v Hk Hn); cbn [bindr failed]; destruct norm; [reflexivity|injection H4 as <-; reflexivity]|] 
    | (if String.eqb method ?s then _ else _) = _ =>
      destruct (String.eqb_spec method s) as [->|_];
        [injection Ho as <-; unfold optimization_switch; cbn [String.eqb Ascii.eqb Bool.eqb bindr];
         unfold optimize_comb_gmnz, optimize_logn_isr, optimize_rbc, opt_float, optimize_rrf, optimize_mixed, optimize_weighted_bordafuse,
           optimize_weighted_condorcet, optimize_wmnz, optimize_wsum, optimize_weights, optimize_probfuse, optimize_slidefuse, train_only;
         rewrite (only_refuses _ kws k v Hk Hn); cbn [bindr failed]; destruct norm; [reflexivity|injection H4 as <-; reflexivity]|] end.
    discriminate.
  - unfold optimize_fusion. rewrite A1, H2. cbn [assertr bindr]. rewrite A3. cbn [assertr bindr]. rewrite H4. cbn [bindr].
    assert (Hsw : optimization_switch E pysort sh method = Err ValueError).
    { unfold options_of in Ho. cbn [dget] in Ho. unfold optimization_switch.
      repeat match goal with |- (if String.eqb method ?s then _ else _) = _ =>
        destruct (String.eqb_spec method s) as [->|_]; [exfalso; cbn in Ho; discriminate|] end. reflexivity. }
    rewrite Hsw. unfold has_hyperparams. destruct rep; [destruct (existsb _ _)|]; reflexivity.
Qed.
Print Assumptions C57_which_error.
Print Assumptions C57_slidefuse.
Print Assumptions C57_probfuse.
Print Assumptions C57_training_only.
Print Assumptions C57_refused.
Print Assumptions C57_unknown_method.
Print Assumptions C57_report_refused.
