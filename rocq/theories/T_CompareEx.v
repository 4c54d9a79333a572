(** T_CompareEx.v: concrete runs of compare on binary64, and what fails (C60, C61, C68) *)
From Coq Require Import SpecFloat Reals.
From Verif Require Import Base Dict Num NumLaws NumCmp Env EnvEx M_Common M_Qrels M_Run M_History M_Metrics M_Text M_Evaluate M_Compare
  Spec_DS Spec_Hist Spec_Eval Spec_Compare P_History P_Optimize P_Compare Ex_Metrics T_Evaluate3 T_Optimize4 T_Compare T_Compare2 T_Compare3.
Open Scope string_scope.
Open Scope list_scope.
Open Scope nat_scope.

Definition with_name (s : option string) (x : Run NumSF) : Run NumSF := mkRun (r_map x) (r_sorted x) s (r_scores x) (r_mean x) (r_std x).
Definition c_T : tests NumSF := Tests (fun i j m p q => Nat.odd (p + q)) (fun _ _ => @fdec NumSF 5 3) (fun l => Ok (fun i j => @fdec NumSF 5 3)).
Definition c_a := with_name (Some "a") o_x1.
Definition c_b := with_name (Some "a") o_x2.
Definition c_run xs metrics test := @compare NumSF env_ex c_T o_y xs metrics test 2 (@fdec NumSF 1 2) 3%Z false false.

Lemma by_parts {A B R W : Type} (r : A * B * result R) (f : R -> W) (w : W) :
  match snd r with Ok rep => Some (f rep) | Err _ => None end = Some w -> exists a b rep, r = (a, b, Ok rep) /\ f rep = w.
Proof. destruct r as [[a b] [rep|e]]; cbn [snd]; intros H; [|discriminate]. injection H as H. eauto 10. Qed.

(** a named and an unnamed run, two metrics, Fisher's test *)
Example ex_C60 : exists y' xs' rep, c_run [c_a; o_x2] ["hits@1"; "map"] "fisher" = (y', xs', Ok rep) /\
  rp_names rep = ["a"; "run_2"] /\
  kget (rp_wtl rep) ["a"; "run_2"] = Some [("hits@1", WTL 1 0 1); ("map", WTL 1 0 1)] /\
  fsd_get (rp_comparisons rep) ["run_2"; "a"] = Ok [("hits@1", Some (@fofZ NumSF 1, false)); ("map", Some (@fofZ NumSF 1, false))] /\
  dget2 (rp_results rep) "a" "map" = Some (@fdec NumSF 75 2).
Proof.
  destruct (by_parts (c_run [c_a; o_x2] ["hits@1"; "map"] "fisher")
    (fun rep => (rp_names rep, kget (rp_wtl rep) ["a"; "run_2"], fsd_get (rp_comparisons rep) ["run_2"; "a"], dget2 (rp_results rep) "a" "map"))
    (["a"; "run_2"], Some [("hits@1", WTL 1 0 1); ("map", WTL 1 0 1)], Ok [("hits@1", Some (@fofZ NumSF 1, false)); ("map", Some (@fofZ NumSF 1, false))], Some (@fdec NumSF 75 2)))
    as (y' & xs' & rep & H1 & H2); [vmr|].
  exists y', xs', rep. split; [exact H1|]. split; [exact (f_equal (fun t => fst (fst (fst t))) H2)|]. split; [exact (f_equal (fun t => snd (fst (fst t))) H2)|]. split; [exact (f_equal (fun t => snd (fst t)) H2)|exact (f_equal snd H2)].
Qed.
Lemma o_x_ok l : dict2_ok (r_map (o_x l)).
Proof.
  assert (H : @run_inv NumSF (o_x l)); [|apply H]. unfold o_x.
  apply (@run_hist_inv NumSF env_ex (env_ex_ok NumSF_ok) NumSF_ok); [apply (@run_inv_empty NumSF)| |]; apply Forall_forall; intros o Ho; apply in_map_iff in Ho as (z & <- & _); [exact I|].
  cbn [run_op_nan_free]. apply (@law_ofZ_nan NumSF NumSF_ok).
Qed.
Example ex_C60_hyps : dict_ok (q_map o_y) /\ Forall (fun x : Run NumSF => dict2_ok (r_map x)) [c_a; o_x2] /\ NumLaws NumSF /\ NumCmp NumSF /\
  stands_for [c_a; o_x2] "a" c_a /\ stands_for [c_a; o_x2] "run_2" o_x2.
Proof.
  split; [apply ex_C57_hyps|].
  assert (Hd : forall l, dict2_ok (r_map (o_x l)) -> dict2_ok (r_map (with_name (Some "a") (o_x l)))) by (intros l H; exact H).
  assert (H12 : dict2_ok (r_map o_x1) /\ dict2_ok (r_map o_x2)) by (split; apply o_x_ok).
  split; [constructor; [apply Hd, H12|constructor; [apply H12|constructor]]|].
  split; [apply NumSF_ok|]. split; [apply NumSF_cmp'|]. split.
  - exists 0. split; [split; reflexivity|]. intros [|[|j]] x' Hj [H1 H2]; [inversion Hj| |cbn in H1; destruct j; discriminate].
    cbn in H1. injection H1 as <-. discriminate.
  - exists 1. split; [split; reflexivity|]. intros [|[|j]] x' Hj [H1 H2]; [inversion Hj|inversion Hj as [|? Hj']; inversion Hj'|cbn in H1; destruct j; discriminate].
Qed.

(** C60: wins, ties and losses need not add up to the number of queries: bpref of a query without
    judged non-relevant documents is NaN, and NaN neither wins, ties nor loses. *)
Theorem C60_nan_refuted : exists y' xs' rep, c_run [c_a; o_x2] ["bpref"] "student" = (y', xs', Ok rep) /\ length (q_map o_y) = 2 /\
  kget (rp_wtl rep) ["a"; "run_2"] = Some [("bpref", WTL 0 0 0)].
Proof.
  destruct (by_parts (c_run [c_a; o_x2] ["bpref"] "student") (fun rep => kget (rp_wtl rep) ["a"; "run_2"]) (Some [("bpref", WTL 0 0 0)])) as (y' & xs' & rep & H1 & H2); [vmr|].
  exists y', xs', rep. split; [exact H1|]. split; [vmr|exact H2].
Qed.
(** C61: two runs of the same name: they are never compared, and only the last one's scores are kept. *)
Theorem C61_same_name_refuted : exists y' xs' rep, c_run [c_a; c_b] ["map"] "student" = (y', xs', Ok rep) /\
  rp_names rep = ["a"; "a"] /\ rp_comparisons rep = [] /\ rp_wtl rep = [] /\ length (rp_results rep) = 1 /\
  exists y'' xs'' rep', c_run [c_b] ["map"] "student" = (y'', xs'', Ok rep') /\ rp_results rep' = rp_results rep.
Proof.
  pose (res := [("a", [("map", S754_finite false 7130699410003285 (-53))])] : dict (dict (@F NumSF))).
  destruct (by_parts (c_run [c_a; c_b] ["map"] "student") (fun rep => (rp_names rep, rp_comparisons rep, rp_wtl rep, rp_results rep)) (["a"; "a"], [], [], res)) as (y' & xs' & rep & H1 & H2); [vmr|].
  destruct (by_parts (c_run [c_b] ["map"] "student") (fun rep => rp_results rep) res) as (y2 & xs2 & rep2 & H3 & H4); [vmr|].
  exists y', xs', rep. split; [exact H1|]. pose proof (f_equal snd H2) as E4. cbn [snd] in E4.
  split; [exact (f_equal (fun t => fst (fst (fst t))) H2)|]. split; [exact (f_equal (fun t => snd (fst (fst t))) H2)|]. split; [exact (f_equal (fun t => snd (fst t)) H2)|].
  split; [rewrite E4; reflexivity|]. exists y2, xs2, rep2. split; [exact H3|]. etransitivity; [exact H4|]. symmetry. exact E4.
Qed.
(** Tukey's test also fills the entry of a model with itself *)
Example ex_C61_tukey : exists y' xs' rep, c_run [c_a; o_x2] ["bpref"] "tukey" = (y', xs', Ok rep) /\
  fsd_get (rp_comparisons rep) ["a"; "a"] = Ok [("bpref", Some (@fdec NumSF 5 3, true))].
Proof.
  destruct (by_parts (c_run [c_a; o_x2] ["bpref"] "tukey") (fun rep => fsd_get (rp_comparisons rep) ["a"; "a"]) (Ok [("bpref", Some (@fdec NumSF 5 3, true))])) as (y' & xs' & rep & H1 & H2); [vmr|].
  exists y', xs', rep. split; [exact H1|exact H2].
Qed.
Print Assumptions C60_win_tie_loss.
Print Assumptions C60_nan_refuted.
Print Assumptions C61_comparisons.
Print Assumptions C61_tukey.
Print Assumptions C61_other_tests.
Print Assumptions C61_same_name_refuted.
Print Assumptions C68_results.

(** C68: the qrels and the run of ex_C18, compared with its rescored variant *)
Lemma Forall2x {A} (P : A -> Prop) x : P x -> Forall P [x; x].
Proof. intros H. constructor; [exact H|]. constructor; [exact H|]. constructor. Qed.
Lemma ex_x_name : r_name ex_x = None.
Proof. reflexivity. Qed.
Example ex_C68 : forall T : tests NumR, exists y' xs' rep qs, @compare NumR env_ex T ex_y [ex_x; ex_x] ["ndcg@5"; "map"; "rbp.95"; "precision@1-l2"] "fisher" 10 (1/100)%R 3%Z false false = (y', xs', Ok rep) /\
  Permutation qs (dkeys (q_map ex_y)) /\ rp_names rep = ["run_1"; "run_2"] /\ In "map" (rp_metrics rep) /\
  exists e p, fsd_get (rp_comparisons rep) ["run_1"; "run_2"] = Ok e /\ dget e "map" = Some (Some (p, @fleb NumR p (1/100)%R)).
Proof.
  intros T. assert (HE := env_ex_ok NumR_laws).
  assert (Hxs : Forall (run_reachable env_ex) [ex_x; ex_x]) by (exact (Forall2x _ _ ex_x_reachable)).
  destruct (C68_compare env_ex HE T ex_y [ex_x; ex_x] ["ndcg@5"; "map"; "rbp.95"; "precision@1-l2"] "fisher" 10 (1/100)%R 3%Z false false ex_y_reachable Hxs)
    as (y' & xs' & rep & qs & Hc & Hp & _ & _).
  - intros _. exact (Forall2x (fun x : Run NumR => same_queries (q_map ex_y) (r_map x)) ex_x ex_same).
  - exact (Forall2x (fun x : Run NumR => docs_distinct env_ex (q_map ex_y) (r_map x)) ex_x ex_docs).
  - exact ex_metrics.
  - now left.
  - assert (Oy : dict_ok (q_map ex_y)) by apply (P_Eval.qrels_reachable_inv env_ex HE ex_y ex_y_reachable).
    assert (Ox : Forall (fun x : Run NumR => dict2_ok (r_map x)) [ex_x; ex_x]) by (exact (Forall2x (fun x : Run NumR => dict2_ok (r_map x)) ex_x (proj1 (P_Eval.run_reachable_inv env_ex HE ex_x ex_x_reachable)))).
    destruct (C68_results _ _ _ _ _ _ _ _ _ _ _ _ _ _ _ Oy Ox Hc) as (Hn & Hnames & Hm & _ & _ & Hst & _).
    assert (Hnm : rp_names rep = ["run_1"; "run_2"]).
    { pose proof (Hnames 0 ex_x eq_refl) as H0. pose proof (Hnames 1 ex_x eq_refl) as H1. destruct (rp_names rep) as [|a [|b [|]]]; try discriminate Hn.
      cbn [nth_error] in H0, H1. unfold model_name in H0, H1. rewrite ex_x_name in H0, H1. injection H0 as ->. injection H1 as ->. reflexivity. }
    exists y', xs', rep, qs. split; [exact Hc|]. split; [exact Hp|]. split; [exact Hnm|]. split; [rewrite Hm; cbn; auto|].
    destruct (C61_comparisons _ _ _ _ _ _ _ _ _ _ _ _ _ _ _ Oy Ox Hc) as (_ & Hf). destruct (Hf (or_introl eq_refl)) as (_ & Hp2). rewrite Hnm in Hst.
    destruct (Hst "run_1") as (x1 & S1); [cbn; auto|]. destruct (Hst "run_2") as (x2 & S2); [cbn; auto|].
    destruct (Hp2 "run_1" "run_2" x1 x2 "map" S1 S2) as (e & p & l1 & l2 & H1 & H2 & _); [discriminate|cbn; auto|]. exists e, p. split; [exact H1|exact H2].
Qed.
