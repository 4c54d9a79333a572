(** T_ReportEx.v: concrete reports on binary64, and what fails (C63, C64, C65) *)
From Coq Require Import SpecFloat Reals.
From Verif Require Import Base Dict Num NumLaws NumCmp Env EnvEx M_Common M_Qrels M_Run M_History M_Metrics M_Text M_Evaluate M_Compare M_Report
  Spec_DS Spec_Hist Spec_Eval Spec_Compare Spec_Report P_History P_Optimize P_Compare Ex_Metrics T_Evaluate3 T_Optimize4 T_Compare T_Compare2 T_Compare3 T_CompareEx
  T_Report T_Report2 T_Report3 T_Report4.
Open Scope string_scope.
Open Scope list_scope.
Open Scope nat_scope.

(** a format good enough for the examples: it does not round, and only knows 3/4 *)
Definition f_ex : format NumSF := Format (fun x _ => x) (fun _ x => if @feqb NumSF x (@fdec NumSF 75 2) then "0.750" else "0.792") (fun _ => "0.01").
Definition show_table (rep : report NumSF) := to_table f_ex rep.

(** run_2 significantly outperforms a in map *)
Example ex_C63 : exists y' xs' rep, c_run [c_a; o_x2] ["map"] "student" = (y', xs', Ok rep) /\
  show_table rep = Ok (["#"; "Model"; "MAP"], [["a"; "a"; "0.750"]; ["b"; "run_2"; "0.792ᵃ"]]) /\
  get_superscript_for_latex rep "run_2" "map" = Ok "a" /\ get_phantoms_for_latex rep "a" "map" = Ok "b" /\
  best_model f_ex rep "map" = Ok (Some "run_2") /\ is_Ok (to_latex f_ex rep) = true /\
  outperforms rep "run_2" "a" "map".
Proof.
  destruct (by_parts (c_run [c_a; o_x2] ["map"] "student")
    (fun rep => (show_table rep, get_superscript_for_latex rep "run_2" "map", get_phantoms_for_latex rep "a" "map", best_model f_ex rep "map", is_Ok (to_latex f_ex rep)))
    (Ok (["#"; "Model"; "MAP"], [["a"; "a"; "0.750"]; ["b"; "run_2"; "0.792ᵃ"]]), Ok "a", Ok "b", Ok (Some "run_2"), true))
    as (y' & xs' & rep & H1 & H2); [vmr|].
  pose proof (f_equal (fun t => fst (fst (fst (fst t)))) H2) as E1. pose proof (f_equal (fun t => snd (fst (fst (fst t)))) H2) as E2. pose proof (f_equal (fun t => snd (fst (fst t))) H2) as E3.
  pose proof (f_equal (fun t => snd (fst t)) H2) as E4. pose proof (f_equal snd H2) as E5. cbn [fst snd] in E1, E2, E3, E4, E5.
  exists y', xs', rep. split; [exact H1|]. split; [exact E1|]. split; [exact E2|]. split; [exact E3|]. split; [exact E4|]. split; [exact E5|].
  destruct (proj1 (proj2 (C63_superscripts NumSF rep "run_2" "map" "a")) E2) as (js & (_ & _ & Hs) & Hj).
  destruct js as [|j js]; [discriminate|]. destruct (proj1 (Hj j) (or_introl eq_refl)) as (other & Ho & Hne & Hp).
  assert (Hn : rp_names rep = ["a"; "run_2"]).
  { assert (Hd : dict_ok (q_map o_y) /\ Forall (fun x : Run NumSF => dict2_ok (r_map x)) [c_a; o_x2]) by (split; apply ex_C60_hyps).
    destruct (C68_results NumSF env_ex c_T o_y [c_a; o_x2] ["map"] "student" 2 (@fdec NumSF 1 2) 3%Z false false y' xs' rep (proj1 Hd) (proj2 Hd) H1) as (Hl & Hnames & _).
    pose proof (Hnames 0 c_a eq_refl) as N0. pose proof (Hnames 1 o_x2 eq_refl) as N1. destruct (rp_names rep) as [|u [|v [|]]]; try discriminate Hl.
    cbn [nth_error] in N0, N1. injection N0 as ->. injection N1 as ->. reflexivity. }
  rewrite Hn in Ho. destruct j as [|[|j]]; cbn [nth_error] in Ho.
  - injection Ho as <-. exact Hp.
  - injection Ho as <-. congruence.
  - destruct j; discriminate.
Qed.

(** C63: with two models of the same name the letters of the text table do not match its rows: "a"
    outperforms "run_3", whose row has the letter b, but the superscript says c. *)
Theorem C63_same_name_refuted : exists y' xs' rep, c_run [c_a; c_b; o_x1] ["map"] "student" = (y', xs', Ok rep) /\
  show_table rep = Ok (["#"; "Model"; "MAP"], [["a"; "a"; "0.792ᶜ"]; ["b"; "run_3"; "0.750"]]).
Proof.
  exact (by_parts (c_run [c_a; c_b; o_x1] ["map"] "student") show_table (Ok (["#"; "Model"; "MAP"], [["a"; "a"; "0.792ᶜ"]; ["b"; "run_3"; "0.750"]])) ltac:(vmr)).
Qed.
(** With a repeated metric the header is longer than the rows. *)
Theorem C63_same_metric_refuted : exists y' xs' rep, c_run [c_a; o_x2] ["map"; "map"] "student" = (y', xs', Ok rep) /\
  show_table rep = Ok (["#"; "Model"; "MAP"; "MAP"], [["a"; "a"; "0.750"]; ["b"; "run_2"; "0.792ᵃ"]]).
Proof.
  exact (by_parts (c_run [c_a; o_x2] ["map"; "map"] "student") show_table (Ok (["#"; "Model"; "MAP"; "MAP"], [["a"; "a"; "0.750"]; ["b"; "run_2"; "0.792ᵃ"]])) ltac:(vmr)).
Qed.
(** A metric that evaluate understands but that has no label breaks both tables. *)
Theorem C66_table_refuted : exists y' xs' rep, c_run [c_a; o_x2] ["rbp@95"] "student" = (y', xs', Ok rep) /\
  (show_table rep, to_latex f_ex rep) = (Err KeyError, Err KeyError).
Proof. exact (by_parts (c_run [c_a; o_x2] ["rbp@95"] "student") (fun rep => (show_table rep, to_latex f_ex rep)) (Err KeyError, Err KeyError) ltac:(vmr)). Qed.

(** C65 *)
Definition dict_of (rep : report NumSF) : result (list (string * option (list string))) :=
  do d <- to_dict rep; Ok (map (fun kv => (fst kv, match snd kv with RString s => Some [s] | RList l => Some l | RModel _ => None end)) d).
Example ex_C65 : exists y' xs' rep, c_run [c_a; o_x2] ["map"; "mrr"] "student" = (y', xs', Ok rep) /\
  dict_of rep = Ok [("stat_test", Some ["student"]); ("metrics", Some ["map"; "mrr"]); ("model_names", Some ["a"; "run_2"]); ("a", None); ("run_2", None)].
Proof.
  exact (by_parts (c_run [c_a; o_x2] ["map"; "mrr"] "student") dict_of (Ok [("stat_test", Some ["student"]); ("metrics", Some ["map"; "mrr"]); ("model_names", Some ["a"; "run_2"]); ("a", None); ("run_2", None)]) ltac:(vmr)).
Qed.
(** C65: a run called "metrics" hides the list of metrics; one called "model_names" breaks to_dataframe. *)
Theorem C65_names_refuted : 
  (exists y' xs' rep, c_run [with_name (Some "metrics") o_x1; o_x2] ["map"] "student" = (y', xs', Ok rep) /\
     dict_of rep = Ok [("stat_test", Some ["student"]); ("metrics", None); ("model_names", Some ["metrics"; "run_2"]); ("run_2", None)]) /\
  (exists y' xs' rep, c_run [with_name (Some "model_names") o_x1; o_x2] ["map"] "student" = (y', xs', Ok rep) /\ is_Ok (to_dataframe rep) = false).
Proof.
  split.
  - exact (by_parts (c_run [with_name (Some "metrics") o_x1; o_x2] ["map"] "student") dict_of
      (Ok [("stat_test", Some ["student"]); ("metrics", None); ("model_names", Some ["metrics"; "run_2"]); ("run_2", None)]) ltac:(vmr)).
  - exact (by_parts (c_run [with_name (Some "model_names") o_x1; o_x2] ["map"] "student") (fun rep => is_Ok (to_dataframe rep)) false ltac:(vmr)).
Qed.
(** the hypotheses of the theorems about tables, on ex_C63 *)
Example ex_C63_hyps : dict_ok (q_map o_y) /\ Forall (fun x : Run NumSF => dict2_ok (r_map x)) [c_a; o_x2] /\ length [c_a; o_x2] <= 26 /\ NoDup ["map"] /\
  precision_ok 3 false /\ Forall (fun m => is_Ok (get_metric_label m) = true) ["map"].
Proof.
  split; [apply ex_C60_hyps|]. split; [apply ex_C60_hyps|]. split; [cbn; repeat constructor|]. split; [constructor; [intros []|constructor]|]. split; [cbv; discriminate|]. constructor; [reflexivity|constructor].
Qed.
Print Assumptions C63_superscripts.
Print Assumptions C63_total.
Print Assumptions C63_too_many.
Print Assumptions C63_alphabets.
Print Assumptions C63_table.
Print Assumptions C63_tables_total.
Print Assumptions C63_precision.
Print Assumptions C64_best.
Print Assumptions C64_total.
Print Assumptions C64_latex.
Print Assumptions C65_to_dict.
Print Assumptions C65_to_dataframe.
Print Assumptions C65_names_refuted.
