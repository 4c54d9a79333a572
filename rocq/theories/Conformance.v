(** Conformance.v: the repository's own unit tests replayed on the model.

    These are tests of the MODEL, not proofs of properties: each [Example] evaluates the model, in
    binary64, on the literal inputs of one test under /repo/tests/unit/ranx and compares with the value
    the test asserts (with [==], [isclose]/[allclose] or [round], as the test does).  They tie the
    definitions of the M_ files to behaviour the project itself records, and so guard against a model
    that is consistent but wrong.  The logarithms, which IEEE does not specify, are tables of the values
    the tests need ([ln_tab] elsewhere has only the right sign). *)
From Coq Require Import SpecFloat.
From Verif Require Import Base Dict Num NumLaws Env EnvEx M_Common M_Qrels M_Run M_Strings M_Text M_Metrics M_Evaluate M_Norm M_Fusion M_Train M_IO M_Container T_Fusion6.
Open Scope list_scope.
Open Scope string_scope.
Open Scope nat_scope.

Definition z (x : Z) : sf := sf_of_Z x.
Definition d (m : Z) (e : nat) : sf := sf_dec m e.
Declare Scope sf_scope.
Delimit Scope sf_scope with sf.
Infix "+" := sf_add : sf_scope.
Infix "-" := sf_sub : sf_scope.
Infix "*" := sf_mul : sf_scope.
Infix "/" := sf_div : sf_scope.
Arguments z x%Z_scope.
Arguments d m%Z_scope e%nat_scope.

Definition log2_tab (x : sf) : sf :=
  if sf_eqb x (z 2) then z 1 else if sf_eqb x (z 3) then d 1584962500721156 15
  else if sf_eqb x (z 4) then z 2 else if sf_eqb x (z 5) then d 2321928094887362 15
  else if sf_eqb x (z 6) then d 2584962500721156 15 else if sf_eqb x (z 7) then d 2807354922057604 15 else S754_nan.
Definition lg (n : Z) : sf := log2_tab (z n).
Arguments lg n%Z_scope.
Definition ln_tab (x : sf) : sf := if sf_eqb x (z 2) then d 6931471805599453 16 else sf_sub x (z 1).
(** powers with a non-negative integer exponent, by repeated multiplication *)
Definition pow_tab (x y : sf) : sf := sf_npow x (Z.to_nat (sf_trunc y)).
Definition NT : Num := NumSF_with ln_tab log2_tab pow_tab.
Definition E : env NT := env_ex.

(** [==], [isclose] (relative tolerance 1e-9), [round(x, n) == y] *)
Definition same (a b : sf) : bool := sf_eqb a b.
Definition close (a b : sf) : bool :=
  sf_leb (SFabs (sf_sub a b)) (sf_mul (d 1 9) (if sf_ltb (SFabs a) (SFabs b) then SFabs b else SFabs a)).
Definition rounds (n : nat) (a b : sf) : bool := sf_ltb (SFabs (sf_sub a b)) (d 5 (S n)).
Definition mk (m : dict (dict sf)) : Run NT := match Run_init (N := NT) E m None with Ok x => x | Err _ => Run_empty end.
Definition mkq (m : dict (dict Z)) : Qrels := match Qrels_init (N := NT) E m None with Ok x => x | Err _ => Qrels_empty end.

(** same queries, same documents, equal values *)
Definition map_is {V} (cmp : V -> V -> bool) (m e : dict (dict V)) : bool :=
  (length m =? length e) &&
  forallb (fun qr => match dget m (fst qr) with
                     | Some r => (length r =? length (snd qr)) &&
                                 forallb (fun dv => match dget r (fst dv) with Some v => cmp v (snd dv) | None => false end) (snd qr)
                     | None => false
                     end) e.
Definition named (x : Run NT) (n : string) : bool := match r_name x with Some s => String.eqb s n | None => false end.
Definition is_map (cmp : sf -> sf -> bool) (r : result (Run NT)) (e : dict (dict sf)) : bool :=
  match r with Ok x => map_is cmp (r_map x : dict (dict sf)) e | Err _ => false end.
Definition is_run (cmp : sf -> sf -> bool) (r : result (Run NT)) (n : string) (e : dict (dict sf)) : bool :=
  is_map cmp r e && match r with Ok x => named x n | Err _ => false end.
Definition is_qmap (m e : dict (dict Z)) : bool := map_is Z.eqb m e.
Fixpoint list_is {A B} (cmp : A -> B -> bool) (a : list A) (b : list B) : bool :=
  match a, b with
  | [], [] => true
  | x :: a', y :: b' => cmp x y && list_is cmp a' b'
  | _, _ => false
  end.
Definition leqb := list_is String.eqb.
Definition lleqb := list_is (list_is leqb).
Definition zleqb := list_is Z.eqb.
Definition fleqb := list_is same.
Definition same_set (a b : list string) : bool :=
  forallb (fun x => existsb (String.eqb x) b) a && forallb (fun x => existsb (String.eqb x) a) b.
Definition keys_at {V} (m : dict (dict V)) (q : string) : list string := match dget m q with Some r => dkeys r | None => [] end.
Definition vals_at {V} (m : dict (dict V)) (q : string) : list V := match dget m q with Some r => dvals r | None => [] end.
(** what a training function returns *)
Definition with_trained {A} (t : Qrels * list (Run NT) * result A) (f : A -> bool) : bool := match snd t with Ok l => f l | Err _ => false end.
Definition tables (t : Qrels * list (Run NT) * result (list (list sf))) (e : list (list sf)) : bool :=
  with_trained t (fun l => list_is fleqb l e).
(** what [evaluate] returns *)
Definition ev (y x : list (@rows NT)) (m : string) := evaluate (N := NT) E (QTyped (N := NT) y) (RTyped (N := NT) x) [m] true false true false.
Definition mean_of (o : eval_out (N := NT)) : option sf := match ev_res o with Ok (OutOne (OMean m)) => Some m | _ => None end.
Definition is_mean (cmp : sf -> sf -> bool) (o : eval_out (N := NT)) (v : sf) : bool := match mean_of o with Some m => cmp m v | None => false end.
Definition returns (o : eval_out (N := NT)) : bool := is_Ok (ev_res o).
Definition scores_of (y : Qrels) (x : Run NT) (m : string) : option (list sf) :=
  match ev_res (evaluate (N := NT) E (QObj y) (RObj x) [m] false false true false) with Ok (OutOne (OArr l)) => Some l | _ => None end.
Definition arrays (cmp : sf -> sf -> bool) (o : option (list sf)) (e : list sf) : bool := match o with Some l => list_is cmp l e | None => false end.
Definition kind_is (kinds : list string) (path kind : string) : bool := match get_file_kind kinds path None with Ok k => String.eqb k kind | Err _ => false end.
Definition flt : floats NT := Floats (N := NT)
  (fun x => if sf_eqb x (d 1 1) then "0.1" else if sf_eqb x (d 2 1) then "0.2" else "0.3")
  (fun s => if String.eqb s "0.1" then Ok (d 1 1) else if String.eqb s "0.2" then Ok (d 2 1) else if String.eqb s "0.3" then Ok (d 3 1) else Err ValueError)
  (fun _ => true) S754_nan.
Open Scope sf_scope.
Definition run_1 := mk ([("q1", [("d1", z (1)); ("d2", z (2)); ("d3", z (3))]); ("q2", [("d1", z (1)); ("d2", z (2))])] : dict (dict sf)).
Definition run_2 := mk ([("q1", [("d1", z (3)); ("d2", z (2))]); ("q2", [("d1", z (1)); ("d3", z (3))])] : dict (dict sf)).
Definition run_3 := mk ([("q1", [("d3", z (1))]); ("q2", [("d2", z (2)); ("d3", z (3))])] : dict (dict sf)).
Definition crun_2 := mk ([("q1", [("d1", z (2)); ("d2", z (3))]); ("q2", [("d1", z (1)); ("d3", z (3))])] : dict (dict sf)).
Definition crun_3 := mk ([("q1", [("d3", z (3))]); ("q2", [("d2", z (2)); ("d3", z (3))])] : dict (dict sf)).
Definition crun_4 := mk ([("q1", [("d1", z (1)); ("d2", z (2)); ("d3", z (3))]); ("q2", [])] : dict (dict sf)).
Definition crun_5 := mk ([("q1", [("d1", z (2)); ("d2", z (3))]); ("q2", [])] : dict (dict sf)).
Definition crun_6 := mk ([("q1", [("d3", z (3))]); ("q2", [])] : dict (dict sf)).
Definition rbc_1 := mk ([("q1", [("A", z (7)); ("D", z (6)); ("B", z (5)); ("C", z (4)); ("G", z (3)); ("F", z (2))])] : dict (dict sf)).
Definition rbc_2 := mk ([("q1", [("B", z (7)); ("D", z (6)); ("E", z (5)); ("C", z (4))])] : dict (dict sf)).
Definition rbc_3 := mk ([("q1", [("A", z (7)); ("B", z (6)); ("D", z (5)); ("C", z (4)); ("G", z (3)); ("F", z (2)); ("E", z (1))])] : dict (dict sf)).
Definition rbc_4 := mk ([("q1", [("G", z (7)); ("D", z (6)); ("E", z (5)); ("A", z (4)); ("F", z (3)); ("C", z (2))])] : dict (dict sf)).
Definition qrels := mkq ([("q1", [("d1", 1%Z)]); ("q2", [("d1", 1%Z)])] : dict (dict Z)).
Definition runs := [run_1; run_2; run_3].
(** fusion/comb_*_test.py *)
Example test_comb_sum : (is_run same (comb_sum E runs "comb_sum") "comb_sum" [("q1", [("d1", z 1 + z 3); ("d2", z 2 + z 2); ("d3", z 3 + z 1)]); ("q2", [("d1", z 1 + z 1); ("d2", z 2 + z 2); ("d3", z 3 + z 3)])]) = true.
Proof. vmr. Qed.
Example test_comb_max : (is_run same (comb_max E runs "comb_max") "comb_max" [("q1", [("d1", z 3); ("d2", z 2); ("d3", z 3)]); ("q2", [("d1", z 1); ("d2", z 2); ("d3", z 3)])]) = true.
Proof. vmr. Qed.
Example test_comb_min : (is_run same (comb_min E runs "comb_min") "comb_min" [("q1", [("d1", z 1); ("d2", z 2); ("d3", z 1)]); ("q2", [("d1", z 1); ("d2", z 2); ("d3", z 3)])]) = true.
Proof. vmr. Qed.
Example test_comb_med : (is_run same (comb_med E runs "comb_med") "comb_med" [("q1", [("d1", (z 1 + z 3) / z 2); ("d2", (z 2 + z 2) / z 2); ("d3", (z 3 + z 1) / z 2)]); ("q2", [("d1", (z 1 + z 1) / z 2); ("d2", (z 2 + z 2) / z 2); ("d3", (z 3 + z 3) / z 2)])]) = true.
Proof. vmr. Qed.
Example test_comb_anz : (is_run same (comb_anz E runs "comb_anz") "comb_anz" [("q1", [("d1", (z 1 + z 3) / z 2); ("d2", (z 2 + z 2) / z 2); ("d3", (z 3 + z 1) / z 2)]); ("q2", [("d1", (z 1 + z 1) / z 2); ("d2", (z 2 + z 2) / z 2); ("d3", (z 3 + z 3) / z 2)])]) = true.
Proof. vmr. Qed.
Example test_comb_mnz : (is_run same (comb_mnz E runs "comb_mnz") "comb_mnz" [("q1", [("d1", (z 1 + z 3) * z 2); ("d2", (z 2 + z 2) * z 2); ("d3", (z 3 + z 1) * z 2)]); ("q2", [("d1", (z 1 + z 1) * z 2); ("d2", (z 2 + z 2) * z 2); ("d3", (z 3 + z 3) * z 2)])]) = true.
Proof. vmr. Qed.
Example test_comb_gmnz : (is_run same (comb_gmnz E runs (z 1) "comb_gmnz") "comb_gmnz" [("q1", [("d1", (z 1 + z 3) * z 2); ("d2", (z 2 + z 2) * z 2); ("d3", (z 3 + z 1) * z 2)]); ("q2", [("d1", (z 1 + z 1) * z 2); ("d2", (z 2 + z 2) * z 2); ("d3", (z 3 + z 3) * z 2)])]) = true.
Proof. vmr. Qed.
Example test_comb_gmnz__0 : (is_run same (comb_gmnz E runs (z 0) "comb_gmnz") "comb_gmnz" [("q1", [("d1", (z 1 + z 3)); ("d2", (z 2 + z 2)); ("d3", (z 3 + z 1))]); ("q2", [("d1", (z 1 + z 1)); ("d2", (z 2 + z 2)); ("d3", (z 3 + z 3))])]) = true.
Proof. vmr. Qed.
(** fusion/isr_test.py, log_isr_test.py, logn_isr_test.py, rrf_test.py *)
Example test_isr : (is_run same (isr E runs "isr") "isr" [("q1", [("d1", (z 1 / z 9 + z 1 / z 1) * z 2); ("d2", (z 1 / z 4 + z 1 / z 4) * z 2); ("d3", (z 1 / z 1 + z 1 / z 1) * z 2)]); ("q2", [("d1", (z 1 / z 4 + z 1 / z 4) * z 2); ("d2", (z 1 / z 1 + z 1 / z 4) * z 2); ("d3", (z 1 / z 1 + z 1 / z 1) * z 2)])]) = true.
Proof. vmr. Qed.
Example test_log_isr : (is_run same (log_isr E runs "log_isr") "log_isr" [("q1", [("d1", (z 1 / z 9 + z 1 / z 1) * ln_tab (z 2)); ("d2", (z 1 / z 4 + z 1 / z 4) * ln_tab (z 2)); ("d3", (z 1 / z 1 + z 1 / z 1) * ln_tab (z 2))]); ("q2", [("d1", (z 1 / z 4 + z 1 / z 4) * ln_tab (z 2)); ("d2", (z 1 / z 1 + z 1 / z 4) * ln_tab (z 2)); ("d3", (z 1 / z 1 + z 1 / z 1) * ln_tab (z 2))])]) = true.
Proof. vmr. Qed.
Example test_logn_isr : (is_run same (logn_isr E runs (d 1 1) "logn_isr") "logn_isr" [("q1", [("d1", (z 1 / z 9 + z 1 / z 1) * ln_tab (z 2 + d 1 1)); ("d2", (z 1 / z 4 + z 1 / z 4) * ln_tab (z 2 + d 1 1)); ("d3", (z 1 / z 1 + z 1 / z 1) * ln_tab (z 2 + d 1 1))]); ("q2", [("d1", (z 1 / z 4 + z 1 / z 4) * ln_tab (z 2 + d 1 1)); ("d2", (z 1 / z 1 + z 1 / z 4) * ln_tab (z 2 + d 1 1)); ("d3", (z 1 / z 1 + z 1 / z 1) * ln_tab (z 2 + d 1 1))])]) = true.
Proof. vmr. Qed.
Example test_rrf : (is_run same (rrf E runs 60 "rrf") "rrf" [("q1", [("d1", z 1 / (z 60 + z 3) + z 1 / (z 60 + z 1)); ("d2", z 1 / (z 60 + z 2) + z 1 / (z 60 + z 2)); ("d3", z 1 / (z 60 + z 1) + z 1 / (z 60 + z 1))]); ("q2", [("d1", z 1 / (z 60 + z 2) + z 1 / (z 60 + z 2)); ("d2", z 1 / (z 60 + z 1) + z 1 / (z 60 + z 2)); ("d3", z 1 / (z 60 + z 1) + z 1 / (z 60 + z 1))])]) = true.
Proof. vmr. Qed.
(** fusion/wsum_test.py, wmnz_test.py, mixed_test.py *)
Example test_wsum : (is_run same (wsum E runs [d 3 1; d 2 1; d 5 1] "weighted_sum") "weighted_sum" [("q1", [("d1", d 3 1 * z 1 + d 2 1 * z 3); ("d2", d 3 1 * z 2 + d 2 1 * z 2); ("d3", d 3 1 * z 3 + d 5 1 * z 1)]); ("q2", [("d1", d 3 1 * z 1 + d 2 1 * z 1); ("d2", d 3 1 * z 2 + d 5 1 * z 2); ("d3", d 2 1 * z 3 + d 5 1 * z 3)])]) = true.
Proof. vmr. Qed.
Example test_wmnz : (is_run same (wmnz E runs [z 1; z 1; z 1] "wmnz") "wmnz" [("q1", [("d1", (z 1 + z 3) * z 2); ("d2", (z 2 + z 2) * z 2); ("d3", (z 3 + z 1) * z 2)]); ("q2", [("d1", (z 1 + z 1) * z 2); ("d2", (z 2 + z 2) * z 2); ("d3", (z 3 + z 3) * z 2)])]) = true.
Proof. vmr. Qed.
Example test_wmnz__w : (is_run same (wmnz E runs [d 3 1; d 2 1; d 5 1] "wmnz") "wmnz" [("q1", [("d1", (z 1 + z 3) * (d 3 1 + d 2 1)); ("d2", (z 2 + z 2) * (d 3 1 + d 2 1)); ("d3", (z 3 + z 1) * (d 3 1 + d 5 1))]); ("q2", [("d1", (z 1 + z 1) * (d 3 1 + d 2 1)); ("d2", (z 2 + z 2) * (d 3 1 + d 5 1)); ("d3", (z 3 + z 3) * (d 2 1 + d 5 1))])]) = true.
Proof. vmr. Qed.
Example test_mixed : (is_run same (mixed E runs [z 1; z 1; z 1] "mixed") "mixed" [("q1", [("d1", (z 1 + z 3) * sf_sqrt (z 2)); ("d2", (z 2 + z 2) * sf_sqrt (z 2)); ("d3", (z 3 + z 1) * sf_sqrt (z 2))]); ("q2", [("d1", (z 1 + z 1) * sf_sqrt (z 2)); ("d2", (z 2 + z 2) * sf_sqrt (z 2)); ("d3", (z 3 + z 3) * sf_sqrt (z 2))])]) = true.
Proof. vmr. Qed.
Example test_mixed__w : (is_run same (mixed E runs [d 3 1; d 2 1; d 5 1] "mixed") "mixed" [("q1", [("d1", (d 3 1 * z 1 + d 2 1 * z 3) * sf_sqrt (z 2)); ("d2", (d 3 1 * z 2 + d 2 1 * z 2) * sf_sqrt (z 2)); ("d3", (d 3 1 * z 3 + d 5 1 * z 1) * sf_sqrt (z 2))]); ("q2", [("d1", (d 3 1 * z 1 + d 2 1 * z 1) * sf_sqrt (z 2)); ("d2", (d 3 1 * z 2 + d 5 1 * z 2) * sf_sqrt (z 2)); ("d3", (d 2 1 * z 3 + d 5 1 * z 3) * sf_sqrt (z 2))])]) = true.
Proof. vmr. Qed.
(** fusion/bordafuse_test.py, weighted_bordafuse_test.py *)
Example test_bordafuse : (is_run same (bordafuse E runs "bordafuse") "bordafuse" [("q1", [("d1", z (1) + z (3) + d (15) 1); ("d2", z (2) + z (2) + d (15) 1); ("d3", z (3) + z (1) + z (3))]); ("q2", [("d1", z (2) + z (2) + z (1)); ("d2", z (3) + z (1) + z (2)); ("d3", z (1) + z (3) + z (3))])]) = true.
Proof. vmr. Qed.
Example test_weighted_bordafuse : (is_run same (weighted_bordafuse E runs [z 1; z 1; z 1] "weighted_bordafuse") "weighted_bordafuse" [("q1", [("d1", z (1) + z (3) + d (15) 1); ("d2", z (2) + z (2) + d (15) 1); ("d3", z (3) + z (1) + z (3))]); ("q2", [("d1", z (2) + z (2) + z (1)); ("d2", z (3) + z (1) + z (2)); ("d3", z (1) + z (3) + z (3))])]) = true.
Proof. vmr. Qed.
Example test_weighted_bordafuse__w : (is_run same (weighted_bordafuse E runs [z 3; z 2; z 1] "weighted_bordafuse") "weighted_bordafuse" [("q1", [("d1", z 3 * z (1) + z 2 * z (3) + d (15) 1); ("d2", z 3 * z (2) + z 2 * z (2) + d (15) 1); ("d3", z 3 * z (3) + z 2 * z (1) + z (3))]); ("q2", [("d1", z 3 * z (2) + z 2 * z (2) + z (1)); ("d2", z 3 * z (3) + z 2 * z (1) + z (2)); ("d3", z 3 * z (1) + z 2 * z (3) + z (3))])]) = true.
Proof. vmr. Qed.
(** fusion/condorcet_test.py, weighted_condorcet_test.py *)
Definition cruns := [run_1; crun_2; crun_3].
Example test_condorcet : (is_run same (condorcet E ins_sort cruns "condorcet") "condorcet" [("q1", [("d1", z 1); ("d2", z 2); ("d3", z 3)]); ("q2", [("d1", z 1); ("d2", z 2); ("d3", z 3)])]) = true.
Proof. vmr. Qed.
Example test_condorcet_no_result_query : (is_run same (condorcet E ins_sort [crun_4; crun_5; crun_6] "condorcet") "condorcet" [("q1", [("d1", z 1); ("d2", z 2); ("d3", z 3)]); ("q2", [])]) = true.
Proof. vmr. Qed.
Example test_weighted_condorcet : (is_run same (weighted_condorcet E ins_sort cruns [z 1; z 1; z 1] "weighted_condorcet") "weighted_condorcet" [("q1", [("d1", z 1); ("d2", z 2); ("d3", z 3)]); ("q2", [("d1", z 1); ("d2", z 2); ("d3", z 3)])]) = true.
Proof. vmr. Qed.
Example test_weighted_condorcet__w : (is_run same (weighted_condorcet E ins_sort cruns [z 1; z 5; z 2] "weighted_condorcet") "weighted_condorcet" [("q1", [("d1", z 2); ("d2", z 3); ("d3", z 1)]); ("q2", [("d1", z 2); ("d2", z 1); ("d3", z 3)])]) = true.
Proof. vmr. Qed.
Example test_get_candidates : (match get_candidates E (maps cruns) with Ok [a; b] => same_set a ["d1"; "d2"; "d3"] && same_set b ["d1"; "d2"; "d3"] | _ => false end) = true.
Proof. vmr. Qed.
Example test_get_results : (match get_results (maps cruns) with Ok l => lleqb l [[["d3"; "d2"; "d1"]; ["d2"; "d1"]; ["d3"]]; [["d2"; "d1"]; ["d3"; "d1"]; ["d3"; "d2"]]] | _ => false end) = true.
Proof. vmr. Qed.
(** fusion/rbc_test.py: [round(x, 2) == y] *)
Example test_rbc_6 : (is_run (rounds 2) (rbc E [rbc_1; rbc_2; rbc_3; rbc_4] (d 6 1) "rbc") "rbc" [("q1", [("A", d 89 2); ("D", d 86 2); ("B", d 78 2); ("G", d 50 2); ("E", d 31 2); ("C", d 29 2); ("F", d 11 2)])]) = true.
Proof. vmr. Qed.
Example test_rbc_8 : (is_run (rounds 2) (rbc E [rbc_1; rbc_2; rbc_3; rbc_4] (d 8 1) "rbc") "rbc" [("q1", [("D", d 61 2); ("A", d 50 2); ("B", d 49 2); ("C", d 37 2); ("G", d 36 2); ("E", d 31 2); ("F", d 21 2)])]) = true.
Proof. vmr. Qed.
Example test_rbc_9 : (is_run (rounds 2) (rbc E [rbc_1; rbc_2; rbc_3; rbc_4] (d 9 1) "rbc") "rbc" [("q1", [("D", d 35 2); ("C", d 28 2); ("A", d 27 2); ("B", d 27 2); ("G", d 23 2); ("E", d 22 2); ("F", d 18 2)])]) = true.
Proof. vmr. Qed.
(** fusion/mapfuse_test.py, posfuse_test.py, slidefuse_test.py, probfuse_test.py, segfuse_test.py *)
Definition p (l : list (list sf)) (i j : nat) : sf := nth j (nth i l []) (z 7).
Example test_posfuse_train : (tables (posfuse_train E qrels runs) [[z 0; z 1 / z 2; z 1]; [z 1 / z 2; z 1 / z 2]; [z 0; z 0]]) = true.
Proof. vmr. Qed.
Example test_slidefuse_train : (tables (slidefuse_train E qrels runs) [[z 0; z 1 / z 2; z 1]; [z 1 / z 2; z 1 / z 2]; [z 0; z 0]]) = true.
Proof. vmr. Qed.
Example test_probfuse_train : (tables (probfuse_train E qrels runs 2) [[z 0; z 1]; [d 5 1; d 5 1]; [z 0; z 0]]) = true.
Proof. vmr. Qed.
Example test_segfuse_train : (tables (segfuse_train E qrels runs) [d 2 1 :: repeat (z 0) 9; d 2 1 :: repeat (z 0) 9; repeat (z 0) 10]) = true.
Proof. vmr. Qed.
Example test_mapfuse : (with_trained (mapfuse_train E qrels runs) (fun t => is_run same (mapfuse E runs t "mapfuse") "mapfuse" [("q1", [("d1", nth 0 t (z 7) / z 3 + nth 1 t (z 7) / z 1); ("d2", nth 0 t (z 7) / z 2 + nth 1 t (z 7) / z 2); ("d3", nth 0 t (z 7) / z 1 + nth 2 t (z 7) / z 1)]); ("q2", [("d1", nth 0 t (z 7) / z 2 + nth 1 t (z 7) / z 2); ("d2", nth 0 t (z 7) / z 1 + nth 2 t (z 7) / z 2); ("d3", nth 1 t (z 7) / z 1 + nth 2 t (z 7) / z 1)])])) = true.
Proof. vmr. Qed.
Example test_posfuse : (with_trained (posfuse_train E qrels runs) (fun t => is_run same (posfuse E runs t "posfuse") "posfuse" [("q1", [("d1", p t 0 2 + p t 1 0); ("d2", p t 0 1 + p t 1 1); ("d3", p t 0 0 + p t 2 0)]); ("q2", [("d1", p t 0 1 + p t 1 1); ("d2", p t 0 0 + p t 2 1); ("d3", p t 1 0 + p t 2 0)])])) = true.
Proof. vmr. Qed.
Example test_slidefuse__w1 : (with_trained (slidefuse_train E qrels runs) (fun t => is_run same (slidefuse E runs t 1 "slidefuse") "slidefuse" [("q1", [("d1", (p t 0 1 + p t 0 2) / z 2 + (p t 1 0 + p t 1 1) / z 2); ("d2", (p t 0 0 + p t 0 1 + p t 0 2) / z 3 + (p t 1 0 + p t 1 1) / z 2); ("d3", (p t 0 0 + p t 0 1) / z 2 + (p t 2 0 + p t 2 1) / z 2)]); ("q2", [("d1", (p t 0 0 + p t 0 1) / z 2 + (p t 1 0 + p t 1 1) / z 2); ("d2", (p t 0 0 + p t 0 1) / z 2 + (p t 2 0 + p t 2 1) / z 2); ("d3", (p t 1 0 + p t 1 1) / z 2 + (p t 2 0 + p t 2 1) / z 2)])])) = true.
Proof. vmr. Qed.
Example test_slidefuse__w2 : (with_trained (slidefuse_train E qrels runs) (fun t => is_run same (slidefuse E runs t 2 "slidefuse") "slidefuse" [("q1", [("d1", (p t 0 0 + p t 0 1 + p t 0 2) / z 3 + (p t 1 0 + p t 1 1) / z 2); ("d2", (p t 0 0 + p t 0 1 + p t 0 2) / z 3 + (p t 1 0 + p t 1 1) / z 2); ("d3", (p t 0 0 + p t 0 1 + p t 0 2) / z 3 + (p t 2 0 + p t 2 1) / z 2)]); ("q2", [("d1", (p t 0 0 + p t 0 1) / z 2 + (p t 1 0 + p t 1 1) / z 2); ("d2", (p t 0 0 + p t 0 1) / z 2 + (p t 2 0 + p t 2 1) / z 2); ("d3", (p t 1 0 + p t 1 1) / z 2 + (p t 2 0 + p t 2 1) / z 2)])])) = true.
Proof. vmr. Qed.
Example test_probfuse : (with_trained (probfuse_train E qrels runs 2) (fun t => is_run same (probfuse E runs t "probfuse") "probfuse" [("q1", [("d1", p t 0 1 / z 2 + p t 1 0); ("d2", p t 0 0 + p t 1 1 / z 2); ("d3", p t 0 0 + p t 2 0)]); ("q2", [("d1", p t 0 1 / z 2 + p t 1 1 / z 2); ("d2", p t 0 0 + p t 2 1 / z 2); ("d3", p t 1 0 + p t 2 0)])])) = true.
Proof. vmr. Qed.
Example test_segfuse : (with_trained (segfuse_train E qrels runs) (fun t => is_run same (segfuse E runs t "segfuse") "segfuse" [("q1", [("d1", p t 0 0 * (z 1 + z 1) + p t 1 0 * (z 1 + z 3)); ("d2", p t 0 0 * (z 1 + z 2) + p t 1 0 * (z 1 + z 2)); ("d3", p t 0 0 * (z 1 + z 3) + p t 2 0 * (z 1 + z 1))]); ("q2", [("d1", p t 0 0 * (z 1 + z 1) + p t 1 0 * (z 1 + z 1)); ("d2", p t 0 0 * (z 1 + z 2) + p t 2 0 * (z 1 + z 2)); ("d3", p t 1 0 * (z 1 + z 3) + p t 2 0 * (z 1 + z 3))])])) = true.
Proof. vmr. Qed.
(** fusion/bayesfuse_test.py *)
Definition brun_1 := mk ([("q1", [("d1", z (10)); ("d2", z (9)); ("d3", z (8)); ("d4", z (7)); ("d5", z (6)); ("d6", z (5)); ("d7", z (4)); ("d8", z (3)); ("d9", z (2)); ("d10", z (1))]); ("q2", [("d1", z (10)); ("d2", z (9)); ("d3", z (8)); ("d4", z (7)); ("d5", z (6)); ("d6", z (5)); ("d7", z (4)); ("d8", z (3)); ("d9", z (2)); ("d10", z (1))]); ("q3", [("d1", z (10)); ("d2", z (9)); ("d3", z (8)); ("d4", z (7)); ("d5", z (6)); ("d6", z (5)); ("d7", z (4)); ("d8", z (3)); ("d9", z (2)); ("d10", z (1))])] : dict (dict sf)).
Definition brun_2 := mk ([("q1", [("d1", z (10)); ("d2", z (9)); ("d8", z (8)); ("d9", z (7)); ("d10", z (6)); ("d3", z (5)); ("d4", z (4)); ("d5", z (3)); ("d6", z (2)); ("d7", z (1))]); ("q2", [("d2", z (10)); ("d4", z (9)); ("d7", z (8)); ("d1", z (7)); ("d3", z (6)); ("d5", z (5)); ("d6", z (4)); ("d8", z (3)); ("d9", z (2)); ("d10", z (1))]); ("q3", [("d1", z (10)); ("d2", z (9)); ("d3", z (8)); ("d4", z (7)); ("d5", z (6)); ("d6", z (5)); ("d7", z (4)); ("d8", z (3)); ("d9", z (2)); ("d10", z (1))])] : dict (dict sf)).
Definition bqrels := mkq ([("q1", [("d1", 1%Z); ("d2", 1%Z); ("d8", 1%Z); ("d9", 1%Z); ("d10", 1%Z)]); ("q2", [("d2", 1%Z); ("d4", 1%Z); ("d7", 1%Z)]); ("q3", [("d1", 1%Z); ("d3", 1%Z); ("d4", 1%Z); ("d5", 1%Z); ("d6", 1%Z); ("d8", 1%Z); ("d9", 1%Z)])] : dict (dict Z)).
Example test_bayesfuse : (with_trained (bayesfuse_train E bqrels [brun_1; brun_2]) (fun t => is_run close (bayesfuse E [brun_1; brun_2] t "bayesfuse") "bayesfuse" [("q1", [("d1", p t 0 0 + p t 1 0); ("d2", p t 0 1 + p t 1 1); ("d3", p t 0 2 + p t 1 5); ("d4", p t 0 3 + p t 1 6); ("d5", p t 0 4 + p t 1 7); ("d6", p t 0 5 + p t 1 8); ("d7", p t 0 6 + p t 1 8); ("d8", p t 0 7 + p t 1 2); ("d9", p t 0 8 + p t 1 3); ("d10", p t 0 9 + p t 1 4)]); ("q2", [("d1", p t 0 0 + p t 1 3); ("d2", p t 0 1 + p t 1 0); ("d3", p t 0 2 + p t 1 4); ("d4", p t 0 3 + p t 1 1); ("d5", p t 0 4 + p t 1 5); ("d6", p t 0 5 + p t 1 6); ("d7", p t 0 6 + p t 1 2); ("d8", p t 0 7 + p t 1 7); ("d9", p t 0 8 + p t 1 8); ("d10", p t 0 9 + p t 1 9)]); ("q3", [("d1", p t 0 0 + p t 1 0); ("d2", p t 0 1 + p t 1 1); ("d3", p t 0 2 + p t 1 2); ("d4", p t 0 3 + p t 1 3); ("d5", p t 0 4 + p t 1 4); ("d6", p t 0 5 + p t 1 5); ("d7", p t 0 6 + p t 1 6); ("d8", p t 0 7 + p t 1 7); ("d9", p t 0 8 + p t 1 8); ("d10", p t 0 9 + p t 1 9)])])) = true.
Proof. vmr. Qed.
Example test_estimate_log_odds_1 : (with_trained (bayesfuse_train E bqrels [brun_1; brun_2]) (fun t => let l := nth 0 t [] in forallb (fun x => same x (ln_tab ((z 8 / z 15) / (z 1 - z 8 / z 15)))) (firstn 5 l) && forallb (fun x => same x (ln_tab ((z 7 / z 15) / (z 1 - z 7 / z 15)))) (firstn 5 (skipn 5 l)) && forallb (fun x => sf_ltb x (z 0)) (skipn 10 l))) = true.
Proof. vmr. Qed.
Example test_estimate_log_odds_2 : (with_trained (bayesfuse_train E bqrels [brun_1; brun_2]) (fun t => let l := nth 1 t [] in forallb (fun x => same x (ln_tab ((z 12 / z 15) / (z 1 - z 12 / z 15)))) (firstn 5 l) && forallb (fun x => close x (ln_tab ((z 3 / z 15) / (z 1 - z 3 / z 15)))) (firstn 5 (skipn 5 l)) && forallb (fun x => sf_ltb x (z 0)) (skipn 10 l))) = true.
Proof. vmr. Qed.
(** normalization/*_test.py *)
Example test_max_norm : (is_map same (max_norm E run_1) [("q1", [("d1", z 1 / z 3); ("d2", z 2 / z 3); ("d3", z 1)]); ("q2", [("d1", z 1 / z 2); ("d2", z 1)])]) = true.
Proof. vmr. Qed.
Example test_min_max_norm : (is_map same (min_max_norm E false run_1) [("q1", [("d1", z 0); ("d2", z 1 / z 2); ("d3", z 1)]); ("q2", [("d1", z 0); ("d2", z 1)])]) = true.
Proof. vmr. Qed.
Example test_min_max_norm_with_invert__min_max_inverted : (is_map same (normalize E run_1 "min_max_inverted") [("q1", [("d1", z 1); ("d2", z 1 / z 2); ("d3", z 0)]); ("q2", [("d1", z 1); ("d2", z 0)])]) = true.
Proof. vmr. Qed.
Example test_min_max_norm_with_invert__minXmaxXinverted : (is_map same (normalize E run_1 "min-max-inverted") [("q1", [("d1", z 1); ("d2", z 1 / z 2); ("d3", z 0)]); ("q2", [("d1", z 1); ("d2", z 0)])]) = true.
Proof. vmr. Qed.
Example test_rank_norm : (is_map same (rank_norm E run_1) [("q1", [("d1", z 1 - z 2 / z 3); ("d2", z 1 - z 1 / z 3); ("d3", z 1)]); ("q2", [("d1", z 1 - z 1 / z 2); ("d2", z 1)])]) = true.
Proof. vmr. Qed.
Example test_sum_norm : (is_map same (sum_norm E run_1) [("q1", [("d1", z 0); ("d2", z 1 / z 3); ("d3", z 2 / z 3)]); ("q2", [("d1", z 0); ("d2", z 1)])]) = true.
Proof. vmr. Qed.
Example test_zmuv_norm : (is_map same (zmuv_norm E run_1) [("q1", [("d1", (z 1 - z 2) / d 816496580927726 15); ("d2", (z 2 - z 2) / d 816496580927726 15); ("d3", (z 3 - z 2) / d 816496580927726 15)]); ("q2", [("d1", (z 1 - d 15 1) / d 5 1); ("d2", (z 2 - d 15 1) / d 5 1)])]) = true.
Proof. vmr. Qed.
Example test_borda_norm : (match borda_norm E runs with Ok [a; b; c] => is_map close (Ok a) [("q1", [("d1", z (1) / z 3); ("d2", z (2) / z 3); ("d3", z (3) / z 3)]); ("q2", [("d1", z (2) / z 3); ("d2", z (3) / z 3); ("d3", z (1) / z 3)])] && is_map close (Ok b) [("q1", [("d1", z (3) / z 3); ("d2", z (2) / z 3); ("d3", z (1) / z 3)]); ("q2", [("d1", z (2) / z 3); ("d2", z (1) / z 3); ("d3", z (3) / z 3)])] && is_map close (Ok c) [("q1", [("d1", d (15) 1 / z 3); ("d2", d (15) 1 / z 3); ("d3", z (3) / z 3)]); ("q2", [("d1", z (1) / z 3); ("d2", z (2) / z 3); ("d3", z (3) / z 3)])] | _ => false end) = true.
Proof. vmr. Qed.
(** metrics_test.py and meta/evaluate_test.py: typed lists *)
Example test_hits_single : (is_mean same (ev [[(1%Z, z 1); (4%Z, z 1); (5%Z, z 1); (6%Z, z 1)]] [[(1%Z, z 1); (2%Z, z 1); (3%Z, z 1); (4%Z, z 1); (5%Z, z 1); (7%Z, z 1)]] "hits@5") (z 3)) = true.
Proof. vmr. Qed.
Example test_hits_parallel : (is_mean same (ev [[(1%Z, z 1); (4%Z, z 1); (5%Z, z 1); (6%Z, z 1)]; [(1%Z, z 1); (4%Z, z 1); (6%Z, z 1)]] [[(1%Z, z 1); (2%Z, z 1); (3%Z, z 1); (4%Z, z 1); (5%Z, z 1); (7%Z, z 1)]; [(1%Z, z 1); (2%Z, z 1); (4%Z, z 1); (3%Z, z 1); (5%Z, z 1); (7%Z, z 1)]] "hits@5") (d 25 1)) = true.
Proof. vmr. Qed.
Example test_hit_rate_single : (is_mean same (ev [[(1%Z, z 1); (2%Z, z 1); (4%Z, z 1)]] [[(1%Z, z 1); (2%Z, z 1); (4%Z, z 1); (3%Z, z 1); (5%Z, z 1); (7%Z, z 1)]] "hit_rate@5") (z 1)) = true.
Proof. vmr. Qed.
Example test_hit_rate_parallel : (is_mean same (ev [[(9%Z, z 1); (6%Z, z 1); (8%Z, z 1); (6%Z, z 1)]; [(1%Z, z 1); (2%Z, z 1); (4%Z, z 1)]] [[(1%Z, z 1); (2%Z, z 1); (3%Z, z 1); (4%Z, z 1); (5%Z, z 1); (7%Z, z 1)]; [(1%Z, z 1); (2%Z, z 1); (4%Z, z 1); (3%Z, z 1); (5%Z, z 1); (7%Z, z 1)]] "hit_rate@5") (d 5 1)) = true.
Proof. vmr. Qed.
Example test_precision_single : (is_mean same (ev [[(1%Z, z 1); (4%Z, z 1); (5%Z, z 1); (6%Z, z 1)]] [[(1%Z, z 1); (2%Z, z 1); (3%Z, z 1); (4%Z, z 1); (5%Z, z 1); (7%Z, z 1)]] "precision@5") (z 3 / z 5)) = true.
Proof. vmr. Qed.
Definition one_precision (i : nat) := ev [nth i [[(1%Z, z 1); (2%Z, z 1); (3%Z, z 1)]; [(4%Z, z 1); (5%Z, z 1); (6%Z, z 1); (7%Z, z 1)]; [(8%Z, z 1); (9%Z, z 1)]] []] [[(4%Z, z 1); (5%Z, z 1); (6%Z, z 1); (2%Z, z 1); (1%Z, z 1); (7%Z, z 1); (3%Z, z 1)]] "precision@5".
Example test_precision_parallel : (match mean_of (one_precision 0), mean_of (one_precision 1), mean_of (one_precision 2) with Some a, Some b, Some c => is_mean close (ev [[(1%Z, z 1); (2%Z, z 1); (3%Z, z 1)]; [(4%Z, z 1); (5%Z, z 1); (6%Z, z 1); (7%Z, z 1)]; [(8%Z, z 1); (9%Z, z 1)]] [[(4%Z, z 1); (5%Z, z 1); (6%Z, z 1); (2%Z, z 1); (1%Z, z 1); (7%Z, z 1); (3%Z, z 1)]; [(4%Z, z 1); (5%Z, z 1); (6%Z, z 1); (2%Z, z 1); (1%Z, z 1); (7%Z, z 1); (3%Z, z 1)]; [(4%Z, z 1); (5%Z, z 1); (6%Z, z 1); (2%Z, z 1); (1%Z, z 1); (7%Z, z 1); (3%Z, z 1)]] "precision@5") ((a + b + c) / z 3) | _, _, _ => false end) = true.
Proof. vmr. Qed.
Definition one_average_precision (i : nat) := ev [nth i [[(1%Z, z 1); (2%Z, z 1); (3%Z, z 1)]; [(4%Z, z 1); (5%Z, z 1); (6%Z, z 1); (7%Z, z 1)]; [(8%Z, z 1); (9%Z, z 1)]] []] [[(4%Z, z 1); (5%Z, z 1); (6%Z, z 1); (2%Z, z 1); (1%Z, z 1); (7%Z, z 1); (3%Z, z 1)]] "map@7".
Example test_average_precision_parallel : (match mean_of (one_average_precision 0), mean_of (one_average_precision 1), mean_of (one_average_precision 2) with Some a, Some b, Some c => is_mean close (ev [[(1%Z, z 1); (2%Z, z 1); (3%Z, z 1)]; [(4%Z, z 1); (5%Z, z 1); (6%Z, z 1); (7%Z, z 1)]; [(8%Z, z 1); (9%Z, z 1)]] [[(4%Z, z 1); (5%Z, z 1); (6%Z, z 1); (2%Z, z 1); (1%Z, z 1); (7%Z, z 1); (3%Z, z 1)]; [(4%Z, z 1); (5%Z, z 1); (6%Z, z 1); (2%Z, z 1); (1%Z, z 1); (7%Z, z 1); (3%Z, z 1)]; [(4%Z, z 1); (5%Z, z 1); (6%Z, z 1); (2%Z, z 1); (1%Z, z 1); (7%Z, z 1); (3%Z, z 1)]] "map@7") ((a + b + c) / z 3) | _, _, _ => false end) = true.
Proof. vmr. Qed.
Example test_average_precision : (is_mean close (ev [[(1%Z, z 1); (4%Z, z 1); (5%Z, z 1); (6%Z, z 1)]] [[(1%Z, z 1); (2%Z, z 1); (3%Z, z 1); (4%Z, z 1); (5%Z, z 1); (7%Z, z 1)]] "map@6") (d 525 3)) = true.
Proof. vmr. Qed.
Example test_reciprocal_rank_single : (is_mean close (ev [[(3%Z, z 1)]] [[(2%Z, z 1); (3%Z, z 1); (1%Z, z 1); (4%Z, z 1); (5%Z, z 1)]] "mrr@5") (d 5 1)) = true.
Proof. vmr. Qed.
Example test_reciprocal_rank_single_no_match : (is_mean same (ev [[(3%Z, z 1)]] [[(2%Z, z 1); (1%Z, z 1); (4%Z, z 1); (5%Z, z 1)]] "mrr@5") (z 0)) = true.
Proof. vmr. Qed.
Example test_reciprocal_rank_parallel : (is_mean close (ev [[(3%Z, z 1)]; [(1%Z, z 1)]; [(3%Z, z 1)]] [[(2%Z, z 1); (3%Z, z 1); (1%Z, z 1); (4%Z, z 1); (5%Z, z 1)]; [(1%Z, z 1); (2%Z, z 1); (3%Z, z 1); (4%Z, z 1); (5%Z, z 1)]; [(1%Z, z 1); (1%Z, z 1); (1%Z, z 1); (4%Z, z 1); (5%Z, z 1)]] "mrr@5") (d 5 1)) = true.
Proof. vmr. Qed.
Example test_r_precision_single : (is_mean close (ev [[(1%Z, z 1); (2%Z, z 1); (3%Z, z 1)]] [[(2%Z, z 1); (4%Z, z 1); (3%Z, z 1); (1%Z, z 1); (5%Z, z 1); (6%Z, z 1); (7%Z, z 1)]] "r-precision") (z 2 / z 3)) = true.
Proof. vmr. Qed.
Example test_r_precision_parallel : (is_mean close (ev [[(1%Z, z 1); (2%Z, z 1); (3%Z, z 1)]; [(1%Z, z 1); (2%Z, z 1)]] [[(2%Z, z 1); (4%Z, z 1); (3%Z, z 1); (1%Z, z 1); (5%Z, z 1); (6%Z, z 1); (7%Z, z 1)]; [(2%Z, z 1); (4%Z, z 1); (3%Z, z 1); (1%Z, z 1); (5%Z, z 1); (6%Z, z 1); (7%Z, z 1)]] "r-precision") ((z 2 / z 3 + z 1 / z 2) / z 2)) = true.
Proof. vmr. Qed.
Example test_recall_single : (is_mean close (ev [[(1%Z, z 1); (2%Z, z 1); (3%Z, z 1)]] [[(2%Z, z 1); (4%Z, z 1); (3%Z, z 1); (1%Z, z 1); (5%Z, z 1); (6%Z, z 1); (7%Z, z 1)]] "recall@2") (z 1 / z 3)) = true.
Proof. vmr. Qed.
Example test_recall_parallel : (is_mean close (ev [[(1%Z, z 1); (2%Z, z 1); (3%Z, z 1)]; [(1%Z, z 1); (2%Z, z 1)]] [[(2%Z, z 1); (4%Z, z 1); (3%Z, z 1); (1%Z, z 1); (5%Z, z 1); (6%Z, z 1); (7%Z, z 1)]; [(2%Z, z 1); (4%Z, z 1); (3%Z, z 1); (1%Z, z 1); (5%Z, z 1); (6%Z, z 1); (7%Z, z 1)]] "recall@2") ((z 1 / z 3 + z 1 / z 2) / z 2)) = true.
Proof. vmr. Qed.
Example test_dcg_jarvelin_1 : (is_mean close (ev [[(2%Z, z 5); (4%Z, z 4); (5%Z, z 3); (10%Z, z 2)]] [[(1%Z, z 1); (2%Z, z 1); (3%Z, z 1); (4%Z, z 1); (5%Z, z 1)]] "dcg@10") ((z 5 / lg 3 + z 4 / lg 5 + z 3 / lg 6))) = true.
Proof. vmr. Qed.
Example test_dcg_jarvelin_2 : (is_mean close (ev [[(2%Z, z 5); (4%Z, z 4); (5%Z, z 3); (10%Z, z 2)]] [[(10%Z, z 1); (5%Z, z 1); (2%Z, z 1); (4%Z, z 1); (3%Z, z 1)]] "dcg@10") ((z 2 / lg 2 + z 3 / lg 3 + z 5 / lg 4 + z 4 / lg 5))) = true.
Proof. vmr. Qed.
Example test_dcg_jarvelin_3 : (is_mean same (ev [[(2%Z, z 5); (4%Z, z 4); (5%Z, z 3); (10%Z, z 2)]] [[(1%Z, z 1); (3%Z, z 1); (6%Z, z 1); (7%Z, z 1); (8%Z, z 1)]] "dcg@10") (z 0)) = true.
Proof. vmr. Qed.
Example test_ndcg_jarvelin_1 : (is_mean close (ev [[(2%Z, z 5); (4%Z, z 4); (5%Z, z 3); (10%Z, z 2)]] [[(1%Z, z 1); (2%Z, z 1); (3%Z, z 1); (4%Z, z 1); (5%Z, z 1)]] "ndcg@10") ((z 5 / lg 3 + z 4 / lg 5 + z 3 / lg 6) / (z 5 / lg 2 + z 4 / lg 3 + z 3 / lg 4 + z 2 / lg 5))) = true.
Proof. vmr. Qed.
Example test_ndcg_jarvelin_2 : (is_mean close (ev [[(2%Z, z 5); (4%Z, z 4); (5%Z, z 3); (10%Z, z 2)]] [[(10%Z, z 1); (5%Z, z 1); (2%Z, z 1); (4%Z, z 1); (3%Z, z 1)]] "ndcg@10") ((z 2 / lg 2 + z 3 / lg 3 + z 5 / lg 4 + z 4 / lg 5) / (z 5 / lg 2 + z 4 / lg 3 + z 3 / lg 4 + z 2 / lg 5))) = true.
Proof. vmr. Qed.
Example test_ndcg_jarvelin_3 : (is_mean same (ev [[(2%Z, z 5); (4%Z, z 4); (5%Z, z 3); (10%Z, z 2)]] [[(1%Z, z 1); (3%Z, z 1); (6%Z, z 1); (7%Z, z 1); (8%Z, z 1)]] "ndcg@10") (z 0)) = true.
Proof. vmr. Qed.
Example test_dcg_burges_1 : (is_mean close (ev [[(2%Z, z 5); (4%Z, z 4); (5%Z, z 3); (10%Z, z 2)]] [[(1%Z, z 1); (2%Z, z 1); (3%Z, z 1); (4%Z, z 1); (5%Z, z 1)]] "dcg_burges@10") ((z 31 / lg 3 + z 15 / lg 5 + z 7 / lg 6))) = true.
Proof. vmr. Qed.
Example test_dcg_burges_2 : (is_mean close (ev [[(2%Z, z 5); (4%Z, z 4); (5%Z, z 3); (10%Z, z 2)]] [[(10%Z, z 1); (5%Z, z 1); (2%Z, z 1); (4%Z, z 1); (3%Z, z 1)]] "dcg_burges@10") ((z 3 / lg 2 + z 7 / lg 3 + z 31 / lg 4 + z 15 / lg 5))) = true.
Proof. vmr. Qed.
Example test_dcg_burges_3 : (is_mean same (ev [[(2%Z, z 5); (4%Z, z 4); (5%Z, z 3); (10%Z, z 2)]] [[(1%Z, z 1); (3%Z, z 1); (6%Z, z 1); (7%Z, z 1); (8%Z, z 1)]] "dcg_burges@10") (z 0)) = true.
Proof. vmr. Qed.
Example test_ndcg_burges_1 : (is_mean close (ev [[(2%Z, z 5); (4%Z, z 4); (5%Z, z 3); (10%Z, z 2)]] [[(1%Z, z 1); (2%Z, z 1); (3%Z, z 1); (4%Z, z 1); (5%Z, z 1)]] "ndcg_burges@10") ((z 31 / lg 3 + z 15 / lg 5 + z 7 / lg 6) / (z 31 / lg 2 + z 15 / lg 3 + z 7 / lg 4 + z 3 / lg 5))) = true.
Proof. vmr. Qed.
Example test_ndcg_burges_2 : (is_mean close (ev [[(2%Z, z 5); (4%Z, z 4); (5%Z, z 3); (10%Z, z 2)]] [[(10%Z, z 1); (5%Z, z 1); (2%Z, z 1); (4%Z, z 1); (3%Z, z 1)]] "ndcg_burges@10") ((z 3 / lg 2 + z 7 / lg 3 + z 31 / lg 4 + z 15 / lg 5) / (z 31 / lg 2 + z 15 / lg 3 + z 7 / lg 4 + z 3 / lg 5))) = true.
Proof. vmr. Qed.
Example test_ndcg_burges_3 : (is_mean same (ev [[(2%Z, z 5); (4%Z, z 4); (5%Z, z 3); (10%Z, z 2)]] [[(1%Z, z 1); (3%Z, z 1); (6%Z, z 1); (7%Z, z 1); (8%Z, z 1)]] "ndcg_burges@10") (z 0)) = true.
Proof. vmr. Qed.
(** metrics/*_test.py *)
Definition pq := mkq ([("q1", [("d2", 1%Z); ("d5", 1%Z); ("d1", 0%Z); ("d4", 0%Z)]); ("q2", [("d2", 1%Z); ("d5", 1%Z); ("d1", 0%Z); ("d6", 0%Z)]); ("q3", [("d2", 1%Z); ("d5", 1%Z); ("d7", 1%Z); ("d1", 0%Z); ("d6", 0%Z); ("d8", 0%Z)]); ("q4", [("d2", 1%Z); ("d4", 1%Z); ("d6", 1%Z); ("d9", 1%Z); ("d1", 0%Z); ("d3", 0%Z); ("d7", 0%Z); ("d8", 0%Z)])] : dict (dict Z)).
Definition pr := mk ([("q1", [("d1", z (10)); ("d2", z (9)); ("d3", z (8)); ("d4", z (7))]); ("q2", [("d1", z (10)); ("d2", z (9)); ("d3", z (8)); ("d4", z (7)); ("d5", z (6)); ("d6", z (5))]); ("q3", [("d1", z (10)); ("d2", z (9)); ("d3", z (8)); ("d4", z (7)); ("d5", z (6)); ("d6", z (5)); ("d7", z (4)); ("d8", z (3))]); ("q4", [("d1", z (10)); ("d2", z (9)); ("d3", z (8)); ("d4", z (7)); ("d6", z (5)); ("d7", z (4)); ("d8", z (3))])] : dict (dict sf)).
Example test_bpref : (arrays close (scores_of pq pr "bpref") [z 1 / z 2 * (z 1 - z 1 / z 2); z 1 / z 2 * ((z 1 - z 1 / z 2) + (z 1 - z 1 / z 2)); z 1 / z 3 * ((z 1 - z 1 / z 3) + (z 1 - z 1 / z 3) + (z 1 - z 2 / z 3)); z 1 / z 4 * ((z 1 - z 1 / z 4) + (z 1 - z 2 / z 4) + (z 1 - z 2 / z 4))]) = true.
Proof. vmr. Qed.
Definition fr := mk ([("q1", [("d1", z (10)); ("d2", z (9)); ("d3", z (8)); ("d4", z (7))]); ("q2", [("d1", z (10)); ("d2", z (9)); ("d3", z (8)); ("d4", z (7)); ("d5", z (6)); ("d6", z (5))]); ("q3", [("d1", z (10)); ("d2", z (9)); ("d3", z (8)); ("d4", z (7)); ("d5", z (6)); ("d6", z (5)); ("d7", z (4)); ("d8", z (3))]); ("q4", [("d1", z (10)); ("d12", z (9)); ("d3", z (8)); ("d14", z (7)); ("d16", z (5)); ("d7", z (4)); ("d8", z (3))])] : dict (dict sf)).
Example test_f1 : (match scores_of pq fr "precision", scores_of pq fr "recall", scores_of pq fr "f1" with Some [p1; p2; p3; _], Some [s1; s2; s3; _], Some [f1; f2; f3; f4] => close f1 (z 2 * ((p1 * s1) / (p1 + s1))) && close f2 (z 2 * ((p2 * s2) / (p2 + s2))) && close f3 (z 2 * ((p3 * s3) / (p3 + s3))) && same f4 (z 0) | _, _, _ => false end) = true.
Proof. vmr. Qed.
Definition rbq := mkq ([("q1", [("d1", 1%Z); ("d2", 1%Z); ("d6", 1%Z); ("d11", 1%Z); ("d17", 1%Z)])] : dict (dict Z)).
Definition rbr := mk ([("q1", [("d1", z (20)); ("d2", z (19)); ("d3", z (18)); ("d4", z (17)); ("d5", z (16)); ("d6", z (15)); ("d7", z (14)); ("d8", z (13)); ("d9", z (12)); ("d10", z (11)); ("d11", z (10)); ("d12", z (9)); ("d13", z (8)); ("d14", z (7)); ("d15", z (6)); ("d16", z (5)); ("d17", z (4)); ("d18", z (3)); ("d19", z (2)); ("d20", z (1))])] : dict (dict sf)).
Example test_rank_biased_precision_50 : (arrays (rounds 4) (scores_of rbq rbr "rbp.50") [d 7661 4]) = true.
Proof. vmr. Qed.
Example test_rank_biased_precision_80 : (arrays (rounds 4) (scores_of rbq rbr "rbp.80") [d 4526 4]) = true.
Proof. vmr. Qed.
Example test_rank_biased_precision_95 : (arrays (rounds 4) (scores_of rbq rbr "rbp.95") [d 1881 4]) = true.
Proof. vmr. Qed.
Definition zq := mkq ([("q_1", [("doc_a", 1%Z)]); ("q_2", [("doc_b", 1%Z)]); ("q_3", [("doc_c", 1%Z)]); ("q_4", [("doc_d", 1%Z)])] : dict (dict Z)).
Definition zr := mk ([("q_1", [("doc_a", d (10) 1)]); ("q_2", [("doc_b", d (10) 1)]); ("q_3", []); ("q_4", [("doc_d", d (10) 1)])] : dict (dict sf)).
Example test_zero_division_precision : (match scores_of zq zr "precision" with Some l => (length l =? 4)%nat && same (@fmean NT l) (d 75 2) | None => false end) = true.
Proof. vmr. Qed.
Example test_zero_division_recall : (match scores_of zq zr "recall" with Some l => (length l =? 4)%nat && same (@fmean NT l) (d 75 2) | None => false end) = true.
Proof. vmr. Qed.
Example test_zero_division_f1 : (match scores_of zq zr "f1" with Some l => (length l =? 4)%nat && same (@fmean NT l) (d 75 2) | None => false end) = true.
Proof. vmr. Qed.
(** meta/evaluate_test.py: objects and dicts *)
Definition added_q := fst (Qrels_add_multi (N := NT) E Qrels_empty ["q_1"; "q_2"] [["doc_12"; "doc_25"]; ["doc_11"; "doc_2"]] [[5%Z; 3%Z]; [6%Z; 1%Z]]).
Definition added_r := fst (Run_add_multi (N := NT) E Run_empty ["q_1"; "q_2"] [["doc_12"; "doc_23"; "doc_25"; "doc_36"; "doc_32"; "doc_35"]; ["doc_12"; "doc_11"; "doc_25"; "doc_36"; "doc_2"; "doc_35"]] [[d (9) 1; d (8) 1; d (7) 1; d (6) 1; d (5) 1; d (4) 1]; [d (9) 1; d (8) 1; d (7) 1; d (6) 1; d (5) 1; d (4) 1]]).
Definition added_r3 := fst (Run_add_multi (N := NT) E Run_empty ["q_1"; "q_3"] [["doc_12"; "doc_23"; "doc_25"; "doc_36"; "doc_32"; "doc_35"]; ["doc_12"; "doc_11"; "doc_25"; "doc_36"; "doc_2"; "doc_35"]] [[d (9) 1; d (8) 1; d (7) 1; d (6) 1; d (5) 1; d (4) 1]; [d (9) 1; d (8) 1; d (7) 1; d (6) 1; d (5) 1; d (4) 1]]).
Definition dict_q : dict (dict sf) := [("q_1", [("doc_12", z (5)); ("doc_25", z (3))]); ("q_2", [("doc_11", z (6)); ("doc_2", z (1))])].
Definition dict_r : dict (dict sf) := [("q_1", [("doc_12", d (9) 1); ("doc_23", d (8) 1); ("doc_25", d (7) 1); ("doc_36", d (6) 1); ("doc_32", d (5) 1); ("doc_35", d (4) 1)]); ("q_2", [("doc_12", d (9) 1); ("doc_11", d (8) 1); ("doc_25", d (7) 1); ("doc_36", d (6) 1); ("doc_2", d (5) 1); ("doc_35", d (4) 1)])].
Definition dict_r2 : dict (dict sf) := [("q_1", [("doc_35", d (4) 1); ("doc_25", d (7) 1); ("doc_23", d (8) 1); ("doc_36", d (6) 1); ("doc_12", d (9) 1); ("doc_32", d (5) 1)]); ("q_2", [("doc_12", d (9) 1); ("doc_25", d (7) 1); ("doc_2", d (5) 1); ("doc_36", d (6) 1); ("doc_11", d (8) 1); ("doc_35", d (4) 1)])].
Example test_with_Qrels_and_Run_control : (returns (evaluate (N := NT) E (QObj added_q) (RObj added_r) ["ndcg@5"] true false true false)) = true.
Proof. vmr. Qed.
Example test_python_dict : (returns (evaluate (N := NT) E (QDict (N := NT) dict_q) (RDict (N := NT) dict_r) ["ndcg@5"] true false true false)) = true.
Proof. vmr. Qed.
Example test_python_dict_2 : (match mean_of (evaluate (N := NT) E (QObj added_q) (RObj added_r) ["ndcg@5"] true false true false), mean_of (evaluate (N := NT) E (QDict (N := NT) dict_q) (RDict (N := NT) dict_r2) ["ndcg@5"] true false true false) with Some a, Some b => same a b | _, _ => false end) = true.
Proof. vmr. Qed.
Example test_keys_control : (negb (returns (evaluate (N := NT) E (QObj added_q) (RObj added_r3) ["ndcg@5"] true false true false))) = true.
Proof. vmr. Qed.
Definition stq := mkq ([("q_1", [("d_12", 5%Z); ("d_25", 3%Z)]); ("q_2", [("d_11", 6%Z); ("d_22", 1%Z)])] : dict (dict Z)).
Definition str_ := mk ([("q_1", [("d_12", d (9) 1); ("d_23", d (8) 1); ("d_25", d (7) 1); ("d_36", d (6) 1); ("d_32", d (5) 1); ("d_35", d (4) 1)]); ("q_2", [("d_12", d (9) 1); ("d_11", d (8) 1); ("d_25", d (7) 1); ("d_36", d (6) 1); ("d_22", d (5) 1); ("d_35", d (4) 1)])] : dict (dict sf)).
Example test_std : (match evaluate (N := NT) E (QObj stq) (RObj str_) ["map@5"; "mrr"] true true true false with EvalOut _ (RObj x) (Ok (OutDict [(m1, OStats _ s1); (m2, OStats _ s2)])) => String.eqb m1 "map@5" && String.eqb m2 "mrr" && match dget (r_scores x) "map@5", dget (r_scores x) "mrr", r_std x with Some d1, Some d2, [(n1, t1); (n2, t2)] => same s1 (@fstd NT (dvals d1)) && same s2 (@fstd NT (dvals d2)) && String.eqb n1 "map@5" && String.eqb n2 "mrr" && same t1 s1 && same t2 s2 | _, _, _ => false end | _ => false end) = true.
Proof. vmr. Qed.
(** data_structures/qrels_test.py, run_test.py *)
Definition qd : dict (dict Z) := [("q1", [("d1", 1%Z); ("d2", 2%Z); ("d3", 3%Z)]); ("q2", [("d1", 1%Z); ("d2", 2%Z)])].
Definition rd : dict (dict sf) := [("q1", [("d1", z (1)); ("d2", z (2)); ("d3", z (3))]); ("q2", [("d1", z (1)); ("d2", z (2))])].
Definition adds_q (l : list (string * string * Z)) := fold_left (fun x t => Qrels_add_score x (fst (fst t)) (snd (fst t)) (snd t)) l Qrels_empty.
Definition adds_r (l : list (string * string * Z)) := fold_left (fun x t => Run_add_score (N := NT) x (fst (fst t)) (snd (fst t)) (z (snd t))) l Run_empty.
Example test_qrels_init : (match Qrels_init (N := NT) E qd (Some "rocco") with Ok x => is_qmap (q_map x) qd && (Qrels_size x =? 2)%nat && match q_name x with Some s => String.eqb s "rocco" | None => false end | _ => false end) = true.
Proof. vmr. Qed.
Example test_qrels_from_dict : (match Qrels_from_dict (N := NT) E qd with Ok x => is_qmap (q_map x) qd | _ => false end) = true.
Proof. vmr. Qed.
Example test_qrels_add_score : (is_qmap (q_map (adds_q [("q1", "d1", 1%Z); ("q1", "d2", 2%Z); ("q1", "d3", 3%Z); ("q2", "d1", 1%Z); ("q2", "d2", 2%Z)])) qd && (Qrels_size (adds_q [("q1", "d1", 1%Z); ("q1", "d2", 2%Z); ("q1", "d3", 3%Z); ("q2", "d1", 1%Z); ("q2", "d2", 2%Z)]) =? 2)%nat) = true.
Proof. vmr. Qed.
Example test_qrels_add_multi : (is_qmap (q_map (fst (Qrels_add_multi (N := NT) E Qrels_empty ["q1"; "q2"] [["d1"; "d2"; "d3"]; ["d1"; "d2"]] [[1; 2; 3]; [1; 2]]%Z))) qd) = true.
Proof. vmr. Qed.
Example test_qrels_sort : (let x := adds_q [("q1", "d1", 1%Z); ("q1", "d2", 2%Z); ("q1", "d3", 3%Z); ("q2", "d1", 2%Z); ("q2", "d2", 1%Z)] in let y := Qrels_sort (N := NT) E x in negb (q_sorted x) && q_sorted y && negb (q_sorted (Qrels_add_score y "q2" "d2" 3)) && leqb (keys_at (q_map y) "q1") ["d3"; "d2"; "d1"] && leqb (keys_at (q_map y) "q2") ["d1"; "d2"] && zleqb (vals_at (q_map y) "q1") [3; 2; 1]%Z && zleqb (vals_at (q_map y) "q2") [2; 1]%Z) = true.
Proof. vmr. Qed.
Example test_qrels_to_typed_list : (match snd (Qrels_to_typed_list (N := NT) E (adds_q [("q1", "d1", 1%Z); ("q1", "d2", 2%Z); ("q1", "d3", 3%Z); ("q2", "d1", 2%Z); ("q2", "d2", 1%Z)])) with [a; b] => (length a =? 3)%nat && (length b =? 2)%nat | _ => false end) = true.
Proof. vmr. Qed.
Example test_qrels_to_dict : (match Qrels_init (N := NT) E qd None with Ok x => is_qmap (Qrels_to_dict x) qd | _ => false end) = true.
Proof. vmr. Qed.
Example test_qrels_set_relevance_level : (match Qrels_from_dict (N := NT) E qd with Ok x => is_qmap (q_map (Qrels_set_relevance_level (N := NT) E x 2)) [("q1", [("d1", 0%Z); ("d2", 1%Z); ("d3", 2%Z)]); ("q2", [("d1", 0%Z); ("d2", 1%Z)])] | _ => false end) = true.
Proof. vmr. Qed.
Example test_run_init : (match Run_init (N := NT) E rd (Some "bm25") with Ok x => is_map same (Ok x) rd && (Run_size x =? 2)%nat && named x "bm25" | _ => false end) = true.
Proof. vmr. Qed.
Example test_run_from_dict : (match Run_from_dict (N := NT) E rd (Some "test_run") with Ok x => is_map same (Ok x) rd && named x "test_run" | _ => false end) = true.
Proof. vmr. Qed.
Example test_run_add_score : (is_map same (Ok (adds_r [("q1", "d1", 1%Z); ("q1", "d2", 2%Z); ("q1", "d3", 3%Z); ("q2", "d1", 1%Z); ("q2", "d2", 2%Z)])) rd && (Run_size (adds_r [("q1", "d1", 1%Z); ("q1", "d2", 2%Z); ("q1", "d3", 3%Z); ("q2", "d1", 1%Z); ("q2", "d2", 2%Z)]) =? 2)%nat) = true.
Proof. vmr. Qed.
Example test_run_add_multi : (is_map same (Ok (fst (Run_add_multi (N := NT) E Run_empty ["q1"; "q2"] [["d1"; "d2"; "d3"]; ["d1"; "d2"]] [[z 1; z 2; z 3]; [z 1; z 2]]))) rd) = true.
Proof. vmr. Qed.
Example test_run_sort : (let x := adds_r [("q1", "d1", 1%Z); ("q1", "d2", 2%Z); ("q1", "d3", 3%Z); ("q2", "d1", 2%Z); ("q2", "d2", 1%Z)] in let y := Run_sort (N := NT) E x in negb (r_sorted x) && r_sorted y && negb (r_sorted (Run_add_score (N := NT) y "q2" "d2" (z 3))) && leqb (keys_at (r_map y) "q1") ["d3"; "d2"; "d1"] && leqb (keys_at (r_map y) "q2") ["d1"; "d2"] && fleqb (vals_at (r_map y) "q1") [z 3; z 2; z 1] && fleqb (vals_at (r_map y) "q2") [z 2; z 1]) = true.
Proof. vmr. Qed.
Example test_run_to_typed_list : (match snd (Run_to_typed_list (N := NT) E (adds_r [("q1", "d1", 1%Z); ("q1", "d2", 2%Z); ("q1", "d3", 3%Z); ("q2", "d1", 2%Z); ("q2", "d2", 1%Z)])) with [a; b] => (length a =? 3)%nat && (length b =? 2)%nat | _ => false end) = true.
Proof. vmr. Qed.
Definition sd : dict (dict sf) := [("q1", [("d1", d (1) 1); ("d2", d (2) 1); ("d3", d (3) 1)]); ("q2", [("d1", d (1) 1); ("d2", d (2) 1)])].
Example test_run_to_dict : (match Run_init (N := NT) E sd None with Ok x => is_map same (Ok (mkRun (N := NT) (Run_to_dict (N := NT) x) false None [] [] [])) sd | _ => false end) = true.
Proof. vmr. Qed.
Example test_make_comparable : (is_map same (Ok (Run_make_comparable (N := NT) E (mk ([("q1", [("d1", d (3) 1); ("d2", d (1) 1); ("d3", d (2) 1)]); ("q2", [("d1", d (1) 1); ("d2", d (2) 1)]); ("q4", [("d1", d (1) 1); ("d2", d (2) 1)])] : dict (dict sf))) (mkq ([("q1", [("d1", 1%Z); ("d2", 2%Z); ("d3", 3%Z)]); ("q2", [("d1", 1%Z); ("d2", 2%Z)]); ("q3", [("d1", 1%Z); ("d2", 2%Z)])] : dict (dict Z))))) [("q1", [("d1", d (3) 1); ("d2", d (1) 1); ("d3", d (2) 1)]); ("q2", [("d1", d (1) 1); ("d2", d (2) 1)]); ("q3", [])]) = true.
Proof. vmr. Qed.
Example test_qrels_get_file_kind : (kind_is qrels_kinds "qrels.json" "json" && kind_is qrels_kinds "qrels.trec" "trec" && kind_is qrels_kinds "qrels.txt" "trec" && kind_is qrels_kinds "qrels.gz" "gz" && kind_is qrels_kinds "qrels.parquet" "parquet" && kind_is qrels_kinds "qrels.parq" "parquet") = true.
Proof. vmr. Qed.
Example test_run_get_file_kind : (kind_is run_kinds "qrels.json" "json" && kind_is run_kinds "qrels.trec" "trec" && kind_is run_kinds "qrels.txt" "trec" && kind_is run_kinds "qrels.gz" "gz" && kind_is run_kinds "qrels.lz4" "lz4" && kind_is run_kinds "qrels.parquet" "parquet" && kind_is run_kinds "qrels.parq" "parquet") = true.
Proof. vmr. Qed.
(** the files of tests/unit/ranx/test_data; the readers of floats are given by a table *)
Definition qrels_trec : string := ("q1 0 d1 1" ++ newline ++ "q1 0 d2 2" ++ newline ++ "q1 0 d3 3" ++ newline ++ "q2 0 d1 1" ++ newline ++ "q2 0 d2 2")%string.
Definition run_trec : string := ("q1 Q0 d3 1 0.3 None" ++ newline ++ "q1 Q0 d2 2 0.2 None" ++ newline ++ "q1 Q0 d1 3 0.1 None" ++ newline ++ "q2 Q0 d2 1 0.2 None" ++ newline ++ "q2 Q0 d1 2 0.1 None")%string.
Example test_from_trec_file : (match Qrels_from_file (N := NT) E [("tests/unit/ranx/test_data/qrels.trec", FText qrels_trec)] "tests/unit/ranx/test_data/qrels.trec" None with Ok x => is_qmap (q_map x) qd | _ => false end) = true.
Proof. vmr. Qed.
Example test_from_gzipped_trec_file : (match Qrels_from_file (N := NT) E [("tests/unit/ranx/test_data/qrels.trec.gz", FGzip qrels_trec)] "tests/unit/ranx/test_data/qrels.trec.gz" None with Ok x => is_qmap (q_map x) qd | _ => false end) = true.
Proof. vmr. Qed.
Example test_load_trec : (match Run_from_file (N := NT) E flt [("tests/unit/ranx/test_data/run.trec", FText run_trec)] "tests/unit/ranx/test_data/run.trec" None (Some "test_run") with Ok x => is_map same (Ok x) sd && named x "test_run" | _ => false end) = true.
Proof. vmr. Qed.
Example test_load_gzipped_trec : (match Run_from_file (N := NT) E flt [("tests/unit/ranx/test_data/run.trec.gz", FGzip run_trec)] "tests/unit/ranx/test_data/run.trec.gz" None (Some "test_run") with Ok x => is_map same (Ok x) sd && named x "test_run" | _ => false end) = true.
Proof. vmr. Qed.
Example test_save_load_json : (match Run_init (N := NT) E sd None with Ok x => match Run_save (N := NT) E flt [] x "tests/unit/ranx/test_data/run.json" None with (_, Ok fs) => match Run_from_file (N := NT) E flt fs "tests/unit/ranx/test_data/run.json" None (Some "test_run") with Ok y => is_map same (Ok y) sd && named y "test_run" | _ => false end | _ => false end | _ => false end) = true.
Proof. vmr. Qed.
Example test_save_load_trec : (match Run_init (N := NT) E sd None with Ok x => match Run_save (N := NT) E flt [] x "tests/unit/ranx/test_data/run.trec" None with (_, Ok fs) => match Run_from_file (N := NT) E flt fs "tests/unit/ranx/test_data/run.trec" None (Some "test_run") with Ok y => is_map same (Ok y) sd && named y "test_run" | _ => false end | _ => false end | _ => false end) = true.
Proof. vmr. Qed.
Example test_save_load_lz4 : (match Run_init (N := NT) E sd None with Ok x => match Run_save (N := NT) E flt [] x "tests/unit/ranx/test_data/run.lz4" None with (_, Ok fs) => match Run_from_file (N := NT) E flt fs "tests/unit/ranx/test_data/run.lz4" None (Some "test_run") with Ok y => is_map same (Ok y) sd && named y "test_run" | _ => false end | _ => false end | _ => false end) = true.
Proof. vmr. Qed.
Example test_run_trec_text : (match Run_init (N := NT) E sd None with Ok x => match Run_save (N := NT) E flt [] x "run.trec" None with (_, Ok [(_, FText s)]) => String.eqb s run_trec | _ => false end | _ => false end) = true.
Proof. vmr. Qed.
Definition qdf : @frame NT := [("q_id", CStr ["q1"; "q1"; "q1"; "q2"; "q2"]); ("doc_id", CStr ["d1"; "d2"; "d3"; "d1"; "d2"]); ("score", CInt [1; 2; 3; 1; 2]%Z)].
Definition rdf : @frame NT := [("q_id", CStr ["q1"; "q1"; "q1"; "q2"; "q2"]); ("doc_id", CStr ["d1"; "d2"; "d3"; "d1"; "d2"]); ("score", CFloat (N := NT) [d 1 1; d 2 1; d 3 1; d 1 1; d 2 1])].
Example test_qrels_from_dataframe : (match Qrels_from_df (N := NT) E qdf "q_id" "doc_id" "score" with Ok x => is_qmap (q_map x) qd | _ => false end) = true.
Proof. vmr. Qed.
Example test_qrels_from_parquet : (match Qrels_from_parquet (N := NT) E [("tests/unit/ranx/test_data/qrels.parquet", FParquet qdf)] "tests/unit/ranx/test_data/qrels.parquet" "q_id" "doc_id" "score" [] with Ok x => is_qmap (q_map x) qd | _ => false end) = true.
Proof. vmr. Qed.
Example test_from_json_file : (match Qrels_from_file (N := NT) E [("tests/unit/ranx/test_data/qrels.json", FJson (map (fun qr => (fst qr, map (fun dv => (fst dv, Some (snd dv))) (snd qr))) qd))] "tests/unit/ranx/test_data/qrels.json" None with Ok x => is_qmap (q_map x) qd | _ => false end) = true.
Proof. vmr. Qed.
Example test_qrels_to_dataframe : (match Qrels_from_df (N := NT) E qdf "q_id" "doc_id" "score" with Ok x => match Qrels_to_dataframe (N := NT) x with [("q_id", CStr a); ("doc_id", CStr b); ("score", CInt c)] => is_qmap (group (zip3 a b c)) qd && (length a =? 5)%nat | _ => false end | _ => false end) = true.
Proof. vmr. Qed.
Example test_run_from_dataframe : (match Run_from_df (N := NT) E rdf "q_id" "doc_id" "score" (Some "test_run") with Ok x => is_map same (Ok x) sd && named x "test_run" && match Run_to_dataframe (N := NT) x with [("q_id", CStr a); ("doc_id", CStr b); ("score", CFloat c)] => is_map same (Ok (mkRun (N := NT) (group (zip3 a b c)) false None [] [] [])) sd && (length a =? 5)%nat | _ => false end | _ => false end) = true.
Proof. vmr. Qed.
Example test_run_from_parquet : (match Run_from_parquet (N := NT) E [("tests/unit/ranx/test_data/run.parquet", FParquet rdf)] "tests/unit/ranx/test_data/run.parquet" "q_id" "doc_id" "score" [] (Some "test_run") with Ok x => is_map same (Ok x) sd && named x "test_run" | _ => false end) = true.
Proof. vmr. Qed.
