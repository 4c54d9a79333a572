(** T_Plot.v: the data of the precision-recall plot (C73) *)
From Coq Require Import Reals Lra Lia.
From Verif Require Import Base Dict Num NumLaws Env M_Common M_Qrels M_Run M_History M_Metrics M_Evaluate M_Norm M_Fusion M_Train M_Text M_Optimize M_Plot
  Spec_DS Spec_Hist Spec_Strings Spec_Metrics Spec_MetricsAPI Spec_Eval Spec_Norm Spec_Fusion Spec_Train Spec_Plot
  P_Base P_Dict P_Common P_History P_DS P_Metrics P_Metrics4 P_Metrics6 P_Metrics7 T_DS T_Metrics T_Metrics2 T_Parse P_Eval P_Eval2 P_Eval3 T_Evaluate
  P_Train P_Train2 T_Optimize3 EnvEx Ex_Metrics T_Evaluate3.
Open Scope string_scope.
Open Scope list_scope.
Open Scope nat_scope.

Lemma interpolated_same j ds i : (if n_relevant j 1 =? 0 then 0%R else S_interpolated j 1 ds ((i * n_relevant j 1 + 9) / 10)) = interpolated_at j ds i.
Proof.
  unfold interpolated_at, S_interpolated. destruct (n_relevant j 1 =? 0); [reflexivity|]. do 2 f_equal. apply filter_ext. intros r.
  apply eq_true_iff_eq. rewrite !Nat.leb_le. apply C29_cutoff.
Qed.
Lemma interpolated_at_perm j j' ds i : dict_ok j -> Permutation j j' -> interpolated_at j' ds i = interpolated_at j ds i.
Proof.
  intros Hok Hp. unfold interpolated_at, precision_at.
  now rewrite (relevant_perm j j' 1 Hok Hp), (n_relevant_perm j j' 1 Hp).
Qed.
Lemma curve_row j ds : (if n_relevant j 1 =? 0 then repeat 0%R 11
    else map (fun i => S_interpolated j 1 ds ((i * n_relevant j 1 + 9) / 10)) (seq 0 11)) = map (interpolated_at j ds) (seq 0 11).
Proof.
  rewrite <- (map_ext _ _ (interpolated_same j ds)). now destruct (n_relevant j 1 =? 0).
Qed.

Section T.
Context (E : env NumR) (HE : env_ok E).
Lemma plot_run y x : qrels_inv y -> ok_run E y x -> exists rk,
  @interpolated_precision_at_recall NumR E (snd (@Qrels_to_typed_list NumR E y)) (snd (Run_to_typed_list E x)) 1
    = Ok (map (fun q => map (interpolated_at (of_query (q_map y) q) (rk q)) (seq 0 11)) (str_sort (dkeys (q_map y)))) /\
  r_name (fst (Run_to_typed_list E x)) = r_name x /\
  (forall q d, score_of (fst (Run_to_typed_list E x)) q d = score_of x q d) /\
  (forall q, ranks (results_of x q) (rk q)).
Proof.
  intros Hy (Hx & Hsame & Hids).
  destruct (qrels_typed E HE y Hy) as (Q1 & Q2 & Q3 & Q4 & Q5 & Q6 & Q7).
  destruct (run_typed E HE x Hx) as (R1 & R2 & R3 & R4 & R5 & R6 & R7 & R8 & R9 & R10).
  set (y' := fst (@Qrels_to_typed_list NumR E y)) in *. set (x' := fst (Run_to_typed_list E x)) in *.
  set (qs := str_sort (dkeys (q_map y))) in *.
  assert (Hqs : str_sort (dkeys (r_map x)) = qs).
  { symmetry. apply str_sort_set_eq; [apply Hy|apply Hx|exact Hsame]. }
  rewrite Hqs in R1.
  assert (Hpermy : forall q, Permutation (of_query (q_map y) q) (of_query (q_map y') q)) by exact (of_query_perm _ _ Q6).
  assert (Hpermx : forall q, Permutation (results_of x q) (results_of x' q)) by exact (of_query_perm _ _ R9).
  assert (Hinqs : forall q, In q qs <-> In q (dkeys (q_map y))).
  { intros q. unfold qs. split; apply Permutation_in; [apply Permutation_sym|]; apply str_sort_perm. }
  assert (Hal : aligned E (map (of_query (q_map y')) qs) (map (of_query (r_map x')) qs)).
  { unfold aligned. assert (Hi : incl qs qs) by (intros ? ?; auto). revert Hi. generalize qs at 1 3 4 as l.
    induction l as [|q l IH]; intros Hi; constructor.
    - split; [now apply of_query_ok|]. split; [apply (of_query_ok (r_map x') q R3)|].
      eapply ids_distinct_perm; [|apply (Hids q)].
      + apply Permutation_app; unfold dkeys; apply Permutation_map; [apply Hpermy|]. apply Hpermx.
      + apply Hinqs, Hi. now left.
    - apply IH. intros a Ha. apply Hi. now right. }
  exists (fun q => dkeys (results_of x' q)).
  split; [|split; [exact R5|split]].
  - rewrite Q1, R1. rewrite (C29_interpolated E HE _ _ 1%Z Hal). f_equal. unfold per_query. clear - Hpermy Hy.
    induction qs as [|q l IH]; [reflexivity|]. cbn [map combine]. f_equal; [|exact IH].
    cbn [fst snd]. rewrite curve_row. apply map_ext. intros i. apply interpolated_at_perm; [apply of_query_ok, Hy|apply Hpermy].
  - exact (perm_of_dget2 (r_map x) (r_map x') (proj1 Hx) R9).
  - intros q. exists (results_of x' q). split; [apply Hpermx|]. split; [exact (R10 q)|reflexivity].
Qed.
Lemma nth_map_seq {A} (f : nat -> A) n j d : j < n -> nth j (map f (seq 0 n)) d = f j.
Proof. intros H. rewrite nth_indep with (d' := f 0) by (rewrite map_length, seq_length; exact H). rewrite map_nth, seq_nth; auto. Qed.
Lemma column_means_R jm rk : @column_means NumR (map (fun q => map (interpolated_at (of_query jm q) (rk q)) (seq 0 11)) (str_sort (dkeys jm)))
  = map (curve jm rk) (seq 0 11).
Proof.
  unfold column_means. apply map_ext_in. intros j Hj. apply in_seq in Hj. rewrite fmean_R, map_map.
  unfold curve, mean_over, mean_of. rewrite !map_length, <- (Permutation_length (str_sort_perm (dkeys jm))). f_equal.
  transitivity (Rsum (map (fun q => interpolated_at (of_query jm q) (rk q) j) (str_sort (dkeys jm)))).
  - f_equal. apply map_ext. intros q. apply (nth_map_seq (interpolated_at (of_query jm q) (rk q)) 11 j 0%R). lia.
  - apply Rsum_perm, Permutation_map, Permutation_sym, str_sort_perm.
Qed.
End T.

Lemma nth_concat {A} n (ls : list (list A)) i j l : Forall (fun l => length l = n) ls -> j < n -> nth_error ls i = Some l ->
  nth_error (concat ls) (n * i + j) = nth_error l j.
Proof.
  intros Hl Hj. revert i. induction Hl as [|l' ls Hl' Hl IH]; intros [|i] Hi; cbn [nth_error] in Hi; try discriminate; cbn [concat].
  - injection Hi as ->. rewrite nth_error_app1 by lia. f_equal. lia.
  - rewrite nth_error_app2 by nia. rewrite Hl'. replace (n * S i + j - n) with (n * i + j) by nia. now apply IH.
Qed.
Lemma length_concat_n {A} n (ls : list (list A)) : Forall (fun l => length l = n) ls -> length (concat ls) = n * length ls.
Proof. induction 1 as [|l ls H _ IH]; cbn [concat length]; [lia|]. rewrite app_length, H, IH. nia. Qed.
Lemma nth_combine {A B} (l : list A) (l' : list B) i : nth_error (combine l l') i =
  match nth_error l i, nth_error l' i with Some a, Some b => Some (a, b) | _, _ => None end.
Proof.
  revert l' i. induction l as [|a l IH]; intros [|b l'] [|i]; cbn; try reflexivity; [now destruct (nth_error l i)|apply IH].
Qed.
Lemma nth_combine3 {A B C} (m : list A) (r : list B) (p : list C) i a b c :
  nth_error m i = Some a -> nth_error r i = Some b -> nth_error p i = Some c -> nth_error (combine (combine m r) p) i = Some (a, b, c).
Proof. intros H1 H2 H3. now rewrite !nth_combine, H1, H2, H3. Qed.
Lemma recall_R : @arange NumR fzero (fdec 11 1) (fdec 1 1) = Ok (map (fun i => (INR i / 10)%R) (seq 0 11)).
Proof.
  destruct (arange_R 0%R (IZR 11 / 10 ^ 1)%R (IZR 1 / 10 ^ 1)%R ltac:(lra)) as (n & Ha & Hn).
  assert (Hn11 : n = 11).
  { assert (H10 : 10 < n) by (apply Hn; change (INR 10) with (INR (Z.to_nat 10)); rewrite INR_IZR_INZ, Z2Nat.id by lia; lra).
    destruct (Nat.eq_dec n 11) as [|Hne]; [assumption|exfalso]. assert (H11 : 11 < n) by lia. apply Hn in H11. revert H11.
    change (INR 11) with (INR (Z.to_nat 11)). rewrite INR_IZR_INZ, Z2Nat.id by lia. lra. }
  subst n. etransitivity; [exact Ha|]. f_equal. apply map_ext. intros i. lra.
Qed.

Lemma finish_ok {A B C D} (m : list A) (r : list B) (p : list C) (e : exn) (results : list D) :
  results <> [] -> length m = length r -> length r = length p ->
  match results with
  | [] => Err e
  | _ :: _ => if (length m =? length r) && (length r =? length p) then Ok (combine (combine m r) p) else Err e
  end = Ok (combine (combine m r) p).
Proof. intros H -> ->. destruct results; [congruence|]. now rewrite Nat.eqb_refl. Qed.
(** the name shown for the i-th of the runs *)
Definition shown_name (a : plot_runs NumR) (i : nat) (x : Run NumR) : string :=
  match r_name x, a with
  | Some n, _ => n
  | None, PlotMany _ => ("run_" ++ str_int (Z.of_nat (i + 1)))%string
  | None, PlotOne _ => "run"
  end.
Lemma nth_enum {A} (l : list A) i : nth_error (enumerate l) i = option_map (pair i) (nth_error l i).
Proof.
  unfold enumerate. enough (H : forall k, nth_error (enum_from k l) i = option_map (pair (k + i)) (nth_error l i)) by exact (H 0).
  revert i. induction l as [|a l IH]; intros [|i] k; cbn; try reflexivity; [now rewrite Nat.add_0_r|].
  rewrite IH. replace (S k + i) with (k + S i) by lia. reflexivity.
Qed.
Lemma plot_names_nth a i x : nth_error (plot_list a) i = Some x -> nth_error (plot_names a) i = Some (shown_name a i x).
Proof.
  destruct a as [xs|x0]; cbn [plot_list plot_names].
  - intros H. rewrite nth_error_map, nth_enum, H. cbn [option_map fst snd]. unfold shown_name. now destruct (r_name x).
  - destruct i as [|[|i]]; try discriminate. cbn [nth_error]. intros [= ->]. unfold shown_name. now destruct (r_name x).
Qed.
Lemma plot_names_length a : length (plot_names a) = length (plot_list a).
Proof.
  destruct a as [xs|x0]; [|reflexivity]. cbn [plot_names plot_list]. rewrite map_length. unfold enumerate.
  generalize 0. induction xs; intros k; cbn; auto.
Qed.

(** ** C73: eleven rows per run, in the given order: name, recall 0, 0.1, ..., 1 and the mean over the
    judged queries of the interpolated precision; the objects are at most reordered *)
Theorem C73_curves : forall (E : env NumR), env_ok E -> forall y a, trainable E y (plot_list a) -> plot_list a <> [] ->
  exists y' xs' rows, plot E y a = (y', xs', Ok rows) /\
    (forall q d, dget2 (q_map y') q d = dget2 (q_map y) q d) /\
    Forall2 (fun x x' => r_name x' = r_name x /\ forall q d, score_of x' q d = score_of x q d) (plot_list a) xs' /\
    length rows = 11 * length (plot_list a) /\
    forall i x, nth_error (plot_list a) i = Some x ->
      exists rk, (forall q, has_query x q -> ranks (results_of x q) (rk q)) /\
        forall j, j < 11 -> nth_error rows (11 * i + j) = Some (shown_name a i x, INR j / 10, curve (q_map y) rk j)%R.
Proof.
  intros E HE y a Ht Hne. destruct (trainable_ok E HE y _ Ht) as [Hy Hxs]. unfold plot.
  set (xs := plot_list a) in *. set (yq := @Qrels_to_typed_list NumR E y) in *.
  assert (Hres : exists results, map_m (fun r => do s <- @interpolated_precision_at_recall NumR E (snd yq) (snd r) 1; Ok (column_means s)) (map (Run_to_typed_list E) xs) = Ok results /\
    Forall2 (fun x x' => r_name x' = r_name x /\ forall q d, score_of x' q d = score_of x q d) xs (map fst (map (Run_to_typed_list E) xs)) /\
    Forall2 (fun x c => exists rk, (forall q, has_query x q -> ranks (results_of x q) (rk q)) /\ c = map (curve (q_map y) rk) (seq 0 11)) xs results).
  { clear Ht Hne. clearbody xs. induction xs as [|x xs IH]; [exists []; repeat split; constructor|].
    destruct (plot_run E HE y x Hy (Hxs x (or_introl eq_refl))) as (rk & H1 & H2 & H3 & H4).
    destruct (IH (fun x Hx => Hxs x (or_intror Hx))) as (results & I1 & I2 & I3).
    exists (map (curve (q_map y) rk) (seq 0 11) :: results). cbn [map]. split; [|split].
    - cbn [map_m]. fold yq in H1. rewrite H1. cbn [bindr]. rewrite I1. cbn [bindr]. f_equal. f_equal. apply column_means_R.
    - constructor; [now split|exact I2].
    - constructor; [|exact I3]. exists rk. split; [intros q _; apply H4|reflexivity]. }
  destruct Hres as (results & H1 & H2 & H3).
  assert (Hlen : length xs = length results) by (clear - H3; induction H3; cbn; auto).
  assert (H11 : Forall (fun c => length c = 11) results).
  { clear - H3. induction H3 as [|x c l l' (rk & _ & ->) _ IH]; constructor; auto. }
  assert (Hrec : @arange NumR fzero (fdec 11 1) (fdec 1 1) = Ok (map (fun i => (INR i / 10)%R) (seq 0 11))) by exact recall_R.
  set (rc := map (fun i => (INR i / 10)%R) (seq 0 11)) in *.
  assert (L1 : Forall (fun l => length l = 11) (map (fun n => repeat n 11) (plot_names a))).
  { apply Forall_map, Forall_forall. intros n _. apply repeat_length. }
  assert (L2 : Forall (fun l => length l = 11) (repeat rc (length results))).
  { apply Forall_forall. intros l Hl. apply repeat_spec in Hl. now subst l. }
  exists (fst yq), (map fst (map (Run_to_typed_list E) xs)),
    (combine (combine (concat (map (fun n => repeat n 11) (plot_names a))) (concat (repeat rc (length results)))) (concat results)).
  split; [|split; [|split; [exact H2|split]]].
  - f_equal. etransitivity; [exact (f_equal (fun r => bindr r _) H1)|]. cbn [bindr].
    etransitivity; [exact (f_equal (fun r => bindr r _) Hrec)|]. cbn [bindr].
    assert (Hn0 : results <> []) by (destruct results; [destruct xs; [congruence|discriminate]|congruence]).
    refine (finish_ok _ _ _ _ results Hn0 _ _).
    + etransitivity; [exact (length_concat_n 11 _ L1)|]. etransitivity; [|symmetry; exact (length_concat_n 11 _ L2)].
      rewrite map_length, repeat_length, plot_names_length. fold xs. now rewrite Hlen.
    + etransitivity; [exact (length_concat_n 11 _ L2)|]. etransitivity; [|symmetry; exact (length_concat_n 11 _ H11)].
      now rewrite repeat_length.
  - destruct (qrels_typed E HE y Hy) as (_ & _ & _ & _ & _ & Q6 & _). apply perm_of_dget2; [apply Hy|exact Q6].
  - rewrite !combine_length, (length_concat_n 11 _ L1), (length_concat_n 11 _ L2), (length_concat_n 11 _ H11).
    rewrite map_length, repeat_length, plot_names_length. fold xs. lia.
  - intros i x Hi.
    assert (Hc : exists c rk, nth_error results i = Some c /\ (forall q, has_query x q -> ranks (results_of x q) (rk q)) /\ c = map (curve (q_map y) rk) (seq 0 11)).
    { clear - H3 Hi. revert i Hi. induction H3 as [|x0 c l l' (rk & R1 & R2) _ IH]; intros [|i] Hi; try discriminate; cbn [nth_error] in *.
      - injection Hi as ->. exists c, rk. auto.
      - now apply IH. }
    destruct Hc as (c & rk & Hc & Hrk & ->). exists rk. split; [exact Hrk|]. intros j Hj.
    assert (Hs : nth_error (seq 0 11) j = Some j).
    { rewrite nth_error_nth' with (d := 0) by (rewrite seq_length; lia). now rewrite seq_nth. }
    refine (nth_combine3 _ _ _ _ _ _ _ _ _ _).
    + rewrite (nth_concat 11 _ i j (repeat (shown_name a i x) 11) L1 Hj); [now rewrite nth_error_repeat|].
      rewrite nth_error_map, (plot_names_nth a i x Hi). reflexivity.
    + etransitivity; [refine (nth_concat 11 _ i j rc L2 Hj _)|].
      * apply nth_error_repeat. rewrite <- Hlen. apply nth_error_Some. congruence.
      * unfold rc. rewrite nth_error_map, Hs. reflexivity.
    + etransitivity; [exact (nth_concat 11 _ i j _ H11 Hj Hc)|]. rewrite nth_error_map, Hs. reflexivity.
Qed.
Print Assumptions C73_curves.
Lemma curve_shape : forall jm rk i, (0 <= curve jm rk (S i) <= curve jm rk i /\ curve jm rk i <= 1)%R.
Proof.
  intros jm rk i. assert (H01 : forall k j ds, (0 <= interpolated_at j ds k <= 1)%R).
  { intros k j ds. rewrite <- interpolated_same. destruct (n_relevant j 1 =? 0); [lra|apply interpolated_01]. }
  assert (Hm : forall k, (0 <= curve jm rk k <= 1)%R) by (intros k; apply mean_range; intros; apply H01).
  split; [split|apply Hm]; [apply Hm|]. unfold curve, mean_over, mean_of. rewrite !map_length.
  destruct (dkeys jm) as [|q0 qs] eqn:Hd; [cbn; lra|]. rewrite <- Hd.
  apply Rmult_le_compat_r; [left; apply Rinv_0_lt_compat, lt_0_INR; rewrite Hd; cbn; lia|].
  clear Hd. induction (dkeys jm) as [|q l IH]; cbn [map Rsum]; [lra|]. apply Rplus_le_compat; [|exact IH].
  rewrite <- !interpolated_same. destruct (n_relevant (of_query jm q) 1 =? 0); [lra|].
  apply interpolated_mono. apply Nat.div_le_mono; [lia|]. nia.
Qed.
(** a curve never increases and stays between 0 and 1 *)
Theorem C73_shape : forall (E : env NumR), env_ok E -> forall y a rows, trainable E y (plot_list a) -> plot_list a <> [] ->
  snd (plot E y a) = Ok rows -> forall i j n r p, i < length (plot_list a) -> j < 11 -> nth_error rows (11 * i + j) = Some (n, r, p) ->
  (r = INR j / 10 /\ 0 <= p <= 1)%R /\
  forall n' r' p', S j < 11 -> nth_error rows (11 * i + S j) = Some (n', r', p') -> n' = n /\ (p' <= p)%R.
Proof.
  intros E HE y a rows Ht Hne Hp i j n r p Hi Hj Hr.
  destruct (C73_curves E HE y a Ht Hne) as (y' & xs' & rows' & H1 & _ & _ & _ & H2). rewrite H1 in Hp. cbn [snd] in Hp. injection Hp as ->.
  destruct (nth_error (plot_list a) i) as [x|] eqn:Hx; [|apply nth_error_None in Hx; lia].
  destruct (H2 i x Hx) as (rk & _ & Hrows).
  assert (Hr0 := Hrows j Hj). rewrite Hr in Hr0. injection Hr0 as -> -> ->. pose proof (curve_shape (q_map y) rk j) as Hs. split; [lra|].
  intros n' r' p' HSj Hr'. rewrite (Hrows (S j) HSj) in Hr'. injection Hr' as <- _ <-. split; [reflexivity|lra].
Qed.
Print Assumptions C73_shape.
(** no runs: ValueError, whatever the judgments *)
Theorem C73_no_runs : forall (E : env NumR) y, snd (plot E y (PlotMany [])) = Err ValueError.
Proof.
  intros E y. unfold plot. cbn [snd plot_list map map_m bindr].
  etransitivity; [exact (f_equal (fun r => bindr r _) recall_R)|]. reflexivity.
Qed.
Print Assumptions C73_no_runs.
(** binary64: the axis has eleven points too, so the data frame can be built *)
Theorem C73_axis_binary64 : exists l, @arange NumSF fzero (fdec 11 1) (fdec 1 1) = Ok l /\ length l = 11.
Proof.
  destruct (@arange NumSF fzero (fdec 11 1) (fdec 1 1)) as [l|e] eqn:H.
  - exists l. split; [reflexivity|]. assert (Hl : match @arange NumSF fzero (fdec 11 1) (fdec 1 1) with Ok l => length l | Err _ => 0 end = 11) by vmr.
    rewrite H in Hl. exact Hl.
  - assert (Hl : is_Ok (@arange NumSF fzero (fdec 11 1) (fdec 1 1)) = true) by vmr. rewrite H in Hl. discriminate Hl.
Qed.
Print Assumptions C73_axis_binary64.
(** queries are paired by position and not compared: a run without any judged query is drawn with
    precision 1 everywhere *)
Theorem C73_other_queries_refuted : ~ (forall (E : env NumSF) y x rows, env_ok E -> snd (plot E y (PlotOne x)) = Ok rows ->
  (exists q, In q (dkeys (q_map y)) /\ In q (dkeys (r_map x))) \/ forall n r p, In (n, r, p) rows -> @feqb NumSF p fone = false).
Proof.
  intros H.
  set (y := mkQrels [("q1", [("d", 1%Z)])] true None).
  set (x := @mkRun NumSF [("q2", [("d", @fone NumSF)])] true None [] [] []).
  destruct (snd (@plot NumSF env_ex y (PlotOne x))) as [rows|e] eqn:Hp.
  - assert (H1 : match snd (@plot NumSF env_ex y (PlotOne x)) with Ok ((_, _, p) :: _) => @feqb NumSF p fone | _ => false end = true) by vmr.
    rewrite Hp in H1. destruct (H env_ex y x rows (env_ex_ok NumSF_ok) Hp) as [(q & H2 & H3)|H2].
    + cbn in H2, H3. destruct H2 as [<-|[]], H3 as [H3|[]]. discriminate H3.
    + destruct rows as [|[[n r] p] rows]; [discriminate H1|]. rewrite (H2 n r p (or_introl eq_refl)) in H1. discriminate H1.
  - assert (H1 : is_Ok (snd (@plot NumSF env_ex y (PlotOne x))) = true) by vmr. rewrite Hp in H1. discriminate H1.
Qed.
Print Assumptions C73_other_queries_refuted.
(** two runs, two judged queries: 22 rows *)
Example C73_ex : trainable env_ex ex_y [ex_x; ex_x] /\ exists rows, snd (plot env_ex ex_y (PlotMany [ex_x; ex_x])) = Ok rows /\ length rows = 22.
Proof.
  assert (Ht : trainable env_ex ex_y [ex_x; ex_x]).
  { split; [apply ex_y_reachable|]. split; [discriminate|].
    intros x [<-|[<-|[]]]; (split; [apply ex_x_reachable|]; split; [apply ex_same|apply ex_docs; auto]). }
  split; [exact Ht|].
  destruct (C73_curves env_ex env_ok_ex ex_y (PlotMany [ex_x; ex_x]) Ht) as (y' & xs' & rows & H1 & _ & _ & H2 & _); [discriminate|].
  exists rows. rewrite H1. split; [reflexivity|exact H2].
Qed.
