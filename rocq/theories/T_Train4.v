(** T_Train4.v: training data over different queries (C53), examples and assumptions of the training part *)
From Coq Require Import Reals Lra Lia Permutation.
From Verif Require Import Base Dict Num NumLaws Env EnvEx M_Common M_Qrels M_Run M_Metrics M_Norm M_Fusion M_Train M_History P_Metrics7
  Spec_DS Spec_Metrics Spec_Eval Spec_Norm Spec_Fusion Spec_Train
  P_Base P_Dict P_Common P_DS P_Metrics P_Eval P_Norm T_Norm T_Norm2 T_Norm3 T_Metrics2 Ex_Metrics P_Fusion P_Fusion2 P_Fusion3 T_Fusion T_Fusion5 T_Fusion6
  T_Evaluate3 Spec_MetricsAPI
  P_Train P_Train2 P_Train3 T_Train T_Train2 T_Train3.
Open Scope string_scope.
Open Scope list_scope.
Open Scope nat_scope.

(** ** C53: training does not check that judgments and runs are about the same queries; lists are
    paired by position, so judgments of "q1" are applied to the results of "q2" *)
Definition t_y1 : Qrels := @qrels_hist NumR env_ex Qrels_empty [QAddScore "q1" "d" 1].
Definition t_x1 : Run NumR := @run_hist NumR env_ex Run_empty [@RAddScore NumR "q2" "d" 1%R].
Lemma one_result {V} (m' : dict (dict V)) q k v : Permutation [(k, v)] (of_query m' q) -> of_query m' q = [(k, v)].
Proof. apply Permutation_length_1_inv. Qed.
Theorem C53_unchecked_refuted :
  qrels_reachable env_ex t_y1 /\ run_reachable env_ex t_x1 /\ (forall q, In q (dkeys (q_map t_y1)) -> ~ has_query t_x1 q) /\
  exists y' xs', posfuse_train env_ex t_y1 [t_x1] = (y', xs', Ok [[1%R]]).
Proof.
  assert (Hy : qrels_reachable env_ex t_y1).
  { exists Qrels_empty, [QAddScore "q1" "d" 1]. split; [now left|]. split; [repeat constructor|]. split; reflexivity. }
  assert (Hx : run_reachable env_ex t_x1) by (apply reach_add; repeat constructor).
  split; [exact Hy|]. split; [exact Hx|]. split.
  { intros q [<-|[]] [H|[]]. discriminate. }
  destruct (qrels_typed env_ex env_ok_ex t_y1 (qrels_reachable_inv env_ex env_ok_ex t_y1 Hy)) as (Q1 & _ & _ & _ & _ & Q2 & _).
  destruct (run_typed env_ex env_ok_ex t_x1 (run_reachable_inv env_ex env_ok_ex t_x1 Hx)) as (R1 & _ & _ & _ & _ & _ & _ & _ & R2 & _).
  assert (Ky : str_sort (dkeys (q_map t_y1)) = ["q1"]) by reflexivity. assert (Kx : str_sort (dkeys (r_map t_x1)) = ["q2"]) by reflexivity.
  rewrite Ky in Q1. rewrite Kx in R1. cbn [map] in Q1, R1.
  assert (Qo : of_query (q_map (fst (@Qrels_to_typed_list NumR env_ex t_y1))) "q1" = [("d", 1%Z)]).
  { apply one_result. specialize (Q2 "q1"). assert (Hd : dget (q_map t_y1) "q1" = Some [("d", 1%Z)]) by reflexivity. rewrite Hd in Q2.
    unfold of_query. destruct (dget (q_map (fst (Qrels_to_typed_list env_ex t_y1))) "q1"); [exact Q2|contradiction]. }
  assert (Ro : of_query (r_map (fst (@Run_to_typed_list NumR env_ex t_x1))) "q2" = [("d", 1%R)]).
  { apply one_result. specialize (R2 "q2"). assert (Hd : dget (r_map t_x1) "q2" = Some [("d", 1%R)]) by reflexivity.
    assert (Hgen : forall o o' : option (dict R), o = Some [("d", 1%R)] -> match o with Some r => match o' with Some r' => Permutation r r' | None => False end | None => match o' with Some _ => False | None => True end end ->
      Permutation [("d", 1%R)] match o' with Some r => r | None => [] end) by (intros o [r'|] -> H; [exact H|contradiction]).
    exact (Hgen (dget (r_map t_x1) "q2") (dget (r_map (fst (@Run_to_typed_list NumR env_ex t_x1))) "q2") Hd R2). }
  rewrite Qo in Q1. 
  assert (R1' : snd (@Run_to_typed_list NumR env_ex t_x1) = run_arg env_ex [[("d", 1%R)]]) by (etransitivity; [exact R1|exact (f_equal (fun r : dict R => run_arg env_ex [r]) Ro)]).
  assert (Hal : aligned env_ex [[("d", 1%Z)]] [[("d", 1%R)]]).
  { constructor; [|constructor]. apply query_ok_ex; vmr. }
  destruct (C36_lists env_ex env_ok_ex _ _ 0%Z 1%Z Hal ltac:(lia)) as (Hh & _).
  assert (Hth : snd (@train_hits NumR env_ex t_y1 t_x1) = Ok [[1%R]]).
  { unfold train_hits. cbn [snd].
    assert (Hgen : forall a b, a = qrels_arg env_ex [[("d", 1%Z)]] -> b = run_arg env_ex [[("d", 1%R)]] ->
      @get_hit_lists NumR env_ex a b 0 1 = Ok [[1%R]]) by (intros a b -> ->; exact Hh).
    exact (Hgen _ _ Q1 R1'). }
  unfold posfuse_train. cbn [train_each]. unfold estimate_probs. destruct (train_hits env_ex t_y1 t_x1) as [[y1 x1] h]. cbn [snd] in Hth. subst h.
  cbn [bindr].
  assert (He : @_estimate_probs NumR [[1%R]] = Ok [1%R]).
  { unfold _estimate_probs. cbn. do 2 f_equal. lra. }
  do 2 eexists. 
  assert (Hgen : forall (y : Qrels) (x : Run NumR) (r : result (list R)), r = Ok [1%R] ->
     match (y, x, r) with (y1, x1, Err e) => (y1, [x1], Err e) | (y1, x1, Ok a) => (y1, [x1], Ok [a]) end = (y, [x], Ok [[1%R]])) by (intros y x r ->; reflexivity).
  exact (Hgen _ _ _ He).
Qed.

(** ** Examples *)
Lemma ex_trainable : trainable env_ex ex_y [ex_x; ex_x].
Proof.
  split; [apply ex_y_reachable|]. split; [discriminate|].
  intros x [<-|[<-|[]]]; (split; [apply ex_x_reachable|]; split; [apply ex_same|apply ex_docs; auto]).
Qed.
(** two runs are trained: two lists of probabilities in [0,1] *)
Example ex_C53 : exists y' xs' p p', posfuse_train env_ex ex_y [ex_x; ex_x] = (y', xs', Ok [p; p']) /\ p <> [].
Proof.
  destruct (C53_posfuse_train env_ex env_ok_ex ex_y [ex_x; ex_x] ex_trainable) as (y' & xs' & ps & H1 & _ & _ & H2).
  inversion H2 as [|x p xs ps1 (rk & Hrk & Hp) H3 E1 E2]; subst. inversion H3 as [|x' p' xs1 ps2 _ H4 E1 E2]; subst. inversion H4; subst.
  exists y', xs', p, p'. split; [exact H1|]. intros ->. destruct Hp as [Hp _].
  assert (Hq : In "q1" (dkeys (q_map ex_y))) by (cbn; tauto).
  assert (Hr : ranks (results_of ex_x "q1") (rk "q1")) by (apply Hrk; apply ex_same; exact Hq).
  destruct Hr as (l & Hl & _ & Hk).
  destruct (Hp 0) as [_ H0]. cbn in H0. apply (Nat.lt_irrefl 0), H0. exists "q1". split; [exact Hq|]. rewrite Hk.
  apply Permutation_length in Hl. cbn in Hl. unfold dkeys. rewrite map_length. cbn. lia.
Qed.
(** PosFuse with one list of probabilities per run *)
Example ex_C54 : exists y, posfuse env_ex [n_x; n_x2] [[1%R; (1/2)%R]; [0%R]] "posfuse" = Ok y.
Proof. destruct (C54_posfuse env_ex env_ok_ex [n_x; n_x2] [[1%R; (1/2)%R]; [0%R]] "posfuse" n_fusable) as (y & H & _); [cbn; lia|eauto]. Qed.
Example ex_C54_slide : exists y, slidefuse env_ex [n_x; n_x2] [[1%R; (1/2)%R]; [0%R]] 3 "slidefuse" = Ok y.
Proof. destruct (C54_slidefuse env_ex env_ok_ex [n_x; n_x2] [[1%R; (1/2)%R]; [0%R]] 3 "slidefuse" n_fusable) as (y & H & _); [cbn; lia|lia|eauto]. Qed.
Example ex_C55 : exists y, probfuse env_ex [n_x; n_x2] [[1%R; (1/2)%R]; [0%R]] "probfuse" = Ok y.
Proof. destruct (C55_probfuse env_ex env_ok_ex [n_x; n_x2] [[1%R; (1/2)%R]; [0%R]] "probfuse" n_fusable) as (y & H & _); [cbn; lia|intros p [<-|[<-|[]]]; discriminate|eauto]. Qed.
Example ex_C55_seg : exists y, segfuse env_ex [n_x; n_x2] [[1%R; (1/2)%R]; [0%R]] "segfuse" = Ok y.
Proof. destruct (C55_segfuse env_ex env_ok_ex [n_x; n_x2] [[1%R; (1/2)%R]; [0%R]] "segfuse" n_fusable) as (y & H & _); [cbn; lia|intros p [<-|[<-|[]]]; cbn; lia|eauto]. Qed.
(** 10 results in 4 segments of 3: the last one has a single result *)
Example ex_segments : map (fun i => i / segment_size 10 4) (seq 0 10) = [0; 0; 0; 1; 1; 1; 2; 2; 2; 3].
Proof. reflexivity. Qed.
Example ex_C56_out_of_range : bayesfuse env_ex [n_x; n_x2] [[1%R; (1/2)%R]; [0%R]] "bayesfuse" = Err IndexError.
Proof.
  apply (C56_bayesfuse_out_of_range env_ex env_ok_ex [n_x; n_x2] [[1%R; (1/2)%R]; [0%R]] "bayesfuse" [1%R; (1/2)%R] n_x "q1" n_fusable); [cbn; lia|cbn; auto|cbn; lia].
Qed.
Print Assumptions C53_posfuse_train.
Print Assumptions C53_slidefuse_train.
Print Assumptions C53_probfuse_train.
Print Assumptions C53_segfuse_train.
Print Assumptions C53_unchecked_refuted.
Print Assumptions C54_posfuse.
Print Assumptions C54_slidefuse.
Print Assumptions C54_window_range.
Print Assumptions C54_slidefuse_bounds.
Print Assumptions C54_zero_window.
Print Assumptions C55_probfuse_partition.
Print Assumptions C55_segfuse_partition.
Print Assumptions C55_probfuse.
Print Assumptions C55_segfuse.
Print Assumptions C56_mapfuse_train.
Print Assumptions C56_bayesfuse_train.
Print Assumptions C56_mapfuse.
Print Assumptions C56_bayesfuse.
Print Assumptions C56_bayesfuse_out_of_range.
