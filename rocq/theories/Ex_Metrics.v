(** Ex_Metrics.v: concrete cases meeting the hypotheses of the theorems of T_Metrics.v and
    T_Metrics2.v, and evaluations of the model on binary64. *)
From Coq Require Import Reals Lra Psatz SpecFloat.
From Verif Require Import Base Dict Num NumLaws Env M_Common M_Qrels M_Run M_Metrics Spec_Metrics
  Spec_MetricsAPI P_Metrics7 EnvEx T_DS T_Metrics T_Metrics2.
Open Scope string_scope.
Open Scope list_scope.
Open Scope nat_scope.

Definition j1 : dict Z := [("d12", 5%Z); ("d25", 3%Z); ("d7", 1%Z); ("d9", 0%Z)].
Definition j2 : dict Z := [("d11", 6%Z); ("d22", 1%Z); ("d1", 0%Z)].
Definition r1 : dict R := [("d12", 0.9%R); ("d23", 0.8%R); ("d25", 0.7%R); ("d9", 0.4%R); ("d7", 0.1%R)].
Definition r2 : dict R := [("d2", 0.9%R); ("d11", 0.8%R); ("d25", 0.7%R); ("d1", 0.4%R)].
Lemma env_ok_ex : env_ok (N := NumR) env_ex.
Proof. apply env_ex_ok, NumR_laws. Qed.
Lemma ex_q1 : query_ok env_ex j1 r1.
Proof. apply query_ok_ex; vmr. Qed.
Lemma ex_q2 : query_ok env_ex j2 r2.
Proof. apply query_ok_ex; vmr. Qed.
Lemma ex_aligned : aligned env_ex [j1; j2] [r1; r2].
Proof. constructor; [apply ex_q1|]. constructor; [apply ex_q2|constructor]. Qed.
Lemma ex_desc : Forall judgments_desc [j1; j2].
Proof.
  repeat constructor; cbn; lia.
Qed.

(** the hypotheses of C21-C30 hold of two queries *)
Example ex_C21_precision : exists x y,
  @precision NumR env_ex (qrels_arg env_ex [j1; j2]) (run_arg env_ex [r1; r2]) 2%Z 1%Z = Ok [x; y] /\ x = (1 / 2)%R /\ y = (1 / 2)%R.
Proof.
  exists (1/2)%R, (1/2)%R. rewrite (C21_precision env_ex env_ok_ex _ _ 2%Z 1%Z ex_aligned).
  split; [|auto]. cbn. repeat f_equal; lra.
Qed.
Example ex_C30 : exists xs, @ndcg NumR env_ex (qrels_arg env_ex [j1; j2]) (run_arg env_ex [r1; r2]) 3%Z 1%Z = Ok xs /\
  length xs = 2 /\ Forall in_01 xs.
Proof.
  refine (C30_bounded env_ex env_ok_ex _ _ 3%Z 1%Z ex_aligned _ _ ex_desc _ _); try lia. cbn. tauto.
Qed.
Example ex_C27 : Forall (fun j => 0 < n_relevant j 1 /\ 0 < n_judged_nonrelevant j 1) [j1; j2].
Proof. repeat constructor; cbn; lia. Qed.
(** an ideal ranking for [j1] *)
Definition r1_ideal : dict R := [("d12", 0.9%R); ("d25", 0.8%R); ("d7", 0.7%R); ("x", 0.1%R)].
Example ex_C31 : query_ok env_ex j1 r1_ideal /\ ideal_ranking j1 1 (dkeys r1_ideal) /\ 0 < n_relevant j1 1.
Proof.
  split; [apply query_ok_ex; vmr|]. split; [|cbn; lia].
  exists ["d12"; "d25"; "d7"], ["x"]. split; [reflexivity|]. split.
  - intros d. split; intros H.
    + cbn in H. now destruct H as [<-|[<-|[<-|[]]]].
    + unfold relevant, j1 in H. cbn [dget] in H.
      repeat (match type of H with context[String.eqb d ?k] => destruct (String.eqb_spec d k); subst; cbn in H end);
        cbn; try tauto; discriminate.
  - repeat constructor; cbn; lra.
Qed.
(** a better swap: d25 (judgment 3) moves above d23 (unjudged) *)
Definition r1_swapped : dict R := [("d12", 0.9%R); ("d25", 0.85%R); ("d23", 0.8%R); ("d9", 0.4%R); ("d7", 0.1%R)].
Example ex_C33 : query_ok env_ex j1 r1_swapped /\ better_swap j1 1 (dkeys r1) (dkeys r1_swapped).
Proof.
  split; [apply query_ok_ex; vmr|].
  exists ["d12"], "d23", "d25", ["d9"; "d7"]. split; [reflexivity|]. split; [reflexivity|]. cbn. lra.
Qed.
Example ex_C34 : query_ok env_ex j2 (r2 ++ [("z", 0.1%R)]) /\ dkeys (r2 ++ [("z", 0.1%R)]) = dkeys r2 ++ ["z"] /\
  (forall d, In d ["z"] -> relevant j2 1 d = false).
Proof.
  split; [apply query_ok_ex; vmr|]. split; [reflexivity|]. intros d [<-|[]]. reflexivity.
Qed.

(** ** the model evaluated on binary64 *)
Definition qr (j : dict Z) : @rows NumSF := @to_rows NumSF env_ex Z (@q_tof NumSF) j.
Definition rr (l : list string) : @rows NumSF :=
  @to_rows NumSF env_ex sf (fun s => s) (map (fun d => (d, sf_of_Z 1)) l).
Definition rk1 := ["d12"; "d23"; "d25"; "d9"; "d7"].
Example ev_hits : @_hits NumSF (qr j1) (rr rk1) 3 1 = fl 2.
Proof. vmr. Qed.
Example ev_recall : @_recall NumSF (qr j1) (rr rk1) 0 1 = fl 1.
Proof. vmr. Qed.
Example ev_precision : @_precision NumSF (qr j1) (rr rk1) 0 1 = sf_dec 6 1.
Proof. vmr. Qed.
Example ev_precision_beyond : @_precision NumSF (qr j1) (rr rk1) 10 1 = sf_dec 3 1.
Proof. vmr. Qed.
Example ev_mrr : @_reciprocal_rank NumSF (qr j2) (rr ["d2"; "d11"; "d25"]) 0 1 = sf_dec 5 1.
Proof. vmr. Qed.
Example ev_map : @_average_precision NumSF (qr j2) (rr ["d2"; "d11"; "d25"; "d22"]) 0 1 = sf_dec 5 1.
Proof. vmr. Qed.
Example ev_rprec : @_r_precision NumSF (qr j2) (rr ["d2"; "d11"; "d25"; "d22"]) 1 = sf_dec 5 1.
Proof. vmr. Qed.
Example ev_bpref : @_bpref NumSF (qr j1) (rr rk1) 1 = Ok (sf_div (fl 2) (fl 3)).
Proof. vmr. Qed.
Example ev_rbp : @_rank_biased_precision NumSF (qr j2) (rr ["d2"; "d22"; "d25"]) (sf_dec 5 1) 1 = sf_dec 25 2.
Proof. vmr. Qed.
Example ev_hit_list : @_get_hit_list NumSF (qr j1) (rr rk1) 4 1 = [fl 1; fl 0; fl 1; fl 0].
Proof. vmr. Qed.
Example ev_interp : @_interpolated_precision NumSF (qr j2) (rr ["d11"; "d25"; "d22"]) 1
  = [fl 1; fl 1; fl 1; fl 1; fl 1; fl 1; sf_div (fl 2) (fl 3); sf_div (fl 2) (fl 3); sf_div (fl 2) (fl 3); sf_div (fl 2) (fl 3); sf_div (fl 2) (fl 3)].
Proof. vmr. Qed.
