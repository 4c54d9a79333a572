(** P_Metrics7.v: ndcg, the table of metric functions, rounding of hashes. *)
From Coq Require Import Reals Lra Psatz.
From Verif Require Import Base Dict Num NumLaws Env M_Common M_Qrels M_Run M_Metrics Spec_Metrics
  Spec_MetricsAPI P_Base P_Dict P_Common P_Metrics P_Metrics2 P_Metrics3 P_Metrics4 P_Metrics5 P_Metrics6 EnvEx.
Open Scope list_scope.
Open Scope nat_scope.

(** judgments used as a ranking *)
Definition as_run (j : dict Z) : dict R := map (fun dv => (fst dv, IZR (snd dv))) j.
Lemma as_run_rows E j : qrows E j = rrows E (as_run j).
Proof. unfold to_rows, as_run. rewrite map_map. reflexivity. Qed.
Lemma as_run_keys j : dkeys (as_run j) = dkeys j.
Proof. unfold dkeys, as_run. now rewrite map_map. Qed.

Definition S_ndcg_with (dcg : list string -> nat -> R) (j : dict Z) (ds : list string) (k : nat) : R :=
  let ideal := dcg (dkeys j) k in
  (dcg ds k / (if Req_EM_T ideal 0 then 1 else ideal))%R.

Section S.
Context (E : env NumR).

Lemma ndcg_value j r k lvl (jv : bool) : dict_ok j -> ids_distinct (doc_key E) (dkeys j ++ dkeys r) ->
  @_ndcg NumR (qrows E j) (rrows E r) k lvl jv
  = S_ndcg_with (fun ds k => if jv then S_dcg j lvl ds k else S_dcg_burges j lvl ds k) j (dkeys r) k.
Proof.
  intros Hj Hid. unfold _ndcg, _idcg, S_ndcg_with.
  rewrite (dcg_spec E j lvl r Hj Hid).
  assert (Hid' : ids_distinct (doc_key E) (dkeys j ++ dkeys (as_run j))).
  { rewrite as_run_keys. intros d d' H1 H2. apply Hid; apply in_or_app; left;
      [apply in_app_or in H1|apply in_app_or in H2]; tauto. }
  pose proof (dcg_spec E j lvl (as_run j) Hj Hid' k jv) as H. rewrite <- as_run_rows in H.
  unfold rk in H. rewrite as_run_keys in H. rewrite H. numR. unfold rk.
  set (x := if jv then _ else _). set (y := if jv then _ else _). unfold Reqb.
  now destruct (Req_EM_T y 0).
Qed.

(** every metric function with an integer cut-off, with the score it computes *)
Definition table : list ((list (@rows NumR) -> list (@rows NumR) -> Z -> Z -> result (list R))
                         * (dict Z -> Z -> list string -> nat -> R)) :=
  [ (@hits NumR E, fun j l ds k => INR (S_hits j l ds k));
    (@hit_rate NumR E, S_hit_rate);
    (@precision NumR E, S_precision);
    (@recall NumR E, S_recall);
    (@f1 NumR E, S_f1);
    (@reciprocal_rank NumR E, S_mrr);
    (@average_precision NumR E, S_map);
    (@dcg NumR E, S_dcg);
    (@dcg_burges NumR E, S_dcg_burges);
    (@ndcg NumR E, fun j l => S_ndcg_with (S_dcg j l) j);
    (@ndcg_burges NumR E, fun j l => S_ndcg_with (S_dcg_burges j l) j) ].

Lemma table_ok m s : env_ok E -> In (m, s) table -> computes E m s.
Proof.
  intros HE H. cbn [table In] in H.
  repeat (destruct H as [H|H]; [inversion H; subst; clear H; apply lift4_computes; auto;
            intros j r k lvl Hj Hid|]); try easy.
  - apply (hits_spec E j lvl r Hj Hid).
  - apply (hit_rate_spec E j lvl r Hj Hid).
  - apply (precision_spec E j lvl r Hj Hid).
  - apply (recall_spec E j lvl r Hj Hid).
  - apply (f1_spec E j lvl r Hj Hid).
  - apply (reciprocal_rank_spec E j lvl r Hj Hid).
  - apply (average_precision_spec E j lvl r Hj Hid).
  - apply (dcg_spec E j lvl r Hj Hid k true).
  - apply (dcg_spec E j lvl r Hj Hid k false).
  - exact (ndcg_value j r k lvl true Hj Hid).
  - exact (ndcg_value j r k lvl false Hj Hid).
Qed.
End S.

(** ndcg is between 0 and 1 when the judgments are sorted *)
Lemma ndcg_with_01 (j : dict Z) (f : string -> R) ds k : (forall d, (0 <= f d)%R) -> NoDup ds ->
  is_ideal f k (S_dcg_with (dkeys j) f k) ->
  (0 <= S_ndcg_with (fun ds k => S_dcg_with ds f k) j ds k <= 1)%R.
Proof.
  intros Hf Hn Hi. unfold S_ndcg_with. pose proof (is_ideal_nonneg f k _ Hi) as H0.
  pose proof (proj2 Hi ds Hn) as H1.
  assert (H2 : (0 <= S_dcg_with ds f k)%R).
  { rewrite dcg_wdot. apply wdot_nonneg; [intros; apply Rlt_le, dw_pos|].
    intros x Hx. apply in_map_iff in Hx as (d & <- & _). apply Hf. }
  destruct (Req_EM_T (S_dcg_with (dkeys j) f k) 0) as [Hz|Hz]; [lra|].
  assert (0 < S_dcg_with (dkeys j) f k)%R by lra. split.
  - apply Rmult_le_pos; [lra|]. apply Rlt_le, Rinv_0_lt_compat. lra.
  - apply (Rmult_le_reg_r (S_dcg_with (dkeys j) f k)); [lra|]. unfold Rdiv. rewrite Rmult_assoc, Rinv_l; lra.
Qed.

(** ** rounding of 64-bit hashes *)
Lemma round53_err z : (Z.abs z < 2 ^ 63)%Z -> (Z.abs (round53 z - z) <= 512)%Z.
Proof.
  intros Hz. unfold round53. set (a := Z.abs z) in *.
  destruct (Z.ltb_spec a (2 ^ 53)) as [H|H]; [rewrite Z.sub_diag; cbn; lia|].
  set (e := (Z.log2 a - 52)%Z).
  assert (Hl : (53 <= Z.log2 a <= 62)%Z).
  { split.
    - apply Z.log2_le_pow2; [lia|exact H].
    - assert (Z.log2 a < 63)%Z; [|lia]. apply Z.log2_lt_pow2; [lia|exact Hz]. }
  assert (He : (1 <= e <= 10)%Z) by (unfold e; lia).
  assert (Hpe : (2 ^ e = 2 * 2 ^ (e - 1))%Z).
  { rewrite <- Z.pow_succ_r by lia. f_equal. lia. }
  assert (Hh : (0 < 2 ^ (e - 1) <= 512)%Z).
  { split; [apply Z.pow_pos_nonneg; lia|]. change 512%Z with (2 ^ 9)%Z. apply Z.pow_le_mono_r; lia. }
  pose proof (Z.div_mod a (2 ^ e) ltac:(lia)) as Hdm.
  pose proof (Z.mod_pos_bound a (2 ^ e) ltac:(lia)) as Hmb.
  set (m := (a / 2 ^ e)%Z) in *. set (r := (a mod 2 ^ e)%Z) in *. set (h := (2 ^ (e - 1))%Z) in *.
  set (m' := if (r <? h)%Z then m else if (h <? r)%Z then (m + 1)%Z else if Z.even m then m else (m + 1)%Z).
  assert (Hm : (Z.abs (m' * 2 ^ e - a) <= h)%Z).
  { unfold m'. destruct (Z.ltb_spec r h); [|destruct (Z.ltb_spec h r); [|destruct (Z.even m)]]; nia. }
  assert (Hz' : z = (Z.sgn z * a)%Z) by (unfold a; destruct z; cbn; lia).
  rewrite Hz' at 2. rewrite <- Z.mul_sub_distr_l, Z.abs_mul.
  assert (Hs : (Z.abs (Z.sgn z) <= 1)%Z) by (destruct z; cbn; lia). nia.
Qed.
Lemma round53_far z z' : (Z.abs z < 2 ^ 63)%Z -> (Z.abs z' < 2 ^ 63)%Z ->
  (1024 < Z.abs (z - z'))%Z -> round53 z <> round53 z'.
Proof.
  intros H1 H2 H3 H. pose proof (round53_err z H1). pose proof (round53_err z' H2). lia.
Qed.

(** ** deciding the hypotheses on concrete inputs *)
Fixpoint nodupb (l : list string) : bool :=
  match l with [] => true | x :: l' => negb (existsb (String.eqb x) l') && nodupb l' end.
Lemma nodupb_ok l : nodupb l = true -> NoDup l.
Proof.
  induction l as [|x l IH]; cbn; intros H; [constructor|]. apply andb_true_iff in H as [H1 H2].
  constructor; auto. intros Hin. apply negb_true_iff in H1.
  assert (existsb (String.eqb x) l = true); [|congruence].
  apply existsb_exists. exists x. split; [exact Hin|apply String.eqb_refl].
Qed.
Definition ids_distinctb (key : string -> Z) (docs : list string) : bool :=
  forallb (fun d => forallb (fun d' => negb (key d =? key d')%Z || String.eqb d d') docs) docs.
Lemma ids_distinctb_ok key docs : ids_distinctb key docs = true -> ids_distinct key docs.
Proof.
  unfold ids_distinctb. intros H d d' H1 H2 Hk. rewrite forallb_forall in H. specialize (H d H1).
  rewrite forallb_forall in H. specialize (H d' H2). rewrite Hk, Z.eqb_refl in H. cbn in H. now apply String.eqb_eq.
Qed.
Lemma query_ok_ex (j : dict Z) (r : dict R) :
  nodupb (dkeys j) = true -> nodupb (dkeys r) = true ->
  ids_distinctb (fun d => round53 (ex_hash d)) (dkeys j ++ dkeys r) = true ->
  query_ok env_ex j r.
Proof.
  intros H1 H2 H3. split; [|split].
  - now apply nodupb_ok.
  - now apply nodupb_ok.
  - now apply ids_distinctb_ok.
Qed.
