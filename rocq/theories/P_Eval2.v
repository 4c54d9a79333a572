(** P_Eval2.v: evaluate on Qrels and Run objects. *)
From Coq Require Import Reals Lra.
From Verif Require Import Base Dict Num NumLaws Env M_Common M_Qrels M_Run M_History M_Metrics M_Evaluate
  Spec_DS Spec_Hist Spec_Strings Spec_Metrics Spec_MetricsAPI Spec_Eval
  P_Base P_Dict P_Common P_History P_DS P_Metrics P_Metrics4 P_Metrics6 P_Metrics7 T_DS T_Metrics T_Parse P_Eval.
Open Scope string_scope.
Open Scope list_scope.
Open Scope nat_scope.

(** ** saving (any number type) *)
Section Save.
Context {N : Num}.
Lemma save_queries_spec qs : forall sm i (scores : list F), NoDup qs -> length scores = i + length qs ->
  exists sm', save_queries sm i qs scores = (sm', None) /\
    (forall n q v, nth_error qs n = Some q -> nth_error scores (i + n) = Some v -> dget sm' q = Some v) /\
    (forall q, ~ In q qs -> dget sm' q = dget sm q).
Proof.
  induction qs as [|q qs IH]; intros sm i scores Hnd Hlen; cbn [save_queries].
  - exists sm. split; [reflexivity|]. split; [|auto]. intros [|n]; discriminate.
  - cbn in Hlen. destruct (nth_error scores i) as [s|] eqn:Hs.
    2:{ apply nth_error_None in Hs. lia. }
    inversion Hnd as [|? ? Hq Hnd']; subst.
    destruct (IH (dset sm q s) (S i) scores Hnd' ltac:(lia)) as (sm' & H1 & H2 & H3).
    exists sm'. split; [exact H1|]. split.
    + intros [|n] q' v Hq' Hv; cbn in Hq'.
      * inversion Hq'; subst. rewrite Nat.add_0_r in Hv. rewrite H3 by exact Hq. rewrite dget_dset_eq. congruence.
      * apply (H2 n); auto. now rewrite Nat.add_succ_comm.
    + intros q' Hq'. cbn in Hq'. rewrite H3 by tauto. apply dget_dset_neq. intros ->. tauto.
Qed.
Lemma Forall2_nth {A B} (P : A -> B -> Prop) l1 l2 : length l1 = length l2 ->
  (forall n a b, nth_error l1 n = Some a -> nth_error l2 n = Some b -> P a b) -> Forall2 P l1 l2.
Proof.
  revert l2. induction l1 as [|a l1 IH]; intros [|b l2] Hl H; try discriminate; constructor.
  - now apply (H 0).
  - apply IH; [now inversion Hl|]. intros n. apply (H (S n)).
Qed.

(** the queries of the run, and what one save does *)
Lemma save_metric_spec std (x : Run N) m scores : dict_ok (r_map x) -> length scores = length (r_map x) ->
  exists x', save_metric std x m scores = (x', None) /\
    r_map x' = r_map x /\ r_sorted x' = r_sorted x /\ r_name x' = r_name x /\
    r_mean x' = dset (r_mean x) m (fmean scores) /\
    r_std x' = (if std then dset (r_std x) m (fstd scores) else r_std x) /\
    Forall2 (fun q v => dget2 (r_scores x') m q = Some v) (dkeys (r_map x)) scores /\
    (forall q, ~ In q (dkeys (r_map x)) -> dget2 (r_scores x') m q = dget2 (r_scores x) m q) /\
    (forall s, s <> m -> dget (r_scores x') s = dget (r_scores x) s).
Proof.
  intros Hok Hlen. unfold save_metric.
  assert (Hlk : length (dkeys (r_map x)) = length scores) by (unfold dkeys; rewrite map_length; congruence).
  destruct (save_queries_spec (dkeys (r_map x)) (match dget (r_scores x) m with Some s => s | None => [] end) 0 scores Hok)
    as (sm' & H1 & H2 & H3); [lia|].
  rewrite H1. eexists. split; [reflexivity|]. cbn [r_map r_sorted r_name r_scores r_mean r_std].
  split; [reflexivity|]. split; [reflexivity|]. split; [reflexivity|]. split; [reflexivity|]. split; [reflexivity|].
  cbn [Nat.add] in H2.
  destruct (dkeys (r_map x)) as [|q0 qs0] eqn:Hk; destruct scores as [|s0 scores0]; try discriminate.
  - split; [constructor|]. split; auto.
  - split; [|split].
    + apply Forall2_nth; [exact Hlk|]. intros n q v Hq Hv. unfold dget2. rewrite dget_dset_eq. now apply (H2 n).
    + intros q Hq. unfold dget2. rewrite dget_dset_eq. rewrite H3 by exact Hq. now destruct (dget (r_scores x) m).
    + intros s Hs. apply dget_dset_neq. congruence.
Qed.
Lemma save_results_spec std d : forall x : Run N, dict_ok d -> dict_ok (r_map x) ->
  (forall s vs, dget d s = Some vs -> length vs = length (r_map x)) ->
  exists x', save_results std x d = (x', None) /\
    r_map x' = r_map x /\ r_sorted x' = r_sorted x /\ r_name x' = r_name x /\
    forall s, match dget d s with
      | Some vs => dget (r_mean x') s = Some (fmean vs) /\
                   dget (r_std x') s = (if std then Some (fstd vs) else dget (r_std x) s) /\
                   Forall2 (fun q v => dget2 (r_scores x') s q = Some v) (dkeys (r_map x)) vs /\
                   (forall q, ~ In q (dkeys (r_map x)) -> dget2 (r_scores x') s q = dget2 (r_scores x) s q)
      | None => dget (r_mean x') s = dget (r_mean x) s /\ dget (r_std x') s = dget (r_std x) s /\
                dget (r_scores x') s = dget (r_scores x) s
      end.
Proof.
  induction d as [|[m vs] d IH]; intros x Hd Hx Hl; cbn [save_results].
  - exists x. repeat split; auto.
  - destruct (save_metric_spec std x m vs Hx) as (x1 & H1 & H2 & H3 & H4 & H5 & H6 & H7 & H8 & H9).
    { apply (Hl m). cbn. now rewrite String.eqb_refl. }
    rewrite H1. inversion Hd as [|? ? Hm Hd']; subst.
    destruct (IH x1 Hd') as (x' & G1 & G2 & G3 & G4 & G5).
    + now rewrite H2.
    + intros s us Hs. rewrite H2. apply (Hl s). cbn. destruct (String.eqb_spec s m) as [->|]; [|exact Hs].
      exfalso. apply Hm. now apply (dget_Some_key d m us).
    + exists x'. split; [exact G1|]. split; [congruence|]. split; [congruence|]. split; [congruence|].
      intros s. specialize (G5 s). cbn [dget]. rewrite H2 in G5.
      destruct (String.eqb_spec s m) as [->|Hs].
      * replace (dget d m) with (@None (list F)) in G5 by (symmetry; apply dget_None; exact Hm).
        destruct G5 as (G5 & G6 & G7). rewrite G5, G6, H5, H6. rewrite dget_dset_eq.
        split; [reflexivity|]. split; [destruct std; [apply dget_dset_eq|reflexivity]|].
        unfold dget2 in *. rewrite G7. split; [exact H7|exact H8].
      * assert (Hmean : dget (r_mean x1) s = dget (r_mean x) s) by (rewrite H5; apply dget_dset_neq; congruence).
        assert (Hstd : dget (r_std x1) s = dget (r_std x) s).
        { rewrite H6. destruct std; [apply dget_dset_neq; congruence|reflexivity]. }
        destruct (dget d s) as [us|].
        -- destruct G5 as (G5 & G6 & G7 & G8). rewrite Hstd in G6. split; [exact G5|]. split; [exact G6|]. split; [exact G7|].
           intros q Hq. rewrite (G8 q Hq). unfold dget2. now rewrite (H9 s Hs).
        -- destruct G5 as (G5 & G6 & G7). rewrite G5, G6, G7, Hmean, Hstd. rewrite (H9 s Hs). auto.
Qed.
Lemma last_key_app {V} (d : dict V) k v m : last_key (d ++ [(k, v)]) m = k.
Proof. unfold last_key. now rewrite fold_left_app. Qed.
End Save.

(** ** computing the score arrays *)
Section Compute.
Context (E : env NumR) (HE : env_ok E).
Lemma compute_scores_spec tq tr metrics (P : string -> list R -> Prop) :
  (forall s, In s metrics -> exists m k lvl f vs, @extract_metric_and_params NumR s = Ok (m, k, lvl) /\
      metric_switch E m = Ok f /\ f tq tr k lvl = Ok vs /\ P s vs) ->
  exists m d, @compute_scores NumR E tq tr metrics = Ok (m, d) /\ dict_ok d /\
    (forall s, In s (dkeys d) <-> In s metrics) /\ (forall s vs, dget d s = Some vs -> P s vs) /\
    (forall s, metrics = [s] -> exists k lvl vs, @extract_metric_and_params NumR s = Ok (m, k, lvl) /\ d = [(s, vs)]).
Proof.
  intros H. unfold compute_scores.
  assert (Hgen : forall ms (st : string * dict (list R)), incl ms metrics -> dict_ok (snd st) ->
     (forall s vs, dget (snd st) s = Some vs -> P s vs) ->
     exists m d, foldr_m (fun st metric =>
             do mkl <- @extract_metric_and_params NumR metric;
             let '(m, k, lvl) := mkl in
             do f <- metric_switch E m;
             do s <- f tq tr k lvl;
             Ok (m, dset (snd st) metric s)) ms st = Ok (m, d) /\ dict_ok d /\
       (forall s, In s (dkeys d) <-> In s ms \/ In s (dkeys (snd st))) /\ (forall s vs, dget d s = Some vs -> P s vs) /\
       (forall s, ms = [s] -> snd st = [] -> exists k lvl vs, @extract_metric_and_params NumR s = Ok (m, k, lvl) /\ d = [(s, vs)])).
  { intros ms. induction ms as [|s ms IH]; intros st Hi Hd HP; cbn [foldr_m].
    - exists (fst st), (snd st). split; [now destruct st|]. split; [exact Hd|]. split; [cbn; tauto|]. split; [exact HP|discriminate].
    - destruct (H s (Hi s (or_introl eq_refl))) as (m & k & lvl & f & vs & H1 & H2 & H3 & H4).
      rewrite H1. cbn [bindr]. rewrite H2. cbn [bindr]. rewrite H3. cbn [bindr].
      destruct (IH (m, dset (snd st) s vs)) as (m' & d & G1 & G2 & G3 & G4 & G5).
      + intros a Ha. apply Hi. now right.
      + cbn. now apply dict_ok_dset.
      + intros s' us Hs'. cbn in Hs'. rewrite dget_dset in Hs'. destruct (String.eqb_spec s' s) as [->|].
        * inversion Hs'; subst. exact H4.
        * now apply HP.
      + exists m', d. split; [exact G1|]. split; [exact G2|]. split; [|split; [exact G4|]].
        * intros s'. rewrite G3. cbn [snd In]. rewrite in_dkeys_dset. split; intros Ha; [destruct Ha as [Ha|[Ha|Ha]]|destruct Ha as [[Ha|Ha]|Ha]]; subst; auto.
        * intros s' Hs' Hst. inversion Hs'; subst. cbn in G1. inversion G1; subst.
          exists k, lvl, vs. split; [exact H1|]. destruct st as [st1 st2]. cbn [snd] in *. now subst. }
  destruct (Hgen metrics ("", [])) as (m & d & G1 & G2 & G3 & G4 & G5).
  - intros a Ha; exact Ha.
  - constructor.
  - discriminate.
  - exists m, d. split; [exact G1|]. split; [exact G2|]. split; [|split; [exact G4|]].
    + intros s. rewrite G3. cbn. tauto.
    + intros s Hs. now apply G5.
Qed.
End Compute.
