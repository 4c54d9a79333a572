(** T_IO5.v: JSON and LZ4 files (C69), keyword arguments of from_parquet (C70) *)
From Coq Require Import Lia Reals.
From Verif Require Import Base Dict Num NumLaws Env EnvEx M_Common M_Qrels M_Run M_Strings M_Text M_Compare M_IO Spec_DS Spec_Hist Spec_IO P_Base P_Dict P_Common P_History P_Norm P_Compare P_IO P_IO2 T_IO T_IO2 T_IO4.
Open Scope string_scope.
Open Scope list_scope.
Open Scope nat_scope.

(** what a loaded JSON value is *)
Lemma json_rows {V} (null : result V) (w : V -> option V) (f : V -> V) (r : dict V) : (forall d v, In (d, v) r -> match w v with Some v' => Ok v' | None => null end = Ok (f v)) ->
  map_m (fun dv => do v <- match snd dv with Some v => Ok v | None => null end; Ok (fst dv, v)) (map (fun dv => (fst dv, w (snd dv))) r) = Ok (map (fun dv => (fst dv, f (snd dv))) r).
Proof.
  induction r as [|[d v] r IH]; intros H; [reflexivity|]. cbn [map map_m fst snd]. rewrite (H d v (or_introl eq_refl)). cbn [bindr]. rewrite IH by (intros; apply H with d0; now right). reflexivity.
Qed.
Lemma json_all {V} (null : result V) (w : V -> option V) (f : V -> V) (m : dict (dict V)) : (forall q r d v, In (q, r) m -> In (d, v) r -> match w v with Some v' => Ok v' | None => null end = Ok (f v)) ->
  json_values null (map (fun qr => (fst qr, map (fun dv => (fst dv, w (snd dv))) (snd qr))) m) = Ok (map (fun qr => (fst qr, map (fun dv => (fst dv, f (snd dv))) (snd qr))) m).
Proof.
  unfold json_values. induction m as [|[q r] m IH]; intros H; [reflexivity|]. cbn [map map_m fst snd]. rewrite (json_rows null w f) by (intros d v Hin; exact (H q r d v (or_introl eq_refl) Hin)). cbn [bindr].
  rewrite IH by (intros q' r' d v Hm Hr; exact (H q' r' d v (or_intror Hm) Hr)). reflexivity.
Qed.
Section MapV.
Context {V W : Type} (f : V -> W).
Definition mapvv (m : dict (dict V)) : dict (dict W) := map (fun qr => (fst qr, map (fun dv => (fst dv, f (snd dv))) (snd qr))) m.
Lemma mapvv_get m q : dget (mapvv m) q = option_map (fun r => map (fun dv => (fst dv, f (snd dv))) r) (dget m q).
Proof. unfold mapvv. induction m as [|[k r] m IH]; [reflexivity|]. cbn [map dget fst snd]. destruct (String.eqb q k); [reflexivity|exact IH]. Qed.
Lemma mapv1_get (r : dict V) d : dget (map (fun dv => (fst dv, f (snd dv))) r) d = option_map f (dget r d).
Proof. induction r as [|[k v] r IH]; [reflexivity|]. cbn [map dget fst snd]. destruct (String.eqb d k); [reflexivity|exact IH]. Qed.
Lemma mapvv_get2 m q d : dget2 (mapvv m) q d = option_map f (dget2 m q d).
Proof. unfold dget2. rewrite mapvv_get. destruct (dget m q); cbn [option_map]; [apply mapv1_get|reflexivity]. Qed.
Lemma mapvv_ok m : dict2_ok m -> dict2_ok (mapvv m).
Proof.
  intros [H1 H2]. split.
  - unfold dict_ok, mapvv, dkeys in *. rewrite map_map. exact H1.
  - intros q r H. rewrite mapvv_get in H. destruct (dget m q) as [r'|] eqn:Hq; [|discriminate]. injection H as <-. unfold dict_ok, dkeys. rewrite map_map. exact (H2 q r' Hq).
Qed.
End MapV.
Lemma in2_dget2 {V} (m : dict (dict V)) q r d v : dict2_ok m -> In (q, r) m -> In (d, v) r -> dget2 m q d = Some v.
Proof. intros [H1 H2] Hq Hd. unfold dget2. rewrite (P_IO.in_dget m q r H1 Hq). apply P_IO.in_dget; [|exact Hd]. apply (H2 q). now apply P_IO.in_dget. Qed.

(** JSON qrels: exactly the same contents, empty queries included. *)
Theorem C69_qrels_json : forall (N : Num) (E : env N), env_ok E -> forall fs (y : Qrels) path kind, dict2_ok (q_map y) -> some_doc (q_map y) -> asks_for path kind "json" ->
  exists fs' z, @Qrels_save N fs y path kind = Ok fs' /\ (forall p, p <> path -> dget fs' p = dget fs p) /\ Qrels_from_file E fs' path kind = Ok z /\ q_name z = None /\ dict2_ok (q_map z) /\ smap_eq (smap_of (q_map z)) (smap_of (q_map y)).
Proof.
  intros N E HE fs y path kind Hm Hd Hk. apply (qrels_kind _ _ "json") in Hk; [|unfold is_qrels_kind; cbn; tauto]. unfold Qrels_save. rewrite Hk. cbn [bindr]. change (String.eqb "json" "json") with true. cbv iota.
  eexists. exists (mkQrels (canon E q_negf (mapvv (fun v => v) (q_map y))) true None). split; [reflexivity|]. split; [intros p Hp; apply dget_dset_neq; congruence|].
  unfold Qrels_from_file. rewrite Hk. cbn [bindr]. change (String.eqb "json" "json") with true. cbv iota. rewrite dget_dset_eq.
  unfold Qrels_to_dict. rewrite to_dict_map_id by apply Hm. rewrite (json_all _ (fun v => Some v) (fun v => v)) by reflexivity. cbn [bindr]. unfold Qrels_from_dict. fold (mapvv (fun v : Z => v) (q_map y)).
  pose proof (mapvv_ok (fun v => v) _ Hm) as Ho. assert (Hg : forall q d, dget2 (mapvv (fun v => v) (q_map y)) q d = dget2 (q_map y) q d) by (intros; rewrite mapvv_get2; destruct (dget2 (q_map y) q d); reflexivity).
  rewrite build_from_dict_ok; [|exact Ho|destruct Hd as (q & d & v & H); exists q, d, v; now rewrite Hg]. cbn [bindr]. split; [reflexivity|]. cbn [q_name q_map]. split; [reflexivity|]. split; [now apply canon_ok|].
  eapply smap_eq_trans; [now apply canon_smap|]. split; cbn; [|exact Hg]. intros q. unfold dmem. rewrite mapvv_get. destruct (dget (q_map y) q); reflexivity.
Qed.
Print Assumptions C69_qrels_json.

(** JSON runs: every finite score comes back, every other one comes back as NaN; the name is only the requested one. *)
Theorem C69_run_json : forall (N : Num) (E E' : env N) (fl : floats N), env_ok E -> env_ok E' -> forall fs (x : Run N) path kind name, dict2_ok (r_map x) -> some_doc (r_map x) -> asks_for path kind "json" ->
  exists x' fs' z, Run_save E fl fs x path kind = (x', Ok fs') /\ (forall p, p <> path -> dget fs' p = dget fs p) /\ Run_from_file E' fl fs' path kind name = Ok z /\ r_name z = name /\ dict2_ok (r_map z) /\
    (forall q, dmem (r_map z) q = dmem (r_map x) q) /\
    (forall q d, dget2 (r_map z) q d = option_map (fun v => if fl_json fl v then v else fl_nan fl) (dget2 (r_map x) q d)).
Proof.
  intros N E E' fl HE HE' fs x path kind name Hm Hd Hk. apply (run_kind _ _ "json") in Hk; [|unfold is_run_kind; cbn; tauto]. unfold Run_save. rewrite Hk. fold (saved E x). destruct (saved_ok E HE x Hm) as (Hm' & [Gh Gg] & Hnm). cbn in Gh, Gg.
  change (String.eqb "json" "json") with true. cbv iota. set (f := fun v => if fl_json fl v then v else fl_nan fl).
  do 2 eexists. exists (mkRun (canon E' r_negf (mapvv f (r_map (saved E x)))) true name [] [] []). split; [reflexivity|]. split; [intros p Hp; apply dget_dset_neq; congruence|].
  unfold Run_from_file. rewrite Hk. cbn [bindr]. change (String.eqb "json" "json") with true. cbv iota. rewrite dget_dset_eq.
  unfold Run_to_dict. rewrite to_dict_map_id by apply Hm'. rewrite (json_all _ (fun v => if fl_json fl v then Some v else None) f) by (intros q r d v _ _; unfold f; destruct (fl_json fl v); reflexivity). cbn [bindr fst snd]. unfold Run_from_dict. fold (mapvv f (r_map (saved E x))).
  pose proof (mapvv_ok f _ Hm') as Ho. rewrite build_from_dict_ok; [|exact Ho|destruct Hd as (q & d & v & H); exists q, d, (f v); rewrite mapvv_get2, Gg, H; reflexivity]. cbn [bindr]. split; [reflexivity|]. cbn [r_name r_map]. split; [reflexivity|]. split; [now apply canon_ok|]. split.
  - intros q. rewrite canon_mem by apply Ho. rewrite <- Gh. unfold dmem. rewrite mapvv_get. destruct (dget (r_map (saved E x)) q); reflexivity.
  - intros q d. rewrite canon_get2 by assumption. now rewrite mapvv_get2, Gg.
Qed.
Print Assumptions C69_run_json.

(** LZ4 runs: the same contents, empty queries and infinite scores included. *)
Theorem C69_run_lz4 : forall (N : Num) (E E' : env N) (fl : floats N), env_ok E -> env_ok E' -> forall fs (x : Run N) path kind name, dict2_ok (r_map x) -> some_doc (r_map x) -> asks_for path kind "lz4" ->
  exists x' fs' z, Run_save E fl fs x path kind = (x', Ok fs') /\ (forall p, p <> path -> dget fs' p = dget fs p) /\ Run_from_file E' fl fs' path kind name = Ok z /\ r_name z = name /\ dict2_ok (r_map z) /\ smap_eq (smap_of (r_map z)) (smap_of (r_map x)).
Proof.
  intros N E E' fl HE HE' fs x path kind name Hm Hd Hk. apply (run_kind _ _ "lz4") in Hk; [|unfold is_run_kind; cbn; tauto]. unfold Run_save. rewrite Hk. fold (saved E x). destruct (saved_ok E HE x Hm) as (Hm' & Hg & Hnm).
  change (String.eqb "lz4" "json") with false. change (String.eqb "lz4" "lz4") with true. cbv iota.
  do 2 eexists. exists (mkRun (canon E' r_negf (r_map (saved E x))) true name [] [] []). split; [reflexivity|]. split; [intros p Hp; apply dget_dset_neq; congruence|].
  unfold Run_from_file. rewrite Hk. cbn [bindr]. change (String.eqb "lz4" "json") with false. change (String.eqb "lz4" "lz4") with true. cbv iota. rewrite dget_dset_eq. cbn [bindr fst snd].
  unfold Run_to_dict. rewrite to_dict_map_id by apply Hm'. unfold Run_from_dict. rewrite build_from_dict_ok; [|exact Hm'|exact (saved_some E HE x Hm Hd)]. cbn [bindr]. split; [reflexivity|]. cbn [r_name r_map]. split; [reflexivity|]. split; [now apply canon_ok|].
  eapply smap_eq_trans; [now apply canon_smap|exact Hg].
Qed.
Print Assumptions C69_run_lz4.

(** Saving as JSON does not keep infinite scores. *)
Theorem C69_infinite_refuted : ~ (forall (E : env NumSF) (fl : floats NumSF) (x : Run NumSF) x' fs' z, env_ok E -> dict2_ok (r_map x) ->
  (forall v, fl_json fl v = true <-> @fltb NumSF (@fabs NumSF v) (SpecFloat.S754_infinity false) = true) ->
  Run_save E fl [] x "r.json" None = (x', Ok fs') -> Run_from_file E fl fs' "r.json" None None = Ok z -> forall q d, dget2 (r_map z) q d = dget2 (r_map x) q d).
Proof.
  intros H. set (fl := Floats (fun _ => "") (fun _ => Err ValueError) (fun v => @fltb NumSF (@fabs NumSF v) (SpecFloat.S754_infinity false)) SpecFloat.S754_nan : floats NumSF).
  set (x := @mkRun NumSF [("q", [("d", SpecFloat.S754_infinity false)])] true None [] [] [] : Run NumSF).
  assert (Hm : dict2_ok (r_map x)).
  { split; [unfold dict_ok; cbn; repeat constructor; cbn; auto|]. intros q r Hq. cbn in Hq. destruct (String.eqb q "q"); [|discriminate]. injection Hq as <-. unfold dict_ok. cbn. repeat constructor; auto. }
  assert (Ha : asks_for "r.json" None "json").
  { exists "json". split; [cbn; tauto|]. exists "", "r". split; [reflexivity|]. split; [now left|]. repeat split; try (cbn; intuition discriminate). exists "r"%char. split; [now left|discriminate]. }
  destruct (C69_run_json NumSF env_ex env_ex fl (env_ex_ok NumSF_ok) (env_ex_ok NumSF_ok) [] x "r.json" None None Hm) as (x' & fs' & z & Hs & _ & Hl & _ & _ & _ & Hg); [exists "q", "d", (SpecFloat.S754_infinity false); reflexivity|exact Ha|].
  specialize (H env_ex fl x x' fs' z (env_ex_ok NumSF_ok) Hm ltac:(intros v; reflexivity) Hs Hl "q" "d"). rewrite Hg in H. vm_compute in H. discriminate H.
Qed.
Print Assumptions C69_infinite_refuted.
Example ex_C69_hyps : dict2_ok (q_map y_ex) /\ some_doc (q_map y_ex) /\ asks_for "a.b/y.json" None "json" /\ (forall name, dict2_ok (r_map (x_ex name)) /\ some_doc (r_map (x_ex name))) /\ asks_for "y" (Some "lz4") "lz4".
Proof.
  split; [apply ex_C08_hyps|]. split; [apply ex_C08_hyps|]. split; [|split; [intros name; split; apply (ex_C09_hyps name)|reflexivity]].
  exists "json". split; [cbn; tauto|]. exists "a.b/", "y". split; [reflexivity|]. split; [right; now exists "a.b"|]. repeat split; try (cbn; intuition discriminate). exists "y"%char. split; [now left|discriminate].
Qed.

(** Keyword arguments for pandas: unless the first one is named like an engine, loading fails, whatever their values; a single one
    named like an engine has no effect. *)
Theorem C70_pd_kwargs : forall (N : Num) (E : env N) path qc dc sc key kwargs name,
  (~ In key ["auto"; "pyarrow"; "fastparquet"] -> forall fs fs', Qrels_from_parquet E fs path qc dc sc (key :: kwargs) = Err ValueError /\ Run_from_parquet E fs' path qc dc sc (key :: kwargs) name = Err ValueError) /\
  (In key ["auto"; "pyarrow"; "fastparquet"] -> forall fs fs', Qrels_from_parquet E fs path qc dc sc [key] = Qrels_from_parquet E fs path qc dc sc [] /\
     Run_from_parquet E fs' path qc dc sc [key] name = Run_from_parquet E fs' path qc dc sc [] name).
Proof.
  intros N E path qc dc sc key kwargs name. assert (Hb : existsb (String.eqb key) ["auto"; "pyarrow"; "fastparquet"] = true <-> In key ["auto"; "pyarrow"; "fastparquet"]).
  { rewrite existsb_exists. split; [intros (z & Hz & He); apply String.eqb_eq in He; now subst|intros H; exists key; split; [exact H|apply String.eqb_refl]]. }
  unfold Qrels_from_parquet, Run_from_parquet, read_parquet. split; intros H fs fs'.
  - destruct (existsb (String.eqb key) ["auto"; "pyarrow"; "fastparquet"]); [exfalso; tauto|]. split; reflexivity.
  - apply Hb in H. rewrite H. split; reflexivity.
Qed.
Print Assumptions C70_pd_kwargs.
