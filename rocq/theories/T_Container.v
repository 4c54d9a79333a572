(** T_Container.v: C93, reading a Run or a Qrels; Qrels.from_ir_datasets. *)
From Coq Require Import Reals.
From Verif Require Import Base Dict Num NumLaws Env EnvEx M_Common M_Qrels M_Run M_History
  M_Container Spec_DS Spec_Hist Spec_Container P_Dict P_Common P_History T_DS.
Open Scope string_scope.
Open Scope list_scope.
Open Scope nat_scope.

(** All the reading methods of one object. *)
Definition run_reads {N : Num} (x : Run N) : reads F :=
  Reads (Run_get_query_ids x) (Run_get_doc_ids_and_scores x) (Run_size x) (Run_len x)
        (Run_getitem x) (Run_to_dict x).
Definition qrels_reads (x : Qrels) : reads Z :=
  Reads (Qrels_get_query_ids x) (Qrels_get_doc_ids_and_scores x) (Qrels_size x) (Qrels_len x)
        (Qrels_getitem x) (Qrels_to_dict x).

Lemma combine_keys_vals {V} (m : dict V) : combine (dkeys m) (dvals m) = m.
Proof. induction m as [|[k v] m IH]; [reflexivity|]. cbn. f_equal. exact IH. Qed.

Lemma zip_get {V} (m : dict V) : NoDup (dkeys m) ->
  Forall2 (fun q d => dget_r m q = Ok d) (dkeys m) (dvals m).
Proof.
  induction m as [|[k v] m IH]; intros H; [constructor|]. inversion H; subst. cbn. constructor.
  - unfold dget_r. cbn. now rewrite String.eqb_refl.
  - specialize (IH H3). clear -IH H2. unfold dkeys, dvals in *.
    set (ks := map fst m) in *. set (vs := map snd m) in *. clearbody ks vs.
    induction IH as [|q d qs ds Hq IH IH']; constructor.
    + unfold dget_r in *. cbn. destruct (String.eqb_spec q k) as [->|]; [|exact Hq].
      exfalso. apply H2. left. reflexivity.
    + apply IH'. intros Hin. apply H2. now right.
Qed.

Lemma reads_of_map {V} (m : dict (dict V)) s :
  dict2_ok m -> smap_eq (smap_of m) s ->
  reads_tell (Reads (dkeys m) (dvals m) (length m) (length m) (dget_r m) (to_dict_map m)) s.
Proof.
  intros [Hk Hi] [Hh Hg]. cbn in Hh, Hg.
  constructor; cbn [rd_ids rd_dicts rd_size rd_len rd_item rd_dict].
  - exact Hk.
  - intros q. rewrite <- Hh. unfold dmem. split; intros H.
    + destruct (dget m q) eqn:E; [reflexivity|]. apply dget_None in E. contradiction.
    + destruct (dget m q) eqn:E; [|discriminate]. apply dget_Some_in in E.
      unfold dkeys. change q with (fst (q, d)). now apply in_map.
  - unfold dkeys. now rewrite map_length.
  - unfold dkeys. now rewrite map_length.
  - now apply zip_get.
  - intros q H. rewrite <- Hh in H. unfold dmem in H. unfold dget_r.
    destruct (dget m q) as [d|] eqn:E; [|discriminate]. exists d.
    split; [reflexivity|]. split; [eapply Hi; eauto|]. intros doc. rewrite <- Hg.
    unfold dget2. now rewrite E.
  - intros q H. rewrite <- Hh in H. unfold dmem in H. unfold dget_r.
    destruct (dget m q); [discriminate|reflexivity].
  - rewrite to_dict_map_id by exact Hk. now rewrite combine_keys_vals.
Qed.

Lemma built_map {N : Num} (E : env N) {V} (negf : V -> F) (d m : dict (dict V)) : env_ok E ->
  dict2_ok d -> build_from_dict E negf d = Ok m ->
  m = canon E negf d /\ dict2_ok m /\ smap_eq (smap_of m) (smap_of d).
Proof.
  intros HE Hd Hb.
  assert (Hm : m = canon E negf d).
  { destruct (concat (map dkeys (dvals d))) eqn:Hc.
    - apply concat_keys_nil in Hc; [|exact Hd]. rewrite build_from_dict_err in Hb by assumption.
      discriminate.
    - rewrite build_from_dict_ok in Hb; [now injection Hb|exact Hd|].
      assert (Hk : In s (concat (map dkeys (dvals d)))) by (rewrite Hc; now left).
      apply in_concat in Hk as (ks & Hks & Hk).
      apply in_map_iff in Hks as (r & <- & Hr).
      unfold dvals in Hr. apply in_map_iff in Hr as ([q r'] & Heq & Hqr). cbn in Heq; subst r'.
      apply in_dget in Hqr; [|apply Hd]. destruct (key_dget r s Hk) as [v Hv].
      exists q, s, v. unfold dget2. now rewrite Hqr. }
  split; [exact Hm|]. subst m. split; [now apply canon_ok|now apply canon_smap].
Qed.

(** ** C93: whatever was done to the object, the reading methods tell the nested map
    that this history stands for. *)
Theorem C93_run_reads : forall (N : Num) (E : env N), env_ok E ->
  forall (os : list run_op), Forall run_op_shape os ->
  reads_tell (run_reads (run_hist E Run_empty os)) (fold_left spec_run_step os s_empty) /\
  forall d name x, dict2_ok d -> Run_init E d name = Ok x ->
    reads_tell (run_reads (run_hist E x os)) (fold_left spec_run_step os (smap_of d)).
Proof.
  intros N E HE os Hs. split.
  - assert (He : dict2_ok (r_map (@Run_empty N))) by (split; [constructor|discriminate]).
    destruct (run_hist_refines E HE os Run_empty s_empty He Hs) as [Ha Hb].
    { split; reflexivity. }
    exact (reads_of_map _ _ Ha Hb).
  - intros d name x Hd Hi.
    unfold Run_init in Hi. destruct (build_from_dict E r_negf d) as [m|] eqn:Eb; [|discriminate].
    cbn in Hi. injection Hi as <-. destruct (built_map E r_negf d m HE Hd Eb) as (_ & H1 & H2).
    destruct (run_hist_refines E HE os (mkRun m true name [] [] []) (smap_of d) H1 Hs H2) as [Ha Hb].
    exact (reads_of_map _ _ Ha Hb).
Qed.
Print Assumptions C93_run_reads.

Theorem C93_qrels_reads : forall (N : Num) (E : env N), env_ok E ->
  forall (os : list qrels_op), Forall qrels_op_shape os ->
  reads_tell (qrels_reads (qrels_hist E Qrels_empty os)) (fold_left spec_qrels_step os s_empty) /\
  forall d name x, dict2_ok d -> Qrels_init E d name = Ok x ->
    reads_tell (qrels_reads (qrels_hist E x os)) (fold_left spec_qrels_step os (smap_of d)).
Proof.
  intros N E HE os Hs. split.
  - assert (He : dict2_ok (q_map Qrels_empty)) by (split; [constructor|discriminate]).
    destruct (qrels_hist_refines E HE os Qrels_empty s_empty He Hs) as [Ha Hb].
    { split; reflexivity. }
    exact (reads_of_map _ _ Ha Hb).
  - intros d name x Hd Hi.
    unfold Qrels_init in Hi. destruct (build_from_dict E q_negf d) as [m|] eqn:Eb; [|discriminate].
    cbn in Hi. injection Hi as <-. destruct (built_map E q_negf d m HE Hd Eb) as (_ & H1 & H2).
    destruct (qrels_hist_refines E HE os (mkQrels m true name) (smap_of d) H1 Hs H2) as [Ha Hb].
    exact (reads_of_map _ _ Ha Hb).
Qed.
Print Assumptions C93_qrels_reads.

(** The judgments of a data set, when the catalogue has some, are exactly what the
    object then tells; its name is the data set id; the catalogue's exception and the
    ValueError for a data set without judgments are the only failures. *)
Theorem C93_from_ir_datasets : forall (N : Num) (E : env N), env_ok E ->
  forall (catalog : string -> result (dict (dict Z))) (id : string),
  (forall e, catalog id = Err e -> Qrels_from_ir_datasets E catalog id = Err e) /\
  (forall d, catalog id = Ok d -> dict2_ok d ->
     ((forall q doc, dget2 d q doc = None) ->
        Qrels_from_ir_datasets E catalog id = Err ValueError) /\
     ((exists q doc v, dget2 d q doc = Some v) ->
        exists x, Qrels_from_ir_datasets E catalog id = Ok x /\
          q_name x = Some id /\ q_sorted x = true /\ reads_tell (qrels_reads x) (smap_of d))).
Proof.
  intros N E HE catalog id. unfold Qrels_from_ir_datasets. split.
  - intros e ->. reflexivity.
  - intros d -> Hd. cbn [bindr]. unfold Qrels_from_dict. split.
    + intros Hn. rewrite build_from_dict_err; [reflexivity|exact Hd|].
      intros (q & k & v & H). rewrite Hn in H. discriminate.
    + intros Hs. rewrite build_from_dict_ok by assumption. cbn [bindr q_map q_sorted].
      eexists. split; [reflexivity|]. split; [reflexivity|]. split; [reflexivity|].
      apply (reads_of_map (canon E q_negf d)).
      * now apply canon_ok.
      * now apply canon_smap.
Qed.
Print Assumptions C93_from_ir_datasets.

(** ** Non-vacuity *)
Example C93_ex_run :
  let x := @run_hist NumSF env_ex Run_empty ex_history in
  (Run_get_query_ids x, Run_get_doc_ids_and_scores x, Run_size x, Run_len x,
   Run_getitem x "q2", Run_getitem x "q3")
  = (["q1"; "q2"], [[("d9", fl 4)]; [("d2", fl 2); ("d1", fl 1)]], 2, 2,
     Ok [("d2", fl 2); ("d1", fl 1)], Err KeyError).
Proof. cbv zeta. vmr. Qed.
Example C93_ex_ir :
  (do x <- @Qrels_from_ir_datasets NumSF env_ex
             (fun i => if String.eqb i "a/b" then Ok ex_qd else Err KeyError) "a/b";
   Ok (q_name x, Qrels_to_dict x))
  = Ok (Some "a/b", [("q1", [("d5", 2%Z); ("d2", 0%Z)]); ("q2", [("d2", 3%Z); ("d1", 1%Z)])]).
Proof. vmr. Qed.
