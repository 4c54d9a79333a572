(** T_IO3.v: file kinds (C10) *)
From Coq Require Import Lia Reals.
From Verif Require Import Base Dict Num NumLaws Env EnvEx M_Common M_Qrels M_Run M_Strings M_Text M_Compare M_IO Spec_DS Spec_Hist Spec_IO P_Base P_Dict P_Common P_History P_IO2 T_IO2.
Open Scope string_scope.
Open Scope list_scope.
Open Scope nat_scope.

(** A kind that is not supported: AssertionError, no file is written, and the run is not even sorted. *)
Theorem C10_rejected : forall (N : Num) (E : env N) (fl : floats N) path kind,
  ((forall k, is_qrels_kind k -> ~ asks_for path kind k) -> forall fs y,
     @Qrels_save N fs y path kind = Err AssertionError /\ Qrels_from_file E fs path kind = Err AssertionError) /\
  ((forall k, is_run_kind k -> ~ asks_for path kind k) -> forall fs x name,
     Run_save E fl fs x path kind = (x, Err AssertionError) /\ Run_from_file E fl fs path kind name = Err AssertionError).
Proof.
  intros N E fl path kind. split; intros H.
  - apply qrels_kind_fails in H. intros fs y. unfold Qrels_save, Qrels_from_file. rewrite H. split; reflexivity.
  - apply run_kind_fails in H. intros fs x name. unfold Run_save, Run_from_file. rewrite H. split; reflexivity.
Qed.
Print Assumptions C10_rejected.

(** The format of a file. *)
Definition format_of {N : Num} {V} (f : file N V) : string :=
  match f with FText _ => "text" | FGzip _ => "gzip" | FJson _ => "json" | FLz4 _ => "lz4" | FParquet _ => "parquet" end.
(** What [save] writes for a kind: "gz" writes plain text. *)
Definition written (k : string) : string :=
  if String.eqb k "json" then "json" else if String.eqb k "lz4" then "lz4" else if String.eqb k "parquet" then "parquet" else "text".

(** A supported kind: [save] never fails, writes only the file, in the format of the kind; the object keeps its contents and is sorted. *)
Theorem C10_save : forall (N : Num) (E : env N) (fl : floats N) path kind k, env_ok E -> asks_for path kind k ->
  (is_qrels_kind k -> forall fs y, exists f, @Qrels_save N fs y path kind = Ok (dset fs path f) /\ format_of f = written k) /\
  (is_run_kind k -> forall fs x, dict2_ok (r_map x) -> exists f x', Run_save E fl fs x path kind = (x', Ok (dset fs path f)) /\ format_of f = written k /\
     r_sorted x' = true /\ dict2_ok (r_map x') /\ smap_eq (smap_of (r_map x')) (smap_of (r_map x)) /\ (NumLaws N -> run_inv x -> run_in_order (r_map x'))).
Proof.
  intros N E fl path kind k HE Hk. split; intros Hs.
  - intros fs y. pose proof (qrels_kind _ _ _ Hs Hk) as Hg. unfold Qrels_save. rewrite Hg. cbn [bindr]. eexists. split; [reflexivity|].
    cbn in Hs. repeat destruct Hs as [<-|Hs]; try reflexivity. destruct Hs.
  - intros fs x Hm. pose proof (run_kind _ _ _ Hs Hk) as Hg. unfold Run_save. rewrite Hg. fold (saved E x). destruct (saved_ok E HE x Hm) as (H1 & H2 & _). do 2 eexists. split; [reflexivity|]. split; [|split; [|split; [exact H1|split; [exact H2|]]]].
    + cbn in Hs. repeat destruct Hs as [<-|Hs]; try reflexivity. destruct Hs.
    + unfold saved. destruct (r_sorted x) eqn:Hx; [exact Hx|reflexivity].
    + intros HL Hi. now apply saved_order.
Qed.
Print Assumptions C10_save.

(** Reading: a missing file is an OSError for every kind, and a file of another format never is accepted: the formats that
    [from_file] accepts for a kind. *)
Definition readable (k : string) : string :=
  if String.eqb k "json" then "json" else if String.eqb k "lz4" then "lz4" else if String.eqb k "gz" then "gzip" else "text".
Theorem C10_load : forall (N : Num) (E : env N) (fl : floats N) path kind k, asks_for path kind k ->
  (is_qrels_kind k -> forall fs, (dget fs path = None -> Qrels_from_file E fs path kind = Err OSError) /\
     (forall f, dget fs path = Some f -> format_of f <> readable k -> exists e, Qrels_from_file E fs path kind = Err e /\ (e = ValueError \/ e = OSError))) /\
  (is_run_kind k -> forall fs name, (dget fs path = None -> Run_from_file E fl fs path kind name = Err OSError) /\
     (forall f, dget fs path = Some f -> format_of f <> readable k -> exists e, Run_from_file E fl fs path kind name = Err e /\ (e = ValueError \/ e = OSError))).
Proof.
  intros N E fl path kind k Hk. split; intros Hs.
  - intros fs. pose proof (qrels_kind _ _ _ Hs Hk) as Hg. unfold Qrels_from_file, read_text. rewrite Hg. cbn [bindr]. cbn in Hs.
    repeat destruct Hs as [<-|Hs]; try (split; [intros ->; reflexivity|]; intros f ->; destruct f; cbn; intros Hne; try congruence; eexists; split; try reflexivity; tauto). destruct Hs.
  - intros fs name. pose proof (run_kind _ _ _ Hs Hk) as Hg. unfold Run_from_file, read_text. rewrite Hg. cbn [bindr]. cbn in Hs.
    repeat destruct Hs as [<-|Hs]; try (split; [intros ->; reflexivity|]; intros f ->; destruct f; cbn; intros Hne; try congruence; eexists; split; try reflexivity; tauto). destruct Hs.
Qed.
Print Assumptions C10_load.

(** So files saved as "parquet" or "gz" never can be read back by [from_file]. *)
Theorem C10_parquet_gz_never_read_back : forall (N : Num) (E : env N) (fl : floats N) path kind k, env_ok E -> asks_for path kind k -> k = "parquet" \/ k = "gz" ->
  (forall fs y, exists fs' e, @Qrels_save N fs y path kind = Ok fs' /\ Qrels_from_file E fs' path kind = Err e) /\
  (forall fs x name, dict2_ok (r_map x) -> exists x' fs' e, Run_save E fl fs x path kind = (x', Ok fs') /\ Run_from_file E fl fs' path kind name = Err e).
Proof.
  intros N E fl path kind k HE Hk Hkk. destruct (C10_save N E fl path kind k HE Hk) as [S1 S2]. destruct (C10_load N E fl path kind k Hk) as [L1 L2].
  assert (Hne : written k <> readable k) by (destruct Hkk; subst; discriminate). assert (Hq : is_qrels_kind k) by (destruct Hkk; subst; unfold is_qrels_kind; cbn; tauto). assert (Hr : is_run_kind k) by (destruct Hkk; subst; unfold is_run_kind; cbn; tauto).
  split.
  - intros fs y. destruct (S1 Hq fs y) as (f & Hs & Hf). destruct (L1 Hq (dset fs path f)) as [_ L]. destruct (L f) as (e & He & _); [apply dget_dset_eq|congruence|]. exists (dset fs path f), e. auto.
  - intros fs x name Hm. destruct (S2 Hr fs x Hm) as (f & x' & Hs & Hf & _). destruct (L2 Hr (dset fs path f) name) as [_ L]. destruct (L f) as (e & He & _); [apply dget_dset_eq|congruence|]. exists x', (dset fs path f), e. auto.
Qed.
Print Assumptions C10_parquet_gz_never_read_back.

(** The documented extensions are the only ones; they are recognised after the last dot of the last component of the path. *)
Theorem C10_extension : forall path k, asks_for path None k ->
  In k ["json"; "trec"; "gz"; "lz4"; "parquet"] /\ exists stem e, path = (stem ++ "." ++ e)%string /\ ~ char_in "." e /\ ~ char_in "/" e /\ In (e, k) extensions /\ forall k', asks_for path None k' -> k' = k.
Proof.
  intros path k H. pose proof H as (e & He & dir & stem & Hp & _ & _ & Hs & Hd & _). split.
  - cbn in He. repeat destruct He as [He|He]; try (injection He as _ <-; cbn; tauto). destruct He.
  - exists (dir ++ stem)%string, e. split; [now rewrite P_Strings.sapp_assoc|]. split; [exact Hd|]. split; [exact Hs|]. split; [exact He|]. intros k' Hk'. exact (asks_unique _ _ _ _ Hk' H).
Qed.
Print Assumptions C10_extension.

(** names that ask for nothing, and a kind that overrides the name *)
Ltac no_ext := let e := fresh in let He := fresh in let Hp := fresh in intros (e & He & Hp); apply extension_of in Hp; vm_compute in Hp; subst e; cbn in He; intuition discriminate.
Example ex_C10_no : (forall k, ~ asks_for "runs.json/bm25" None k) /\ (forall k, ~ asks_for "dir/.json" None k) /\ (forall k, ~ asks_for "a.JSON" None k) /\ (forall k, ~ asks_for "a.trec.bz2" None k) /\ (forall k, ~ asks_for "..trec" None k).
Proof. repeat split; intros k; no_ext. Qed.
Example ex_C10_yes : asks_for "a.b/run.v1.parq" None "parquet" /\ asks_for "a.json" (Some "trec") "trec".
Proof.
  split; [|reflexivity]. exists "parq". split; [cbn; tauto|]. exists "a.b/", "run.v1". split; [reflexivity|]. split; [right; now exists "a.b"|]. repeat split; try (cbn; intuition discriminate). exists "r"%char. split; [now left|discriminate].
Qed.
