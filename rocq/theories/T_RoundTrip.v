(** T_RoundTrip.v: what is saved and loaded again, also by another process, evaluates to the same numbers (C91). *)
From Coq Require Import Reals Lra.
From Verif Require Import Base Dict Num NumLaws Env EnvEx M_Common M_Qrels M_Run M_History M_Metrics M_Evaluate M_Strings M_IO
  Spec_DS Spec_Hist Spec_Strings Spec_IO Spec_Metrics Spec_MetricsAPI Spec_Eval Spec_Closure Spec_Meta Spec_RoundTrip
  P_Base P_Dict P_Common P_History P_DS P_Strings P_IO P_IO2 T_IO T_IO2 T_IO3 T_IO4 T_IO5 P_Eval P_Eval3 T_Evaluate T_Evaluate2 T_Evaluate3 T_Closure T_Meta T_Meta2 T_MetaEx.
Open Scope string_scope.
Open Scope list_scope.
Open Scope nat_scope.

Lemma smap_perm {V} (m m' : dict (dict V)) : dict2_ok m -> dict2_ok m' -> smap_eq (smap_of m') (smap_of m) ->
  (forall q, Permutation (of_query m q) (of_query m' q)) /\ Permutation (dkeys m) (dkeys m').
Proof.
  intros [Hk Hm] [Hk' Hm'] [Hh Hg]. cbn in Hh, Hg. split.
  - apply of_query_perm. intros q. specialize (Hh q). specialize (Hg q). unfold dmem, dget2 in *.
    destruct (dget m q) as [r|] eqn:Hq, (dget m' q) as [r'|] eqn:Hq'; try discriminate; auto.
    apply dict_ext_perm; [exact (Hm q r Hq)|exact (Hm' q r' Hq')|]. intros d. symmetry. apply Hg.
  - apply NoDup_Permutation; auto. intros q. rewrite <- !dmem_in, Hh. reflexivity.
Qed.
Lemma renaming_id : renaming (fun d => d).
Proof. exists (fun d => d). auto. Qed.
Lemma increasing_id : increasing (fun s => s).
Proof. intros a b H. exact H. Qed.
Lemma map_pair_id {A B} (l : list (A * B)) : map (fun dv => (fst dv, snd dv)) l = l.
Proof. induction l as [|[a b] l IH]; cbn; congruence. Qed.

(** Objects with the same contents, in two processes (the environments differ in the hashes of ids and in the order
    of equal scores). *)
Theorem C91_same_contents : forall (E E' : env NumR), env_ok E -> env_ok E' ->
  forall y x y' x' metrics std save mk save' mk',
  evaluable E y x metrics -> all_tie_free (r_map x) -> obtained_qrels E' y' -> obtained E' x' ->
  smap_eq (smap_of (q_map y')) (smap_of (q_map y)) -> smap_eq (smap_of (r_map x')) (smap_of (r_map x)) ->
  docs_distinct E' (q_map y) (r_map x) ->
  same_result (ev_res (@evaluate NumR E (QObj y) (RObj x) metrics true std save mk))
              (ev_res (@evaluate NumR E' (QObj y') (RObj x') metrics true std save' mk')) /\
  forall s q, In s metrics -> In q (dkeys (q_map y)) -> exists x1 x1' v,
    ev_r (@evaluate NumR E (QObj y) (RObj x) metrics true std true mk) = RObj x1 /\
    ev_r (@evaluate NumR E' (QObj y') (RObj x') metrics true std true mk') = RObj x1' /\
    query_score x1 s q = Some v /\ query_score x1' s q = Some v.
Proof.
  intros E E' HE HE' y x y' x' metrics std save mk save' mk' He Ht Hy' Hx' Sy Sx Hd.
  assert (Ky := proj1 (obtained_qrels_inv E HE y (proj1 He))). assert (Ky' := proj1 (obtained_qrels_inv E' HE' y' Hy')).
  assert (Kx := proj1 (obtained_inv E HE x (proj1 (proj2 He)))). assert (Kx' := proj1 (obtained_inv E' HE' x' Hx')).
  destruct (smap_perm _ _ Ky Ky' Sy) as [Py Py2]. destruct (smap_perm _ _ Kx Kx' Sx) as [Px Px2].
  pose proof He as (_ & _ & Hne & Hsame & _ & Hmet).
  assert (Hin : forall q, In q (dkeys (q_map y')) <-> In q (dkeys (q_map y))).
  { intros q. split; apply Permutation_in; [now apply Permutation_sym|assumption]. }
  assert (He' : evaluable E' y' x' metrics).
  { split; [exact Hy'|]. split; [exact Hx'|]. split.
    { intros H. rewrite H in Py2. cbn in Py2. apply Permutation_sym, Permutation_nil in Py2.
      destruct (q_map y); [now apply Hne|discriminate]. }
    split. { intros q. rewrite Hin. rewrite (Hsame q). split; apply Permutation_in; [exact Px2|exact (Permutation_sym Px2)]. }
    split.
    - intros q Hq. apply Hin in Hq. eapply ids_distinct_perm; [|exact (Hd q Hq)].
      apply Permutation_app; unfold dkeys; apply Permutation_map; [apply Py|apply Px].
    - intros s Hs. destruct (Hmet s Hs) as (name & k & l & H1 & H2). exists name, k, l. split; [exact H1|].
      intros q Hq. eapply metric_defined_perm; [apply Py|]. apply H2. now apply Hin. }
  assert (Hj : forall q, judgments_renamed (fun d => d) (of_query (q_map y) q) (of_query (q_map y') q)).
  { intros q. unfold judgments_renamed. rewrite map_pair_id. apply Permutation_sym, Py. }
  assert (Hr : forall q, results_renamed (fun d => d) (fun s => s) (of_query (r_map x) q) (of_query (r_map x') q)).
  { intros q. unfold results_renamed. rewrite map_pair_id. apply Permutation_sym, Px. }
  split.
  - apply (C85_ids_carry_no_meaning E E' HE HE' y x y' x' (fun q => q) (fun _ d => d) (fun _ s => s)); auto.
    split; [exact renaming_id|]. split; [intros _; exact renaming_id|]. split; [intros _; exact increasing_id|].
    split; [rewrite map_id; apply Permutation_sym; exact Py2|]. intros q Hq. split; [apply Hj|]. split; [apply Hr|].
    apply Ht. now apply Hsame.
  - intros s q Hs Hq.
    apply (C85_own_query_only E E' HE HE' y x metrics true std mk y' x' metrics true std mk' s q q (fun d => d) (fun s => s)); auto;
      [now apply Hin|exact renaming_id|exact increasing_id|]. apply Ht. now apply Hsame.
Qed.
Print Assumptions C91_same_contents.

(** ** Files *)
Lemma opt_same {A} (f : A -> A) (o : option A) : (forall v, o = Some v -> f v = v) -> option_map f o = o.
Proof. intros H. destruct o as [v|]; [|reflexivity]. cbn. f_equal. now apply H. Qed.
Lemma q_from_file_ext E (fs fs2 : dict (file NumR Z)) path kind : dget fs path = dget fs2 path -> Qrels_from_file E fs path kind = Qrels_from_file E fs2 path kind.
Proof. intros H. unfold Qrels_from_file, read_text. now rewrite H. Qed.
Lemma r_from_file_ext E fl (fs fs2 : dict (file NumR R)) path kind name : dget fs path = dget fs2 path -> @Run_from_file NumR E fl fs path kind name = @Run_from_file NumR E fl fs2 path kind name.
Proof. intros H. unfold Run_from_file, read_text. change (@F NumR) with R. now rewrite H. Qed.
Lemma one_file_ok {V} path (f : file NumR V) : file_ok f -> files_ok [(path, f)].
Proof. intros H p g Hg. cbn in Hg. destruct (String.eqb p path); [|discriminate]. now injection Hg as <-. Qed.
Lemma q_loaded E E' fs fs' y path kind z : env_ok E -> obtained_qrels E y -> @Qrels_save NumR fs y path kind = Ok fs' ->
  Qrels_from_file E' fs' path kind = Ok z -> obtained_qrels E' z.
Proof.
  intros HE Hy Hs Hl. assert (Hm := proj1 (obtained_qrels_inv E HE y Hy)). unfold Qrels_save in Hs.
  destruct (get_file_kind qrels_kinds path kind) as [k|]; [|discriminate]. cbn [bindr] in Hs. injection Hs as <-.
  match type of Hl with Qrels_from_file _ (dset _ _ ?f) _ _ = _ => rewrite (q_from_file_ext E' _ [(path, f)]) in Hl;
    [apply (OQ_file E' [(path, f)] path kind z)|] end; [|exact Hl|].
  - apply one_file_ok. destruct (String.eqb k "json"); [|now destruct (String.eqb k "parquet")].
    cbn [file_ok]. unfold Qrels_to_dict. rewrite to_dict_map_id by apply Hm. exact (mapvv_ok (fun v => Some v) _ Hm).
  - rewrite dget_dset_eq. cbn [dget]. now rewrite String.eqb_refl.
Qed.
Lemma r_loaded E E' fl fs fs' x x' path kind name z : env_ok E -> obtained E x -> @Run_save NumR E fl fs x path kind = (x', Ok fs') ->
  @Run_from_file NumR E' fl fs' path kind name = Ok z -> obtained E' z.
Proof.
  intros HE Hx Hs Hl. assert (Hm := proj1 (obtained_inv E HE x Hx)). unfold Run_save in Hs.
  destruct (get_file_kind run_kinds path kind) as [k|]; [|discriminate]. fold (saved E x) in Hs.
  destruct (saved_ok E HE x Hm) as (Hm' & _ & _). injection Hs as <- <-.
  match type of Hl with @Run_from_file _ _ _ (dset _ _ ?f) _ _ _ = _ => rewrite (r_from_file_ext E' fl _ [(path, f)]) in Hl;
    [apply (OR_file E' fl [(path, f)] path kind name z)|] end; [|exact Hl|].
  - apply one_file_ok. unfold Run_to_dict. rewrite to_dict_map_id by apply Hm'. destruct (String.eqb k "json"); [|destruct (String.eqb k "lz4"); [exact Hm'|now destruct (String.eqb k "parquet")]].
    cbn [file_ok]. exact (mapvv_ok (fun v => if fl_json fl v then Some v else None) _ Hm').
  - rewrite dget_dset_eq. cbn [dget]. now rewrite String.eqb_refl.
Qed.

Lemma q_comes_back (E E' : env NumR) fs y path kind k : env_ok E -> env_ok E' -> obtained_qrels E y -> asks_for path kind k -> qrels_fit k (q_map y) ->
  exists fs' z, @Qrels_save NumR fs y path kind = Ok fs' /\ read_qrels E' fs' path kind k = Ok z /\
    obtained_qrels E' z /\ smap_eq (smap_of (q_map z)) (smap_of (q_map y)).
Proof.
  intros HE HE' Hy Hk [Hd Hf]. assert (Hm := proj1 (obtained_qrels_inv E HE y Hy)). destruct Hf as [->|[[-> Hn]|(-> & Hn & Hw)]].
  - destruct (C69_qrels_json NumR E' HE' fs y path kind Hm Hd Hk) as (fs' & z & H1 & _ & H2 & _ & _ & H3).
    exists fs', z. split; [exact H1|]. split; [exact H2|]. split; [exact (q_loaded E E' fs fs' y path kind z HE Hy H1 H2)|exact H3].
  - destruct (proj1 (C11_round_trip NumR E' HE') y Hm Hd) as (z & H1 & _ & _ & H3). apply (qrels_kind _ _ "parquet") in Hk; [|unfold is_qrels_kind; cbn; tauto].
    unfold Qrels_save. rewrite Hk. cbn [bindr]. eexists. exists z. split; [reflexivity|]. split.
    + unfold read_qrels. change (String.eqb "parquet" "parquet") with true. cbv iota. unfold Qrels_from_parquet, read_parquet. rewrite dget_dset_eq. cbn [bindr]. exact H1.
    + split; [exact (OQ_df E' _ _ _ _ z H1)|exact (H3 Hn)].
  - destruct (C08_round_trip NumR E' HE' fs y path kind kind Hm Hw Hd Hk Hk) as (fs' & H1 & _ & H2).
    destruct (H2 fs' eq_refl) as (z & H3 & _ & _ & _ & H4). exists fs', z. split; [exact H1|]. split; [exact H3|].
    split; [exact (q_loaded E E' fs fs' y path kind z HE Hy H1 H3)|exact (H4 Hn)].
Qed.
Lemma r_comes_back (E E' : env NumR) fl fs x path kind k name : env_ok E -> env_ok E' -> obtained E x -> asks_for path kind k -> run_fits fl k x ->
  exists x' fs' z, @Run_save NumR E fl fs x path kind = (x', Ok fs') /\ read_run E' fl fs' path kind k name = Ok z /\
    obtained E' z /\ smap_eq (smap_of (r_map z)) (smap_of (r_map x)).
Proof.
  intros HE HE' Hx Hk [Hd Hf]. assert (Hm := proj1 (obtained_inv E HE x Hx)). destruct Hf as [->|[[-> Hj]|[[-> Hn]|(-> & Hn & Hw & Hs & Hnm)]]].
  - destruct (C69_run_lz4 NumR E E' fl HE HE' fs x path kind name Hm Hd Hk) as (x' & fs' & z & H1 & _ & H2 & _ & _ & H3).
    exists x', fs', z. split; [exact H1|]. split; [exact H2|]. split; [exact (r_loaded E E' fl fs fs' x x' path kind name z HE Hx H1 H2)|exact H3].
  - destruct (C69_run_json NumR E E' fl HE HE' fs x path kind name Hm Hd Hk) as (x' & fs' & z & H1 & _ & H2 & _ & _ & H3 & H4).
    exists x', fs', z. split; [exact H1|]. split; [exact H2|]. split; [exact (r_loaded E E' fl fs fs' x x' path kind name z HE Hx H1 H2)|].
    split; cbn; [exact H3|]. intros q d. refine (eq_trans (H4 q d) _). apply opt_same. intros v Hv. now rewrite (Hj q d v Hv).
  - destruct (saved_ok E HE x Hm) as (Hm' & Hg & _). assert (Hd' := saved_some E HE x Hm Hd).
    destruct (proj2 (C11_round_trip NumR E' HE') (saved E x) name Hm' Hd') as (z & H1 & _ & _ & _ & H3). apply (run_kind _ _ "parquet") in Hk; [|unfold is_run_kind; cbn; tauto].
    unfold Run_save. rewrite Hk. fold (saved E x). do 2 eexists. exists z. split; [reflexivity|]. split.
    + unfold read_run. change (String.eqb "parquet" "parquet") with true. cbv iota. unfold Run_from_parquet, read_parquet. rewrite dget_dset_eq. cbn [bindr]. exact H1.
    + split; [exact (OR_df E' _ _ _ _ name z H1)|]. eapply smap_eq_trans; [apply H3|exact Hg].
      intros q Hq. destruct Hg as [Gh Gg]. cbn in Gh, Gg. rewrite Gh in Hq. destruct (Hn q Hq) as (d & v & Hv). exists d, v. now rewrite Gg.
  - destruct (C09_round_trip NumR E E' fl HE HE' fs x path kind kind name Hm Hw Hs Hd Hnm Hk Hk) as (x' & fs' & H1 & _ & _ & _ & H2).
    destruct (H2 fs' eq_refl) as (z & H3 & _ & _ & _ & H4). exists x', fs', z. split; [exact H1|]. split; [exact H3|].
    split; [exact (r_loaded E E' fl fs fs' x x' path kind name z HE Hx H1 H3)|exact (H4 Hn)].
Qed.

(** Judgments and results that a program (environment [E]) saves can be loaded by another one ([E']), which then
    computes the same numbers. *)
Theorem C91_saved_and_loaded : forall (E E' : env NumR), env_ok E -> env_ok E' ->
  forall (fl : floats NumR) y x metrics std save mk save' mk' qfs qpath qkind qk rfs rpath rkind rk name,
  evaluable E y x metrics -> all_tie_free (r_map x) -> docs_distinct E' (q_map y) (r_map x) ->
  asks_for qpath qkind qk -> qrels_fit qk (q_map y) -> asks_for rpath rkind rk -> run_fits fl rk x ->
  exists qfs' x1 rfs' y' x',
    @Qrels_save NumR qfs y qpath qkind = Ok qfs' /\ @Run_save NumR E fl rfs x rpath rkind = (x1, Ok rfs') /\
    read_qrels E' qfs' qpath qkind qk = Ok y' /\ read_run E' fl rfs' rpath rkind rk name = Ok x' /\
    same_result (ev_res (@evaluate NumR E (QObj y) (RObj x) metrics true std save mk))
                (ev_res (@evaluate NumR E' (QObj y') (RObj x') metrics true std save' mk')) /\
    forall s q, In s metrics -> In q (dkeys (q_map y)) -> exists x2 x2' v,
      ev_r (@evaluate NumR E (QObj y) (RObj x) metrics true std true mk) = RObj x2 /\
      ev_r (@evaluate NumR E' (QObj y') (RObj x') metrics true std true mk') = RObj x2' /\
      query_score x2 s q = Some v /\ query_score x2' s q = Some v.
Proof.
  intros E E' HE HE' fl y x metrics std save mk save' mk' qfs qpath qkind qk rfs rpath rkind rk name He Ht Hd Aq Fq Ar Fr.
  destruct (q_comes_back E E' qfs y qpath qkind qk HE HE' (proj1 He) Aq Fq) as (qfs' & y' & Q1 & Q2 & Q3 & Q4).
  destruct (r_comes_back E E' fl rfs x rpath rkind rk name HE HE' (proj1 (proj2 He)) Ar Fr) as (x1 & rfs' & x' & R1 & R2 & R3 & R4).
  exists qfs', x1, rfs', y', x'. split; [exact Q1|]. split; [exact R1|]. split; [exact Q2|]. split; [exact R2|].
  exact (C91_same_contents E E' HE HE' y x y' x' metrics std save mk save' mk' He Ht Q3 R3 Q4 R4 Hd).
Qed.
Print Assumptions C91_saved_and_loaded.

(** ** A concrete case: the example of T_Evaluate3, written as TREC files and read in a process with other hashes
    (here: another set order and thread schedule) *)
Definition fl_ex91 : floats NumR :=
  @Floats NumR
    (fun v : R => if Req_EM_T v 0.3 then "0.3" else if Req_EM_T v 0.5 then "0.5" else if Req_EM_T v 0.7 then "0.7" else "0.9")
    (fun s => if String.eqb s "0.3" then Ok 0.3%R else if String.eqb s "0.5" then Ok 0.5%R else if String.eqb s "0.7" then Ok 0.7%R else Ok 0.9%R)
    (fun _ => true) 0%R.
Lemma ex91_words : forall s, In s ["q1"; "q2"; "d1"; "d2"; "d3"; "d4"; "0.3"; "0.5"; "0.7"; "0.9"] -> word s.
Proof. intros s Hs. cbn in Hs. repeat destruct Hs as [<-|Hs]; try (split; [discriminate|repeat split]). destruct Hs. Qed.
Lemma ex91_x : forall q d (v : R), @dget2 R (r_map ex_x) q d = Some v ->
  In q ["q1"; "q2"] /\ In d ["d1"; "d2"; "d3"; "d4"] /\ In v [0.3; 0.5; 0.7; 0.9]%R.
Proof.
  intros q d v H. unfold dget2 in H. cbn in H. destruct (String.eqb_spec q "q1") as [->|].
  - cbn in H. destruct (String.eqb_spec d "d4") as [->|]; [injection H as <-; cbn; tauto|]. destruct (String.eqb_spec d "d2") as [->|]; [injection H as <-; cbn; tauto|discriminate].
  - destruct (String.eqb_spec q "q2") as [->|]; [|discriminate]. cbn in H.
    destruct (String.eqb_spec d "d3") as [->|]; [injection H as <-; cbn; tauto|]. destruct (String.eqb_spec d "d1") as [->|]; [injection H as <-; cbn; tauto|discriminate].
Qed.
Lemma ex91_y : forall q d v, dget2 (q_map ex_y) q d = Some v -> In q ["q1"; "q2"] /\ In d ["d1"; "d2"; "d3"; "d4"].
Proof.
  intros q d v H. unfold dget2 in H. cbn in H. destruct (String.eqb_spec q "q1") as [->|].
  - cbn in H. destruct (String.eqb_spec d "d2") as [->|]; [cbn; tauto|]. destruct (String.eqb_spec d "d1") as [->|]; [cbn; tauto|discriminate].
  - destruct (String.eqb_spec q "q2") as [->|]; [|discriminate]. cbn in H.
    destruct (String.eqb_spec d "d1") as [->|]; [cbn; tauto|]. destruct (String.eqb_spec d "d3") as [->|]; [cbn; tauto|discriminate].
Qed.
Lemma ex91_fl (v : R) : In v [0.3; 0.5; 0.7; 0.9]%R -> @float_ok NumR fl_ex91 v.
Proof.
  intros Hv. assert (K : forall a b : R, a <> b -> exists p, Req_EM_T a b = right p) by (intros a b H; destruct (Req_EM_T a b); [contradiction|eexists; reflexivity]).
  assert (K' : forall a : R, exists p, Req_EM_T a a = left p) by (intros a; destruct (Req_EM_T a a); [eexists; reflexivity|contradiction]).
  unfold float_ok. unfold fl_ex91, fl_show, fl_read. destruct Hv as [<-|[<-|[<-|[<-|[]]]]].
  - destruct (K' 0.3%R) as [p ->]. split; [apply ex91_words; cbn; tauto|reflexivity].
  - destruct (K 0.5%R 0.3%R) as [p ->]; [lra|]. destruct (K' 0.5%R) as [p' ->]. split; [apply ex91_words; cbn; tauto|reflexivity].
  - destruct (K 0.7%R 0.3%R) as [p ->]; [lra|]. destruct (K 0.7%R 0.5%R) as [p' ->]; [lra|]. destruct (K' 0.7%R) as [p'' ->]. split; [apply ex91_words; cbn; tauto|reflexivity].
  - destruct (K 0.9%R 0.3%R) as [p ->]; [lra|]. destruct (K 0.9%R 0.5%R) as [p' ->]; [lra|]. destruct (K 0.9%R 0.7%R) as [p'' ->]; [lra|]. split; [apply ex91_words; cbn; tauto|reflexivity].
Qed.
Example ex_C91_fits : qrels_fit "trec" (q_map ex_y) /\ run_fits fl_ex91 "trec" ex_x /\ all_tie_free (r_map ex_x) /\
  docs_distinct env_ex_rev (q_map ex_y) (r_map ex_x) /\ asks_for "runs/a.trec" None "trec" /\ asks_for "x" (Some "trec") "trec".
Proof.
  split; [|split; [|split; [|split; [exact ex_docs|split]]]].
  - split; [exists "q1", "d1"; eexists; reflexivity|]. right. right. split; [reflexivity|]. split.
    + intros q Hq. apply dmem_in in Hq. destruct Hq as [<-|[<-|[]]]; [exists "d1"|exists "d1"]; eexists; reflexivity.
    + intros q d v H. apply ex91_y in H as [H1 H2]. split; apply ex91_words; cbn in *; tauto.
  - split; [exists "q1", "d2"; eexists; reflexivity|]. right. right. right. split; [reflexivity|]. split; [|split; [|split]].
    + intros q Hq. apply dmem_in in Hq. destruct Hq as [<-|[<-|[]]]; [exists "d1"|exists "d2"]; eexists; reflexivity.
    + intros q d v H. apply ex91_x in H as (H1 & H2 & _). split; apply ex91_words; cbn in *; tauto.
    + intros q d v H. apply ex91_x in H as (_ & _ & Hv). exact (ex91_fl v Hv).
    + discriminate.
  - intros q [<-|[<-|[]]]; unfold tie_free, of_query; cbn; repeat constructor; cbn; intuition lra.
  - exists "trec". split; [cbn; tauto|]. exists "runs/", "a". split; [reflexivity|]. split; [right; now exists "runs"|]. repeat split; try (cbn; intuition discriminate). exists "a"%char. split; [now left|discriminate].
  - reflexivity.
Qed.
Example ex_C91 : exists qfs' x1 rfs' y' x',
    @Qrels_save NumR [] ex_y "x" (Some "trec") = Ok qfs' /\ @Run_save NumR env_ex fl_ex91 [] ex_x "runs/a.trec" None = (x1, Ok rfs') /\
    read_qrels env_ex_rev qfs' "x" (Some "trec") "trec" = Ok y' /\ read_run env_ex_rev fl_ex91 rfs' "runs/a.trec" None "trec" None = Ok x' /\
    same_result (ev_res (@evaluate NumR env_ex (QObj ex_y) (RObj ex_x) ex_ms true true true false))
                (ev_res (@evaluate NumR env_ex_rev (QObj y') (RObj x') ex_ms true true true false)).
Proof.
  destruct ex_C91_fits as (H1 & H2 & H3 & H4 & H5 & H6).
  destruct (C91_saved_and_loaded env_ex env_ex_rev (env_ex_ok NumR_laws) (env_ex_rev_ok NumR_laws) fl_ex91 ex_y ex_x ex_ms true true false true false
    [] "x" (Some "trec") "trec" [] "runs/a.trec" None "trec" None ex_ev H3 H4 H6 H1 H5 H2) as (a & b & c & d & e & K1 & K2 & K3 & K4 & K5 & _).
  exists a, b, c, d, e. split; [exact K1|]. split; [exact K2|]. split; [exact K3|]. split; [exact K4|exact K5].
Qed.
