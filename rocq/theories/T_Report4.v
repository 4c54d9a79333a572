(** T_Report4.v: the dictionary and the data frame of a report (C65), and when tables can be made (C63, C64) *)
From Coq Require Import Lia Sorted.
From Verif Require Import Base Dict Num NumLaws NumCmp Env M_Common M_Qrels M_Run M_Metrics M_Strings M_Text M_Evaluate M_Compare M_Report
  Spec_DS Spec_Compare Spec_Report P_Base P_Dict P_Strings P_Optimize P_Compare T_Compare T_Compare2 T_Report T_Report2 T_Report3.
Open Scope string_scope.
Open Scope list_scope.
Open Scope nat_scope.

(** everything a report of compare holds about its models *)
Lemma report_complete (N : Num) (E : env N) (T : tests N) y xs metrics test n max_p digits percent mk y' xs' rep :
  dict_ok (q_map y) -> Forall (fun x => dict2_ok (r_map x)) xs ->
  compare E T y xs metrics test n max_p digits percent mk = (y', xs', Ok rep) ->
  (forall a m, In a (rp_names rep) -> In m metrics -> exists d v, dget (rp_results rep) a = Some d /\ dget d m = Some v) /\
  (forall a b m, In a (rp_names rep) -> In b (rp_names rep) -> a <> b -> In m metrics ->
     exists e ps, fsd_get (rp_comparisons rep) [a; b] = Ok e /\ dget e m = Some (Some ps)) /\
  (forall a b m, In a (rp_names rep) -> In b (rp_names rep) -> a <> b -> In m metrics ->
     exists d w, kget (rp_wtl rep) [a; b] = Some d /\ dget d m = Some w).
Proof.
  intros Hy Hxs H.
  destruct (C68_results _ _ _ _ _ _ _ _ _ _ _ _ _ _ _ Hy Hxs H) as (L1 & _ & _ & _ & _ & Hst & Hres & _).
  split; [|split].
  - intros a m Ha Hm. destruct (Hst a Ha) as (x & S). destruct (Hres a x m S Hm) as (l & _ & Hd). unfold dget2 in Hd. destruct (dget (rp_results rep) a) as [d|]; [|discriminate]. eauto.
  - intros model other metric Hmod Ho Hne Hmet. destruct (in_dec string_dec test ["fisher"; "student"; "tukey"]) as [Ht|Ht].
    2: { pose proof (C61_other_tests _ E T y xs metrics test n max_p digits percent mk Ht) as Hx. rewrite H in Hx. discriminate. }
    destruct Ht as [Ht|[Ht|[Ht|[]]]].
    + destruct (C61_comparisons _ _ _ _ _ _ _ _ _ _ _ _ _ _ _ Hy Hxs H) as (_ & Hc). destruct (Hc (or_introl (eq_sym Ht))) as (_ & Hp).
      destruct (Hst model Hmod) as (x1 & S1). destruct (Hst other Ho) as (x2 & S2). destruct (Hp model other x1 x2 metric S1 S2 Hne Hmet) as (e & p & _ & _ & H1 & H2 & _). eauto.
    + destruct (C61_comparisons _ _ _ _ _ _ _ _ _ _ _ _ _ _ _ Hy Hxs H) as (_ & Hc). destruct (Hc (or_intror (eq_sym Ht))) as (_ & Hp).
      destruct (Hst model Hmod) as (x1 & S1). destruct (Hst other Ho) as (x2 & S2). destruct (Hp model other x1 x2 metric S1 S2 Hne Hmet) as (e & p & _ & _ & H1 & H2 & _). eauto.
    + subst test. destruct (C61_tukey _ _ _ _ _ _ _ _ _ _ _ _ _ _ Hy Hxs H) as (Hc & _). destruct (Hc metric Hmet) as (ss & pf & _ & _ & Hp).
      destruct (Hp model other Hmod Ho) as (e & i & j & H1 & H2 & _). eauto.
  - intros a b m Ha Hb Hab Hm. destruct (compare_ok E T _ _ _ _ _ _ _ _ _ _ _ _ Hy Hxs H) as (scores & Hsc & _ & _ & _ & _ & _ & _ & Hw).
    destruct (wtl_fill _ _ _ _ Hw) as (F1 & _). destruct (F1 a b m Ha Hb Hab Hm) as (v & Hv & _). unfold kget2 in Hv. destruct (kget (rp_wtl rep) [a; b]) as [d|]; [|discriminate]. eauto.
Qed.

(** ** C65 *)
Section D.
Context {N : Num} (rp : report N).
(** [e] lists the scores of [m1] and, against every other model, every metric's p-value and win/tie/loss *)
Definition entry_complete (m1 : string) (e : model_entry N) : Prop :=
  dget (rp_results rp) m1 = Some (en_scores e) /\
  (forall m2 metric, In m2 (rp_names rp) -> m2 <> m1 -> In metric (rp_metrics rp) ->
     exists c p s d w, fsd_get (rp_comparisons rp) [m1; m2] = Ok c /\ dget c metric = Some (Some (p, s)) /\ dget2 (en_comparisons e) m2 metric = Some p /\
       kget (rp_wtl rp) [m1; m2] = Some d /\ dget d metric = Some w /\ dget2 (en_wtl e) m2 metric = Some w) /\
  (forall m2, dget (en_comparisons e) m2 <> None \/ dget (en_wtl e) m2 <> None -> In m2 (rp_names rp) /\ m2 <> m1) /\
  (forall m2 metric, dget2 (en_comparisons e) m2 metric <> None \/ dget2 (en_wtl e) m2 metric <> None -> In metric (rp_metrics rp)).
Definition pair_step (m1 m2 : string) (cw' : dict (@F N) * dict wtl) (metric : string) : result (dict (@F N) * dict wtl) :=
  do ps <- comparison_of rp m1 m2 metric; do d <- kget_r (rp_wtl rp) [m1; m2]; do w <- dget_r d metric; Ok (dset (fst cw') metric (fst ps), dset (snd cw') metric w).
Definition pair_has (m1 m2 metric : string) (c' : dict (@F N)) (w' : dict wtl) : Prop :=
  exists c p s d w, fsd_get (rp_comparisons rp) [m1; m2] = Ok c /\ dget c metric = Some (Some (p, s)) /\ dget c' metric = Some p /\
       kget (rp_wtl rp) [m1; m2] = Some d /\ dget d metric = Some w /\ dget w' metric = Some w.
Lemma pair_ok m1 m2 cw : foldr_m (pair_step m1 m2) (rp_metrics rp) ([], []) = Ok cw ->
  (forall metric, In metric (rp_metrics rp) -> pair_has m1 m2 metric (fst cw) (snd cw)) /\
  (forall metric, dget (fst cw) metric <> None \/ dget (snd cw) metric <> None -> In metric (rp_metrics rp)).
Proof.
  apply (foldr_m_inv _ (fun done cw => (forall metric, In metric done -> pair_has m1 m2 metric (fst cw) (snd cw)) /\
    (forall metric, dget (fst cw) metric <> None \/ dget (snd cw) metric <> None -> In metric done))).
  - intros done a rest s s1 _ (I1 & I2) Hs. unfold pair_step, comparison_of, dget_r, kget_r in Hs.
    destruct (fsd_get (rp_comparisons rp) [m1; m2]) as [c|] eqn:Hc; cbn [bindr] in Hs; [|discriminate]. destruct (dget c a) as [[[p sg]|]|] eqn:Hp; cbn [bindr] in Hs; try discriminate.
    destruct (kget (rp_wtl rp) [m1; m2]) as [d|] eqn:Hd; cbn [bindr] in Hs; [|discriminate]. destruct (dget d a) as [w|] eqn:Hw; cbn [bindr] in Hs; [|discriminate]. injection Hs as <-. cbn [fst snd].
    split.
    + intros metric Hm. destruct (string_dec metric a) as [ -> |Hne].
      * exists c, p, sg, d, w. rewrite !dget_dset_eq. repeat (split; [assumption || reflexivity|]). reflexivity.
      * apply in_app_or in Hm as [Hm|[Hm|[]]]; [|congruence]. destruct (I1 metric Hm) as (c' & p' & sg' & d' & w' & H1 & H2 & H3 & H4 & H5 & H6).
        exists c', p', sg', d', w'. rewrite !dget_dset_neq by congruence. auto 10.
    + intros metric Hm. destruct (string_dec metric a) as [ -> |Hne]; [apply in_or_app; right; now left|]. rewrite !dget_dset_neq in Hm by congruence. apply in_or_app. left. now apply I2.
  - split; [intros metric []|]. intros metric [H|H]; now destruct H.
Qed.
Lemma entry_ok m1 e : entry_of rp m1 = Ok e -> entry_complete m1 e.
Proof.
  unfold entry_of, dget_r at 1. destruct (dget (rp_results rp) m1) as [sc|] eqn:Hsc; cbn [bindr]; intros H; [|discriminate].
  match type of H with bindr ?r _ = _ => destruct r as [cw|] eqn:Hcw; cbn [bindr] in H; [|discriminate] end. injection H as <-.
  unfold entry_complete. cbn [en_scores en_comparisons en_wtl].
  assert (HI : (forall m2 metric, In m2 (rp_names rp) -> m2 <> m1 -> In metric (rp_metrics rp) -> exists c' w', dget (fst cw) m2 = Some c' /\ dget (snd cw) m2 = Some w' /\ pair_has m1 m2 metric c' w') /\
     (forall m2, dget (fst cw) m2 <> None \/ dget (snd cw) m2 <> None -> In m2 (rp_names rp) /\ m2 <> m1) /\
     (forall m2 metric, dget2 (fst cw) m2 metric <> None \/ dget2 (snd cw) m2 metric <> None -> In metric (rp_metrics rp))).
  { revert Hcw.
    apply (foldr_m_inv _ (fun done cw => (forall m2 metric, In m2 done -> m2 <> m1 -> In metric (rp_metrics rp) -> exists c' w', dget (fst cw) m2 = Some c' /\ dget (snd cw) m2 = Some w' /\ pair_has m1 m2 metric c' w') /\
      (forall m2, dget (fst cw) m2 <> None \/ dget (snd cw) m2 <> None -> In m2 done /\ m2 <> m1) /\
      (forall m2 metric, dget2 (fst cw) m2 metric <> None \/ dget2 (snd cw) m2 metric <> None -> In metric (rp_metrics rp)))).
    - intros done a rest s s1 _ (I1 & I2 & I3) Hs. destruct (String.eqb_spec m1 a) as [ <- |Hne].
      + injection Hs as <-. split; [|split; [|exact I3]].
        * intros m2 metric Hin Hm2. apply in_app_or in Hin as [Hin|[Hin|[]]]; [now apply I1|congruence].
        * intros m2 Hm2. destruct (I2 m2 Hm2) as [H1 H2]. split; [apply in_or_app; now left|exact H2].
      + fold (pair_step m1 a) in Hs. destruct (foldr_m (pair_step m1 a) (rp_metrics rp) ([], [])) as [cw'|] eqn:Hp; cbn [bindr] in Hs; [|discriminate]. injection Hs as <-. cbn [fst snd].
        destruct (pair_ok _ _ _ Hp) as (P1 & P2). split; [|split].
        * intros m2 metric Hin Hm2 Hmet. destruct (string_dec m2 a) as [ -> |Hma]; [rewrite !dget_dset_eq; eauto 6|]. rewrite !dget_dset_neq by congruence.
          apply in_app_or in Hin as [Hin|[Hin|[]]]; [now apply I1|congruence].
        * intros m2 Hm2. destruct (string_dec m2 a) as [ -> |Hma]; [split; [apply in_or_app; right; now left|congruence]|]. rewrite !dget_dset_neq in Hm2 by congruence. destruct (I2 m2 Hm2). split; [apply in_or_app; now left|assumption].
        * intros m2 metric. unfold dget2. destruct (string_dec m2 a) as [ -> |Hma]; [rewrite !dget_dset_eq; apply P2|]. rewrite !dget_dset_neq by congruence. apply I3.
    - split; [intros m2 metric []|]. split; [intros m2 [H|H]; now destruct H|]. intros m2 metric [H|H]; now destruct H. }
  destruct HI as (I1 & I2 & I3). split; [exact Hsc|]. split; [|split; [exact I2|exact I3]].
  intros m2 metric Hm2 Hne Hmet. destruct (I1 m2 metric Hm2 Hne Hmet) as (c' & w' & H1 & H2 & c & p & s & d & w & H3). exists c, p, s, d, w. unfold dget2. rewrite H1, H2. exact H3.
Qed.
Definition header : dict (rvalue N) := [("stat_test", RString (rp_test rp)); ("metrics", RList (rp_metrics rp)); ("model_names", RList (rp_names rp))].
Lemma to_dict_ok d : to_dict rp = Ok d ->
  (forall m1, In m1 (rp_names rp) -> exists e, dget d m1 = Some (RModel e) /\ entry_complete m1 e) /\
  (forall k, ~ In k (rp_names rp) -> dget d k = dget header k).
Proof.
  unfold to_dict. fold header.
  apply (foldr_m_inv _ (fun done d => (forall m1, In m1 done -> exists e, dget d m1 = Some (RModel e) /\ entry_complete m1 e) /\ (forall k, ~ In k done -> dget d k = dget header k))).
  - intros done a rest s s1 _ (I1 & I2) Hs. destruct (entry_of rp a) as [e|] eqn:He; cbn [bindr] in Hs; [|discriminate]. injection Hs as <-. split.
    + intros m1 Hm. destruct (string_dec m1 a) as [ -> |Hne]; [exists e; split; [apply dget_dset_eq|now apply entry_ok]|]. rewrite dget_dset_neq by congruence.
      apply in_app_or in Hm as [Hm|[Hm|[]]]; [now apply I1|congruence].
    + intros k Hk. rewrite dget_dset_neq; [apply I2; intros Hc; apply Hk, in_or_app; now left|]. intros ->. apply Hk, in_or_app. right. now left.
  - split; [intros m1 []|reflexivity].
Qed.
End D.

(** C65: for every report of compare (with at least one metric), to_dict exists, its model entries are
    complete, and it holds the test, the metrics and the names, unless a model has the name of that key. *)
Theorem C65_to_dict : forall (N : Num) (E : env N) (T : tests N) y xs metrics test n max_p digits percent mk y' xs' rep,
  dict_ok (q_map y) -> Forall (fun x => dict2_ok (r_map x)) xs ->
  compare E T y xs metrics test n max_p digits percent mk = (y', xs', Ok rep) -> metrics <> [] ->
  exists d, to_dict rep = Ok d /\
    (forall m1, In m1 (rp_names rep) -> exists e, dget d m1 = Some (RModel e) /\ entry_complete rep m1 e) /\
    (~ In "stat_test" (rp_names rep) -> dget d "stat_test" = Some (RString test)) /\
    (~ In "metrics" (rp_names rep) -> dget d "metrics" = Some (RList metrics)) /\
    (~ In "model_names" (rp_names rep) -> dget d "model_names" = Some (RList (rp_names rep))) /\
    (forall k, dget d k <> None -> In k (rp_names rep) \/ In k ["stat_test"; "metrics"; "model_names"]).
Proof.
  intros N E T y xs metrics test n max_p digits percent mk y' xs' rep Hy Hxs H Hne.
  destruct (report_complete _ _ _ _ _ _ _ _ _ _ _ _ _ _ _ Hy Hxs H) as (R1 & R2 & R3).
  destruct (C68_results _ _ _ _ _ _ _ _ _ _ _ _ _ _ _ Hy Hxs H) as (_ & _ & Hmet & Htest & _).
  assert (Htot : exists d, to_dict rep = Ok d).
  { unfold to_dict. match goal with |- exists d, foldr_m ?f ?l ?s0 = Ok d => destruct (fun H => foldr_m_total f (fun _ => True) l H s0 I) as (d & Hd & _); [|eauto] end.
    intros m1 s Hm1 _. assert (Hen : exists e, entry_of rep m1 = Ok e); [|destruct Hen as (e & ->); cbn [bindr]; eauto].
    unfold entry_of, dget_r at 1. destruct metrics as [|m0 ms]; [congruence|]. destruct (R1 m1 m0 Hm1 (or_introl eq_refl)) as (d0 & _ & Hd0 & _). rewrite Hd0. cbn [bindr].
    match goal with |- exists e, bindr (foldr_m ?f ?l ?s0) _ = Ok e => destruct (fun H => foldr_m_total f (fun _ => True) l H s0 I) as (cw & Hcw & _); [|rewrite Hcw; cbn [bindr]; eauto] end.
    intros m2 s2 Hm2 _. destruct (String.eqb_spec m1 m2) as [|Hd12]; [eauto|].
    match goal with |- exists e, bindr (foldr_m ?f ?l ?s0) _ = Ok e /\ _ => destruct (fun H => foldr_m_total f (fun _ => True) l H s0 I) as (cw & Hcw & _); [|rewrite Hcw; cbn [bindr]; eauto] end.
    intros metric s3 Hm3 _. rewrite Hmet in Hm3. destruct (R2 m1 m2 metric Hm1 Hm2 Hd12 Hm3) as (c & ps & Hc & Hps). destruct (R3 m1 m2 metric Hm1 Hm2 Hd12 Hm3) as (d & w & Hd & Hw).
    unfold comparison_of, dget_r, kget_r. rewrite Hc. cbn [bindr]. rewrite Hps. cbn [bindr]. rewrite Hd. cbn [bindr]. rewrite Hw. cbn [bindr]. eauto. }
  destruct Htot as (d & Hd). exists d. split; [exact Hd|]. destruct (to_dict_ok rep d Hd) as (D1 & D2). split; [exact D1|].
  split; [intros Hk; rewrite (D2 _ Hk); cbn; now rewrite Htest|]. split; [intros Hk; rewrite (D2 _ Hk); cbn; now rewrite Hmet|]. split; [intros Hk; rewrite (D2 _ Hk); reflexivity|].
  intros k Hk. destruct (in_dec string_dec k (rp_names rep)) as [|Hni]; [now left|]. right. rewrite (D2 k Hni) in Hk. destruct (dget (header rep) k) as [v|] eqn:Hv; [exact (dget_key _ _ _ Hv)|congruence].
Qed.

(** The data frame has one row per model name, in order of first occurrence: its name and its scores. *)
Theorem C65_to_dataframe : forall (N : Num) (E : env N) (T : tests N) y xs metrics test n max_p digits percent mk y' xs' rep,
  dict_ok (q_map y) -> Forall (fun x => dict2_ok (r_map x)) xs ->
  compare E T y xs metrics test n max_p digits percent mk = (y', xs', Ok rep) -> metrics <> [] ->
  NoDup (rp_names rep) -> ~ In "model_names" (rp_names rep) ->
  exists rows, to_dataframe rep = Ok rows /\ Forall2 (fun name row => fst row = name /\ dget (rp_results rep) name = Some (snd row)) (rp_names rep) rows.
Proof.
  intros N E T y xs metrics test n max_p digits percent mk y' xs' rep Hy Hxs H Hne Hnd Hmn.
  destruct (C65_to_dict _ _ _ _ _ _ _ _ _ _ _ _ _ _ _ Hy Hxs H Hne) as (d & Hd & D1 & _ & _ & D4 & _). unfold to_dataframe. rewrite Hd. cbn [bindr].
  unfold dget_r at 1. rewrite (D4 Hmn). cbn [bindr].
  assert (Hg : forall l, incl l (rp_names rep) -> exists rows, map_m (fun name => do v <- dget_r d name; match v with RModel e => Ok (name, en_scores e) | _ => Err TypeError end) l = Ok rows /\
     Forall2 (fun name row => fst row = name /\ dget (rp_results rep) name = Some (snd row)) l rows).
  { induction l as [|a l IH]; intros Hl; cbn [map_m]; [exists []; split; [reflexivity|constructor]|]. destruct (D1 a (Hl a (or_introl eq_refl))) as (e & He & (Hsc & _)). unfold dget_r at 1. rewrite He. cbn [bindr].
    destruct IH as (rows & -> & Hf); [intros z Hz; apply Hl; now right|]. cbn [bindr]. eexists. split; [reflexivity|]. constructor; [split; [reflexivity|exact Hsc]|exact Hf]. }
  destruct (Hg (rp_names rep) (incl_refl _)) as (rows & -> & Hf). cbn [bindr]. exists rows. split; [|exact Hf]. f_equal. apply dict_of_list_id.
  assert (Hk : dkeys rows = rp_names rep) by (clear - Hf; induction Hf as [|? ? ? ? [H1 _] ? IH]; [reflexivity|cbn; rewrite H1; f_equal; exact IH]).
  unfold dkeys in Hk. rewrite Hk. exact Hnd.
Qed.

(** ** C63, C64: when the tables can be made *)
Definition precision_ok (digits : Z) (percent : bool) : Prop := if percent then (2 <= digits)%Z else (0 <= digits)%Z.
Lemma format_ok {N : Num} (fm : format N) rp v : precision_ok (rp_digits rp) (rp_percent rp) <-> exists s, format_score fm rp v = Ok s.
Proof.
  unfold precision_ok, format_score, fixed. destruct (rp_percent rp).
  - destruct (Z.ltb_spec (rp_digits rp - 2) 0); split; intros H'; eauto; try lia. destruct H' as (s & Hs). discriminate.
  - destruct (Z.ltb_spec (rp_digits rp) 0); split; intros H'; eauto; try lia. destruct H' as (s & Hs). discriminate.
Qed.
Lemma map_m_total {A B} (f : A -> result B) l : (forall a, In a l -> exists b, f a = Ok b) -> exists r, map_m f l = Ok r.
Proof.
  induction l as [|a l IH]; intros H; cbn [map_m]; [eauto|]. destruct (H a (or_introl eq_refl)) as (b & ->). cbn [bindr]. destruct IH as (r & ->); [intros; apply H; now right|]. cbn [bindr]. eauto.
Qed.
Lemma is_Ok_ex {A} (r : result A) : is_Ok r = true -> exists a, r = Ok a.
Proof. destruct r; [eauto|discriminate]. Qed.
Lemma compare_sets (N : Num) (E : env N) (T : tests N) y xs metrics test n max_p digits percent mk y' xs' rep :
  compare E T y xs metrics test n max_p digits percent mk = (y', xs', Ok rep) -> rp_digits rep = digits /\ rp_percent rep = percent.
Proof.
  intros H. unfold compare in H. destruct (score_runs E 0 y xs metrics mk [] [] []) as [[y1 xs1] r] eqn:Hs. injection H as _ _ H.
  destruct r as [[[names results] scores]|e]; cbn [bindr] in H; [|discriminate].
  destruct (compute_statistical_significance E T names scores test n max_p) as [cmp|e]; cbn [bindr] in H; [|discriminate].
  destruct (win_tie_loss names metrics scores) as [w|e]; cbn [bindr] in H; [|discriminate]. injection H as <-. auto.
Qed.
(** The report of a comparison of at most 26 distinctly named models, with distinct metrics that all
    have a label and a valid number of digits, can be printed both ways. *)
Theorem C63_tables_total : forall (N : Num) (E : env N) (T : tests N) (fm : format N) y xs metrics test n max_p digits percent mk y' xs' rep,
  dict_ok (q_map y) -> Forall (fun x => dict2_ok (r_map x)) xs ->
  compare E T y xs metrics test n max_p digits percent mk = (y', xs', Ok rep) ->
  length xs <= 26 -> metrics <> [] -> NoDup metrics -> NoDup (rp_names rep) -> precision_ok digits percent ->
  Forall (fun m => is_Ok (get_metric_label m) = true) metrics ->
  (exists header rows, to_table fm rep = Ok (header, rows)) /\ (exists doc, to_latex fm rep = Ok doc).
Proof.
  intros N E T fm y xs metrics test n max_p digits percent mk y' xs' rep Hy Hxs H Hlen Hne Hnm Hnd Hprec Hlab.
  destruct (report_complete _ _ _ _ _ _ _ _ _ _ _ _ _ _ _ Hy Hxs H) as (R1 & _ & _).
  destruct (C68_results _ _ _ _ _ _ _ _ _ _ _ _ _ _ _ Hy Hxs H) as (L1 & _ & Hmet & Htest & _).
  destruct (compare_sets _ _ _ _ _ _ _ _ _ _ _ _ _ _ _ H) as (Hdig & Hper). rewrite <- Hdig, <- Hper in Hprec.
  destruct (compare_rows _ _ _ _ _ _ _ _ _ _ _ _ _ _ _ H Hne Hnm Hnd) as (Hk & Hrow & _).
  assert (Hlabels : exists labels, map_m get_metric_label (rp_metrics rep) = Ok labels).
  { rewrite Hmet. apply map_m_total. intros a Ha. apply is_Ok_ex. rewrite Forall_forall in Hlab. now apply Hlab. }
  destruct Hlabels as (labels & Hlabels).
  assert (Hch : forall i a, nth_error (rp_names rep) i = Some a -> exists c, nth_r chars i = Ok c).
  { intros i a Hi. unfold nth_r. destruct (nth_error chars i) eqn:Hc; [eauto|]. apply nth_error_None in Hc. assert (i < length (rp_names rep)) by (apply nth_error_Some; congruence). change (length chars) with 26 in Hc. lia. }
  split.
  - unfold to_table. destruct (map_m_total (table_row fm rep) (enumerate (rp_results rep))) as (rows & ->); [|cbn [bindr]; rewrite Hlabels; cbn [bindr]; eauto].
    intros [i [a row]] Hi. apply enumerate_in in Hi. unfold table_row.
    assert (Hai : nth_error (rp_names rep) i = Some a) by (rewrite <- Hk; unfold dkeys; rewrite nth_error_map, Hi; reflexivity).
    destruct (Hch i a Hai) as (c & ->). cbn [bindr].
    match goal with |- exists b, bindr (map_m ?f ?l) _ = Ok b => destruct (map_m_total f l) as (cells & ->); [|cbn [bindr]; eauto] end.
    intros [m v] Hmv. cbn [fst snd]. destruct (proj1 (format_ok fm rep v) Hprec) as (f & ->). cbn [bindr].
    assert (Hmm : In m metrics) by (rewrite <- (Hrow a row (nth_error_In _ _ Hi)); apply in_map_iff; exists (m, v); auto).
    destruct (C63_total _ _ _ _ _ _ _ _ _ _ _ _ _ _ _ Hy Hxs H Hlen a m (nth_error_In _ _ Hai) Hmm) as (S1 & _). apply is_Ok_ex in S1 as (s & ->). cbn [bindr]. eauto.
  - unfold to_latex.
    assert (Hbest : forall m, In m metrics -> exists b, best_model fm rep m = Ok b) by (intros m Hm; apply is_Ok_ex; exact (C64_total _ _ _ fm _ _ _ _ _ _ _ _ _ _ _ _ Hy Hxs H m Hm)).
    match goal with |- exists d, bindr (foldr_m ?f ?l ?s0) _ = _ => assert (Hb : exists bests, foldr_m f l s0 = Ok bests /\ forall m, In m l -> exists b, dget bests m = Some b) end.
    { rewrite Hmet. clear - Hbest.
      assert (Hg : forall l (d : dict (option string)), incl l metrics -> exists bests, foldr_m (fun d m => do b <- best_model fm rep m; Ok (dset d m b)) l d = Ok bests /\
        (forall m, In m l -> exists b, dget bests m = Some b) /\ forall m b, dget d m = Some b -> exists b', dget bests m = Some b').
      { induction l as [|m l IH]; intros d Hl; cbn [foldr_m]; [exists d; split; [reflexivity|split; [intros ? []|eauto]]|]. destruct (Hbest m (Hl m (or_introl eq_refl))) as (b & ->). cbn [bindr].
        destruct (IH (dset d m b)) as (bests & -> & B1 & B2); [intros z Hz; apply Hl; now right|]. exists bests. split; [reflexivity|].
        assert (Hkeep : forall z bz, dget d z = Some bz -> exists b', dget bests z = Some b').
        { intros z bz Hz. destruct (string_dec z m) as [ -> |Hzm]; [apply (B2 m b); apply dget_dset_eq|]. apply (B2 z bz). now rewrite dget_dset_neq by congruence. }
        split; [|exact Hkeep]. intros z [ <- |Hz]; [apply (B2 m b); apply dget_dset_eq|now apply B1]. }
      destruct (Hg metrics [] (incl_refl _)) as (bests & H1 & H2 & _). eauto. }
    destruct Hb as (bests & -> & Hb). cbn [bindr].
    assert (Hts : exists lab, get_stat_test_label (rp_test rep) = Ok lab).
    { rewrite Htest. destruct (in_dec string_dec test ["fisher"; "student"; "tukey"]) as [Ht|Ht].
      - destruct Ht as [ <- |[ <- |[ <- |[]]]]; eexists; reflexivity.
      - pose proof (C61_other_tests _ E T y xs metrics test n max_p digits percent mk Ht) as Hx. rewrite H in Hx. discriminate. }
    destruct Hts as (lab & ->). cbn [bindr]. rewrite Hlabels. cbn [bindr].
    destruct (map_m_total (latex_row fm rep bests) (enumerate (rp_names rep))) as (rows & ->); [|cbn [bindr]; eexists; reflexivity].
    intros [i a] Hi. apply enumerate_in in Hi. unfold latex_row. cbn [fst snd]. destruct (Hch i a Hi) as (c & ->). cbn [bindr].
    match goal with |- exists b, bindr (map_m ?f ?l) _ = Ok b => destruct (map_m_total f l) as (cells & Hcells) end.
    + intros m Hm. destruct (Hb m Hm) as (b & Hbm). unfold dget_r at 1. rewrite Hbm. cbn [bindr]. rewrite Hmet in Hm. unfold latex_cell, result_of, dget_r.
      destruct (R1 a m (nth_error_In _ _ Hi) Hm) as (d & v & Hd & Hv). rewrite Hd. cbn [bindr]. rewrite Hv. cbn [bindr]. destruct (proj1 (format_ok fm rep v) Hprec) as (f & ->). cbn [bindr].
      destruct (C63_total _ _ _ _ _ _ _ _ _ _ _ _ _ _ _ Hy Hxs H Hlen a m (nth_error_In _ _ Hi) Hm) as (_ & S2 & S3). apply is_Ok_ex in S2 as (s2 & ->). apply is_Ok_ex in S3 as (s3 & ->). cbn [bindr]. eexists. reflexivity.
    + rewrite Hcells. cbn [bindr]. destruct (rev cells) as [|lastc before] eqn:Hrev; [|eexists; reflexivity]. exfalso.
      destruct metrics as [|m0 ms]; [congruence|]. rewrite Hmet in Hcells. destruct (map_m_in _ _ _ Hcells m0 (or_introl eq_refl)) as (b & _ & Hin). apply in_rev in Hin. rewrite Hrev in Hin. destruct Hin.
Qed.
(** With a negative number of digits, or fewer than two with percentages, neither table can be made. *)
Theorem C63_precision : forall (N : Num) (E : env N) (T : tests N) (fm : format N) y xs metrics test n max_p digits percent mk y' xs' rep,
  dict_ok (q_map y) -> Forall (fun x => dict2_ok (r_map x)) xs ->
  compare E T y xs metrics test n max_p digits percent mk = (y', xs', Ok rep) ->
  xs <> [] -> metrics <> [] -> ~ precision_ok digits percent ->
  is_Ok (to_latex fm rep) = false /\ is_Ok (to_table fm rep) = false.
Proof.
  intros N E T fm y xs metrics test n max_p digits percent mk y' xs' rep Hy Hxs H Hx Hne Hprec.
  destruct (compare_sets _ _ _ _ _ _ _ _ _ _ _ _ _ _ _ H) as (Hdig & Hper). rewrite <- Hdig, <- Hper in Hprec.
  destruct (report_complete _ _ _ _ _ _ _ _ _ _ _ _ _ _ _ Hy Hxs H) as (R1 & _ & _).
  destruct (C68_results _ _ _ _ _ _ _ _ _ _ _ _ _ _ _ Hy Hxs H) as (L1 & _ & Hmet & Htest & _).
  assert (Hno : forall v, format_score fm rep v = Err ValueError).
  { intros v. destruct (format_score fm rep v) as [s|e] eqn:Hf; [exfalso; apply Hprec; apply (format_ok fm rep v); eauto|]. unfold format_score, fixed in Hf.
    destruct (rp_percent rep); [destruct (_ <? 0)%Z|destruct (_ <? 0)%Z]; congruence. }
  assert (Ha : exists a0 l0, rp_names rep = a0 :: l0) by (destruct (rp_names rep); [destruct xs; [congruence|discriminate]|eauto]). destruct Ha as (a0 & l0 & Ha0).
  assert (Hin0 : In a0 (rp_names rep)) by (rewrite Ha0; now left).
  destruct metrics as [|m0 ms]; [congruence|]. destruct (R1 a0 m0 Hin0 (or_introl eq_refl)) as (d & v & Hd & Hv).
  split.
  - unfold to_latex. match goal with |- is_Ok (bindr ?r _) = _ => destruct r as [bests|]; [|reflexivity] end. cbn [bindr].
    destruct (get_stat_test_label (rp_test rep)); [|reflexivity]. cbn [bindr]. destruct (map_m get_metric_label (rp_metrics rep)); [|reflexivity]. cbn [bindr].
    assert (Hf : is_Ok (map_m (latex_row fm rep bests) (enumerate (rp_names rep))) = false).
    { apply (map_m_fails _ _ (0, a0)); [apply enumerate_in; now rewrite Ha0|]. unfold latex_row. cbn [fst snd]. destruct (nth_r chars 0); [|reflexivity]. cbn [bindr].
      rewrite Hmet. cbn [map_m]. destruct (dget_r bests m0) as [b|]; [|reflexivity]. cbn [bindr]. unfold latex_cell, result_of, dget_r. rewrite Hd. cbn [bindr]. rewrite Hv. cbn [bindr]. rewrite Hno. reflexivity. }
    destruct (map_m (latex_row fm rep bests) (enumerate (rp_names rep))); [discriminate|reflexivity].
  - unfold to_table.
    assert (Hf : is_Ok (map_m (table_row fm rep) (enumerate (rp_results rep))) = false).
    { clear - Hd Hv Hno. assert (Hin : In (a0, d) (rp_results rep)).
      { clear - Hd. induction (rp_results rep) as [|[k w] r IH]; [discriminate|]. cbn [dget] in Hd. destruct (String.eqb_spec a0 k) as [ -> |]; [injection Hd as ->; now left|right; auto]. }
      apply In_nth_error in Hin as (i & Hi). apply (map_m_fails _ _ (i, (a0, d))); [now apply enumerate_in|]. unfold table_row. destruct (nth_r chars i); [|reflexivity]. cbn [bindr].
      destruct d as [|[m1 v1] d]; [discriminate|]. cbn [map_m fst snd]. rewrite Hno. reflexivity. }
    destruct (map_m (table_row fm rep) (enumerate (rp_results rep))); [discriminate|reflexivity].
Qed.
