(** T_Report3.v: the text table (C63) and the dictionary of a report (C65) *)
From Coq Require Import Lia Sorted.
From Verif Require Import Base Dict Num NumLaws NumCmp Env M_Common M_Qrels M_Run M_Metrics M_Strings M_Text M_Evaluate M_Compare M_Report
  Spec_DS Spec_Compare Spec_Report P_Base P_Dict P_Strings P_Optimize P_Compare T_Compare T_Compare2 T_Report T_Report2.
Open Scope string_scope.
Open Scope list_scope.
Open Scope nat_scope.

(** ** the order of the results *)
Section O.
Context {N : Num} (E : env N).
Lemma dset_absent {V} (d : dict V) k v : ~ In k (dkeys d) -> dset d k v = d ++ [(k, v)].
Proof.
  induction d as [|[k' v'] d IH]; intros H; [reflexivity|]. cbn [dset]. cbn in H. destruct (String.eqb_spec k k') as [ -> |]; [exfalso; tauto|]. cbn [app]. f_equal. apply IH. tauto.
Qed.
Lemma dset_last {V} (d : dict V) k v w : ~ In k (dkeys d) -> dset (d ++ [(k, v)]) k w = d ++ [(k, w)].
Proof.
  induction d as [|[k' v'] d IH]; intros H; cbn [app dset]; [now rewrite String.eqb_refl|]. cbn in H. destruct (String.eqb_spec k k') as [ -> |]; [exfalso; tauto|]. f_equal. apply IH. tauto.
Qed.
Lemma dget_last {V} (d : dict V) k v : ~ In k (dkeys d) -> dget (d ++ [(k, v)]) k = Some v.
Proof.
  induction d as [|[k' v'] d IH]; intros H; cbn [app dget]; [now rewrite String.eqb_refl|]. cbn in H. destruct (String.eqb_spec k k') as [ -> |]; [exfalso; tauto|]. apply IH. tauto.
Qed.
Lemma dset2_last (d : dict (dict (@F N))) a row m v : ~ In a (dkeys d) -> ~ In m (dkeys row) -> dset2 (d ++ [(a, row)]) a m v = d ++ [(a, row ++ [(m, v)])].
Proof. intros Ha Hm. unfold dset2. rewrite (dget_last d a row Ha), (dset_absent row m v Hm). now apply dset_last. Qed.
Lemma means_row (a : string) (ar : dict (list (@F N))) : forall metrics d row r', ~ In a (dkeys d) -> NoDup (dkeys row ++ metrics) ->
  foldr_m (fun r m => do l <- dget_r ar m; Ok (dset2 r a m (fmean l))) metrics (d ++ [(a, row)]) = Ok r' -> exists row', r' = d ++ [(a, row')] /\ dkeys row' = dkeys row ++ metrics.
Proof.
  induction metrics as [|m metrics IH]; intros d row r' Ha Hn H; cbn [foldr_m] in H.
  - injection H as <-. exists row. rewrite app_nil_r. auto.
  - unfold dget_r at 1 in H. destruct (dget ar m) as [l|]; cbn [bindr] in H; [|discriminate].
    assert (Hm : ~ In m (dkeys row)) by (apply NoDup_remove_2 in Hn; intros Hc; apply Hn, in_or_app; now left).
    rewrite dset2_last in H by assumption.
    assert (Hk : dkeys (row ++ [(m, fmean l)]) = dkeys row ++ [m]) by (unfold dkeys; now rewrite map_app).
    edestruct IH as (row' & -> & Hr'); [exact Ha| |exact H|]; [rewrite Hk, <- app_assoc; exact Hn|]. exists row'. split; [reflexivity|]. rewrite Hr', Hk, <- app_assoc. reflexivity.
Qed.
Lemma means_first (a : string) (ar : dict (list (@F N))) metrics d r' : metrics <> [] -> NoDup metrics -> ~ In a (dkeys d) ->
  foldr_m (fun r m => do l <- dget_r ar m; Ok (dset2 r a m (fmean l))) metrics d = Ok r' -> exists row', r' = d ++ [(a, row')] /\ dkeys row' = metrics.
Proof.
  destruct metrics as [|m metrics]; intros Hne Hn Ha H; [congruence|]. cbn [foldr_m] in H. unfold dget_r at 1 in H. destruct (dget ar m) as [l|]; cbn [bindr] in H; [|discriminate].
  assert (Hd : dset2 d a m (fmean l) = d ++ [(a, [(m, fmean l)])]).
  { unfold dset2. rewrite (proj2 (dget_None d a) Ha). now rewrite dset_absent. }
  rewrite Hd in H. exact (means_row a ar metrics d [(m, fmean l)] r' Ha Hn H).
Qed.
Lemma score_runs_rows metrics mk : metrics <> [] -> NoDup metrics -> forall xs n y names results scores y' xs' names' results' scores',
  dkeys results = names -> (forall a row, In (a, row) results -> dkeys row = metrics) ->
  score_runs E n y xs metrics mk names results scores = (y', xs', Ok (names', results', scores')) -> NoDup names' ->
  (exists more, names' = names ++ more) /\ dkeys results' = names' /\ (forall a row, In (a, row) results' -> dkeys row = metrics).
Proof.
  intros Hne Hnd. induction xs as [|x xs IH]; intros n y names results scores y' xs' names' results' scores' Hk Hrow H Hn; cbn [score_runs] in H.
  - injection H as _ _ <- <- _. split; [exists []; now rewrite app_nil_r|]. auto.
  - destruct (ev_res _) as [o|] in H; cbn [bindr] in H; [|discriminate]. destruct (arrays_of metrics o) as [ar|]; cbn [bindr] in H; [|discriminate].
    destruct (foldr_m _ metrics results) as [results1|] eqn:Hres in H; cbn [bindr] in H; [|discriminate].
    destruct (score_runs E (S n) _ xs metrics mk _ results1 _) as [[y2 xs2] r2] eqn:Hrec. injection H as _ _ ->.
    assert (Hmore : exists more, names' = (names ++ [run_name n x]) ++ more).
    { clear - Hrec. revert Hrec. generalize (S n) as k. generalize (match ev_q (evaluate E (QObj y) (RObj x) metrics false false true mk) with QObj y1 => y1 | _ => y end) as y0.
      generalize (dset scores (run_name n x) ar) as sc. generalize (names ++ [run_name n x]) as nm. clear. revert results1 y2 xs2.
      induction xs as [|z xs IH]; intros results1 y2 xs2 nm sc y0 k H; cbn [score_runs] in H.
      - injection H as _ _ <- _ _. exists []. now rewrite app_nil_r.
      - destruct (do o <- _; _) as [[ar r1]|e] in H; [|discriminate].
        destruct (score_runs E (S k) _ xs metrics mk _ _ _) as [[y3 xs3] r3] eqn:Hrec in H. injection H as _ _ ->.
        destruct (IH _ _ _ _ _ _ _ Hrec) as (more & ->). exists ([run_name k z] ++ more). now rewrite <- !app_assoc. }
    assert (Hfresh : ~ In (run_name n x) (dkeys results)).
    { rewrite Hk. destruct Hmore as (more & ->). rewrite <- app_assoc in Hn. apply NoDup_remove_2 in Hn. intros Hc. apply Hn, in_or_app. now left. }
    destruct (means_first _ _ _ _ _ Hne Hnd Hfresh Hres) as (row' & -> & Hr').
    edestruct IH as (M & R1 & R2); [| |exact Hrec| |].
    + unfold dkeys. rewrite map_app. f_equal. exact Hk.
    + intros a row Ha. apply in_app_or in Ha as [Ha|[Ha|[]]]; [now apply (Hrow a)|]. now injection Ha as <- <-.
    + exact Hn.
    + split; [|auto]. destruct M as (more & ->). rewrite <- app_assoc. eauto.
Qed.
End O.

Lemma compare_rows (N : Num) (E : env N) (T : tests N) y xs metrics test n max_p digits percent mk y' xs' rep :
  compare E T y xs metrics test n max_p digits percent mk = (y', xs', Ok rep) -> metrics <> [] -> NoDup metrics -> NoDup (rp_names rep) ->
  dkeys (rp_results rep) = rp_names rep /\ (forall a row, In (a, row) (rp_results rep) -> dkeys row = metrics) /\ rp_metrics rep = metrics.
Proof.
  intros H Hne Hnd Hn. unfold compare in H. destruct (score_runs E 0 y xs metrics mk [] [] []) as [[y1 xs1] r] eqn:Hs. injection H as _ _ H.
  destruct r as [[[names results] scores]|e]; cbn [bindr] in H; [|discriminate].
  destruct (compute_statistical_significance E T names scores test n max_p) as [cmp|e]; cbn [bindr] in H; [|discriminate].
  destruct (win_tie_loss names metrics scores) as [w|e]; cbn [bindr] in H; [|discriminate]. injection H as <-. cbn in *.
  destruct (score_runs_rows E metrics mk Hne Hnd xs 0 y [] [] [] y1 xs1 names results scores) as (_ & R1 & R2); auto. intros a row [].
Qed.

(** ** C63: the text table.  If the names of the models and the metrics are distinct, row [i] shows
    letter [i], the [i]-th model and, under the label of each metric, its formatted mean and its
    superscript, whose letters (C63_superscripts) are those of the rows they refer to. *)
Theorem C63_table : forall (N : Num) (E : env N) (T : tests N) (fm : format N) y xs metrics test n max_p digits percent mk y' xs' rep header rows,
  compare E T y xs metrics test n max_p digits percent mk = (y', xs', Ok rep) -> metrics <> [] -> NoDup metrics -> NoDup (rp_names rep) ->
  to_table fm rep = Ok (header, rows) ->
  (exists labels, header = "#" :: "Model" :: labels /\ Forall2 (fun m l => get_metric_label m = Ok l) metrics labels) /\
  Forall2 (fun im row => exists c cells, nth_error chars (fst im) = Some c /\ row = c :: snd im :: cells /\ Forall2 (table_cell fm rep (snd im)) metrics cells)
          (enumerate (rp_names rep)) rows.
Proof.
  intros N E T fm y xs metrics test n max_p digits percent mk y' xs' rep header rows Hc Hne Hnd Hn H.
  destruct (compare_rows _ _ _ _ _ _ _ _ _ _ _ _ _ _ _ Hc Hne Hnd Hn) as (Hk & Hrow & Hmet). unfold to_table in H. rewrite Hmet in H.
  destruct (map_m (table_row fm rep) (enumerate (rp_results rep))) as [rows'|] eqn:Hrows; cbn [bindr] in H; [|discriminate].
  destruct (map_m get_metric_label metrics) as [labels|] eqn:Hlab; cbn [bindr] in H; [|discriminate]. injection H as <- <-.
  assert (Hm2 : forall {A B} (f : A -> result B) l r, map_m f l = Ok r -> Forall2 (fun a b => f a = Ok b) l r).
  { clear. intros A B f. induction l as [|a l IH]; intros r H; cbn [map_m] in H; [injection H as <-; constructor|]. destruct (f a) eqn:Hf; cbn [bindr] in H; [|discriminate].
    destruct (map_m f l); cbn [bindr] in H; [|discriminate]. injection H as <-. constructor; auto. }
  split; [exists labels; split; [reflexivity|now apply Hm2]|]. apply Hm2 in Hrows.
  assert (Hok : dict_ok (rp_results rep)) by (unfold dict_ok; rewrite Hk; exact Hn).
  assert (Hget : forall a row, In (a, row) (rp_results rep) -> dget (rp_results rep) a = Some row).
  { clear - Hok. induction (rp_results rep) as [|[a' row'] d IH]; intros a row Hin; [destruct Hin|]. cbn [dget]. inversion Hok as [|? ? Hni Hok']; subst. destruct Hin as [Hin|Hin].
    - injection Hin as -> ->. now rewrite String.eqb_refl.
    - destruct (String.eqb_spec a a') as [ -> |]; [exfalso; apply Hni; apply in_map_iff; exists (a', row); auto|]. now apply IH. }
  assert (Hen : enumerate (rp_names rep) = map (fun iar => (fst iar, fst (snd iar))) (enumerate (rp_results rep))).
  { rewrite <- Hk. unfold dkeys, enumerate. generalize 0 as k. clear. induction (rp_results rep) as [|[a row] d IH]; intros k; cbn [map enum_from]; [reflexivity|]. f_equal. apply IH. }
  rewrite Hen. clear Hen. assert (Hin : forall i a row, In (i, (a, row)) (enumerate (rp_results rep)) -> In (a, row) (rp_results rep)) by (intros i a row Hi; apply enumerate_in in Hi; now apply nth_error_In in Hi).
  clear Hlab Hc. induction Hrows as [|[i [a row]] r l rs Hr Hl IH]; [constructor|]. cbn [map]. constructor; [|apply IH; intros i' a' row' Hi'; apply (Hin i'); now right].
  cbn [fst snd]. specialize (Hin i a row (or_introl eq_refl)). unfold table_row in Hr. unfold nth_r in Hr. destruct (nth_error chars i) as [c|]; cbn [bindr] in Hr; [|discriminate].
  match type of Hr with bindr ?r _ = _ => destruct r as [cells|] eqn:Hcells; cbn [bindr] in Hr; [|discriminate] end. apply Ok_inj in Hr. subst r.
  exists c, cells. split; [reflexivity|]. split; [reflexivity|]. apply Hm2 in Hcells.
  assert (Hdr : forall m v, In (m, v) row -> dget2 (rp_results rep) a m = Some v).
  { intros m v Hmv. unfold dget2. rewrite (Hget a row Hin). pose proof (Hrow a row Hin) as Hkr. assert (Hokr : NoDup (map fst row)) by (unfold dkeys in Hkr; rewrite Hkr; exact Hnd).
    clear - Hmv Hokr. induction row as [|[m' v'] row IH]; [destruct Hmv|]. cbn [dget]. inversion Hokr as [|? ? Hni Hok']; subst. destruct Hmv as [Hmv|Hmv].
    - injection Hmv as -> ->. now rewrite String.eqb_refl.
    - destruct (String.eqb_spec m m') as [ -> |]; [exfalso; apply Hni; apply in_map_iff; exists (m', v); auto|]. now apply IH. }
  pose proof (Hrow a row Hin) as Hkr. unfold dkeys in Hkr. rewrite <- Hkr. clear Hkr Hl IH Hget Hin Hrow. induction Hcells as [|[m v] cell row' cells' Hcell Hcells IH]; [constructor|].
  cbn [map fst]. constructor; [|apply IH; intros m' v' Hm'; apply Hdr; now right]. cbn [fst snd] in Hcell.
  destruct (format_score fm rep v) as [f|] eqn:Hf; cbn [bindr] in Hcell; [|discriminate]. destruct (get_superscript_for_table rep a m) as [sup|] eqn:Hsup; cbn [bindr] in Hcell; [|discriminate].
  apply Ok_inj in Hcell. subst cell. exists v, f, sup. split; [apply Hdr; now left|]. split; [now apply format_shows|]. split; [now apply C63_superscripts|reflexivity].
Qed.
