(** T_Hub.v: saving a run for ranxhub and loading it from there (C72) *)
From Coq Require Import Lia.
From Verif Require Import Base Dict Num NumLaws Env EnvEx M_Common M_Qrels M_Run M_Strings M_Text M_Report M_Download M_Hub Spec_DS Spec_Hist Spec_IO Spec_Download P_Base P_Dict P_Common P_History P_Compare T_Download T_Labels.
Open Scope string_scope.
Open Scope list_scope.
Open Scope nat_scope.

(** ** specification *)

(** the value at a path of keys in a run card *)
Fixpoint yget {N : Num} (y : yaml N) (ks : list string) : option (yaml N) :=
  match ks with
  | [] => Some y
  | k :: ks' => match y with YMap d => match dget d k with Some v => yget v ks' | None => None end | _ => None end
  end.
(** a card to which results can be added: a mapping with a mapping "run" whose entry "results", if any, is a mapping *)
Definition usable {N : Num} (card : yaml N) : Prop :=
  exists rd, yget card ["run"] = Some (YMap rd) /\ match dget rd "results" with Some v => exists d, v = YMap d | None => True end.
(** the score of the last metric in the list whose label is [lab] *)
Definition last_with_label {N : Num} (l : list (string * @F N)) (lab : string) (s : @F N) : Prop :=
  exists l1 m l2, l = l1 ++ (m, s) :: l2 /\ hub_get_metric_label m = Ok lab /\ forall m' s', In (m', s') l2 -> hub_get_metric_label m' <> Ok lab.
(** [card'] is [card] with the scores [l] as results, and nothing else changed *)
Definition completed {N : Num} (l : list (string * @F N)) (card card' : yaml N) : Prop :=
  (forall lab s, last_with_label l lab s -> yget card' ["run"; "results"; lab] = Some (YNum s)) /\
  (forall lab, (forall m s, In (m, s) l -> hub_get_metric_label m <> Ok lab) -> yget card' ["run"; "results"; lab] = yget card ["run"; "results"; lab]) /\
  (forall k ks, k <> "results" -> yget card' ("run" :: k :: ks) = yget card ("run" :: k :: ks)) /\
  (forall k ks, k <> "run" -> yget card' (k :: ks) = yget card (k :: ks)).
Definition all_labelled {N : Num} (l : list (string * @F N)) : Prop := forall m s, In (m, s) l -> exists lab, hub_get_metric_label m = Ok lab.

(** ** proofs *)
Section Steps.
Context {N : Num}.
Lemma put_result_ok (card : yaml N) m s lab : usable card -> hub_get_metric_label m = Ok lab ->
  exists card', put_result card (m, s) = Ok card' /\ usable card' /\ yget card' ["run"; "results"; lab] = Some (YNum s) /\
    (forall lab', lab' <> lab -> yget card' ["run"; "results"; lab'] = yget card ["run"; "results"; lab']) /\
    (forall k ks, k <> "results" -> yget card' ("run" :: k :: ks) = yget card ("run" :: k :: ks)) /\
    (forall k ks, k <> "run" -> yget card' (k :: ks) = yget card (k :: ks)).
Proof.
  intros (rd & Hr & Hres) Hl. destruct card as [top| | | |]; try discriminate Hr. cbn [yget] in Hr. destruct (dget top "run") as [run|] eqn:Htop; [|discriminate]. injection Hr as ->.
  set (res := match dget rd "results" with Some v => v | None => YMap [] end). assert (exists od, res = YMap od) as (od & Hod) by (subst res; destruct (dget rd "results"); [exact Hres|eauto]).
  exists (YMap (dset top "run" (YMap (dset rd "results" (YMap (dset od lab (YNum s))))))). split; [|split; [|split; [|split; [|split]]]].
  - unfold put_result. cbn [fst snd]. rewrite Hl. cbn [bindr as_map]. unfold dget_r. rewrite Htop. cbn [bindr]. fold res. rewrite Hod. reflexivity.
  - exists (dset rd "results" (YMap (dset od lab (YNum s)))). cbn [yget]. rewrite dget_dset_eq. split; [reflexivity|]. rewrite dget_dset_eq. eauto.
  - cbn [yget]. now rewrite !dget_dset_eq.
  - intros lab' Hne. cbn [yget]. rewrite !dget_dset_eq, dget_dset_neq by congruence. rewrite Htop. subst res. destruct (dget rd "results") as [v|].
    + rewrite Hod. reflexivity.
    + injection Hod as <-. reflexivity.
  - intros k ks Hne. cbn [yget]. rewrite dget_dset_eq, Htop, dget_dset_neq by congruence. reflexivity.
  - intros k ks Hne. cbn [yget]. rewrite dget_dset_neq by congruence. reflexivity.
Qed.
Lemma last_cons (m : string) (s : @F N) l lab s' : last_with_label ((m, s) :: l) lab s' ->
  last_with_label l lab s' \/ (s' = s /\ hub_get_metric_label m = Ok lab /\ forall m' s0, In (m', s0) l -> hub_get_metric_label m' <> Ok lab).
Proof.
  intros (l1 & m1 & l2 & He & Hl & Hn). destruct l1 as [|x l1]; injection He; intros; subst.
  - right. auto.
  - left. exists l1, m1, l2. auto.
Qed.
Lemma put_results_ok l : forall card : yaml N, usable card -> all_labelled l ->
  exists card', foldr_m put_result l card = Ok card' /\ usable card' /\ completed l card card'.
Proof.
  induction l as [|[m s] l IH]; intros card Hu Ha; cbn [foldr_m].
  - exists card. split; [reflexivity|]. split; [exact Hu|]. split; [|auto]. intros lab s (l1 & m & l2 & He & _). destruct l1; discriminate.
  - destruct (Ha m s (or_introl eq_refl)) as (lab & Hlab). destruct (put_result_ok card m s lab Hu Hlab) as (c1 & Hp & Hu1 & G1 & G2 & G3 & G4). rewrite Hp. cbn [bindr].
    destruct (IH c1 Hu1) as (c2 & Hf & Hu2 & K1 & K2 & K3 & K4); [intros m' s' Hin; apply (Ha m' s'); now right|]. exists c2. split; [exact Hf|]. split; [exact Hu2|]. split; [|split; [|split]].
    + intros lab' s' Hlast. apply last_cons in Hlast as [Hlast|( -> & Hm & Hn)]; [now apply K1|]. rewrite K2 by exact Hn. assert (lab' = lab) by congruence. subst. exact G1.
    + intros lab' Hn. rewrite K2 by (intros m' s' Hin; apply (Hn m' s'); now right). apply G2. intros ->. exact (Hn m s (or_introl eq_refl) Hlab).
    + intros k ks Hk. rewrite K3 by exact Hk. now apply G3.
    + intros k ks Hk. rewrite K4 by exact Hk. now apply G4.
Qed.
Lemma put_results_unlabelled l (m : string) (s : @F N) : In (m, s) l -> is_Ok (hub_get_metric_label m) = false -> forall card, exists e, foldr_m put_result l card = Err e.
Proof.
  intros Hin Hm. induction l as [|[m' s'] l IH]; intros card; [destruct Hin|]. cbn [foldr_m]. destruct (put_result card (m', s')) as [c|e] eqn:Hp; cbn [bindr]; [|eauto].
  destruct Hin as [Heq|Hin]; [|now apply IH]. injection Heq as -> ->. exfalso. unfold put_result in Hp. cbn [fst] in Hp. destruct (hub_get_metric_label m); [discriminate Hm|discriminate Hp].
Qed.
End Steps.

(** ** C72 *)

(** A run whose evaluated metrics all have a ranxhub label is saved: the file is the encoding of the completed run card and of the
    results of the run, the run card file is completed in the same way, and no other file changes. *)
Theorem C72_save : forall (N : Num) (cd : codec N) fs (x : Run N) card_path path card, dict_ok (r_map x) ->
  dget fs card_path = Some (HCard card) -> usable card -> all_labelled (r_mean x) -> card_path <> path ->
  exists fs' card' bytes, hub_save cd fs x card_path path = (fs', None) /\ completed (r_mean x) card card' /\
    dget fs' card_path = Some (HCard card') /\ dget fs' path = Some (HBytes bytes) /\ bytes = encode cd (card', r_map x) /\
    (forall p, p <> card_path -> p <> path -> dget fs' p = dget fs p).
Proof.
  intros N cd fs x cp p card Hx Hf Hu Ha Hne. destruct (put_results_ok (r_mean x) card Hu Ha) as (card' & Hp & _ & Hc). unfold hub_save. rewrite Hf, Hp. do 3 eexists. split; [reflexivity|]. split; [exact Hc|]. split; [|split; [|split]].
  - now rewrite dget_dset_neq, dget_dset_eq by congruence.
  - now rewrite dget_dset_eq.
  - unfold Run_to_dict. now rewrite to_dict_map_id by exact Hx.
  - intros q H1 H2. now rewrite !dget_dset_neq by congruence.
Qed.
Print Assumptions C72_save.

(** When it fails, no file has changed; it does fail when a metric without label was evaluated, such as dcg. *)
Theorem C72_save_fails : forall (N : Num) (cd : codec N) fs (x : Run N) card_path path,
  (forall fs' e, hub_save cd fs x card_path path = (fs', Some e) -> fs' = fs) /\
  (forall m s, In (m, s) (r_mean x) -> is_Ok (hub_get_metric_label m) = false -> exists e, hub_save cd fs x card_path path = (fs, Some e)).
Proof.
  intros N cd fs x cp p. unfold hub_save. split.
  - intros fs' e. destruct (dget fs cp) as [[card|b]|]; [|congruence|congruence]. destruct (foldr_m put_result (r_mean x) card); congruence.
  - intros m s Hin Hm. destruct (dget fs cp) as [[card|b]|]; [|eauto|eauto]. destruct (put_results_unlabelled (r_mean x) m s Hin Hm card) as (e & ->). eauto.
Qed.
Print Assumptions C72_save_fails.

(** Any process, in any history of downloads that do not overlap, with any interruptions, that gets bytes from a server which has
    the saved file (which the decoder can read), loads the same results, with the name of the run card and the completed card as metadata. *)
Theorem C72_round_trip : forall (N : Num) (E : env N) (cd : codec N), env_ok E -> forall fs (x : Run N) card_path path card name,
  dict2_ok (r_map x) -> some_doc (r_map x) -> dget fs card_path = Some (HCard card) -> usable card -> all_labelled (r_mean x) -> card_path <> path ->
  yget card ["run"; "name"] = Some (YStr name) ->
  exists fs' bytes card', hub_save cd fs x card_path path = (fs', None) /\ dget fs' path = Some (HBytes bytes) /\ bytes = encode cd (card', r_map x) /\ completed (r_mean x) card card' /\
    forall net d ps b, decode cd bytes = Ok (card', r_map x) -> honest net bytes -> history net false (d, ps) -> In (PDone (Ok b)) ps ->
      exists z, hub_load E cd b = Ok (z, card') /\ r_name z = Some name /\ r_sorted z = true /\ dict2_ok (r_map z) /\ smap_eq (smap_of (r_map z)) (smap_of (r_map x)).
Proof.
  intros N E cd HE fs x cp p card name Hx Hd Hf Hu Ha Hne Hname. destruct (C72_save N cd fs x cp p card (proj1 Hx) Hf Hu Ha Hne) as (fs' & card' & bytes & Hs & Hc & _ & Hb & Henc & _).
  exists fs', bytes, card'. split; [exact Hs|]. split; [exact Hb|]. split; [exact Henc|]. split; [exact Hc|]. intros net d ps b Hdec Hn Hh Hin. destruct (C67_safe net bytes d ps Hn Hh) as (_ & _ & Hr). rewrite (Hr b Hin). clear Hr Hin.
  destruct Hc as (_ & _ & H3 & _). specialize (H3 "name" [] ltac:(discriminate)). rewrite Hname in H3. destruct card' as [top| | | |]; try discriminate H3. cbn [yget] in H3.
  destruct (dget top "run") as [[rd| | | |]|] eqn:Ht; try discriminate H3. destruct (dget rd "name") as [v|] eqn:Hv; [|discriminate H3]. injection H3 as ->.
  exists (mkRun (canon E r_negf (r_map x)) true (Some name) [] [] []). split.
  - unfold hub_load. rewrite Hdec. cbn [bindr fst snd]. unfold Run_from_dict. rewrite build_from_dict_ok; [|exact Hx|exact Hd]. cbn [bindr as_map]. unfold dget_r. rewrite Ht. cbn [bindr as_map]. rewrite Hv. cbn [bindr]. reflexivity.
  - cbn [r_name r_sorted r_map]. split; [reflexivity|]. split; [reflexivity|]. split; [now apply canon_ok|now apply canon_smap].
Qed.
Print Assumptions C72_round_trip.

(** Evaluating with dcg makes the run impossible to save; two relevance levels share one label, so only one score is kept; and a
    run card with an empty entry "results:" is refused. *)
Section Refuted.
Let card0 : yaml NumSF := YMap [("run", YMap [("name", YStr "a")])].
Let run_with (l : dict (@F NumSF)) : Run NumSF := @mkRun NumSF [] true None [] l [].
Theorem C72_any_metric_refuted : forall (N : Num) (cd : codec N) fs (x : Run N) card_path path k l s, digits k -> digits l ->
  In (spelled "dcg" k l, s) (r_mean x) -> exists e, hub_save cd fs x card_path path = (fs, Some e).
Proof.
  intros N cd fs x cp p k l s Hk Hl Hin. apply (proj2 (C72_save_fails N cd fs x cp p) _ _ Hin). pose proof (C66_hub "dcg" k l ltac:(cbn; tauto) Hk Hl) as (_ & _ & H). destruct (is_Ok (hub_get_metric_label (spelled "dcg" k l))); [|reflexivity]. destruct (proj1 H eq_refl) as [H1 _]. now destruct H1.
Qed.
Theorem C72_levels_refuted : ~ (forall (N : Num) l (card card' : yaml N) m s lab, usable card -> foldr_m put_result l card = Ok card' -> NoDup (map fst l) -> In (m, s) l -> hub_get_metric_label m = Ok lab ->
  yget card' ["run"; "results"; lab] = Some (YNum s)).
Proof.
  intros H. set (one := @fone NumSF). set (zero := @fzero NumSF).
  specialize (H NumSF [("map-l1", zero); ("map-l2", one)] card0 (YMap [("run", YMap [("name", YStr "a"); ("results", YMap [("MAP", YNum one)])])]) "map-l1" zero "MAP").
  enough (Some (@YNum NumSF one) = Some (YNum zero)) as He by (injection He; vm_compute; discriminate).
  apply H.
  - exists [("name", YStr "a")]. split; [reflexivity|exact I].
  - reflexivity.
  - repeat constructor; cbn; intuition discriminate.
  - now left.
  - vm_compute. reflexivity.
Qed.
Theorem C72_empty_results_refuted : forall (N : Num) (cd : codec N) fs (x : Run N) card_path path top rd, dget fs card_path = Some (HCard (YMap top)) -> dget top "run" = Some (YMap rd) -> dget rd "results" = Some YNull ->
  all_labelled (r_mean x) -> r_mean x <> [] -> hub_save cd fs x card_path path = (fs, Some TypeError).
Proof.
  intros N cd fs x cp p top rd Hf Ht Hr Ha Hne. unfold hub_save. rewrite Hf. destruct (r_mean x) as [|[m s] l]; [congruence|]. cbn [foldr_m]. unfold put_result at 1. cbn [fst snd]. destruct (Ha m s (or_introl eq_refl)) as (lab & ->). cbn [bindr as_map]. unfold dget_r. rewrite Ht. cbn [bindr]. rewrite Hr. reflexivity.
Qed.
End Refuted.
Print Assumptions C72_any_metric_refuted.
Print Assumptions C72_levels_refuted.
Print Assumptions C72_empty_results_refuted.

(** A concrete case: a run with two queries evaluated with two metrics, and a card with a name and another entry. *)
Section Ex.
Let x : Run NumSF := @mkRun NumSF [("q1", [("d1", @fone NumSF); ("d2", @fzero NumSF)]); ("q2", [])] true None [] [("map@10", @fone NumSF); ("rbp.95", @fzero NumSF)] [].
Let card : yaml NumSF := YMap [("run", YMap [("name", YStr "bm25"); ("results", YMap [("MRR", YOther 1)])]); ("dataset", YStr "msmarco")].
Let card' : yaml NumSF := YMap [("run", YMap [("name", YStr "bm25"); ("results", YMap [("MRR", YOther 1); ("MAP@10", YNum (@fone NumSF)); ("RBP.95", YNum (@fzero NumSF))])]); ("dataset", YStr "msmarco")].
Let cd : codec NumSF := @Codec NumSF (fun _ => "bytes") (fun _ => Ok (card', r_map x)).
Example C72_ex : dict2_ok (r_map x) /\ some_doc (r_map x) /\ usable card /\ all_labelled (r_mean x) /\ yget card ["run"; "name"] = Some (YStr "bm25") /\ hub_save cd [("card.yaml", HCard card)] x "card.yaml" "run.lz4" = ([("card.yaml", HCard card'); ("run.lz4", HBytes "bytes")], None) /\ decode cd "bytes" = Ok (card', r_map x).
Proof.
  split; [split; [|intros q r Hq; cbn in Hq]|].
  - repeat constructor; cbn; intuition discriminate.
  - destruct (String.eqb q "q1"); [injection Hq as <-; repeat constructor; cbn; intuition discriminate|]. destruct (String.eqb q "q2"); [injection Hq as <-; constructor|discriminate].
  - split; [exists "q1", "d1", (@fone NumSF); reflexivity|]. split; [eexists; split; [reflexivity|cbn; eauto]|]. split.
    + intros m s [H|[H|[]]]; injection H as <- _; eexists; vm_compute; reflexivity.
    + split; [reflexivity|]. split; reflexivity.
Qed.
End Ex.
