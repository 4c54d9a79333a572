(** T_Labels.v: the labels of metrics (C66) *)
From Coq Require Import Lia.
From Verif Require Import Base Dict M_Strings M_Text M_Report Spec_Strings P_Dict P_Strings T_Parse T_Compare2.
Open Scope string_scope.
Open Scope list_scope.
Open Scope nat_scope.

(** A metric is written as a name, an optional cut-off "@k" and an optional level "-ll" *)
Definition with_cutoff (k : option string) : string := match k with Some d => "@" ++ d | None => "" end.
Definition with_level (l : option string) : string := match l with Some d => "-l" ++ d | None => "" end.
Definition spelled (name : string) (k l : option string) : string := (name ++ with_cutoff k ++ with_level l)%string.
Definition digits (d : option string) : Prop := match d with Some s => s <> "" /\ all_digits s | None => True end.
(** the names that have a label: the 13 metrics with a cut-off, and rbp with a persistence from .1 to .99 *)
Definition rbp_names : list string := map (fun i => ("rbp." ++ str_int (Z.of_nat i))%string) (seq 1 99).
Definition labelled_names : list string := cutoff_metrics ++ rbp_names.
(** what they are called in tables *)
Definition called (name label : string) : Prop :=
  In (name, label) [("hits", "Hits"); ("hit_rate", "Hit Rate"); ("precision", "P"); ("recall", "Recall"); ("f1", "F1"); ("r-precision", "R-Prec");
    ("mrr", "MRR"); ("map", "MAP"); ("dcg", "DCG"); ("dcg_burges", "DCG Burges"); ("ndcg", "NDCG"); ("ndcg_burges", "NDCG Burges"); ("bpref", "BPref")] \/
  exists p, 1 <= p <= 99 /\ name = ("rbp." ++ str_int (Z.of_nat p))%string /\ label = ("RBP." ++ str_int (Z.of_nat p))%string.

(** ** reading a spelled metric *)
Definition plain (b : string) : bool := nochar "@" b && negb (substr_in "-l" b).
Lemma cutoff_plain b k : plain b = true -> digits k -> substr_in "-l" (b ++ with_cutoff k) = false.
Proof.
  intros Hb Hk. apply andb_true_iff in Hb as [_ Hb]. apply negb_true_iff in Hb. destruct k as [d|]; cbn [with_cutoff]; [|now rewrite sapp_nil_r].
  change ("@" ++ d)%string with (String "@" d). rewrite substr_in_sep by (reflexivity || discriminate). rewrite Hb. cbn [orb]. apply substr_in_none. apply digits_nochar; [apply Hk|]. left. cbv. lia.
Qed.
Lemma split_level a d : substr_in "-l" a = false -> all_digits d -> split_on "-l" (a ++ "-l" ++ d) = [a; d].
Proof.
  intros Ha Hd. unfold split_on. change ("-l" ++ d)%string with (String "-" ("l" ++ d)). rewrite split_go_skip2 by (reflexivity || assumption).
  change (String "-" ("l" ++ d))%string with ((String "-" "l") ++ d)%string. rewrite split_go_hit. cbn [append]. f_equal.
  rewrite <- (sapp_nil_r d) at 1. rewrite split_go_skip; [now rewrite split_go_end|]. apply digits_nochar; [exact Hd|]. left. cbv. lia.
Qed.
Lemma split_cutoff b d : nochar "@" b = true -> all_digits d -> split_on "@" (b ++ "@" ++ d) = [b; d].
Proof.
  intros Hb Hd. unfold split_on. rewrite split_go_skip by exact Hb. change ("@" ++ d)%string with ((String "@" "") ++ d)%string. rewrite split_go_hit. cbn [append]. f_equal.
  rewrite <- (sapp_nil_r d) at 1. rewrite split_go_skip; [now rewrite split_go_end|]. apply digits_nochar; [exact Hd|]. right. cbv. lia.
Qed.
Lemma label_cutoff_spelled labels b k : plain b = true -> digits k ->
  label_cutoff labels (b ++ with_cutoff k) = match dget labels b with Some lab => Ok (lab ++ with_cutoff k)%string | None => Err KeyError end.
Proof.
  intros Hb Hk. apply andb_true_iff in Hb as [Hb _]. unfold label_cutoff. destruct k as [d|]; cbn [with_cutoff].
  - rewrite (substr_in_mid "@" b d). rewrite split_cutoff by (assumption || apply Hk). unfold nth_r, dget_r. cbn [nth_error bindr]. destruct (dget labels b); reflexivity.
  - rewrite sapp_nil_r, (substr_in_none "@" "" b Hb). unfold dget_r. destruct (dget labels b); [now rewrite sapp_nil_r|reflexivity].
Qed.
Lemma level_spelled b k l : plain b = true -> digits k -> digits l ->
  substr_in "-l" (spelled b k l) = (match l with Some _ => true | None => false end) /\
  (forall d, l = Some d -> split_on "-l" (spelled b k l) = [(b ++ with_cutoff k)%string; d]).
Proof.
  intros Hb Hk Hl. unfold spelled. rewrite <- sapp_assoc. pose proof (cutoff_plain b k Hb Hk) as Hc. split.
  - destruct l as [d|]; cbn [with_level]; [apply substr_in_mid|now rewrite sapp_nil_r].
  - intros d ->. cbn [with_level]. apply split_level; [exact Hc|apply Hl].
Qed.
Lemma label_spelled b k l : plain b = true -> digits k -> digits l ->
  get_metric_label (spelled b k l) = match dget metric_labels b with Some lab => Ok (spelled lab k l) | None => Err KeyError end.
Proof.
  intros Hb Hk Hl. destruct (level_spelled b k l Hb Hk Hl) as (H1 & H2). unfold get_metric_label. rewrite H1. destruct l as [d|].
  - rewrite (H2 d eq_refl), (label_cutoff_spelled _ b k Hb Hk). destruct (dget metric_labels b); cbn [bindr]; [|reflexivity]. unfold spelled. cbn [with_level]. now rewrite sapp_assoc.
  - unfold spelled. cbn [with_level]. rewrite sapp_nil_r, (label_cutoff_spelled _ b k Hb Hk). reflexivity.
Qed.
Lemma hub_spelled b k l : plain b = true -> digits k -> digits l ->
  hub_get_metric_label (spelled b k l) = match dget hub_metric_labels b with Some lab => Ok (lab ++ with_cutoff k)%string | None => Err KeyError end.
Proof.
  intros Hb Hk Hl. destruct (level_spelled b k l Hb Hk Hl) as (H1 & H2). unfold hub_get_metric_label. rewrite H1. destruct l as [d|].
  - rewrite (H2 d eq_refl). apply (label_cutoff_spelled _ b k Hb Hk).
  - unfold spelled. cbn [with_level]. rewrite sapp_nil_r. apply (label_cutoff_spelled _ b k Hb Hk).
Qed.
(** spelling is injective *)
Lemma spelled_inj b b' k k' l l' : plain b = true -> plain b' = true -> digits k -> digits k' -> digits l -> digits l' ->
  spelled b k l = spelled b' k' l' -> b = b' /\ k = k' /\ l = l'.
Proof.
  intros Hb Hb' Hk Hk' Hl Hl' H. destruct (level_spelled b k l Hb Hk Hl) as (S1 & S2). destruct (level_spelled b' k' l' Hb' Hk' Hl') as (S1' & S2'). rewrite H in S1, S2.
  assert (Hbk : (b ++ with_cutoff k = b' ++ with_cutoff k')%string /\ l = l').
  { destruct l as [d|], l' as [d'|]; try congruence.
    - rewrite (S2 d eq_refl) in S2'. specialize (S2' d' eq_refl). injection S2' as -> ->. auto.
    - unfold spelled in H. cbn [with_level] in H. rewrite !sapp_nil_r in H. auto. }
  destruct Hbk as [Hbk ->]. clear - Hbk Hb Hb' Hk Hk'. apply andb_true_iff in Hb as [Hb _]. apply andb_true_iff in Hb' as [Hb' _].
  destruct k as [d|], k' as [d'|]; cbn [with_cutoff] in Hbk.
  - pose proof (split_cutoff b d Hb (proj2 Hk)) as E1. rewrite Hbk, (split_cutoff b' d' Hb' (proj2 Hk')) in E1. injection E1 as -> ->. auto.
  - rewrite sapp_nil_r in Hbk. subst b'. pose proof (substr_in_mid "@" b d) as E1. rewrite (substr_in_none "@" "" _ Hb') in E1. discriminate.
  - rewrite sapp_nil_r in Hbk. subst b. pose proof (substr_in_mid "@" b' d') as E1. rewrite (substr_in_none "@" "" _ Hb) in E1. discriminate.
  - rewrite !sapp_nil_r in Hbk. auto.
Qed.
(** the tables of labels *)
Lemma keys_labelled : dkeys metric_labels = labelled_names.
Proof. vm_compute. reflexivity. Qed.
Lemma keys_plain : forallb plain labelled_names = true.
Proof. vm_compute. reflexivity. Qed.
Lemma vals_plain : forallb plain (dvals metric_labels) = true.
Proof. vm_compute. reflexivity. Qed.
Definition distinct (l : list string) : bool := Nat.eqb (length (nodup string_dec l)) (length l).
Lemma distinct_NoDup l : distinct l = true -> NoDup l.
Proof.
  unfold distinct. intros H. apply Nat.eqb_eq in H. induction l as [|a l IH]; [constructor|]. cbn [nodup] in H. destruct (in_dec string_dec a l) as [Hi|Hi].
  - exfalso. assert (Hle : length (nodup string_dec l) <= length l) by (clear; induction l as [|b l IH]; cbn [nodup]; [auto|]; destruct (in_dec string_dec b l); cbn [length]; lia). cbn [length] in H. lia.
  - cbn [length] in H. constructor; [exact Hi|apply IH; lia].
Qed.
Lemma vals_distinct : NoDup (dvals metric_labels).
Proof. apply distinct_NoDup. vm_compute. reflexivity. Qed.
Lemma key_label b : In b labelled_names -> plain b = true /\ exists lab, dget metric_labels b = Some lab /\ plain lab = true.
Proof.
  intros Hb. split; [exact (proj1 (forallb_forall _ _) keys_plain b Hb)|]. rewrite <- keys_labelled in Hb. destruct (key_dget metric_labels b Hb) as (lab & Hl). exists lab. split; [exact Hl|].
  apply (proj1 (forallb_forall _ _) vals_plain). clear - Hl. unfold dvals. induction metric_labels as [|[k v] d IH]; [discriminate|]. cbn [dget] in Hl. cbn [map snd]. destruct (String.eqb b k); [injection Hl as ->; now left|right; auto].
Qed.
Lemma label_inj b b' lab : dget metric_labels b = Some lab -> dget metric_labels b' = Some lab -> b = b'.
Proof.
  pose proof vals_distinct as Hn. revert Hn. unfold dvals. induction metric_labels as [|[k v] d IH]; cbn [dget map snd]; [discriminate|]. intros Hn H H'. inversion Hn as [|? ? Hni Hn']; subst.
  assert (Hin : forall c, dget d c = Some lab -> In lab (map snd d)).
  { clear. intros c Hc. induction d as [|[k v] d IH]; [discriminate|]. cbn [dget] in Hc. cbn [map snd]. destruct (String.eqb c k); [injection Hc as ->; now left|right; auto]. }
  destruct (String.eqb_spec b k) as [ -> |], (String.eqb_spec b' k) as [ -> |]; auto.
  - injection H as ->. exfalso. apply Hni. now apply (Hin b').
  - injection H' as ->. exfalso. apply Hni. now apply (Hin b).
Qed.

Lemma dget_pair {W} (d : dict W) b lab : dget d b = Some lab -> In (b, lab) d.
Proof. induction d as [|[k v] d IH]; [discriminate|]. cbn [dget]. destruct (String.eqb_spec b k) as [ -> |]; [intros H; injection H as ->; now left|right; auto]. Qed.
Lemma label_called b lab : dget metric_labels b = Some lab -> called b lab.
Proof.
  intros H. apply dget_pair in H. unfold metric_labels in H. apply in_app_or in H as [H|H]; [left; exact H|right].
  apply in_map_iff in H as (p & Hp & Hi). apply in_seq in Hi. exists p. injection Hp as <- <-. repeat split; lia.
Qed.
Lemma hub_called b lab : dget hub_metric_labels b = Some lab -> called b lab.
Proof.
  intros H. apply dget_pair in H. unfold hub_metric_labels in H. apply in_app_or in H as [H|H]; [left; cbn [In] in H |- *; tauto|right].
  apply in_map_iff in H as (p & Hp & Hi). apply in_seq in Hi. exists p. injection Hp as <- <-. repeat split; lia.
Qed.

(** ** C66: every metric with a label, an optional cut-off and an optional level has a label made of
    the label of its name, and different ones have different labels. *)
Theorem C66_labels : forall b k l, In b labelled_names -> digits k -> digits l ->
  exists lab, called b lab /\ get_metric_label (spelled b k l) = Ok (spelled lab k l).
Proof.
  intros b k l Hb Hk Hl. destruct (key_label b Hb) as (Hp & lab & Hlab & _). exists lab. split; [exact (label_called b lab Hlab)|]. rewrite (label_spelled b k l Hp Hk Hl), Hlab. reflexivity.
Qed.
Theorem C66_distinct : forall b k l b' k' l', In b labelled_names -> digits k -> digits l -> In b' labelled_names -> digits k' -> digits l' ->
  get_metric_label (spelled b k l) = get_metric_label (spelled b' k' l') -> b = b' /\ k = k' /\ l = l'.
Proof.
  intros b k l b' k' l' Hb Hk Hl Hb' Hk' Hl' H. destruct (key_label b Hb) as (Hp & lab & Hlab & Hpl). destruct (key_label b' Hb') as (Hp' & lab' & Hlab' & Hpl').
  rewrite (label_spelled b k l Hp Hk Hl), (label_spelled b' k' l' Hp' Hk' Hl'), Hlab, Hlab' in H. injection H as H.
  destruct (spelled_inj _ _ _ _ _ _ Hpl Hpl' Hk Hk' Hl Hl' H) as (E1 & E2 & E3). subst lab'. split; [now apply (label_inj b b' lab)|]. auto.
Qed.
(** Other names have none: rbp with "@", with a zero in front or with more than two digits, whatever the level. *)
Theorem C66_no_label : forall b k l, plain b = true -> ~ In b labelled_names -> digits k -> digits l -> get_metric_label (spelled b k l) = Err KeyError.
Proof.
  intros b k l Hp Hb Hk Hl. rewrite (label_spelled b k l Hp Hk Hl). rewrite (proj2 (dget_None metric_labels b)); [reflexivity|]. now rewrite keys_labelled.
Qed.
Theorem C66_rbp_refuted : forall d l, d <> "" -> all_digits d -> digits l ->
  get_metric_label (spelled "rbp" (Some d) l) = Err KeyError /\ get_metric_label (spelled ("rbp.0" ++ d) None l) = Err KeyError.
Proof.
  intros d l Hne Hd Hl. split.
  - apply C66_no_label; [reflexivity| |split; assumption|exact Hl]. intros H. assert (Hf : existsb (String.eqb "rbp") labelled_names = true) by (apply existsb_exists; exists "rbp"; split; [exact H|reflexivity]).
    vm_compute in Hf. discriminate.
  - apply C66_no_label; [| |exact I|exact Hl].
    + unfold plain. apply andb_true_iff. split; [|apply negb_true_iff, substr_in_none]; cbn; (apply digits_nochar; [exact Hd|]); [right|left]; cbv; lia.
    + intros H. assert (Hf : existsb (prefixb "rbp.0") labelled_names = true) by (apply existsb_exists; exists ("rbp.0" ++ d)%string; split; [exact H|apply prefixb_self]). vm_compute in Hf. discriminate.
Qed.
(** ranxhub labels drop the level, so metrics that differ in it collide, and dcg has no label *)
Theorem C66_hub : forall b k l, In b labelled_names -> digits k -> digits l ->
  hub_get_metric_label (spelled b k l) = hub_get_metric_label (spelled b k None) /\
  (forall s, hub_get_metric_label (spelled b k l) = Ok s -> exists lab, called b lab /\ s = (lab ++ with_cutoff k)%string) /\
  (is_Ok (hub_get_metric_label (spelled b k l)) = true <-> b <> "dcg" /\ b <> "dcg_burges").
Proof.
  intros b k l Hb Hk Hl. destruct (key_label b Hb) as (Hp & _). rewrite (hub_spelled b k l Hp Hk Hl), (hub_spelled b k None Hp Hk I). split; [reflexivity|].
  split; [intros s Hs; destruct (dget hub_metric_labels b) as [lab|] eqn:Hlab; [|discriminate]; injection Hs as <-; exists lab; split; [exact (hub_called b lab Hlab)|reflexivity]|].
  assert (Hd : forallb (fun b => Bool.eqb (match dget hub_metric_labels b with Some _ => true | None => false end) (negb (String.eqb b "dcg" || String.eqb b "dcg_burges"))) labelled_names = true) by (vm_compute; reflexivity).
  pose proof (proj1 (forallb_forall _ _) Hd b Hb) as H. cbn beta in H. apply Bool.eqb_prop in H.
  clear - H. revert H. generalize (dget hub_metric_labels b) as o. intros o H.
  destruct o; cbn [is_Ok]; destruct (String.eqb_spec b "dcg") as [E1|E1], (String.eqb_spec b "dcg_burges") as [E2|E2]; cbn [orb negb] in H; try discriminate H;
    (split; [intros H'; try discriminate H'; auto|intros [H1 H2]; try reflexivity; contradiction]).
Qed.
Theorem C66_hub_refuted : exists m m', m <> m' /\ get_metric_label m <> get_metric_label m' /\ hub_get_metric_label m = hub_get_metric_label m' /\ is_Ok (hub_get_metric_label m) = true.
Proof. exists "map@10", "map@10-l2". split; [discriminate|]. split; [vm_compute; discriminate|]. split; vm_compute; reflexivity. Qed.
Example ex_C66 : get_metric_label (spelled "ndcg_burges" (Some "10") (Some "2")) = Ok "NDCG Burges@10-l2" /\ In "ndcg_burges" labelled_names /\ digits (Some "10") /\ digits (Some "2") /\
  get_metric_label "rbp.95" = Ok "RBP.95" /\ In "rbp.95" labelled_names.
Proof.
  split; [vm_compute; reflexivity|]. split; [apply in_or_app; left; cbn; tauto|]. split; [split; [discriminate|cbn; repeat split; lia]|]. split; [split; [discriminate|cbn; repeat split; lia]|]. split; [vm_compute; reflexivity|].
  rewrite <- keys_labelled. destruct (dget metric_labels "rbp.95") eqn:H; [|vm_compute in H; discriminate]. exact (T_Compare2.dget_key _ _ _ H).
Qed.
Print Assumptions C66_labels.
Print Assumptions C66_distinct.
Print Assumptions C66_no_label.
Print Assumptions C66_rbp_refuted.
Print Assumptions C66_hub.
