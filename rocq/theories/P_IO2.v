(** P_IO2.v: file names *)
From Coq Require Import Lia.
From Verif Require Import Base Dict Num M_Strings M_IO Spec_IO P_Base P_Strings.
Open Scope string_scope.
Open Scope list_scope.
Open Scope nat_scope.

Lemma char_in_app c a b : char_in c (a ++ b) <-> char_in c a \/ char_in c b.
Proof. induction a as [|x a IH]; cbn [append char_in]; [tauto|]. rewrite IH. tauto. Qed.
Lemma basename_nos s : forall acc, ~ char_in "/" s -> basename_go acc s = (acc ++ s)%string.
Proof.
  induction s as [|c s IH]; intros acc Hn; cbn [basename_go]; [now rewrite sapp_nil_r|]. cbn [char_in] in Hn.
  destruct (Ascii.eqb_spec c "/") as [ -> |]; [exfalso; auto|]. rewrite IH by tauto. now rewrite sapp_assoc.
Qed.
Lemma basename_app d : forall s acc, basename_go acc (d ++ "/" ++ s) = basename_go "" s.
Proof.
  induction d as [|c d IH]; intros s acc; cbn [append basename_go]; [reflexivity|]. destruct (Ascii.eqb c "/"); apply IH.
Qed.
(** every path is a directory part and a last component *)
Lemma basename_split s : forall acc, ~ char_in "/" acc ->
  exists dir, (acc ++ s)%string = (dir ++ basename_go acc s)%string /\ (dir = "" \/ exists d, dir = (d ++ "/")%string) /\ ~ char_in "/" (basename_go acc s).
Proof.
  induction s as [|c s IH]; intros acc Ha; cbn [basename_go].
  - exists "". rewrite sapp_nil_r. auto.
  - destruct (Ascii.eqb_spec c "/") as [ -> |Hc].
    + destruct (IH "" (fun H => H)) as (dir & H1 & H2 & H3). cbn [append] in H1. exists (acc ++ "/" ++ dir)%string. split; [|split; [|exact H3]].
      * rewrite !sapp_assoc. cbn [append]. now rewrite <- H1.
      * right. destruct H2 as [ -> |(d & ->)]; [exists acc; reflexivity|exists (acc ++ "/" ++ d)%string; now rewrite !sapp_assoc].
    + destruct (IH (acc ++ String c "")%string) as (dir & H1 & H2 & H3).
      * rewrite char_in_app. cbn. intros [H|[H|[]]]; [now apply Ha|]. congruence.
      * exists dir. rewrite sapp_assoc in H1. auto.
Qed.
Lemma last_dot_none s : ~ char_in "." s -> last_dot s = None.
Proof. induction s as [|c s IH]; [reflexivity|]. cbn [char_in last_dot]. intros H. rewrite IH by tauto. destruct (Ascii.eqb_spec c "."); [subst; exfalso; auto|reflexivity]. Qed.
Lemma last_dot_app a b : ~ char_in "." b -> last_dot (a ++ "." ++ b) = Some (a, b).
Proof.
  intros Hb. induction a as [|c a IH].
  - change ("" ++ "." ++ b)%string with (String "." b). cbn [last_dot]. now rewrite last_dot_none.
  - change (String c a ++ "." ++ b)%string with (String c (a ++ "." ++ b)). cbn [last_dot]. now rewrite IH.
Qed.
Lemma last_dot_some s : forall a b, last_dot s = Some (a, b) -> s = (a ++ "." ++ b)%string /\ ~ char_in "." b.
Proof.
  induction s as [|c s IH]; intros a b; cbn [last_dot]; [discriminate|]. destruct (last_dot s) as [[a' b']|] eqn:Hl.
  - intros H. injection H as <- <-. destruct (IH a' b' eq_refl) as [-> H2]. auto.
  - destruct (Ascii.eqb_spec c ".") as [ -> |]; [|discriminate]. intros H. injection H as <- <-. split; [reflexivity|].
    clear IH. induction s as [|c s IH]; [auto|]. cbn [last_dot] in Hl. destruct (last_dot s) as [[? ?]|]; [discriminate|]. destruct (Ascii.eqb_spec c "."); [discriminate|].
    cbn [char_in]. intros [H|H]; [congruence|]. now apply IH.
Qed.
Lemma only_dots_spec s : only_dots s = false <-> exists c, char_in c s /\ c <> "."%char.
Proof.
  induction s as [|c s IH]; cbn [only_dots char_in]; [split; [discriminate|]; intros (c & [] & _)|]. destruct (Ascii.eqb_spec c ".") as [ -> |Hc]; cbn [andb].
  - rewrite IH. split; intros (x & H1 & H2); exists x; [auto|]. destruct H1 as [ -> |]; [congruence|auto].
  - split; [|auto]. intros _. exists c. auto.
Qed.
Lemma extension_of path ext : has_extension path ext -> extension path = ext.
Proof.
  intros (dir & stem & -> & Hd & Hs & He & Hde & Hc). unfold extension, basename.
  assert (Hn : ~ char_in "/" (stem ++ "." ++ ext)).
  { rewrite !char_in_app. cbn. intros [H|[[H|[]]|H]]; [now apply Hs|discriminate|now apply He]. }
  assert (Hb : basename_go "" (dir ++ stem ++ "." ++ ext) = (stem ++ "." ++ ext)%string).
  { destruct Hd as [ -> |(d & ->)].
    - change ("" ++ stem ++ "." ++ ext)%string with (stem ++ "." ++ ext)%string. now rewrite basename_nos.
    - replace ((d ++ "/") ++ stem ++ "." ++ ext)%string with (d ++ "/" ++ (stem ++ "." ++ ext))%string by now rewrite <- sapp_assoc.
      rewrite basename_app. now rewrite basename_nos. }
  rewrite Hb, last_dot_app by exact Hde. now rewrite (proj2 (only_dots_spec stem) Hc).
Qed.
Lemma extension_inv path : extension path <> "" -> has_extension path (extension path).
Proof.
  unfold extension, basename. destruct (basename_split path "" (fun H => H)) as (dir & H1 & H2 & H3). cbn [append] in H1.
  destruct (last_dot (basename_go "" path)) as [[stem ext]|] eqn:Hl; [|congruence]. destruct (only_dots stem) eqn:Ho; [congruence|]. intros _.
  apply last_dot_some in Hl as [Hb Hd]. exists dir, stem. rewrite Hb in H1, H3. rewrite !char_in_app in H3. split; [exact H1|]. split; [exact H2|]. repeat split; try tauto. now apply only_dots_spec.
Qed.
Lemma file_kind kinds path kind k : (forall k, In k kinds -> In (k, k) extensions) -> In k kinds ->
  get_file_kind kinds path kind = Ok k <-> asks_for path kind k.
Proof.
  intros He Hk. assert (Hb : existsb (String.eqb k) kinds = true) by (apply existsb_exists; exists k; split; [exact Hk|apply String.eqb_refl]).
  unfold get_file_kind, asks_for. destruct kind as [k'|].
  - split.
    + destruct (existsb (String.eqb k') kinds); [|discriminate]. intros H. now injection H.
    + intros ->. now rewrite Hb.
  - set (e := extension path). set (e1 := if String.eqb e "txt" then "trec" else e). set (e2 := if String.eqb e1 "parq" then "parquet" else e1). split.
    + destruct (existsb (String.eqb e2) kinds) eqn:Hx; [|discriminate]. intros H. injection H as H.
      assert (Hne : e <> "").
      { intros Hc. apply He in Hk. rewrite <- H in Hk. subst e2 e1. rewrite Hc in Hk. cbn in Hk. repeat destruct Hk as [Hk|Hk]; try discriminate; destruct Hk. }
      pose proof (extension_inv path Hne) as Hp. fold e in Hp. subst e2 e1. destruct (String.eqb_spec e "txt") as [H1|H1].
      * cbn in H. exists "txt". rewrite <- H, <- H1. split; [rewrite H1; cbn; tauto|exact Hp].
      * destruct (String.eqb_spec e "parq") as [H2|H2].
        -- exists "parq". rewrite <- H, <- H2. split; [rewrite H2; cbn; tauto|exact Hp].
        -- exists e. split; [|exact Hp]. rewrite H. apply He, Hk.
    + intros (x & Hx & Hp). apply extension_of in Hp. fold e in Hp.
      assert (H : e2 = k).
      { subst e2 e1. rewrite Hp. cbn in Hx. repeat destruct Hx as [Hx|Hx]; try (injection Hx as <- <-; reflexivity). destruct Hx. }
      now rewrite H, Hb.
Qed.
Lemma file_kind_fails kinds path kind : (forall k, In k kinds -> In (k, k) extensions) ->
  (forall k, In k kinds -> ~ asks_for path kind k) -> get_file_kind kinds path kind = Err AssertionError.
Proof.
  intros He Hno. destruct (get_file_kind kinds path kind) as [k|e] eqn:Hg.
  - exfalso. assert (Hk : In k kinds).
    { unfold get_file_kind in Hg. match type of Hg with (if existsb (String.eqb ?z) _ then _ else _) = _ => destruct (existsb (String.eqb z) kinds) eqn:Hb; [|discriminate]; injection Hg as <-; apply existsb_exists in Hb as (y & Hy & Hyz); apply String.eqb_eq in Hyz; subst y; exact Hy end. }
    apply (Hno k Hk). now apply (file_kind kinds).
  - unfold get_file_kind in Hg. destruct (existsb _ kinds); [discriminate|]. now injection Hg as <-.
Qed.
Lemma qrels_kind path kind k : is_qrels_kind k -> asks_for path kind k -> get_file_kind qrels_kinds path kind = Ok k.
Proof. intros Hk Ha. apply file_kind; [|exact Hk|exact Ha]. intros x Hx. cbn in Hx. repeat destruct Hx as [<-|Hx]; try (cbn; tauto). Qed.
Lemma run_kind path kind k : is_run_kind k -> asks_for path kind k -> get_file_kind run_kinds path kind = Ok k.
Proof. intros Hk Ha. apply file_kind; [|cbn in Hk |- *; tauto|exact Ha]. intros x Hx. cbn in Hx. repeat destruct Hx as [<-|Hx]; try (cbn; tauto). Qed.
Lemma qrels_kind_fails path kind : (forall k, is_qrels_kind k -> ~ asks_for path kind k) -> get_file_kind qrels_kinds path kind = Err AssertionError.
Proof. intros Ha. apply file_kind_fails; [|exact Ha]. intros x Hx. cbn in Hx. repeat destruct Hx as [<-|Hx]; try (cbn; tauto). Qed.
Lemma run_kind_fails path kind : (forall k, is_run_kind k -> ~ asks_for path kind k) -> get_file_kind run_kinds path kind = Err AssertionError.
Proof. intros Ha. apply file_kind_fails; [|intros k Hk; apply Ha; cbn in Hk |- *; unfold is_run_kind; cbn; tauto]. intros x Hx. cbn in Hx. repeat destruct Hx as [<-|Hx]; try (cbn; tauto). Qed.
(** a call asks for at most one kind *)
Lemma asks_unique path kind k1 k2 : asks_for path kind k1 -> asks_for path kind k2 -> k1 = k2.
Proof.
  destruct kind as [k|]; cbn [asks_for]; [congruence|]. intros (e1 & H1 & P1) (e2 & H2 & P2). apply extension_of in P1, P2. rewrite P1 in P2. subst e2.
  cbn in H1, H2. repeat destruct H1 as [H1|H1]; try (injection H1 as <- <-; repeat destruct H2 as [H2|H2]; try (injection H2; intros; congruence); destruct H2). destruct H1.
Qed.
