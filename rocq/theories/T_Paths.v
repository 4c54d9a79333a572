(** T_Paths.v: different runs of ranxhub are kept in different files (C74) *)
From Coq Require Import Lia.
From Verif Require Import Base Dict M_Paths P_Base P_Dict.
Open Scope string_scope.
Open Scope list_scope.
Open Scope nat_scope.

(** ** Specification: ids as they are meant to be, e.g. "msmarco/dev/bm25" *)
Fixpoint has_slash (s : string) : Prop := match s with EmptyString => False | String c s' => c = "/"%char \/ has_slash s' end.
Definition component (c : string) : Prop := c <> "" /\ c <> "." /\ c <> ".." /\ ~ has_slash c.
Definition plain_id (id : string) : Prop := exists cs, cs <> [] /\ Forall component cs /\ id = String.concat "/" cs.

(** ** Lemmas *)
Lemma app_nil_s s : (s ++ "")%string = s.
Proof. induction s as [|c s IH]; cbn [append]; [reflexivity|now rewrite IH]. Qed.
Lemma app_assoc_s a b c : ((a ++ b) ++ c)%string = (a ++ b ++ c)%string.
Proof. induction a as [|x a IH]; cbn [append]; [reflexivity|now rewrite IH]. Qed.
Lemma cut_component acc c t : ~ has_slash c -> cut_go acc (c ++ t) = cut_go (acc ++ c) t.
Proof.
  revert acc. induction c as [|x c IH]; intros acc H; cbn [append cut_go]; [now rewrite app_nil_s|].
  cbn [has_slash] in H. destruct (Ascii.eqb_spec x "/"%char) as [->|]; [tauto|].
  rewrite IH by tauto. now rewrite app_assoc_s.
Qed.
Lemma cut_concat cs t : cs <> [] -> Forall (fun c => ~ has_slash c) cs -> ~ has_slash t ->
  cut (String.concat "/" cs ++ t) = removelast cs ++ [(last cs "" ++ t)%string].
Proof.
  intros Hne Hc Ht. unfold cut. induction cs as [|c cs IH]; [congruence|]. inversion Hc as [|? ? H1 H2]; subst.
  destruct cs as [|c' cs].
  - cbn [String.concat removelast last app]. rewrite cut_component by exact H1. cbn [append].
    rewrite <- (app_nil_s t) at 1. rewrite cut_component by exact Ht. cbn [cut_go]. reflexivity.
  - change (String.concat "/" (c :: c' :: cs)) with (c ++ "/" ++ String.concat "/" (c' :: cs))%string.
    rewrite !app_assoc_s. rewrite cut_component by exact H1. cbn [append]. cbn [cut_go Ascii.eqb]. 
    replace (Ascii.eqb "/" "/") with true by reflexivity. f_equal. rewrite IH by (auto; discriminate). reflexivity.
Qed.
Lemma concat_cut cs : cs <> [] -> Forall (fun c => ~ has_slash c) cs -> cut (String.concat "/" cs) = cs.
Proof.
  intros Hne Hc. rewrite <- (app_nil_s (String.concat "/" cs)). rewrite cut_concat by (auto; intros []).
  rewrite app_nil_s. symmetry. now apply app_removelast_last.
Qed.
Lemma last_In {A} (l : list A) d : l <> [] -> In (last l d) l.
Proof. induction l as [|a l IH]; [congruence|]. intros _. destruct l as [|b l]; [now left|]. right. apply IH. discriminate. Qed.
Lemma rh_component c : component c -> component (c ++ ".rh").
Proof.
  intros (H1 & H2 & H3 & H4). destruct c as [|x c]; [congruence|]. repeat split.
  - discriminate.
  - destruct c; discriminate.
  - destruct c as [|y [|z c]]; discriminate.
  - intros H. clear H1 H2 H3. revert H4 H. generalize (String x c) as s. induction s as [|y s IH]; intros H4 H.
    + cbn in H. repeat (destruct H as [H|H]; [discriminate|]). exact H.
    + cbn [append has_slash] in *. destruct H as [H|H]; [tauto|]. apply IH; tauto.
Qed.
Lemma plain_parts home cs base : cs <> [] -> Forall component cs -> base = home ->
  join_path base (String.concat "/" cs ++ ".rh") = home ++ removelast cs ++ [(last cs "" ++ ".rh")%string].
Proof.
  intros Hne Hc ->. assert (Hs : Forall (fun c => ~ has_slash c) cs) by (eapply Forall_impl; [|exact Hc]; intros c H; apply H).
  assert (Habs : is_absolute (String.concat "/" cs ++ ".rh") = false).
  { destruct cs as [|c cs]; [congruence|]. inversion Hc as [|? ? (H1 & _ & _ & H4) _]; subst. destruct c as [|x c]; [congruence|].
    assert (Hx : x <> "/"%char) by (intros ->; apply H4; now left).
    destruct cs; cbn [String.concat append is_absolute]; destruct (Ascii.eqb_spec x "/"%char); congruence. }
  unfold join_path. rewrite Habs. unfold parts. rewrite cut_concat; auto.
  2:{ cbn. intros H. repeat (destruct H as [H|H]; [discriminate|]). exact H. }
  f_equal. assert (Hall : Forall component (removelast cs ++ [(last cs "" ++ ".rh")%string])).
  { apply Forall_app. split.
    - rewrite Forall_forall in Hc |- *. intros c H. apply Hc. rewrite (app_removelast_last "" Hne). apply in_or_app. now left.
    - constructor; [|constructor]. apply rh_component. rewrite Forall_forall in Hc. apply Hc, last_In, Hne. }
  induction Hall as [|c l (H1 & H2 & _) _ IH]; [reflexivity|]. cbn [filter].
  destruct (String.eqb_spec c ""); [congruence|]. destruct (String.eqb_spec c "."); [congruence|]. cbn [orb negb]. now rewrite IH.
Qed.
Lemma location_plain p : Forall component p -> location p = p.
Proof.
  unfold location. enough (H : forall acc, Forall component p -> fold_left (fun a c => if String.eqb c ".." then removelast a else a ++ [c]) p acc = acc ++ p) by exact (H []).
  induction p as [|c p IH]; intros acc Hc; cbn [fold_left]; [now rewrite app_nil_r|]. inversion Hc as [|? ? H1 H2]; subst.
  destruct (String.eqb_spec c "..") as [->|_]; [now destruct H1 as (_ & _ & H1 & _)|]. rewrite IH by exact H2. now rewrite <- app_assoc.
Qed.
Lemma file_components cs : cs <> [] -> Forall component cs -> Forall component (removelast cs ++ [(last cs "" ++ ".rh")%string]).
Proof.
  intros Hne Hc. apply Forall_app. split.
  - rewrite Forall_forall in Hc |- *. intros c H. apply Hc. rewrite (app_removelast_last "" Hne). apply in_or_app. now left.
  - constructor; [|constructor]. apply rh_component. rewrite Forall_forall in Hc. apply Hc, last_In, Hne.
Qed.
Lemma dir_component s : s = ".ranx" \/ s = ".ranx_tmp" -> component s.
Proof. intros [->| ->]; repeat split; try discriminate; cbn; intros H; repeat (destruct H as [H|H]; [discriminate|]); exact H. Qed.
Lemma where_is home dir cs : Forall component home -> dir = ".ranx" \/ dir = ".ranx_tmp" -> cs <> [] -> Forall component cs ->
  location (join_path (home ++ [dir]) (String.concat "/" cs ++ ".rh")) = home ++ dir :: removelast cs ++ [(last cs "" ++ ".rh")%string].
Proof.
  intros Hh Hd Hne Hc. rewrite (plain_parts (home ++ [dir]) cs _ Hne Hc eq_refl). rewrite location_plain; [now rewrite <- app_assoc|].
  apply Forall_app. split; [apply Forall_app; split; [exact Hh|constructor; [now apply dir_component|constructor]]|now apply file_components].
Qed.
Lemma rh_inj a b : (a ++ ".rh")%string = (b ++ ".rh")%string -> a = b.
Proof.
  intros H. assert (Hl : forall s t, String.length (s ++ t) = String.length s + String.length t) by (induction s; intros; cbn; auto).
  assert (Hlen : String.length a = String.length b) by (apply (f_equal String.length) in H; rewrite !Hl in H; lia).
  revert b H Hlen. induction a as [|x a IH]; intros [|y b] H Hlen; try discriminate; [reflexivity|]. cbn [append] in H. injection H as -> H. f_equal. apply IH; auto.
Qed.

(** ** C74: where the file of a plain id is *)
Theorem C74_inside : forall home cs, Forall component home -> cs <> [] -> Forall component cs -> let id := String.concat "/" cs in
  location (get_path home id) = home ++ ".ranx" :: removelast cs ++ [(last cs "" ++ ".rh")%string] /\
  location (get_tmp_path home id) = home ++ ".ranx_tmp" :: removelast cs ++ [(last cs "" ++ ".rh")%string].
Proof. intros home cs Hh Hne Hc id. split; apply where_is; auto. Qed.
Print Assumptions C74_inside.
(** different ids: different cache files and different temporary files; no cache file is a temporary file *)
Theorem C74_distinct_files : forall home id id', Forall component home -> plain_id id -> plain_id id' ->
  (location (get_path home id) = location (get_path home id') -> id = id') /\
  (location (get_tmp_path home id) = location (get_tmp_path home id') -> id = id') /\
  location (get_path home id) <> location (get_tmp_path home id').
Proof.
  intros home id id' Hh (cs & Hne & Hc & ->) (cs' & Hne' & Hc' & ->).
  destruct (C74_inside home cs Hh Hne Hc) as [-> ->]. destruct (C74_inside home cs' Hh Hne' Hc') as [-> ->].
  assert (Hsame : forall d, home ++ d :: removelast cs ++ [(last cs "" ++ ".rh")%string] = home ++ d :: removelast cs' ++ [(last cs' "" ++ ".rh")%string] -> String.concat "/" cs = String.concat "/" cs').
  { intros d H. apply app_inv_head in H. injection H as H. apply app_inj_tail in H as [H1 H2]. apply rh_inj in H2. f_equal.
    rewrite (app_removelast_last "" Hne), (app_removelast_last "" Hne'), H1, H2. reflexivity. }
  split; [apply Hsame|]. split; [apply Hsame|]. intros H. apply app_inv_head in H. discriminate H.
Qed.
Print Assumptions C74_distinct_files.

(** any two ids have different addresses *)
Definition unhex (c : ascii) : nat := let n := nat_of_ascii c in if n <? 58 then n - 48 else n - 55.
Fixpoint unquote (s : string) : string :=
  match s with
  | EmptyString => ""
  | String c s' =>
      if Ascii.eqb c "%" then
        match s' with String a (String b s'') => String (ascii_of_nat (unhex a * 16 + unhex b)) (unquote s'') | _ => "" end
      else String c (unquote s')
  end.
Lemma unhex_hex n : n < 16 -> unhex (hex n) = n.
Proof. intros H. do 16 (destruct n as [|n]; [reflexivity|]). lia. Qed.
Lemma unquote_quote s : unquote (quote s) = s.
Proof.
  induction s as [|c s IH]; [reflexivity|]. cbn [quote]. destruct (url_keeps c) eqn:Hk; cbn [unquote].
  - destruct (Ascii.eqb_spec c "%") as [->|_]; [discriminate Hk|]. now rewrite IH.
  - replace (Ascii.eqb "%" "%") with true by reflexivity. pose proof (nat_ascii_bounded c) as Hb.
    pose proof (Nat.div_mod (nat_of_ascii c) 16 ltac:(lia)). pose proof (Nat.mod_upper_bound (nat_of_ascii c) 16 ltac:(lia)).
    assert (nat_of_ascii c / 16 < 16) by (apply Nat.div_lt_upper_bound; lia).
    rewrite !unhex_hex by assumption. rewrite IH. f_equal. rewrite <- (ascii_nat_embedding c) at 3. f_equal. lia.
Qed.
Theorem C74_distinct_urls : forall id id', get_url id = get_url id' -> id = id'.
Proof.
  intros id id' H. unfold get_url in H.
  assert (Hinv : forall p a b, (p ++ a)%string = (p ++ b)%string -> a = b) by (intros p; induction p as [|x p IH]; intros a b Hp; [exact Hp|]; cbn [append] in Hp; injection Hp; auto).
  apply Hinv in H. apply (Hinv "/") in H. apply rh_inj in H. rewrite <- (unquote_quote id), <- (unquote_quote id'). now rewrite H.
Qed.
Print Assumptions C74_distinct_urls.

(** ids that are not plain: two addresses, one cache file, so the second id gets the first one's run *)
Theorem C74_any_id_refuted : ~ (forall home id id', Forall component home -> location (get_path home id) = location (get_path home id') -> id = id').
Proof. intros H. specialize (H ["home"] "a/b" "a//b"). discriminate H; [|reflexivity]. constructor; [|constructor]. repeat split; try discriminate. cbn. intros H0. repeat (destruct H0 as [H0|H0]; [discriminate|]). exact H0. Qed.
Print Assumptions C74_any_id_refuted.
(** an id can name a file outside the cache *)
Theorem C74_escape_refuted : ~ (forall home id, Forall component home -> exists rest, location (get_path home id) = home ++ ".ranx" :: rest).
Proof.
  intros H. destruct (H ["home"] "../work/notes") as (rest & Hr).
  - constructor; [|constructor]. repeat split; try discriminate. cbn. intros H0. repeat (destruct H0 as [H0|H0]; [discriminate|]). exact H0.
  - discriminate Hr.
Qed.
Print Assumptions C74_escape_refuted.
(** the file of one plain id can be in the way of the directory of another *)
Theorem C74_nested_refuted : ~ (forall home id id' rest, Forall component home -> plain_id id -> plain_id id' -> location (get_path home id') = location (get_path home id) ++ rest -> rest = []).
Proof.
  assert (Hc : forall c, In c ["home"; "a"; "a.rh"; "b"] -> component c).
  { intros c Hc. cbn in Hc. repeat destruct Hc as [<-|Hc]; try contradiction; repeat split; try discriminate; cbn; intros H0; repeat (destruct H0 as [H0|H0]; [discriminate|]); exact H0. }
  intros H. specialize (H ["home"] "a" "a.rh/b" ["b.rh"]). discriminate H.
  - constructor; [apply Hc; cbn; tauto|constructor].
  - exists ["a"]. split; [discriminate|]. split; [|reflexivity]. constructor; [apply Hc; cbn; tauto|constructor].
  - exists ["a.rh"; "b"]. split; [discriminate|]. split; [|reflexivity]. constructor; [apply Hc; cbn; tauto|]. constructor; [apply Hc; cbn; tauto|constructor].
  - reflexivity.
Qed.
Print Assumptions C74_nested_refuted.
Example C74_ex : plain_id "msmarco/dev/bm25" /\ location (get_path ["home"; "me"] "msmarco/dev/bm25") = ["home"; "me"; ".ranx"; "msmarco"; "dev"; "bm25.rh"] /\ get_url "a b/c%" = (base_url ++ "/a%20b/c%25.rh")%string.
Proof.
  split; [|split; reflexivity]. exists ["msmarco"; "dev"; "bm25"]. split; [discriminate|]. split; [|reflexivity].
  repeat constructor; try discriminate; cbn; intros H0; repeat (destruct H0 as [H0|H0]; [discriminate|]); exact H0.
Qed.
