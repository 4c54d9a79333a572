(** T_Paths2.v: which ids share a cache file, and what the address of a run looks like (C74). *)
From Verif Require Import Base Dict M_Paths T_Paths.
Open Scope string_scope.
Open Scope list_scope.
Open Scope nat_scope.

(** components that pathlib keeps *)
Definition kept (cs : list string) : list string := filter (fun c => if string_dec c "" then false else if string_dec c "." then false else true) cs.

Lemma kept_eq cs : kept cs = filter (fun c => negb (String.eqb c "" || String.eqb c ".")) cs.
Proof.
  unfold kept. apply filter_ext. intros c. destruct (String.eqb_spec c "") as [->|H1]; [now destruct (string_dec "" "")|].
  destruct (string_dec c "") as [E|_]; [contradiction|].
  destruct (String.eqb_spec c ".") as [->|H2]; [now destruct (string_dec "." ".")|]. now destruct (string_dec c ".").
Qed.
Lemma suffixed_kept c : (c ++ ".rh" <> "" /\ c ++ ".rh" <> "." /\ c ++ ".rh" <> "..")%string.
Proof.
  split; [|split]; intros H; destruct c as [|x c]; try discriminate; injection H as _ H; destruct c as [|y c]; try discriminate;
    injection H as _ H; destruct c; discriminate.
Qed.
Lemma location_no_up p : ~ In ".." p -> location p = p.
Proof.
  unfold location. enough (G : forall acc, ~ In ".." p -> fold_left (fun a c => if String.eqb c ".." then removelast a else a ++ [c]) p acc = acc ++ p)
    by (intros H; now rewrite G).
  induction p as [|c p IH]; intros acc Hc; cbn [fold_left]; [now rewrite app_nil_r|].
  destruct (String.eqb_spec c "..") as [->|_]; [exfalso; apply Hc; now left|].
  rewrite IH by (intros H; apply Hc; now right). now rewrite <- app_assoc.
Qed.
Lemma kept_in c cs : In c (kept cs) -> In c cs.
Proof. unfold kept. rewrite filter_In. tauto. Qed.
Lemma where_general home dir cs : ~ In ".." home -> dir <> ".." -> cs <> [] -> Forall (fun c => ~ has_slash c) cs ->
  hd "" cs <> "" -> ~ In ".." (removelast cs) ->
  location (join_path (home ++ [dir]) (String.concat "/" cs ++ ".rh")) = home ++ dir :: kept (removelast cs) ++ [(last cs "" ++ ".rh")%string].
Proof.
  intros Hh Hd Hne Hs Hhd Hup. unfold join_path.
  assert (Habs : is_absolute (String.concat "/" cs ++ ".rh")%string = false).
  { destruct cs as [|c cs]; [congruence|]. inversion Hs as [|? ? H4 _]; subst. cbn [hd] in Hhd. destruct c as [|x c]; [congruence|].
    assert (Hx : x <> "/"%char) by (intros ->; apply H4; now left).
    destruct cs; cbn [String.concat append is_absolute]; destruct (Ascii.eqb_spec x "/"%char); congruence. }
  rewrite Habs. unfold parts. rewrite <- kept_eq. rewrite cut_concat; auto.
  2:{ cbn. intros H0. repeat (destruct H0 as [H0|H0]; [discriminate|]). exact H0. }
  destruct (suffixed_kept (last cs "")) as (E1 & E2 & E3).
  assert (Hk : kept (removelast cs ++ [(last cs "" ++ ".rh")%string]) = kept (removelast cs) ++ [(last cs "" ++ ".rh")%string]).
  { unfold kept. rewrite filter_app. cbn [filter]. destruct (string_dec _ ""); [contradiction|]. now destruct (string_dec _ "."). }
  rewrite Hk. rewrite location_no_up; [now rewrite <- app_assoc|].
  intros H. rewrite !in_app_iff in H. destruct H as [[H|[H|[]]]|[H|[H|[]]]]; auto. apply kept_in in H. auto.
Qed.

(** ** C74: the file of any relative id without ".."; empty components and "." are dropped, except at the end *)
Theorem C74_relative : forall home cs, ~ In ".." home -> cs <> [] -> Forall (fun c => ~ has_slash c) cs ->
  hd "" cs <> "" -> ~ In ".." (removelast cs) -> let id := String.concat "/" cs in
  location (get_path home id) = home ++ ".ranx" :: kept (removelast cs) ++ [(last cs "" ++ ".rh")%string] /\
  location (get_tmp_path home id) = home ++ ".ranx_tmp" :: kept (removelast cs) ++ [(last cs "" ++ ".rh")%string].
Proof. intros home cs Hh Hne Hs Hhd Hup id. split; apply where_general; auto; discriminate. Qed.
Print Assumptions C74_relative.
Example C74_relative_ex :
  location (get_path ["home"] "a/./b") = location (get_path ["home"] "a/b") /\
  location (get_path ["home"] "a/./b") = ["home"; ".ranx"; "a"; "b.rh"] /\ get_url "a/./b" <> get_url "a/b".
Proof. split; [reflexivity|]. split; [reflexivity|discriminate]. Qed.

(** ** C74: the address: ids made of letters, digits and "_.-~/" are not changed; nothing else appears in an address but "%" *)
Definition plain_char (c : ascii) : Prop :=
  In c (list_ascii_of_string "abcdefghijklmnopqrstuvwxyzABCDEFGHIJKLMNOPQRSTUVWXYZ0123456789_.-~/").
Lemma keeps_plain c : url_keeps c = true <-> plain_char c.
Proof.
  unfold plain_char. split.
  - destruct c as [[|] [|] [|] [|] [|] [|] [|] [|]]; intros H; first [discriminate H | (vm_compute; tauto)].
  - intros H. cbn [list_ascii_of_string] in H. repeat (destruct H as [<-|H]; [reflexivity|]). destruct H.
Qed.
Lemma hex_plain n : n < 16 -> plain_char (hex n).
Proof. intros H. apply keeps_plain. do 16 (destruct n as [|n]; [reflexivity|]). lia. Qed.
Theorem C74_url : forall id,
  (Forall plain_char (list_ascii_of_string id) -> get_url id = ("https://ranxhub.s3.eu-central-1.amazonaws.com/" ++ id ++ ".rh")%string) /\
  Forall (fun c => plain_char c \/ c = "%"%char \/ c = ":"%char) (list_ascii_of_string (get_url id)).
Proof.
  intros id. split.
  - intros H. unfold get_url. change base_url with "https://ranxhub.s3.eu-central-1.amazonaws.com".
    replace (quote id) with id; [reflexivity|]. induction id as [|c s IH]; [reflexivity|]. inversion H as [|? ? H1 H2]; subst.
    cbn [quote]. apply keeps_plain in H1. rewrite H1. now rewrite <- IH.
  - assert (Happ : forall a b, list_ascii_of_string (a ++ b)%string = list_ascii_of_string a ++ list_ascii_of_string b)
      by (induction a as [|x a IHa]; intros b; [reflexivity|]; cbn [append list_ascii_of_string app]; now rewrite IHa).
    assert (Hlit : forall s, forallb (fun c => url_keeps c || Ascii.eqb c ":"%char) (list_ascii_of_string s) = true ->
      Forall (fun c => plain_char c \/ c = "%"%char \/ c = ":"%char) (list_ascii_of_string s)).
    { intros s Hs. rewrite forallb_forall in Hs. apply Forall_forall. intros c Hc. specialize (Hs c Hc).
      apply orb_true_iff in Hs as [Hs|Hs]; [left; now apply keeps_plain|right; right; now apply Ascii.eqb_eq]. }
    unfold get_url. rewrite !Happ. apply Forall_app. split; [now apply Hlit|]. apply Forall_app. split; [now apply Hlit|].
    apply Forall_app. split; [|now apply Hlit].
    induction id as [|c s IH]; cbn [quote]; [constructor|]. destruct (url_keeps c) eqn:Hk; cbn [list_ascii_of_string].
    + constructor; [left; now apply keeps_plain|exact IH].
    + pose proof (nat_ascii_bounded c). constructor; [tauto|].
      constructor; [left; apply hex_plain, Nat.div_lt_upper_bound; lia|].
      constructor; [left; apply hex_plain, Nat.mod_upper_bound; lia|exact IH].
Qed.
Print Assumptions C74_url.
Example C74_url_ex : get_url "msmarco v2/bm25" = "https://ranxhub.s3.eu-central-1.amazonaws.com/msmarco%20v2/bm25.rh" /\
  Forall plain_char (list_ascii_of_string "msmarco/bm25").
Proof. split; [reflexivity|]. cbn [list_ascii_of_string]. repeat (constructor; [apply keeps_plain; reflexivity|]). constructor. Qed.
