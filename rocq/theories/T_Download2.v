(** T_Download2.v: downloads: an example, and what happens without the hypotheses of C67 *)
From Coq Require Import Lia.
From Verif Require Import Base Dict M_Download Spec_Download P_Base P_Strings P_IO T_Download.
Open Scope string_scope.
Open Scope list_scope.
Open Scope nat_scope.

(** all answers a well-behaved server may give *)
Definition server (C : string) : network :=
  Network (fun r => r = Err OSError \/ r = Ok (Some (String.length C)))
          (fun pos r => r = Err OSError \/ exists cs eof, r = Ok (cs, eof) /\ body_from C (match pos with Some k => k | None => 0 end) cs eof).
Definition good_server (C : string) : network :=
  Network (fun r => r = Ok (Some (String.length C)))
          (fun pos r => exists cs, r = Ok (cs, true) /\ body_from C (match pos with Some k => k | None => 0 end) cs true).
Lemma str_cut k : forall C, k <= String.length C -> exists a b, C = (a ++ b)%string /\ String.length a = k.
Proof.
  induction k as [|k IH]; intros C H; [exists "", C; auto|]. destruct C as [|c C]; cbn in H; [lia|]. destruct (IH C ltac:(lia)) as (a & b & -> & Ha). exists (String c a), b. cbn. auto.
Qed.
Example ex_C67_honest : forall C, honest (server C) C /\ honest (good_server C) C /\ reliable (good_server C) C.
Proof.
  intros C. assert (Hb : forall k, k <= String.length C -> exists cs, body_from C k cs true).
  { intros k Hk. destruct (str_cut k C Hk) as (a & b & -> & Ha). exists [b], a, "". cbn [String.concat]. rewrite sapp_nil_r. auto. }
  split; [|split].
  - split; [|split]; cbn.
    + intros r [->|H]; eauto.
    + intros r [->|H]; eauto.
    + intros k r _ [->|H]; eauto.
  - split; [|split]; cbn.
    + intros r ->. auto.
    + intros r (cs & -> & H). right. eauto.
    + intros k r _ (cs & -> & H). right. eauto.
  - split; [|split; [|split; [|split]]]; cbn.
    + eauto.
    + intros r ->. eauto.
    + destruct (Hb 0 ltac:(lia)) as (cs & H). eauto.
    + intros r (cs & -> & H). eauto.
    + intros k Hk. split; [destruct (Hb k ltac:(lia)) as (cs & H); eauto|]. intros r (cs & -> & H). eauto.
Qed.

Lemma h1 net o d p d' p' : history net o (d, [p]) -> step net (d, p) (d', p') -> history net o (d', [p']).
Proof. intros H Hs. exact (h_step net o d [] p [] d' p' H Hs). Qed.
Lemma h_last net o d ps p d' p' : history net o (d, ps ++ [p]) -> step net (d, p) (d', p') -> history net o (d', ps ++ [p']).
Proof. intros H Hs. exact (h_step net o d ps p [] d' p' H Hs). Qed.
Lemma h_first net o d p q d' p' : history net o (d, [p; q]) -> step net (d, p) (d', p') -> history net o (d', [p'; q]).
Proof. intros H Hs. exact (h_step net o d [] p [q] d' p' H Hs). Qed.

(** A first process [ps ++ [PStart]] that receives [c1 ++ c2] and has written [c1]. *)
Lemma partial net o c1 c2 cs n eof : n_head net (Ok n) -> n_get net None (Ok ((c1 ++ c2)%string :: cs, eof)) -> c1 <> "" ->
  history net o (Disk [c1] None (Some 0), [PStream (Handle 0 (Some (String.length c1))) (c2 :: cs) eof]).
Proof.
  intros Hh Hg Hc. assert (H0 : history net o (empty_disk, [PStart])) by (apply (h_start net o empty_disk []); [apply h_init|auto]).
  pose proof (h1 _ _ _ _ _ _ H0 (s_missing net empty_disk eq_refl)) as H1. pose proof (h1 _ _ _ _ _ _ H1 (s_head net empty_disk n Hh)) as H2. pose proof (h1 _ _ _ _ _ _ H2 (s_new net empty_disk _ eq_refl)) as H3.
  pose proof (h1 _ _ _ _ _ _ H3 (s_get net empty_disk None _ _ Hg)) as H4. pose proof (h1 _ _ _ _ _ _ H4 (s_open net empty_disk false _ _)) as H5. pose proof (h1 _ _ _ _ _ _ H5 (s_write net _ _ c1 c2 cs eof Hc)) as H6.
  cbn [open_tmp empty_disk tmp cache inodes app fst snd is_some truthy length] in H6. unfold write in H6. cbn [h_pos h_inode fst snd content put_content set_nth inodes nth cache tmp] in H6.
  pose proof (write_at_end "" c1) as Hw. cbn [String.length append] in Hw.
  match type of H6 with context [write_at ?x 0 c1] => change (write_at x 0 c1) with (write_at "" 0 c1) in H6 end. rewrite Hw in H6. exact H6.
Qed.
(** the process of [partial] is killed: the temporary file holds a part *)
Example ex_C67_killed : history (server "abcdef") false (Disk ["abc"] None (Some 0), [PKilled]).
Proof.
  apply (h_kill _ _ _ [] (PStream (Handle 0 (Some 3)) ["de"] false) []). apply (partial (server "abcdef") false "abc" "de" [] (Some 6) false); [right; reflexivity| |discriminate].
  right. exists ["abcde"], false. split; [reflexivity|]. exists "", "f". repeat split. discriminate.
Qed.
(** and the next one asks only for the rest *)
Lemma stream_end net o ps d i c : history net o (d, ps ++ [PStream (Handle i None) [c] true]) -> tmp d = Some i -> i < length (inodes d) -> c <> "" ->
  history net o (Disk (set_nth (inodes d) i (content d i ++ c)%string) (Some i) None, ps ++ [PLoad]).
Proof.
  intros H Ht Hi Hc. rewrite <- (sapp_nil_r c) in H. pose proof (h_last _ _ _ _ _ _ _ H (s_write net d _ c "" [] true Hc)) as H1. unfold write in H1. cbn [h_pos fst snd h_inode] in H1.
  pose proof (h_last _ _ _ _ _ _ _ H1 (s_chunk net _ _ [] true)) as H2. pose proof (h_last _ _ _ _ _ _ _ H2 (s_eof net _ _)) as H3. pose proof (h_last _ _ _ _ _ _ _ H3 (s_rename net (put_content d i (content d i ++ c)%string) i Ht)) as H4. exact H4.
Qed.
Lemma resume net o k c : history net o (Disk [k] None (Some 0), [PKilled]) -> forall n, n_head net (Ok n) -> match n with Some n => n | None => 0 end <> String.length k -> k <> "" ->
  n_get net (Some (String.length k)) (Ok ([c], true)) -> c <> "" -> history net o (Disk [(k ++ c)%string] (Some 0) None, [PKilled; PLoad]).
Proof.
  intros H n Hh Hl Hk Hg Hc. set (d0 := Disk [k] None (Some 0)) in *. pose proof (h_start net o _ _ H (or_intror (Forall_cons PKilled I (Forall_nil _)))) as H0. cbn [app] in H0. pose proof (h_last net o _ [PKilled] _ _ _ H0 (s_missing net d0 eq_refl)) as H1. pose proof (h_last net o _ [PKilled] _ _ _ H1 (s_head net d0 n Hh)) as H2.
  pose proof (h_last net o _ [PKilled] _ _ _ H2 (s_resume net d0 _ 0 eq_refl Hl)) as H3. change (content d0 0) with k in H3.
  assert (Ht : truthy (Some (String.length k)) = Some (String.length k)) by (destruct k; [congruence|reflexivity]).
  pose proof (h_last net o _ [PKilled] _ _ _ H3 (s_get net d0 (Some (String.length k)) [c] true ltac:(rewrite Ht; exact Hg))) as H4. rewrite Ht in H4. cbn [is_some] in H4.
  pose proof (h_last net o _ [PKilled] _ _ _ H4 (s_open net d0 true _ _)) as H5. unfold open_tmp in H5. cbn [d0 tmp fst snd] in H5. apply (stream_end net o [PKilled] _ 0 c) in H5; [exact H5|reflexivity|cbn; lia|exact Hc].
Qed.
Example ex_C67_resumed : history (server "abcdef") false (Disk ["abcdef"] (Some 0) None, [PKilled; PLoad]).
Proof.
  apply (resume _ _ "abc" "def" ex_C67_killed (Some 6)); try discriminate; [right; reflexivity|]. right. exists ["def"], true. split; [reflexivity|]. exists "abc", "". repeat split.
Qed.

(** *** Without the hypotheses *)
(** streams that end early without an exception: a part of the run is installed *)
Definition may_truncate (net : network) (C : string) : Prop :=
  (forall r, n_head net r -> r = Ok (Some (String.length C))) /\
  (forall pos r, n_get net pos r -> exists cs eof, r = Ok (cs, eof) /\ body_from C (match pos with Some k => k | None => 0 end) cs false).
Theorem C67_truncated_refuted : ~ (forall net C d ps i, may_truncate net C -> history net false (d, ps) -> cache d = Some i -> content d i = C).
Proof.
  intros H. set (net := Network (fun r => r = Ok (Some 6)) (fun pos r => pos = None /\ r = Ok (["abc"], true))).
  assert (Hm : may_truncate net "abcdef").
  { split; cbn; [auto|]. intros pos r [-> ->]. exists ["abc"], true. split; [reflexivity|]. exists "", "def". repeat split. discriminate. }
  assert (Hh : history net false (Disk ["abc"] (Some 0) None, [PLoad])).
  { pose proof (partial net false "abc" "" [] (Some 6) true eq_refl (conj eq_refl eq_refl) ltac:(discriminate)) as H1. pose proof (h1 _ _ _ _ _ _ H1 (s_chunk net _ _ [] true)) as H2. pose proof (h1 _ _ _ _ _ _ H2 (s_eof net _ _)) as H3. exact (h1 _ _ _ _ _ _ H3 (s_rename net (Disk ["abc"] None (Some 0)) 0 eq_refl)). }
  specialize (H net "abcdef" _ _ 0 Hm Hh eq_refl). discriminate H.
Qed.
Print Assumptions C67_truncated_refuted.

(** HTTP errors are not looked at: an error page is installed, and stays *)
Theorem C67_error_page_refuted : ~ (forall net C page d ps i, (forall r, n_head net r -> r = Ok (Some (String.length page))) -> (forall pos r, n_get net pos r -> r = Ok ([page], true)) ->
  page <> C -> history net false (d, ps) -> cache d = Some i -> content d i <> page).
Proof.
  intros H. set (net := Network (fun r => r = Ok (Some 5)) (fun pos r => r = Ok (["<404>"], true))).
  assert (Hh : history net false (Disk ["<404>"] (Some 0) None, [PLoad])).
  { pose proof (partial net false "<404>" "" [] (Some 5) true eq_refl eq_refl ltac:(discriminate)) as H1. pose proof (h1 _ _ _ _ _ _ H1 (s_chunk net _ _ [] true)) as H2. pose proof (h1 _ _ _ _ _ _ H2 (s_eof net _ _)) as H3. exact (h1 _ _ _ _ _ _ H3 (s_rename net (Disk ["<404>"] None (Some 0)) 0 eq_refl)). }
  exact (H net "abcdef" "<404>" _ _ 0 ltac:(cbn; auto) ltac:(cbn; auto) ltac:(discriminate) Hh eq_refl eq_refl).
Qed.
Print Assumptions C67_error_page_refuted.

(** a server that does not tell the size: after a kill just before the rename, the answer to a request for nothing (an error page) is appended *)
Definition no_size (net : network) (C page : string) : Prop :=
  (forall r, n_head net r -> r = Ok None) /\
  (forall pos r, n_get net pos r -> r = match pos with None => Ok ([C], true) | Some k => if k <? String.length C then Ok ([str_drop k C], true) else Ok ([page], true) end).
Theorem C67_no_size_refuted : ~ (forall net C page d ps i, no_size net C page -> history net false (d, ps) -> cache d = Some i -> content d i = C).
Proof.
  intros H. set (net := Network (fun r => r = Ok None) (fun pos r => r = match pos with None => Ok (["abc"], true) | Some k => if k <? 3 then Ok ([str_drop k "abc"], true) else Ok (["<416>"], true) end)).
  assert (Hm : no_size net "abc" "<416>") by (split; cbn; auto).
  assert (H1 : history net false (Disk ["abc"] None (Some 0), [PKilled])).
  { apply (h_kill _ _ _ [] (PStream (Handle 0 (Some 3)) [""] true) []). apply (partial net false "abc" "" [] None true eq_refl eq_refl). discriminate. }
  pose proof (resume net false "abc" "<416>" H1 None eq_refl ltac:(discriminate) ltac:(discriminate) eq_refl ltac:(discriminate)) as H2.
  specialize (H net "abc" "<416>" _ _ 0 Hm H2 eq_refl). discriminate H.
Qed.
Print Assumptions C67_no_size_refuted.

(** a remote file that changes between two attempts: the two versions are mixed *)
Theorem C67_changed_refuted : ~ (forall net C1 C2 d ps i,
  (forall r, n_head net r -> r = Ok (Some (String.length C1)) \/ r = Ok (Some (String.length C2))) ->
  (forall pos r, n_get net pos r -> exists cs eof, r = Ok (cs, eof) /\ (body_from C1 (match pos with Some k => k | None => 0 end) cs eof \/ body_from C2 (match pos with Some k => k | None => 0 end) cs eof)) ->
  history net false (d, ps) -> cache d = Some i -> content d i = C1 \/ content d i = C2).
Proof.
  intros H. set (net := Network (fun r => r = Ok (Some 4)) (fun pos r => match pos with None => r = Ok (["abcd"], true) | Some _ => pos = Some 2 /\ r = Ok (["yz"], true) end)).
  assert (H1 : history net false (Disk ["ab"] None (Some 0), [PKilled])).
  { apply (h_kill _ _ _ [] (PStream (Handle 0 (Some 2)) ["cd"] true) []). apply (partial net false "ab" "cd" [] (Some 4) true eq_refl eq_refl). discriminate. }
  pose proof (resume net false "ab" "yz" H1 (Some 4) eq_refl ltac:(discriminate) ltac:(discriminate) (conj eq_refl eq_refl) ltac:(discriminate)) as H2.
  assert (Hg : forall pos r, n_get net pos r -> exists cs eof, r = Ok (cs, eof) /\ (body_from "abcd" (match pos with Some k => k | None => 0 end) cs eof \/ body_from "wxyz" (match pos with Some k => k | None => 0 end) cs eof)).
  { intros [k|] r; cbn.
    - intros [Hk ->]. injection Hk as ->. exists ["yz"], true. split; [reflexivity|]. right. exists "wx", "". repeat split.
    - intros ->. exists ["abcd"], true. split; [reflexivity|]. left. exists "", "". repeat split. }
  destruct (H net "abcd" "wxyz" _ _ 0 ltac:(cbn; auto) Hg H2 eq_refl) as [Hc|Hc]; discriminate Hc.
Qed.
Print Assumptions C67_changed_refuted.

(** two processes at once, with a well-behaved server: the cache is corrupted *)
Theorem C71_overlap_refuted : ~ (forall net C d ps i, honest net C -> history net true (d, ps) -> cache d = Some i -> content d i = C).
Proof.
  intros H. set (net := server "ab").
  assert (H1 : history net true (Disk ["a"] None (Some 0), [PStream (Handle 0 (Some 1)) ["b"] true])).
  { apply (partial net true "a" "b" [] (Some 2) true); [right; reflexivity| |discriminate]. right. exists ["ab"], true. split; [reflexivity|]. exists "", "". repeat split. }
  set (p1 := PStream (Handle 0 (Some 1)) ["b"] true) in *. set (d1 := Disk ["a"] None (Some 0)) in *.
  pose proof (h_start net true d1 [p1] H1 (or_introl eq_refl)) as H2. pose proof (h_last net true d1 [p1] _ _ _ H2 (s_missing net d1 eq_refl)) as H3. pose proof (h_last net true d1 [p1] _ _ _ H3 (s_head net d1 (Some 2) (or_intror eq_refl))) as H4.
  pose proof (h_last net true d1 [p1] _ _ _ H4 (s_resume net d1 2 0 eq_refl ltac:(discriminate))) as H5.
  assert (Hg : n_get net (truthy (Some 1)) (Ok (["b"], true))) by (right; exists ["b"], true; split; [reflexivity|]; exists "a", ""; repeat split).
  pose proof (h_last net true d1 [p1] _ _ _ H5 (s_get net d1 (Some 1) _ _ Hg)) as H6. pose proof (h_last net true d1 [p1] _ _ _ H6 (s_open net d1 true _ _)) as H7. cbn [open_tmp d1 tmp fst snd app] in H7.
  pose proof (h_first net true _ _ _ _ _ H7 (s_write net _ (Handle 0 (Some 1)) "b" "" [] true ltac:(discriminate))) as H8. unfold write in H8. cbn [h_pos h_inode fst snd] in H8.
  match type of H8 with history _ _ (?d, [?p; _]) => pose proof (stream_end net true [p] d 0 "b" H8 eq_refl ltac:(cbn; lia) ltac:(discriminate)) as H9 end.
  specialize (H net "ab" _ _ 0 (proj1 (ex_C67_honest "ab")) H9 eq_refl). discriminate H.
Qed.
Print Assumptions C71_overlap_refuted.

(** a run that is in the cache is only read: no request is made and no file changes *)
Theorem C71_cached : forall net d i, cache d = Some i -> forall n d' p', goes_to net n (d, PStart) (d', p') ->
  d' = d /\ (p' = PStart \/ p' = PLoad \/ p' = PDone (Ok (content d i))) /\ n <= 2 /\ (n = 2 -> p' = PDone (Ok (content d i))).
Proof.
  intros net d i Hc n d' p' Hg. destruct n as [|[|[|n]]]; cbn [goes_to] in Hg.
  - injection Hg as <- <-. repeat split; auto. discriminate.
  - destruct Hg as (z & Hs & Hg). subst z. inversion Hs; subst; [|congruence]. repeat split; auto. discriminate.
  - destruct Hg as (z & Hs & z' & Hs' & Hg). subst z'. inversion Hs; subst; [|congruence]. inversion Hs'; subst; [|congruence]. assert (i1 = i) by congruence. subst. auto.
  - exfalso. destruct Hg as (z & Hs & z' & Hs' & z'' & Hs'' & _). inversion Hs; subst; [|congruence]. inversion Hs'; subst; [|congruence]. inversion Hs''.
Qed.
Print Assumptions C71_cached.
Example ex_C71 : cache (Disk ["abcdef"] (Some 0) None) = Some 0 /\ goes_to (server "abcdef") 2 (Disk ["abcdef"] (Some 0) None, PStart) (Disk ["abcdef"] (Some 0) None, PDone (Ok "abcdef")).
Proof. split; [reflexivity|]. eexists. split; [apply (s_cached _ _ 0); reflexivity|]. eexists. split; [apply (s_load _ (Disk ["abcdef"] (Some 0) None) 0); reflexivity|reflexivity]. Qed.
