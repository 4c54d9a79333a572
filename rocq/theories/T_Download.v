(** T_Download.v: interrupted downloads (C67) *)
From Coq Require Import Lia.
From Verif Require Import Base Dict M_Download Spec_Download P_Base P_Strings P_IO.
Open Scope string_scope.
Open Scope list_scope.
Open Scope nat_scope.

Lemma slen_app a b : String.length (a ++ b) = String.length a + String.length b.
Proof. induction a as [|c a IH]; cbn; [reflexivity|]. now rewrite IH. Qed.
Lemma str_take_all s n : String.length s <= n -> str_take n s = s.
Proof. revert n. induction s as [|c s IH]; intros n H; destruct n; cbn in *; try reflexivity; try lia. f_equal. apply IH. lia. Qed.
Lemma str_drop_all s n : String.length s <= n -> str_drop n s = "".
Proof. revert n. induction s as [|c s IH]; intros n H; destruct n; cbn in *; try reflexivity; try lia. apply IH. lia. Qed.
Lemma write_at_end s c : write_at s (String.length s) c = (s ++ c)%string.
Proof. unfold write_at. rewrite str_take_all, str_drop_all by lia. rewrite Nat.sub_diag. cbn [zeros append]. now rewrite sapp_nil_r. Qed.
Lemma sapp_inj_len a b c d : (a ++ b = c ++ d)%string -> String.length a = String.length c -> a = c /\ b = d.
Proof.
  revert c. induction a as [|x a IH]; intros [|y c] H Hl; try discriminate Hl; cbn in *; [auto|]. injection H as -> H. injection Hl as Hl. destruct (IH c H Hl) as [-> ->]. auto.
Qed.
Lemma content_put d i s j : i < length (inodes d) -> content (put_content d i s) j = if Nat.eqb j i then s else content d j.
Proof.
  intros Hi. unfold content, put_content. cbn [inodes]. destruct (Nat.eqb_spec j i) as [ -> |Hne].
  - apply nth_error_nth with (d := "") . now apply nth_error_set_nth_eq.
  - destruct (nth_error (inodes d) j) as [v|] eqn:Hj.
    + rewrite (nth_error_nth _ _ "" Hj). apply nth_error_nth. now rewrite nth_error_set_nth_neq by congruence.
    + apply nth_error_None in Hj. rewrite !nth_overflow; [reflexivity|exact Hj|now rewrite set_nth_length].
Qed.

Section Inv.
Context (net : network) (C : string) (Hnet : honest net C).

(** the files between two steps *)
Record files_ok (d : disk) : Prop := {
  f_cache : forall i, cache d = Some i -> i < length (inodes d) /\ content d i = C;
  f_tmp : forall i, tmp d = Some i -> i < length (inodes d) /\ begins (content d i) C;
  f_apart : forall i j, cache d = Some i -> tmp d = Some j -> i <> j
}.
(** what a running process knows *)
Definition knows (d : disk) (p : proc) : Prop :=
  match p with
  | PStart | PKilled | PDone (Err _) => True
  | PDone (Ok c) => c = C
  | PHead => cache d = None
  | PStat size => cache d = None /\ size = String.length C
  | PGet None => cache d = None /\ tmp d = None
  | PGet (Some k) => cache d = None /\ exists i, tmp d = Some i /\ k = String.length (content d i) /\ k < String.length C
  | POpen false cs eof => cache d = None /\ body_from C 0 cs eof
  | POpen true cs eof => cache d = None /\ exists i, tmp d = Some i /\ body_from C (String.length (content d i)) cs eof
  | PStream h cs eof => cache d = None /\ tmp d = Some (h_inode h) /\ (forall n, h_pos h = Some n -> n = String.length (content d (h_inode h))) /\
                        exists after, C = (content d (h_inode h) ++ String.concat "" cs ++ after)%string /\ (eof = true -> after = "")
  | PRename => cache d = None /\ exists i, tmp d = Some i /\ content d i = C
  | PLoad => exists i, cache d = Some i
  end.
Lemma begins_len s : begins s C -> String.length s <= String.length C.
Proof. intros (t & ->). rewrite slen_app. lia. Qed.
Lemma begins_full s : begins s C -> String.length s = String.length C -> s = C.
Proof. intros (t & H) Hl. rewrite H, slen_app in Hl. destruct t; [|cbn in Hl; lia]. now rewrite sapp_nil_r in H. Qed.

Lemma step_ok d p d' p' : files_ok d -> knows d p -> step net (d, p) (d', p') -> files_ok d' /\ knows d' p'.
Proof.
  intros [Fc Ft Fa] Hk Hs. destruct Hnet as (N1 & N2 & N3). inversion Hs; subst; clear Hs; cbn [knows] in *; try (split; [split; assumption|]).
  - eauto.
  - assumption.
  - destruct (N1 _ H0) as [(e & He)|He]; [discriminate|]. injection He as ->. auto.
  - exact I.
  - destruct Hk as [Hc _]. auto.
  - destruct Hk as [Hc Hl]. split; [exact Hc|]. exists i. split; [assumption|]. match goal with H : tmp _ = Some i |- _ => destruct (Ft i H) as [_ Hb] end. apply begins_full; auto.
  - destruct Hk as [Hc Hl]. split; [exact Hc|]. exists i. split; [assumption|]. split; [reflexivity|]. match goal with H : tmp _ = Some i |- _ => destruct (Ft i H) as [_ Hb] end. apply begins_len in Hb. lia.
  - (* get *)
    destruct r as [[|k]|]; cbn [truthy is_some] in *.
    + destruct Hk as [Hc _]. destruct (N2 _ H0) as [(e & He)|(cs' & eof' & He & Hb)]; [discriminate|]. injection He as <- <-. auto.
    + destruct Hk as (Hc & i & Hi & Hl & Hlt). destruct (N3 (S k) _ ltac:(lia) H0) as [(e & He)|(cs' & eof' & He & Hb)]; [discriminate|]. injection He as <- <-. split; [exact Hc|]. exists i. split; [exact Hi|]. now rewrite <- Hl.
    + destruct Hk as [Hc _]. destruct (N2 _ H0) as [(e & He)|(cs' & eof' & He & Hb)]; [discriminate|]. injection He as <- <-. auto.
  - exact I.
  - (* open *)
    unfold open_tmp. destruct (tmp d) as [i|] eqn:Ht.
    + destruct (Ft i eq_refl) as [Hi Hb]. destruct a; cbn [fst snd].
      * destruct Hk as (Hc & i' & Hi' & before & after & Hcc & Hl & Hz). injection Hi' as <-. split; [constructor; rewrite ?Ht; auto|]. split; [exact Hc|]. split; [exact Ht|]. split; [discriminate|]. cbn [h_inode].
        exists after. split; [|exact Hz]. destruct Hb as (t & Hb). assert (before = content d i /\ (String.concat "" cs ++ after)%string = t) as [-> <-]; [|exact Hcc]. apply sapp_inj_len; [congruence|exact Hl].
      * destruct Hk as (Hc & before & after & Hcc & Hl & Hz). split.
        -- constructor; cbn [cache tmp put_content].
           ++ congruence.
           ++ intros j Hj. rewrite Ht in Hj. injection Hj as <-. rewrite content_put, Nat.eqb_refl by exact Hi. cbn [inodes put_content]. rewrite set_nth_length. split; [exact Hi|]. now exists C.
           ++ congruence.
        -- cbn [put_content cache tmp]. split; [exact Hc|]. split; [exact Ht|]. change (Disk (set_nth (inodes d) i "") (cache d) (tmp d)) with (put_content d i ""). cbn [h_inode h_pos]. rewrite content_put, Nat.eqb_refl by exact Hi.
           split; [intros n Hn; injection Hn as <-; reflexivity|]. exists after. destruct before; [|discriminate]. auto.
    + cbn [fst snd]. set (n := length (inodes d)). assert (Hn : content (Disk (inodes d ++ [""]) (cache d) (Some n)) n = "") by (unfold content; cbn [inodes]; rewrite app_nth2 by (unfold n; lia); unfold n; now rewrite Nat.sub_diag).
      assert (Hf : cache d = None -> files_ok (Disk (inodes d ++ [""]) (cache d) (Some n))).
      { intros Hc. constructor; cbn [cache tmp].
        - congruence.
        - intros j Hj. injection Hj as <-. rewrite Hn. cbn [inodes]. rewrite app_length. cbn. split; [unfold n; lia|]. now exists C.
        - congruence. }
      destruct a.
      * destruct Hk as (Hc & i' & Hi' & _). discriminate.
      * destruct Hk as (Hc & before & after & Hcc & Hl & Hz). split; [now apply Hf|]. cbn [cache tmp h_inode h_pos]. split; [exact Hc|]. split; [reflexivity|]. rewrite Hn. split; [intros m Hm; injection Hm as <-; reflexivity|]. exists after. destruct before; [|discriminate]. auto.
  - (* write *)
    destruct Hk as (Hc & Ht & Hp & after & Hcc & Hz). destruct (Ft _ Ht) as [Hi Hb]. rewrite concat_cons, !sapp_assoc in Hcc.
    assert (Hw : exists h', write d h c1 = (put_content d (h_inode h) (content d (h_inode h) ++ c1), h') /\ h_inode h' = h_inode h /\ (forall n, h_pos h' = Some n -> n = String.length (content d (h_inode h) ++ c1))).
    { unfold write. destruct (h_pos h) as [n|] eqn:Hh.
      - rewrite (Hp n eq_refl), write_at_end. eexists. split; [reflexivity|]. split; [reflexivity|]. cbn [h_pos]. intros m Hm. injection Hm as <-. now rewrite slen_app.
      - exists h. split; [reflexivity|]. split; [reflexivity|]. congruence. }
    destruct Hw as (h' & -> & Hh & Hp'). cbn [fst snd]. split.
    + constructor; cbn [cache tmp put_content].
      * congruence.
      * intros j Hj. rewrite Ht in Hj. injection Hj as <-. rewrite content_put, Nat.eqb_refl by exact Hi. cbn [inodes put_content]. rewrite set_nth_length. split; [exact Hi|]. exists (c2 ++ String.concat "" cs ++ after)%string. now rewrite sapp_assoc.
      * congruence.
    + cbn [put_content cache tmp]. split; [exact Hc|]. rewrite Hh. split; [exact Ht|]. change (Disk (set_nth (inodes d) (h_inode h) (content d (h_inode h) ++ c1)%string) (cache d) (tmp d)) with (put_content d (h_inode h) (content d (h_inode h) ++ c1)%string).
      rewrite content_put, Nat.eqb_refl by exact Hi. split; [exact Hp'|]. exists after. rewrite concat_cons, !sapp_assoc. auto.
  - destruct Hk as (Hc & Ht & Hp & after & Hcc & Hz). split; [exact Hc|]. split; [exact Ht|]. split; [exact Hp|]. exists after. rewrite concat_cons in Hcc. auto.
  - destruct Hk as (Hc & Ht & Hp & after & Hcc & Hz). split; [exact Hc|]. eexists. split; [exact Ht|]. rewrite (Hz eq_refl) in Hcc. cbn [String.concat append] in Hcc. now rewrite sapp_nil_r in Hcc.
  - exact I.
  - destruct Hk as (Hc & i' & Hi' & Hcc). assert (i' = i) by congruence. subst i'. destruct (Ft _ Hi') as [Hi _]. split; [|exists i; reflexivity]. constructor; cbn [cache tmp]; try discriminate. intros j Hj. injection Hj as <-. auto.
  - exact I.
  - match goal with H : cache _ = Some i |- _ => now destruct (Fc i H) end.
  - exact I.
Qed.
Lemma finished_knows d d' p : finished p -> knows d p -> knows d' p.
Proof. destruct p; cbn; tauto. Qed.
(** without overlap, at most the last process is at work *)
Lemma history_ok d ps : history net false (d, ps) -> files_ok d /\ Forall (knows d) ps /\ (Forall finished ps \/ exists ps0 p, ps = ps0 ++ [p] /\ Forall finished ps0).
Proof.
  intros H. remember (d, ps) as st eqn:Hst. revert d ps Hst. induction H as [|d ps H IH Hf|d ps1 p ps2 d' p' H IH Hs|d ps1 p ps2 H IH]; intros d0 ps0 Hst; injection Hst as <- <-.
  - split; [constructor; discriminate|]. auto.
  - destruct (IH d ps eq_refl) as (I1 & I2 & _). split; [exact I1|]. split; [apply Forall_app; repeat constructor; auto|]. right. exists ps, PStart. destruct Hf as [|Hf]; [discriminate|auto].
  - destruct (IH _ _ eq_refl) as (I1 & I2 & I3).
    assert (Hnf : ~ finished p) by (inversion Hs; subst; cbn; tauto).
    assert (Hlast : ps2 = [] /\ Forall finished ps1).
    { destruct I3 as [I3|(q0 & q & Hq & I3)].
      - exfalso. apply Forall_app in I3 as [_ I3]. inversion I3; subst. now apply Hnf.
      - destruct ps2 as [|p2 ps2 _] using rev_ind.
        + apply app_inj_tail in Hq as [-> _]. auto.
        + exfalso. rewrite app_comm_cons, app_assoc in Hq. apply app_inj_tail in Hq as [<- _]. apply Forall_app in I3 as [_ I3]. inversion I3; subst. now apply Hnf. }
    destruct Hlast as [-> Hf1]. apply Forall_app in I2 as [I2 I2']. inversion I2' as [|? ? Hp _]; subst. destruct (step_ok _ _ _ _ I1 Hp Hs) as [J1 J2]. split; [exact J1|]. split.
    + apply Forall_app. split; [|now constructor]. rewrite Forall_forall in *. intros q Hq. eapply finished_knows; [now apply Hf1|now apply I2].
    + right. exists ps1, p'. auto.
  - destruct (IH _ _ eq_refl) as (I1 & I2 & I3). split; [exact I1|]. apply Forall_app in I2 as [I2 I2']. inversion I2' as [|? ? Hp I2'']; subst. split; [apply Forall_app; split; [exact I2|constructor; [exact I|exact I2'']]|].
    destruct I3 as [I3|(q0 & q & Hq & I3)].
    + left. apply Forall_app in I3 as [J1 J2]. inversion J2; subst. apply Forall_app. split; [exact J1|]. constructor; [exact I|assumption].
    + destruct ps2 as [|p2 ps2 _] using rev_ind.
      * apply app_inj_tail in Hq as [-> _]. left. apply Forall_app. split; [exact I3|]. repeat constructor.
      * right. rewrite app_comm_cons, app_assoc in Hq. apply app_inj_tail in Hq as [<- ->]. exists (ps1 ++ PKilled :: ps2), q. split; [now rewrite app_comm_cons, app_assoc|]. apply Forall_app in I3 as [J1 J2]. inversion J2; subst. apply Forall_app. split; [exact J1|]. constructor; [exact I|assumption].
Qed.

(** ** every process that is left alone ends *)
Definition after (y x : disk * proc) : Prop := step net x y.
Ltac stepping := constructor; intros [?d ?p] ?Hs; unfold after in *; inversion Hs; subst; clear Hs.
Lemma acc_done d r : Acc after (d, PDone r).
Proof. stepping. Qed.
Lemma acc_load d : Acc after (d, PLoad).
Proof. stepping; apply acc_done. Qed.
Lemma acc_rename d : Acc after (d, PRename).
Proof. stepping; [apply acc_load|apply acc_done]. Qed.
Lemma acc_stream cs : forall d h eof, Acc after (d, PStream h cs eof).
Proof.
  induction cs as [|c cs IH]; intros d h eof.
  - stepping; [apply acc_rename|apply acc_done].
  - assert (Hn : forall n c, String.length c <= n -> forall d h, Acc after (d, PStream h (c :: cs) eof)); [|exact (Hn _ c (le_n _) d h)].
    clear c d h. induction n as [|n IHn]; intros c Hc d h; stepping; try apply IH.
    + destruct c1; [congruence|cbn in Hc; lia].
    + apply IHn. destruct c1; [congruence|]. cbn in Hc. rewrite slen_app in Hc. lia.
Qed.
Lemma acc_get d r : Acc after (d, PGet r).
Proof. stepping; [|apply acc_done]. stepping. apply acc_stream. Qed.
Lemma acc_stat d n : Acc after (d, PStat n).
Proof. stepping; [apply acc_get|apply acc_rename|apply acc_get]. Qed.
Lemma acc_all d p : Acc after (d, p).
Proof.
  destruct p.
  - stepping; [apply acc_load|]. stepping; [apply acc_stat|apply acc_done].
  - stepping; [apply acc_stat|apply acc_done].
  - apply acc_stat.
  - apply acc_get.
  - stepping. apply acc_stream.
  - apply acc_stream.
  - apply acc_rename.
  - apply acc_load.
  - apply acc_done.
  - stepping.
Qed.
(** with a reliable server it never is stuck, nor fails *)
Definition no_failure (p : proc) : Prop := match p with PDone (Err _) | POpen _ _ false | PStream _ _ false => False | _ => True end.
Lemma progress d p : reliable net C -> files_ok d -> knows d p -> no_failure p -> ~ finished p -> exists st, step net (d, p) st.
Proof.
  intros (R1 & R2 & R3 & R4 & R5) Hf Hk Hn Hp. destruct p; cbn [finished knows no_failure] in *; try tauto.
  - destruct (cache d) as [i|] eqn:Hc; eexists; [eapply s_cached|apply s_missing]; eauto.
  - destruct R1 as (r & Hr). destruct (R2 r Hr) as (n & ->). eexists. exact (s_head net d n Hr).
  - destruct (tmp d) as [i|] eqn:Ht; [|eexists; apply s_new; exact Ht]. destruct (Nat.eq_dec size (String.length (content d i))); eexists; [eapply s_complete|eapply s_resume]; eauto.
  - destruct resume as [[|k]|].
    + destruct R3 as (r & Hr). destruct (R4 r Hr) as (cs & ->). eexists. eapply (s_get net d (Some 0)). exact Hr.
    + destruct Hk as (Hc & i & Hi & Hl & Hlt). destruct (R5 (S k) ltac:(lia)) as [(r & Hr) R6]. destruct (R6 r Hr) as (cs & ->). eexists. eapply (s_get net d (Some (S k))). exact Hr.
    + destruct R3 as (r & Hr). destruct (R4 r Hr) as (cs & ->). eexists. eapply (s_get net d None). exact Hr.
  - eexists. apply s_open.
  - destruct chunks as [|c cs].
    + destruct eof; eexists; [apply s_eof|apply s_drop].
    + destruct c as [|a c]; eexists; [apply s_chunk|]. apply (s_write net d h (String a "") c). discriminate.
  - destruct Hk as (_ & i & Hi & _). eexists. eapply s_rename. exact Hi.
  - destruct Hk as (i & Hi). eexists. eapply s_load. exact Hi.
Qed.
Lemma keeps_going d p d' p' : reliable net C -> files_ok d -> knows d p -> no_failure p -> step net (d, p) (d', p') -> no_failure p'.
Proof.
  intros (R1 & R2 & R3 & R4 & R5) Hf Hk Hn Hs. inversion Hs; subst; cbn [no_failure knows] in *; try tauto.
  - destruct (R2 _ H0) as (n & Hr). discriminate.
  - destruct r as [[|k]|]; cbn [truthy is_some] in *.
    + destruct (R4 _ H0) as (cs' & Hr). injection Hr as <- ->. exact I.
    + destruct Hk as (Hc & i & Hi & Hl & Hlt). destruct (R5 (S k) ltac:(lia)) as [_ R6]. destruct (R6 _ H0) as (cs' & Hr). injection Hr as <- ->. exact I.
    + destruct (R4 _ H0) as (cs' & Hr). injection Hr as <- ->. exact I.
  - destruct r as [[|k]|]; cbn [truthy is_some] in *.
    + destruct (R4 _ H0) as (cs' & Hr). discriminate.
    + destruct Hk as (Hc & i & Hi & Hl & Hlt). destruct (R5 (S k) ltac:(lia)) as [_ R6]. destruct (R6 _ H0) as (cs' & Hr). discriminate.
    + destruct (R4 _ H0) as (cs' & Hr). discriminate.
  - destruct Hk as (_ & i & Hi & _). congruence.
  - destruct Hk as (i & Hi). congruence.
Qed.
End Inv.

(** For every history of processes that do not overlap, killed at any point, with any network failures: the cache file, once
    there, holds exactly the remote bytes; what a call returns are the remote bytes; and the temporary file is a beginning of them. *)
Theorem C67_safe : forall net C d ps, honest net C -> history net false (d, ps) ->
  (forall i, cache d = Some i -> content d i = C) /\ (forall i, tmp d = Some i -> begins (content d i) C) /\ (forall r, In (PDone (Ok r)) ps -> r = C).
Proof.
  intros net C d ps Hn Hh. destruct (history_ok net C Hn d ps Hh) as ([Fc Ft Fa] & Hk & _). split; [|split].
  - intros i Hi. now destruct (Fc i Hi).
  - intros i Hi. now destruct (Ft i Hi).
  - intros r Hr. rewrite Forall_forall in Hk. exact (Hk _ Hr).
Qed.

(** The file a write leaves, byte by byte: the new bytes at the position, zeros in a gap before it, everything else as before. *)
Lemma get_app s t i : String.get i (s ++ t) = if i <? String.length s then String.get i s else String.get (i - String.length s) t.
Proof.
  revert i. induction s as [|c s IH]; intros [|i]; cbn [append String.get String.length]; try reflexivity. rewrite IH. reflexivity.
Qed.
Lemma get_take n : forall s i, String.get i (str_take n s) = if i <? n then String.get i s else None.
Proof.
  induction n as [|n IH]; intros [|c s] [|i]; cbn [str_take String.get]; try reflexivity; [now destruct (S i <? S n)|]. apply IH.
Qed.
Lemma get_drop n : forall s i, String.get i (str_drop n s) = String.get (n + i) s.
Proof. induction n as [|n IH]; intros [|c s] i; cbn [str_drop String.get Nat.add]; try reflexivity. apply IH. Qed.
Lemma length_take n : forall s, String.length (str_take n s) = Nat.min n (String.length s).
Proof. induction n as [|n IH]; intros [|c s]; cbn; auto. Qed.
Lemma length_zeros n : String.length (zeros n) = n.
Proof. induction n; cbn; auto. Qed.
Lemma get_zeros n : forall i, i < n -> String.get i (zeros n) = Some zero.
Proof. induction n as [|n IH]; intros [|i] H; cbn; try lia; [reflexivity|apply IH; lia]. Qed.
Lemma get_short s : forall i, String.length s <= i -> String.get i s = None.
Proof. induction s as [|c s IH]; intros [|i] H; cbn in *; try lia; try reflexivity. apply IH. lia. Qed.
Theorem C67_write : forall s pos c i,
  String.get i (write_at s pos c) =
    if i <? pos then (if i <? String.length s then String.get i s else Some zero)
    else if i <? pos + String.length c then String.get (i - pos) c else String.get i s.
Proof.
  intros s pos c i. unfold write_at. rewrite !get_app, get_take, get_drop, length_take, length_zeros.
  assert (Hn : forall t k, k <? String.length t = true -> String.get k t <> None).
  { induction t as [|x t IH]; intros [|k] Hk; cbn in *; try discriminate. apply (IH k). exact Hk. }
  destruct (Nat.ltb_spec i pos) as [Hp|Hp].
  - destruct (Nat.ltb_spec i (String.length s)) as [Hs|Hs].
    + destruct (Nat.ltb_spec i (Nat.min pos (String.length s))); [reflexivity|lia].
    + destruct (Nat.ltb_spec i (Nat.min pos (String.length s))); [lia|]. destruct (Nat.ltb_spec (i - Nat.min pos (String.length s)) (pos - String.length s)); [|lia]. apply get_zeros. lia.
  - destruct (Nat.ltb_spec i (Nat.min pos (String.length s))); [lia|]. destruct (Nat.ltb_spec (i - Nat.min pos (String.length s)) (pos - String.length s)); [lia|].
    replace (i - Nat.min pos (String.length s) - (pos - String.length s)) with (i - pos) by lia.
    destruct (Nat.ltb_spec (i - pos) (String.length c)), (Nat.ltb_spec i (pos + String.length c)); try lia; [reflexivity|]. f_equal. lia.
Qed.
Print Assumptions C67_write.
Print Assumptions C67_safe.

(** The cache file appears by a rename, when the temporary file is complete, and never changes afterwards. *)
Theorem C67_atomic : forall net C d ps1 p ps2 d' p', honest net C -> history net false (d, ps1 ++ p :: ps2) -> step net (d, p) (d', p') ->
  cache d' <> cache d \/ (exists i, cache d = Some i /\ content d' i <> content d i) ->
  p = PRename /\ cache d = None /\ exists i, tmp d = Some i /\ content d i = C /\ cache d' = Some i /\ content d' i = C.
Proof.
  intros net C d ps1 p ps2 d' p' Hn Hh Hs Hc. destruct (history_ok net C Hn _ _ Hh) as (Hf & Hk & _). apply Forall_app in Hk as [_ Hk]. inversion Hk as [|? ? Hkp _]; subst.
  destruct (step_ok net C Hn d p d' p' Hf Hkp Hs) as [Hf' Hk'].
  assert (Hcase : p = PRename \/ cache d' = cache d).
  { inversion Hs; subst; auto; right.
    - unfold open_tmp. destruct (tmp d); [destruct a|]; reflexivity.
    - unfold write. destruct (h_pos h); reflexivity. }
  destruct Hc as [Hc|(i & Hi & Hc)].
  - destruct Hcase as [->|]; [|congruence]. inversion Hs; subst; [|congruence]. cbn [knows] in Hkp. destruct Hkp as (K1 & i' & K2 & K3). split; [reflexivity|]. split; [exact K1|]. exists i'. assert (i' = i) by congruence. subst. auto.
  - exfalso. apply Hc. destruct Hcase as [->|He].
    + destruct Hkp as (H1 & _). congruence.
    + rewrite (proj2 (f_cache C d Hf i Hi)). apply (f_cache C d' Hf' i). congruence.
Qed.
Print Assumptions C67_atomic.

(** Whatever happened before, a call that is not killed, with a reliable server, ends, and returns the remote bytes. *)
Definition goes_to (net : network) := fix go (n : nat) (x y : disk * proc) : Prop := match n with 0 => x = y | S n' => exists z, step net x z /\ go n' z y end.
Theorem C67_retry_succeeds : forall net net' C d ps, honest net C -> history net false (d, ps) -> Forall finished ps -> honest net' C -> reliable net' C ->
  Acc (fun y x => step net' x y) (d, PStart) /\
  forall n d' p', goes_to net' n (d, PStart) (d', p') ->
    (exists st, step net' (d', p') st) \/ (p' = PDone (Ok C) /\ exists i, cache d' = Some i /\ content d' i = C).
Proof.
  intros net net' C d ps Hn Hh Hfin Hn' Hr. destruct (history_ok net C Hn _ _ Hh) as (Hf & _ & _). split; [apply acc_all|]. intros n d' p' Hg.
  assert (Hinv : forall n d p, files_ok C d -> knows C d p -> no_failure p -> goes_to net' n (d, p) (d', p') -> files_ok C d' /\ knows C d' p' /\ no_failure p' /\ (p' = PDone (Ok C) -> p = p' \/ exists i, cache d' = Some i)).
  { clear - Hn' Hr. induction n as [|n IH]; intros d p Hf Hk Hnf Hg; cbn [goes_to] in Hg.
    - injection Hg as <- <-. auto.
    - destruct Hg as ([d1 p1] & Hs & Hg). destruct (step_ok net' C Hn' _ _ _ _ Hf Hk Hs) as [F1 K1]. pose proof (keeps_going net' C d p d1 p1 Hr Hf Hk Hnf Hs) as N1. destruct (IH d1 p1 F1 K1 N1 Hg) as (A & B & D & E0). split; [exact A|]. split; [exact B|]. split; [exact D|].
      intros Hp. destruct (E0 Hp) as [E1|E1]; [|now right]. right. subst p1.
      destruct n; [injection Hg as <-|destruct Hg as (z & Hz & _); rewrite Hp in Hz; inversion Hz]. rewrite Hp in Hs. inversion Hs; subst. eauto. }
  destruct (Hinv n d PStart Hf I I Hg) as (F1 & K1 & N1 & E1).
  assert (Hfd : finished p' \/ ~ finished p') by (destruct p'; cbn; tauto). destruct Hfd as [Hfd|Hfd]; [|left; now apply (progress net' C)].
  right. destruct p' as [| | | | | | | |[c|e]|]; cbn in Hfd, N1, K1; try tauto.
  - subst c. split; [reflexivity|]. destruct (E1 eq_refl) as [|(i & Hi)]; [discriminate|]. exists i. split; [exact Hi|]. now apply (f_cache C d' F1).
  - exfalso. clear - Hg Hr. assert (Hk : forall n d p, p <> PKilled -> goes_to net' n (d, p) (d', PKilled) -> False); [|apply (Hk n d PStart); [discriminate|exact Hg]].
    clear. induction n as [|n IH]; intros d p Hp Hg; cbn [goes_to] in Hg; [congruence|]. destruct Hg as ([d1 p1] & Hs & Hg). apply (IH d1 p1); [|exact Hg]. inversion Hs; discriminate.
Qed.
Print Assumptions C67_retry_succeeds.
