(** T_Utils.v: the plain readers of TREC files (C75) *)
From Coq Require Import Lia.
From Verif Require Import Base Dict Num NumLaws Env M_Common M_Qrels M_Run M_Strings M_Text M_Compare M_IO M_Utils
  Spec_DS Spec_IO P_Base P_Dict P_Strings P_Common P_DS P_IO P_IO2 T_IO T_IO2 EnvEx.
Open Scope string_scope.
Open Scope list_scope.
Open Scope nat_scope.

(** a text whose lines end only as [open] knows *)
Fixpoint usual_lines (s : string) : Prop := match s with EmptyString => True | String c s' => is_odd_break c = false /\ usual_lines s' end.

Lemma words_go_newline a : forall acc, words_go acc (a ++ newline) = words_go acc a.
Proof.
  induction a as [|c a IH]; intros acc; cbn [append words_go].
  - unfold newline. cbn [words_go]. change (is_space (ascii_of_nat 10)) with true. cbv iota. now destruct acc.
  - destruct (is_space c); [|apply IH]. destruct acc; [apply IH|]. now rewrite IH.
Qed.
Lemma same_words t : usual_lines t -> map words (splitlines t) = map words (py_lines t).
Proof.
  unfold splitlines, py_lines. enough (H : forall acc cr, usual_lines t -> map words (splitlines_go acc cr t) = map words (lines_go acc cr t)) by (intros; now apply H).
  induction t as [|c t IH]; intros acc cr Ht; cbn [splitlines_go lines_go]; [reflexivity|]. destruct Ht as [H1 H2].
  destruct (is_nl c).
  - destruct cr; [now apply IH|]. cbn [map]. rewrite IH by exact H2. f_equal. symmetry. apply words_go_newline.
  - destruct (is_cr c); [cbn [map]; rewrite IH by exact H2; f_equal; symmetry; apply words_go_newline|]. rewrite H1. now apply IH.
Qed.
Lemma fold_words {S} (f : S -> list string -> result S) a b : map words a = map words b -> forall s, foldr_m (fun s l => f s (words l)) a s = foldr_m (fun s l => f s (words l)) b s.
Proof.
  revert b. induction a as [|x a IH]; intros [|y b] H s; try discriminate; [reflexivity|]. cbn [map] in H. injection H as H1 H2. cbn [foldr_m]. rewrite H1.
  destruct (f s (words y)); cbn [bindr]; [now apply IH|reflexivity].
Qed.

(** ** C75: on such texts the plain readers find exactly what from_file finds *)
Theorem C75_qrels_agrees : forall (N : Num) (V : Type) (fs : dict (file N V)) path text, dget fs path = Some (FText text) -> usual_lines text ->
  qrels_file_to_dict fs path = qrels_parse text.
Proof.
  intros N V fs path text Hf Ht. unfold qrels_file_to_dict, read_text. rewrite Hf. cbn [bindr]. unfold qrels_parse.
  exact (fold_words (fun acc ws => match ws with [q; _; d; rel] => do v <- py_int rel; Ok (dset2 acc q d v) | _ => Err ValueError end) _ _ (same_words text Ht) []).
Qed.
Print Assumptions C75_qrels_agrees.
Lemma fold_run (N : Num) (fl : floats N) ls : forall acc name,
  foldr_m (fun acc line => match words line with [q; _; d; _; rel; _] => do v <- fl_read fl rel; Ok (dset2 acc q d v) | _ => Err ValueError end) ls acc
  = do st <- foldr_m (run_parse_line fl) ls (acc, name); Ok (fst st).
Proof.
  induction ls as [|l ls IH]; intros acc name; cbn [foldr_m]; [reflexivity|]. unfold run_parse_line at 1.
  destruct (words l) as [|q [|i [|d [|rk [|rel [|nm [|]]]]]]]; try reflexivity. destruct (fl_read fl rel); cbn [bindr fst snd]; [apply IH|reflexivity].
Qed.
Theorem C75_run_agrees : forall (N : Num) (V : Type) (fl : floats N) (fs : dict (file N V)) path text name, dget fs path = Some (FText text) -> usual_lines text ->
  run_file_to_dict fl fs path = do st <- run_parse fl text name; Ok (fst st).
Proof.
  intros N V fl fs path text name Hf Ht. unfold run_file_to_dict, read_text. rewrite Hf. cbn [bindr]. unfold run_parse. rewrite <- fold_run.
  exact (fold_words (fun acc ws => match ws with [q; _; d; _; rel; _] => do v <- fl_read fl rel; Ok (dset2 acc q d v) | _ => Err ValueError end) _ _ (same_words text Ht) []).
Qed.
Print Assumptions C75_run_agrees.

(** ** what save writes is such a text *)
Lemma usual_app a b : usual_lines a -> usual_lines b -> usual_lines (a ++ b).
Proof. induction a as [|c a IH]; [auto|]. intros [H1 H2] H. split; [exact H1|]. now apply IH. Qed.
Lemma usual_concat cs : (forall c, In c cs -> usual_lines c) -> usual_lines (String.concat "" cs).
Proof. induction cs as [|c cs IH]; intros H; [exact I|]. rewrite concat_cons. apply usual_app; [apply H; now left|]. apply IH. intros; apply H; now right. Qed.
Lemma no_space_usual s : no_space s -> usual_lines s.
Proof.
  induction s as [|c s IH]; [trivial|]. intros [H1 H2]. split; [|auto]. unfold is_odd_break. destruct (existsb _ _) eqn:He; [|reflexivity].
  apply existsb_exists in He as (n & Hn & He). apply Nat.eqb_eq in He. unfold is_space in H1. rewrite He in H1. cbn in Hn.
  repeat destruct Hn as [<-|Hn]; try discriminate H1; try contradiction.
Qed.
Lemma in_left {A B} (R : A -> B -> Prop) l l' a : Forall2 R l l' -> In a l -> exists b, In b l' /\ R a b.
Proof. induction 1 as [|x y l l' H _ IH]; intros Ha; [destruct Ha|]. destruct Ha as [->|Ha]; [exists y; split; [now left|exact H]|]. destruct (IH Ha) as (b & H1 & H2). exists b. split; [now right|exact H2]. Qed.
Lemma usual_chunks {V} (line : string -> nat -> string -> V -> string) m : (forall q j d v, In (q, d, v) (triples m) -> usual_lines (line q j d v)) -> usual_lines (trec_text line m).
Proof.
  intros H. rewrite trec_text_chunks. apply usual_concat. intros c Hc.
  destruct (in_left _ _ _ c (chunks_ranked line (length m) m 0) Hc) as (t & Ht & (e & He & ->)).
  apply usual_app; [|destruct He as [-> | ->]; cbn; auto]. apply H. rewrite <- ranked_triples. apply in_map_iff. exists t. split; [now destruct t as [? [[? ?] ?]]|exact Ht].
Qed.
Theorem C75_saved_qrels : forall (N : Num) fs (y : Qrels) path kind, dict2_ok (q_map y) -> ids_are_words (q_map y) -> asks_for path kind "trec" ->
  exists fs', @Qrels_save N fs y path kind = Ok fs' /\ exists d, qrels_file_to_dict fs' path = Ok d /\ dict2_ok d /\ same_without_empty (q_map y) d.
Proof.
  intros N fs y path kind Hm Hw Hk. apply (qrels_kind _ _ "trec") in Hk; [|cbn; unfold is_qrels_kind; cbn; tauto]. unfold Qrels_save. rewrite Hk. cbn [bindr].
  eexists. split; [reflexivity|]. change (String.eqb "trec" "json") with false. change (String.eqb "trec" "parquet") with false. cbv iota.
  exists (keep_nonempty (q_map y)). split; [|split; [now apply keep_ok|now apply keep_same]].
  erewrite C75_qrels_agrees; [apply (qrels_text (q_map y) Hm Hw)|apply dget_dset_eq|].
  apply usual_chunks. intros q j d v Ht. apply (in_triples _ q d v Hm) in Ht. destruct (Hw q d v Ht) as [[_ Hq] [_ Hd]]. unfold qrels_line.
  apply usual_app; [now apply no_space_usual|]. apply (usual_app " 0 "); [cbn; auto|]. apply usual_app; [now apply no_space_usual|]. apply (usual_app " "); [cbn; auto|]. apply no_space_usual. apply str_int_word.
Qed.
Print Assumptions C75_saved_qrels.
Theorem C75_saved_run : forall (N : Num) (E : env N) (fl : floats N), env_ok E -> forall fs (x : Run N) path kind, dict2_ok (r_map x) -> ids_are_words (r_map x) -> scores_ok fl (r_map x) ->
  (forall n, r_name x = Some n -> word n) -> asks_for path kind "trec" ->
  exists x' fs', Run_save E fl fs x path kind = (x', Ok fs') /\ exists d, run_file_to_dict fl fs' path = Ok d /\ dict2_ok d /\ same_without_empty (r_map x) d.
Proof.
  intros N E fl HE fs x path kind Hm Hw Hs Hn Hk. apply (run_kind _ _ "trec") in Hk; [|unfold is_run_kind; cbn; tauto].
  unfold Run_save. rewrite Hk. fold (saved E x). destruct (saved_ok E HE x Hm) as (Hm' & Hg & Hnm). do 2 eexists. split; [reflexivity|].
  change (String.eqb "trec" "json") with false. change (String.eqb "trec" "lz4") with false. change (String.eqb "trec" "parquet") with false. cbv iota.
  assert (Hpn : word (py_name (r_name (saved E x)))).
  { rewrite Hnm. destruct (r_name x) as [n|] eqn:Hx; [apply Hn; exact eq_refl|]. split; [discriminate|cbn; tauto]. }
  pose proof (saved_words E HE x Hm Hw) as Hw'. pose proof (saved_scores E HE fl x Hm Hs) as Hs'.
  exists (keep_nonempty (r_map (saved E x))). split; [|split; [now apply keep_ok|exact (same_trans _ _ _ Hg (keep_same _ Hm'))]].
  erewrite (C75_run_agrees N F fl _ path _ None); [|apply dget_dset_eq|].
  - destruct (run_text fl (r_name (saved E x)) (r_map (saved E x)) Hm' Hw' Hs' Hpn) as [_ Hp]. rewrite Hp. reflexivity.
  - apply usual_chunks. intros q j d v Ht. apply (in_triples _ q d v Hm') in Ht. destruct (Hw' q d v Ht) as [[_ Hq] [_ Hd]]. destruct (Hs' q d v Ht) as [[_ Hv] _]. unfold run_line.
    apply usual_app; [now apply no_space_usual|]. apply (usual_app " Q0 "); [cbn; auto|]. apply usual_app; [now apply no_space_usual|]. apply (usual_app " "); [cbn; auto|].
    apply usual_app; [apply no_space_usual, str_int_word|]. apply (usual_app " "); [cbn; auto|]. apply usual_app; [now apply no_space_usual|]. apply (usual_app " "); [cbn; auto|]. apply no_space_usual, Hpn.
Qed.
Print Assumptions C75_saved_run.
(** in general they differ: a form feed ends a line for one reader and is a blank for the other *)
Theorem C75_any_text_refuted : ~ (forall (N : Num) (fs : dict (file N Z)) path text, dget fs path = Some (FText text) -> qrels_file_to_dict fs path = qrels_parse text).
Proof.
  intros H. set (text := ("q 0" ++ String (ascii_of_nat 12) "d 1")%string). specialize (H NumSF [("q.trec", FText text)] "q.trec" text eq_refl).
  discriminate H.
Qed.
Print Assumptions C75_any_text_refuted.
Example C75_ex : usual_lines ("q1 0 d1 1" ++ newline ++ "q1 0 d2 3") /\
  @qrels_file_to_dict NumSF Z [("q.trec", FText ("q1 0 d1 1" ++ newline ++ "q1 0 d2 3"))] "q.trec" = Ok [("q1", [("d1", 1%Z); ("d2", 3%Z)])].
Proof. split; [cbn; tauto|reflexivity]. Qed.
