(** P_Metrics.v: the low-level metrics equal their document-level definitions. *)
From Coq Require Import Reals Lra Psatz.
From Verif Require Import Base Dict Num NumLaws Env M_Common M_Qrels M_Run M_Metrics Spec_Metrics
  P_Base P_Dict P_Common.
Open Scope list_scope.
Open Scope nat_scope.

(** ** generic list facts *)
Lemma fsum_acc (l : list R) : forall a, fold_left Rplus l a = (a + Rsum l)%R.
Proof.
  induction l as [|x l IH]; intros a; cbn; [lra|]. rewrite IH. lra.
Qed.
Lemma fsum_R (l : list R) : @fsum NumR l = Rsum l.
Proof. unfold fsum. numR. rewrite fsum_acc. lra. Qed.

Lemma Rsum_app l1 l2 : Rsum (l1 ++ l2) = (Rsum l1 + Rsum l2)%R.
Proof. induction l1; cbn; lra. Qed.
Lemma Rsum_map_ext {A} (f g : A -> R) l : (forall a, In a l -> f a = g a) ->
  Rsum (map f l) = Rsum (map g l).
Proof. intros H. f_equal. now apply map_ext_in. Qed.
Lemma Rsum_map_le {A} (f g : A -> R) l : (forall a, In a l -> (f a <= g a)%R) ->
  (Rsum (map f l) <= Rsum (map g l))%R.
Proof.
  induction l as [|a l IH]; intros H; cbn; [lra|].
  apply Rplus_le_compat; [apply H; now left|]. apply IH. intros; apply H; now right.
Qed.
Lemma Rsum_nonneg l : (forall x, In x l -> (0 <= x)%R) -> (0 <= Rsum l)%R.
Proof.
  induction l as [|a l IH]; intros H; cbn; [lra|].
  pose proof (H a (or_introl eq_refl)). enough (0 <= Rsum l)%R by lra.
  apply IH. intros; apply H; now right.
Qed.
Lemma Rsum_map_mult {A} c (f : A -> R) l : Rsum (map (fun a => (c * f a)%R) l) = (c * Rsum (map f l))%R.
Proof. induction l; cbn; lra. Qed.
Lemma Rsum_map_plus {A} (f g : A -> R) l :
  Rsum (map (fun a => (f a + g a)%R) l) = (Rsum (map f l) + Rsum (map g l))%R.
Proof. induction l; cbn; lra. Qed.
Lemma Rsum_map_minus {A} (f g : A -> R) l :
  Rsum (map (fun a => (f a - g a)%R) l) = (Rsum (map f l) - Rsum (map g l))%R.
Proof. induction l; cbn; lra. Qed.
Lemma Rsum_map_const {A} c (l : list A) : Rsum (map (fun _ => c) l) = (INR (length l) * c)%R.
Proof.
  induction l as [|a l IH]; [cbn; lra|].
  change (c + Rsum (map (fun _ => c) l) = INR (S (length l)) * c)%R. rewrite IH, S_INR. lra.
Qed.
Lemma Rsum_perm l1 l2 : Permutation l1 l2 -> Rsum l1 = Rsum l2.
Proof. induction 1; cbn; lra. Qed.
Lemma Rsum_indicator {A} (p : A -> bool) l :
  Rsum (map (fun a => if p a then 1 else 0)%R l) = INR (count p l).
Proof.
  induction l as [|a l IH]; [reflexivity|].
  cbn [map Rsum count]. rewrite IH, plus_INR. destruct (p a); cbn; lra.
Qed.

Lemma map_enum_seq {A B} (f : nat -> A -> B) (l : list A) d : forall i,
  map (fun p => f (fst p) (snd p)) (enum_from i l)
  = map (fun n => f n (nth (n - i) l d)) (seq i (length l)).
Proof.
  induction l as [|a l IH]; intros i; cbn [enum_from map length seq]; [reflexivity|].
  cbn [fst snd]. rewrite Nat.sub_diag. f_equal. rewrite IH.
  apply map_ext_in. intros n Hn. apply in_seq in Hn.
  replace (n - i) with (S (n - S i)) by lia. reflexivity.
Qed.
Lemma map_enumerate_seq {A B} (f : nat -> A -> B) (l : list A) d :
  map (fun p => f (fst p) (snd p)) (enumerate l)
  = map (fun n => f n (nth n l d)) (seq 0 (length l)).
Proof.
  unfold enumerate. rewrite (map_enum_seq _ _ d). apply map_ext. intros n.
  now rewrite Nat.sub_0_r.
Qed.

(** ** max / min prefilter *)
Lemma max_id_ge {N : Num} (q : rows) r : In r q -> (fst r <= max_id q)%Z.
Proof.
  destruct q as [|r0 q]; [easy|]. cbn.
  assert (H : forall (q : rows) m, (m <= fold_left (fun m x => if m <? fst x then fst x else m) q m)%Z /\
     forall r, In r q -> (fst r <= fold_left (fun m x => if m <? fst x then fst x else m) q m)%Z).
  { clear. induction q as [|x q IH]; intros m; cbn; [split; [lia|easy]|].
    destruct (IH (if (m <? fst x)%Z then fst x else m)) as [H1 H2].
    destruct (Z.ltb_spec m (fst x)); split; try lia; intros r [<-|Hr]; auto; lia. }
  destruct (H q (fst r0)) as [H1 H2]. intros [<-|Hr]; auto.
Qed.
Lemma min_id_le {N : Num} (q : rows) r : In r q -> (min_id q <= fst r)%Z.
Proof.
  destruct q as [|r0 q]; [easy|]. cbn.
  assert (H : forall (q : rows) m, (fold_left (fun m x => if fst x <? m then fst x else m) q m <= m)%Z /\
     forall r, In r q -> (fold_left (fun m x => if fst x <? m then fst x else m) q m <= fst r)%Z).
  { clear. induction q as [|x q IH]; intros m; cbn; [split; [lia|easy]|].
    destruct (IH (if (fst x <? m)%Z then fst x else m)) as [H1 H2].
    destruct (Z.ltb_spec (fst x) m); split; try lia; intros r [<-|Hr]; auto; lia. }
  destruct (H q (fst r0)) as [H1 H2]. intros [<-|Hr]; auto.
Qed.

Lemma first_match_in {N : Num} (q : rows) id s : first_match id q = Some s -> In (id, s) q.
Proof.
  induction q as [|[i x] q IH]; cbn; [discriminate|].
  destruct (Z.eqb_spec id i); intros H; [inversion H; subst; now left|right; auto].
Qed.
Lemma first_match_none {N : Num} (q : rows) id : first_match id q = None <-> ~ In id (map fst q).
Proof.
  induction q as [|[i x] q IH]; cbn; [tauto|].
  destruct (Z.eqb_spec id i) as [->|Hne].
  - split; [discriminate|]. intros H. exfalso. apply H. now left.
  - rewrite IH. split; intros H; [intros [|]; [congruence|contradiction]|tauto].
Qed.

(** the prefilter never changes the answer *)
Lemma scan_first_match {N : Num} (q : rows) id : scan q id = first_match id q.
Proof.
  unfold scan. destruct (Z.ltb_spec (max_id q) id) as [H|H]; [|destruct (Z.ltb_spec id (min_id q)) as [H'|H']; [|reflexivity]].
  - symmetry. apply first_match_none. intros Hc. apply in_map_iff in Hc as (r & <- & Hr).
    apply max_id_ge in Hr. lia.
  - symmetry. apply first_match_none. intros Hc. apply in_map_iff in Hc as (r & <- & Hr).
    apply min_id_le in Hr. lia.
Qed.

(** ** the reals *)
Notation qrows E j := (@to_rows NumR E Z (@q_tof NumR) j).
Notation rrows E r := (@to_rows NumR E R (@r_tof NumR) r).

Lemma fleb_ofZ (a b : Z) : @fleb NumR (fofZ a) (fofZ b) = (a <=? b)%Z.
Proof.
  numR. destruct (Z.leb_spec a b) as [H|H].
  - apply Rleb_true. now apply IZR_le.
  - apply Rleb_false. now apply IZR_lt.
Qed.
Lemma fltb_ofZ (a b : Z) : @fltb NumR (fofZ a) (fofZ b) = (a <? b)%Z.
Proof.
  numR. destruct (Z.ltb_spec a b) as [H|H].
  - apply Rltb_true. now apply IZR_lt.
  - apply Rltb_false. now apply IZR_le.
Qed.
Lemma feqb_ofZ (a b : Z) : @feqb NumR (fofZ a) (fofZ b) = (a =? b)%Z.
Proof.
  numR. destruct (Z.eqb_spec a b) as [->|H].
  - now apply Reqb_true.
  - apply Reqb_false. intros Hc. now apply eq_IZR in Hc.
Qed.
Lemma fnat_INR n : @fnat NumR n = INR n.
Proof. unfold fnat. numR. now rewrite INR_IZR_INZ. Qed.

Section Bridge.
Context (E : env NumR) (j : dict Z) (lvl : Z).

(** judgments that pass a filter on the judgment value *)
Definition jfilter (p : Z -> bool) : dict Z := filter (fun kv => p (snd kv)) j.

Lemma clean_qrels_filter :
  @clean_qrels NumR (qrows E j) lvl = qrows E (jfilter (fun v => (lvl <=? v)%Z)).
Proof.
  unfold clean_qrels, jfilter, to_rows. clear. induction j as [|[d v] l IH]; [reflexivity|].
  cbn [map filter fst snd]. unfold q_tof at 1. rewrite fleb_ofZ.
  destruct (lvl <=? v)%Z; cbn [map]; now rewrite IH.
Qed.
Lemma non_rel_filter :
  @_non_rel_qrels NumR (qrows E j) = qrows E (jfilter (fun v => (v =? 0)%Z)).
Proof.
  unfold _non_rel_qrels, jfilter, to_rows. clear. induction j as [|[d v] l IH]; [reflexivity|].
  cbn [map filter fst snd].
  change (@feqb NumR (q_tof v) fzero) with (@feqb NumR (fofZ v) (fofZ 0)). rewrite feqb_ofZ.
  destruct (v =? 0)%Z; cbn [map]; now rewrite IH.
Qed.

Lemma clean_length : length (@clean_qrels NumR (qrows E j) lvl) = n_relevant j lvl.
Proof.
  rewrite clean_qrels_filter. unfold to_rows, jfilter, n_relevant.
  now rewrite map_length, count_filter.
Qed.

Lemma jfilter_get p d : dict_ok j ->
  dget (jfilter p) d = match dget j d with Some v => if p v then Some v else None | None => None end.
Proof.
  unfold jfilter, dict_ok. clear. induction j as [|[k v] l IH]; intros Hok; cbn; [reflexivity|].
  inversion Hok as [|? ? Hn Hok']; subst.
  destruct (String.eqb_spec d k) as [->|Hne].
  - destruct (p v) eqn:Hp; cbn; [now rewrite String.eqb_refl|].
    rewrite IH by assumption. apply dget_None in Hn. change (map fst l) with (dkeys l) in Hn.
    now rewrite Hn.
  - destruct (p v) eqn:Hp; cbn; [|now apply IH].
    apply String.eqb_neq in Hne. rewrite Hne. now apply IH.
Qed.

Lemma jfilter_incl p d : In d (dkeys (jfilter p)) -> In d (dkeys j).
Proof.
  unfold dkeys, jfilter. intros H. apply in_map_iff in H as (x & <- & Hx).
  apply filter_In in Hx as [Hx _]. now apply in_map.
Qed.

Lemma first_match_doc (j' : dict Z) d docs :
  ids_distinct (doc_key E) docs -> In d docs -> (forall x, In x (dkeys j') -> In x docs) ->
  first_match (doc_key E d) (qrows E j') = option_map IZR (dget j' d).
Proof.
  intros Hd Hin. induction j' as [|[k v] l IH]; intros Hk; [reflexivity|].
  cbn [to_rows map first_match fst snd dget].
  destruct (String.eqb_spec d k) as [->|Hne].
  - rewrite Z.eqb_refl. reflexivity.
  - destruct (Z.eqb_spec (doc_key E d) (doc_key E k)) as [He|_].
    + apply Hd in He; [contradiction|exact Hin|]. apply Hk. now left.
    + apply IH. intros x Hx. apply Hk. now right.
Qed.

Context (r : dict R).
Context (Hj : dict_ok j) (Hid : ids_distinct (doc_key E) (dkeys j ++ dkeys r)).

Lemma scan_filter p d : In d (dkeys r) ->
  scan (qrows E (jfilter p)) (doc_key E d)
  = match dget j d with Some v => if p v then Some (IZR v) else None | None => None end.
Proof.
  intros Hd. rewrite scan_first_match.
  rewrite (first_match_doc _ d (dkeys j ++ dkeys r) Hid).
  - rewrite jfilter_get by exact Hj. destruct (dget j d) as [v|]; [|reflexivity].
    now destruct (p v).
  - apply in_or_app. now right.
  - intros x Hx. apply in_or_app. left. eapply jfilter_incl; eauto.
Qed.

Lemma scan_clean d : In d (dkeys r) ->
  scan (@clean_qrels NumR (qrows E j) lvl) (doc_key E d)
  = if relevant j lvl d then Some (gain j lvl d) else None.
Proof.
  intros Hd. rewrite clean_qrels_filter, scan_filter by exact Hd.
  unfold relevant, gain. destruct (dget j d) as [v|]; [|reflexivity].
  now destruct (lvl <=? v)%Z.
Qed.

Lemma scan_judged d : In d (dkeys r) ->
  scan (qrows E j) (doc_key E d) = option_map IZR (dget j d).
Proof.
  intros Hd. rewrite scan_first_match. apply (first_match_doc _ d (dkeys j ++ dkeys r) Hid).
  - apply in_or_app. now right.
  - intros x Hx. apply in_or_app. now left.
Qed.

(** the ranked documents *)
Definition rk : list string := dkeys r.

Lemma rrows_length : length (rrows E r) = length rk.
Proof. unfold to_rows, rk, dkeys. now rewrite !map_length. Qed.

Lemma map_top {B} (f : Z * R -> B) (g : string -> B) k :
  (forall d s, In d rk -> f (doc_key E d, s) = g d) ->
  map f (firstn (fix_k k (rrows E r)) (rrows E r)) = map g (top rk k).
Proof.
  intros H.
  assert (Hf : firstn (fix_k k (rrows E r)) (rrows E r)
               = map (fun kv => (doc_key E (fst kv), snd kv)) (match k with O => r | _ => firstn k r end)).
  { unfold fix_k. rewrite rrows_length. unfold rk, dkeys. rewrite map_length.
    destruct k as [|k]; cbn [Nat.eqb orb].
    - unfold to_rows. rewrite firstn_all2 by (rewrite map_length; lia). reflexivity.
    - destruct (Nat.ltb_spec (length r) (S k)).
      + unfold to_rows. rewrite firstn_all2 by (rewrite map_length; lia).
        rewrite firstn_all2 by lia. reflexivity.
      + unfold to_rows. now rewrite firstn_map. }
  rewrite Hf, map_map. unfold top, rk, dkeys.
  destruct k as [|k].
  - rewrite map_map. apply map_ext_in. intros [d s] Hi. apply H. unfold rk, dkeys. change d with (fst (d, s)). now apply in_map.
  - rewrite firstn_map, map_map. apply map_ext_in. intros [d s] Hi. apply H.
    unfold rk, dkeys. change d with (fst (d, s)). apply in_map.
    rewrite <- (firstn_skipn (S k) r). apply in_or_app. now left.
Qed.

Lemma fold_top {T} (f : T -> Z * R -> T) (g : T -> string -> T) k s0 :
  (forall a d s, In d rk -> f a (doc_key E d, s) = g a d) ->
  fold_left f (firstn (fix_k k (rrows E r)) (rrows E r)) s0 = fold_left g (top rk k) s0.
Proof.
  intros H.
  assert (Hgen : forall (l : dict R) s0, (forall d, In d (dkeys l) -> In d rk) ->
     fold_left f (map (fun kv => (doc_key E (fst kv), snd kv)) l) s0 = fold_left g (dkeys l) s0).
  { induction l as [|[d s] l IH]; intros s1 Hl; [reflexivity|]. cbn [map dkeys fold_left fst snd].
    rewrite H by (apply Hl; now left). apply IH. intros; apply Hl; now right. }
  assert (Hf : firstn (fix_k k (rrows E r)) (rrows E r)
               = map (fun kv => (doc_key E (fst kv), snd kv)) (match k with O => r | _ => firstn k r end)).
  { unfold fix_k. rewrite rrows_length. unfold rk, dkeys. rewrite map_length.
    destruct k as [|k]; cbn [Nat.eqb orb].
    - unfold to_rows. rewrite firstn_all2 by (rewrite map_length; lia). reflexivity.
    - destruct (Nat.ltb_spec (length r) (S k)).
      + unfold to_rows. rewrite firstn_all2 by (rewrite map_length; lia).
        rewrite firstn_all2 by lia. reflexivity.
      + unfold to_rows. now rewrite firstn_map. }
  rewrite Hf, Hgen.
  - unfold top, rk. destruct k; [reflexivity|]. unfold dkeys. now rewrite firstn_map.
  - intros d Hd. destruct k; [exact Hd|]. unfold rk, dkeys in *. rewrite <- firstn_map in Hd.
    rewrite <- (firstn_skipn (S k) (map fst r)). apply in_or_app. now left.
Qed.

Lemma top_in k d : In d (top rk k) -> In d rk.
Proof.
  unfold top. destruct k; [auto|]. intros H. rewrite <- (firstn_skipn (S k) rk).
  apply in_or_app. now left.
Qed.
Lemma firstn_depth k n : n = 0 \/ n = depth rk k -> n <> 0 \/ k = 0 -> top rk n = top rk k.
Proof.
  unfold depth. intros [->| ->] H; destruct k; auto.
  - destruct H; congruence.
  - unfold top. destruct (length rk) eqn:Hl; [reflexivity|]. rewrite <- Hl. apply firstn_all.
Qed.

Lemma no_relevant_top : n_relevant j lvl = 0 -> forall d, relevant j lvl d = false.
Proof.
  intros H d. unfold relevant. destruct (dget j d) as [v|] eqn:Hd; [|reflexivity].
  unfold n_relevant in H. rewrite count_filter in H. apply length_zero_iff_nil in H.
  destruct (lvl <=? v)%Z eqn:Hl; [|reflexivity]. exfalso.
  apply dget_Some_in in Hd.
  assert (In (d, v) (filter (fun dv => (lvl <=? snd dv)%Z) j)) by (apply filter_In; auto).
  rewrite H in H0. easy.
Qed.
Lemma count_false {A} (p : A -> bool) l : (forall a, p a = false) -> count p l = 0.
Proof. intros H. induction l as [|a l IH]; cbn; [reflexivity|]. now rewrite H. Qed.

(** *** hits *)
Lemma fold_count (p : string -> bool) l : forall a,
  fold_left (fun h d => if p d then Rplus h 1 else h)%R l a = (a + INR (count p l))%R.
Proof.
  induction l as [|d l IH]; intros a; cbn [fold_left count]; [cbn; lra|].
  rewrite IH, plus_INR. destruct (p d); cbn; lra.
Qed.

Lemma hits_spec k : @_hits NumR (qrows E j) (rrows E r) k lvl = INR (S_hits j lvl rk k).
Proof.
  unfold _hits. rewrite clean_length. unfold S_hits.
  destruct (n_relevant j lvl) eqn:Hn; cbn [Nat.eqb].
  - rewrite count_false by now apply no_relevant_top. reflexivity.
  - rewrite (fold_top _ (fun h d => if relevant j lvl d then (h + 1)%R else h)).
    + rewrite fold_count. numR. lra.
    + intros a d s Hd. cbn [fst]. rewrite scan_clean by exact Hd.
      destruct (relevant j lvl d); reflexivity.
Qed.

Lemma clean_clean : @clean_qrels NumR (clean_qrels (qrows E j) lvl) lvl = clean_qrels (qrows E j) lvl.
Proof.
  unfold clean_qrels. induction (qrows E j) as [|x l IH]; [reflexivity|]. cbn [filter].
  destruct (fleb (fofZ lvl) (snd x)) eqn:He; [cbn [filter]; now rewrite He, IH|exact IH].
Qed.
Lemma hits_clean k :
  @_hits NumR (clean_qrels (qrows E j) lvl) (rrows E r) k lvl = INR (S_hits j lvl rk k).
Proof. rewrite <- hits_spec. unfold _hits. now rewrite clean_clean. Qed.

Lemma S_hits_depth k : depth rk k <> 0 -> S_hits j lvl rk (depth rk k) = S_hits j lvl rk k.
Proof.
  intros H. unfold S_hits. f_equal. apply firstn_depth; auto.
Qed.

Lemma hit_rate_spec k : @_hit_rate NumR (qrows E j) (rrows E r) k lvl = S_hit_rate j lvl rk k.
Proof.
  unfold _hit_rate, S_hit_rate. rewrite clean_length.
  assert (Hex : forall A (p : A -> bool) l, existsb p l = existsb (fun b => b) (map p l)).
  { intros A p l. induction l as [|a l IH]; cbn; [reflexivity|]. now rewrite IH. }
  destruct (n_relevant j lvl) eqn:Hn; cbn [Nat.eqb].
  - rewrite Hex, (map_ext_in _ (fun _ => false)) by (intros; now apply no_relevant_top).
    replace (existsb (fun b => b) (map (fun _ => false) (top rk k))) with false; [reflexivity|].
    symmetry. induction (top rk k); cbn; auto.
  - rewrite Hex. rewrite (map_top _ (fun d => relevant j lvl d)).
    + rewrite <- Hex. reflexivity.
    + intros d s Hd. cbn [fst]. rewrite scan_clean by exact Hd. now destruct (relevant j lvl d).
Qed.

Lemma precision_spec k : @_precision NumR (qrows E j) (rrows E r) k lvl = S_precision j lvl rk k.
Proof.
  unfold _precision, S_precision. rewrite rrows_length.
  replace (if k =? 0 then length rk else k) with (depth rk k) by (now destruct k).
  destruct (depth rk k) as [|n] eqn:Hd; cbn [Nat.eqb]; [reflexivity|].
  rewrite hits_spec, fnat_INR. numR. rewrite <- Hd.
  rewrite S_hits_depth by (rewrite Hd; discriminate). reflexivity.
Qed.

Lemma S_hits_zero k : n_relevant j lvl = 0 -> S_hits j lvl rk k = 0.
Proof. intros H. apply count_false. now apply no_relevant_top. Qed.

Lemma recall_spec k : @_recall NumR (qrows E j) (rrows E r) k lvl = S_recall j lvl rk k.
Proof.
  unfold _recall, S_recall. rewrite clean_length, rrows_length.
  destruct (n_relevant j lvl) as [|n] eqn:Hn; cbn [Nat.eqb]; [reflexivity|].
  replace (if k =? 0 then length rk else k) with (depth rk k) by (now destruct k).
  destruct (depth rk k) as [|m] eqn:Hd; cbn [Nat.eqb].
  - replace (S_hits j lvl rk k) with 0; [cbn [INR]; numR; unfold Rdiv; now rewrite Rmult_0_l|].
    unfold depth in Hd. destruct k; [|discriminate]. apply length_zero_iff_nil in Hd.
    unfold S_hits, top. now rewrite Hd.
  - rewrite hits_clean, fnat_INR. numR. rewrite <- Hd.
    rewrite S_hits_depth by (rewrite Hd; discriminate). reflexivity.
Qed.

Lemma f1_spec k : @_f1 NumR (qrows E j) (rrows E r) k lvl = S_f1 j lvl rk k.
Proof.
  unfold _f1, S_f1. rewrite clean_length, rrows_length. unfold S_precision, S_recall.
  destruct (n_relevant j lvl) as [|n] eqn:Hn; cbn [Nat.eqb].
  - rewrite S_hits_zero by exact Hn. cbn [INR].
    destruct (depth rk k); destruct (Req_EM_T _ _) as [|Hc]; try reflexivity;
      exfalso; apply Hc; unfold Rdiv; lra.
  - replace (if k =? 0 then length rk else k) with (depth rk k) by (now destruct k).
    destruct (depth rk k) as [|m] eqn:Hd; cbn [Nat.eqb].
    + destruct (Req_EM_T _ _) as [|Hc]; [reflexivity|].
      unfold fzero; numR. unfold Rdiv. lra.
    + assert (Hh : S_hits j lvl rk (S m) = S_hits j lvl rk k)
        by (rewrite <- Hd; apply S_hits_depth; rewrite Hd; discriminate).
      rewrite hits_clean, !fnat_INR, Hh. numR.
      unfold Reqb. destruct (Req_EM_T _ _) as [|Hc]; [reflexivity|]. unfold Rdiv. ring.
Qed.

Lemma r_precision_spec : @_r_precision NumR (qrows E j) (rrows E r) lvl = S_r_precision j lvl rk.
Proof.
  unfold _r_precision, S_r_precision. rewrite clean_length.
  destruct (n_relevant j lvl) as [|n] eqn:Hn; cbn [Nat.eqb]; [reflexivity|].
  unfold _precision, S_precision. cbn [Nat.eqb depth].
  rewrite hits_clean, fnat_INR. reflexivity.
Qed.

(** *** reciprocal rank *)
Lemma rr_loop_spec (q : rows) (l : list (Z * R)) (p : string -> bool) ds : forall i,
  Forall2 (fun x d => existsb (fun y => (fst x =? fst y)%Z) q = p d) l ds ->
  @rr_loop NumR i q l = match first_pos p ds with Some n => (1 / INR (i + n + 1))%R | None => 0%R end.
Proof.
  intros i H. revert i. induction H as [|x d l ds Hx H IH]; intros i; [reflexivity|].
  cbn [rr_loop first_pos]. rewrite <- Hx.
  match goal with |- (if ?b then _ else _) = _ =>
    change (existsb (fun y => (fst x =? fst y)%Z) q) with b; destruct b end.
  - rewrite fnat_INR. numR. now rewrite Nat.add_0_r.
  - rewrite IH. destruct (first_pos p ds); cbn [option_map]; [|reflexivity].
    now replace (S i + n + 1) with (i + S n + 1) by lia.
Qed.
Lemma exists_first_match (q : @rows NumR) id :
  existsb (fun y => (id =? fst y)%Z) q = match first_match id q with Some _ => true | None => false end.
Proof.
  induction q as [|[i v] q IH]; [reflexivity|]. cbn [existsb first_match fst snd].
  destruct (id =? i)%Z; cbn [orb]; [reflexivity|exact IH].
Qed.

Lemma reciprocal_rank_spec k :
  @_reciprocal_rank NumR (qrows E j) (rrows E r) k lvl = S_mrr j lvl rk k.
Proof.
  unfold _reciprocal_rank, S_mrr. rewrite clean_length.
  destruct (n_relevant j lvl) as [|n] eqn:Hn; cbn [Nat.eqb].
  - replace (first_pos (relevant j lvl) (top rk k)) with (@None nat); [reflexivity|].
    symmetry. induction (top rk k) as [|d l IH]; [reflexivity|]. cbn.
    rewrite (no_relevant_top Hn). now rewrite IH.
  - rewrite (rr_loop_spec _ _ (relevant j lvl) (top rk k)); [reflexivity|].
    assert (Hm := map_top (fun x => existsb (fun y => (fst x =? fst y)%Z) (clean_qrels (qrows E j) lvl))
                          (relevant j lvl) k).
    assert (Hp : forall (d : string) (s : R), In d rk ->
       existsb (fun y => (fst (doc_key E d, s) =? fst y)%Z) (@clean_qrels NumR (qrows E j) lvl) = relevant j lvl d).
    { intros d s Hd. cbn [fst]. rewrite exists_first_match, <- scan_first_match, scan_clean by exact Hd.
      now destruct (relevant j lvl d). }
    specialize (Hm Hp). clear Hp.
    set (a := firstn _ (rrows E r)) in *. clearbody a. revert Hm.
    generalize (top rk k). clear. induction a as [|x a IH]; intros [|d l] H; cbn in H; try discriminate; constructor.
    + now inversion H.
    + apply IH. now inversion H.
Qed.

(** *** hit lists *)
Lemma hit_list_spec k :
  @hit_list_of NumR (clean_qrels (qrows E j) lvl) (rrows E r) (fix_k k (rrows E r))
  = map (fun d => if relevant j lvl d then 1 else 0)%R (top rk k).
Proof.
  unfold hit_list_of. apply map_top. intros d s Hd. cbn [fst].
  rewrite scan_clean by exact Hd. now destruct (relevant j lvl d).
Qed.
Lemma weighted_hit_list_spec k :
  @weighted_hit_list_of NumR (clean_qrels (qrows E j) lvl) (rrows E r) (fix_k k (rrows E r))
  = map (gain j lvl) (top rk k).
Proof.
  unfold weighted_hit_list_of. apply map_top. intros d s Hd. cbn [fst].
  rewrite scan_clean by exact Hd. unfold relevant, gain. destruct (dget j d) as [v|]; [|reflexivity].
  now destruct (lvl <=? v)%Z.
Qed.
Lemma fix_k_0 : fix_k 0 (rrows E r) = length (rrows E r).
Proof. reflexivity. Qed.

Lemma gain_not_relevant d : relevant j lvl d = false -> gain j lvl d = 0%R.
Proof.
  unfold relevant, gain. destruct (dget j d); [|reflexivity]. now intros ->.
Qed.

Lemma nth_top k i : i < length (top rk k) -> nth i (top rk k) EmptyString = nth i rk EmptyString.
Proof.
  unfold top. destruct k; [reflexivity|]. intros H. rewrite firstn_length in H.
  rewrite <- (firstn_skipn (S k) rk) at 2. rewrite app_nth1; [reflexivity|].
  rewrite firstn_length. lia.
Qed.
Lemma firstn_top k i : i <= length (top rk k) -> firstn i (top rk k) = firstn i rk.
Proof.
  unfold top. destruct k; [reflexivity|]. intros H. rewrite firstn_length in H.
  rewrite firstn_firstn. f_equal. lia.
Qed.

Lemma precision_scores_R (h : list R) : @precision_scores_of NumR h =
  map (fun i => if Reqb (nth i h 0%R) 0 then 0%R else (Rsum (firstn (i + 1) h) / INR (i + 1))%R)
      (seq 0 (length h)).
Proof.
  unfold precision_scores_of.
  etransitivity; [exact (map_enumerate_seq (fun i (x : R) => if @feqb NumR x fzero then @fzero NumR
     else @fdiv NumR (@fsum NumR (firstn (i + 1) h)) (fnat (i + 1))) h 0%R)|].
  apply map_ext. intros i. rewrite fsum_R, fnat_INR. reflexivity.
Qed.

Lemma average_precision_spec k :
  @_average_precision NumR (qrows E j) (rrows E r) k lvl = S_map j lvl rk k.
Proof.
  unfold _average_precision, S_map. rewrite clean_length.
  destruct (n_relevant j lvl) as [|n] eqn:Hn; cbn [Nat.eqb]; [reflexivity|].
  rewrite hit_list_spec, fsum_R, fnat_INR. numR. f_equal.
  rewrite precision_scores_R. unfold Rsum_n.
  rewrite map_length. apply Rsum_map_ext. intros i Hi. apply in_seq in Hi.
  rewrite firstn_map, Rsum_indicator, firstn_top by lia.
  rewrite (nth_indep _ 0%R (if relevant j lvl EmptyString then 1%R else 0%R)) by (rewrite map_length; lia).
  rewrite (map_nth (fun d => if relevant j lvl d then 1%R else 0%R)), nth_top by lia.
  numR. destruct (relevant j lvl (nth i rk EmptyString)).
  - rewrite (proj2 (Reqb_false 1 0)) by lra. reflexivity.
  - rewrite (proj2 (Reqb_true 0 0)) by reflexivity. reflexivity.
Qed.

Lemma Rpow_2 x : Rpow 2 x = Rpower 2 x.
Proof. unfold Rpow. destruct (Rlt_dec 0 2); [reflexivity|lra]. Qed.

Lemma Rsum_zero l : (forall x, In x l -> x = 0%R) -> Rsum l = 0%R.
Proof.
  induction l as [|a l IH]; intros H; [reflexivity|]. cbn [Rsum].
  rewrite (H a) by now left. rewrite IH; [lra|]. intros; apply H; now right.
Qed.

Lemma dcg_spec k (jv : bool) :
  @_dcg NumR (qrows E j) (rrows E r) k lvl jv
  = if jv then S_dcg j lvl rk k else S_dcg_burges j lvl rk k.
Proof.
  unfold _dcg, S_dcg, S_dcg_burges, S_dcg_with. rewrite clean_length.
  destruct (n_relevant j lvl) as [|n] eqn:Hn; cbn [Nat.eqb].
  - assert (Hz : forall g, (forall d, g d = 0%R) -> forall m, Rsum_n m (fun i => (g (nth i rk EmptyString) / log2 (INR (i + 2)))%R) = 0%R).
    { intros g Hg m. apply Rsum_zero. intros x Hx. apply in_map_iff in Hx as (i & <- & _). rewrite Hg. unfold Rdiv. lra. }
    destruct jv; symmetry; apply Hz.
    + intros d. apply gain_not_relevant. now apply no_relevant_top.
    + intros d. unfold burges_gain. rewrite gain_not_relevant by now apply no_relevant_top.
      rewrite Rpower_O by lra. lra.
  - rewrite weighted_hit_list_spec, fsum_R.
    match goal with |- Rsum ?l = _ => change l with (map (fun p : nat * R =>
        (fun i g => @fdiv NumR (if jv then g else @fsub NumR (@fpow NumR (fofZ 2) g) fone)
                               (flog2 (fnat (i + 1 + 1)))) (fst p) (snd p))
        (enumerate (map (gain j lvl) (top rk k)))) end.
    rewrite (map_enumerate_seq (fun i g => @fdiv NumR (if jv then g else @fsub NumR (@fpow NumR (fofZ 2) g) fone)
                               (flog2 (fnat (i + 1 + 1)))) _ 0%R).
    rewrite map_length. unfold Rsum_n.
    assert (Heq : forall i, In i (seq 0 (length (top rk k))) ->
       nth i (map (gain j lvl) (top rk k)) 0%R = gain j lvl (nth i rk EmptyString)).
    { intros i Hi. apply in_seq in Hi.
      rewrite (nth_indep _ 0%R (gain j lvl EmptyString)) by (rewrite map_length; lia).
      rewrite map_nth, nth_top by lia. reflexivity. }
    destruct jv; apply Rsum_map_ext; intros i Hi; rewrite Heq, fnat_INR by exact Hi;
      replace (i + 1 + 1) with (i + 2) by lia; numR; [reflexivity|].
    now rewrite Rpow_2.
Qed.

Lemma rbp_spec p : @_rank_biased_precision NumR (qrows E j) (rrows E r) p lvl = S_rbp j lvl rk p.
Proof.
  unfold _rank_biased_precision, S_rbp. rewrite clean_length.
  destruct (n_relevant j lvl) as [|n] eqn:Hn; cbn [Nat.eqb].
  - replace (Rsum_n _ _) with 0%R; [numR; lra|]. symmetry. apply Rsum_zero.
    intros x Hx. apply in_map_iff in Hx as (i & <- & _).
    rewrite gain_not_relevant by now apply no_relevant_top. lra.
  - rewrite <- fix_k_0, weighted_hit_list_spec, fsum_R. numR. f_equal. cbn [top].
    rewrite (map_enumerate_seq (fun i g => (g * p ^ i)%R) _ 0%R). unfold Rsum_n. rewrite map_length.
    apply Rsum_map_ext. intros i Hi. apply in_seq in Hi.
    rewrite (nth_indep _ 0%R (gain j lvl EmptyString)) by (rewrite map_length; lia).
    now rewrite map_nth.
Qed.

(** hit / unjudged / non-relevant lists *)
Lemma get_hit_list_spec k :
  @_get_hit_list NumR (qrows E j) (rrows E r) k lvl
  = map (fun d => if relevant j lvl d then 1 else 0)%R (top rk k).
Proof.
  unfold _get_hit_list. rewrite clean_length.
  destruct (n_relevant j lvl) as [|n] eqn:Hn; cbn [Nat.eqb]; [|apply hit_list_spec].
  rewrite (map_ext_in _ (fun _ => 0%R)) by (intros d _; now rewrite (no_relevant_top Hn)).
  pose proof (map_top (fun _ => 0%R) (fun _ => 0%R) k (fun _ _ _ => eq_refl)) as H.
  rewrite <- H. clear H.
  assert (Hl : length (firstn (fix_k k (rrows E r)) (rrows E r)) = fix_k k (rrows E r)).
  { rewrite firstn_length. unfold fix_k.
    destruct (Nat.eqb_spec k 0), (Nat.ltb_spec (length (rrows E r)) k); cbn; lia. }
  rewrite <- Hl at 1. generalize (firstn (fix_k k (rrows E r)) (rrows E r)). clear.
  induction l as [|x l IH]; cbn; [reflexivity|]. f_equal. exact IH.
Qed.

Lemma get_unjudged_list_spec k :
  @_get_unjudged_list NumR (qrows E j) (rrows E r) k
  = map (fun d => if judged j d then 0 else 1)%R (top rk k).
Proof.
  unfold _get_unjudged_list.
  assert (Hl : length (qrows E j) = length j) by apply map_length.
  rewrite Hl. destruct (length j) as [|n] eqn:Hn; cbn [Nat.eqb].
  - apply length_zero_iff_nil in Hn.
    rewrite (map_ext_in _ (fun _ => 1%R)) by (intros d _; unfold judged; now rewrite Hn).
    pose proof (map_top (fun _ => 1%R) (fun _ => 1%R) k (fun _ _ _ => eq_refl)) as H.
    rewrite <- H. clear H.
    assert (Hl2 : length (firstn (fix_k k (rrows E r)) (rrows E r)) = fix_k k (rrows E r)).
    { rewrite firstn_length. unfold fix_k.
      destruct (Nat.eqb_spec k 0), (Nat.ltb_spec (length (rrows E r)) k); cbn; lia. }
    rewrite <- Hl2 at 1. generalize (firstn (fix_k k (rrows E r)) (rrows E r)). clear.
    induction l as [|x l IH]; cbn; [reflexivity|]. f_equal. exact IH.
  - apply map_top. intros d s Hd. cbn [fst]. rewrite scan_judged by exact Hd.
    unfold judged. now destruct (dget j d).
Qed.

Lemma get_non_rel_list_spec k :
  @_get_non_rel_list NumR (qrows E j) (rrows E r) k
  = map (fun d => match dget j d with Some v => if (v =? 0)%Z then 1 else 0 | None => 0 end)%R (top rk k).
Proof.
  unfold _get_non_rel_list. rewrite non_rel_filter.
  assert (Hl : length (qrows E (jfilter (fun v => (v =? 0)%Z))) = length (jfilter (fun v => (v =? 0)%Z))) by apply map_length.
  rewrite Hl. destruct (length (jfilter _)) as [|n] eqn:Hn; cbn [Nat.eqb].
  - apply length_zero_iff_nil in Hn.
    rewrite (map_ext_in _ (fun _ => 0%R)).
    2:{ intros d _. pose proof (jfilter_get (fun v => (v =? 0)%Z) d Hj) as Hg. rewrite Hn in Hg. cbn in Hg.
        destruct (dget j d) as [v|]; [|reflexivity]. destruct (v =? 0)%Z; [discriminate|reflexivity]. }
    pose proof (map_top (fun _ => 0%R) (fun _ => 0%R) k (fun _ _ _ => eq_refl)) as H.
    rewrite <- H. clear H.
    assert (Hl2 : length (firstn (fix_k k (rrows E r)) (rrows E r)) = fix_k k (rrows E r)).
    { rewrite firstn_length. unfold fix_k.
      destruct (Nat.eqb_spec k 0), (Nat.ltb_spec (length (rrows E r)) k); cbn; lia. }
    rewrite <- Hl2 at 1. generalize (firstn (fix_k k (rrows E r)) (rrows E r)). clear.
    induction l as [|x l IH]; cbn; [reflexivity|]. f_equal. exact IH.
  - unfold hit_list_of. apply map_top. intros d s Hd. cbn [fst]. rewrite scan_filter by exact Hd.
    destruct (dget j d) as [v|]; [|reflexivity]. now destruct (v =? 0)%Z.
Qed.
End Bridge.
