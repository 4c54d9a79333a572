(** P_MetricsG.v: the metric functions in terms of documents, for any number type that compares the
    judgments correctly *)
From Coq Require Import Reals Lia.
From Verif Require Import Base Dict Num Env M_Common M_Qrels M_Run M_Metrics Spec_Metrics P_Base P_Dict P_Common P_Metrics P_Metrics6.
Open Scope list_scope.
Open Scope nat_scope.

Section G.
Context {N : Num} (E : env N) (j : dict Z) (lvl : Z).
Context (Hle : forall v, In v (map snd j) -> fleb (fofZ lvl) (fofZ v : F) = (lvl <=? v)%Z).
Notation qr j := (@to_rows N E Z (@q_tof N) j).
Notation rr r := (@to_rows N E F (@r_tof N) r).

Lemma clean_g : clean_qrels (qr j) lvl = qr (jfilter j (fun v => (lvl <=? v)%Z)).
Proof.
  unfold clean_qrels, jfilter, to_rows. revert Hle. clear. induction j as [|[d v] l IH]; intros Hle; [reflexivity|].
  cbn [map filter fst snd]. unfold q_tof at 1. rewrite Hle by (now left).
  destruct (lvl <=? v)%Z; cbn [map]; rewrite IH by (intros; apply Hle; now right); reflexivity.
Qed.
Lemma clean_length_g : length (clean_qrels (qr j) lvl) = n_relevant j lvl.
Proof. rewrite clean_g. unfold to_rows, jfilter, n_relevant. now rewrite map_length, count_filter. Qed.
Lemma clean_clean_g (q : rows) : clean_qrels (clean_qrels q lvl) lvl = clean_qrels q lvl.
Proof.
  unfold clean_qrels. induction q as [|x l IH]; [reflexivity|]. cbn [filter].
  destruct (fleb (fofZ lvl) (snd x)) eqn:He; [cbn [filter]; now rewrite He, IH|exact IH].
Qed.
Lemma first_match_g (j' : dict Z) d docs : ids_distinct (doc_key E) docs -> In d docs -> (forall x, In x (dkeys j') -> In x docs) ->
  first_match (doc_key E d) (qr j') = option_map fofZ (dget j' d).
Proof.
  intros Hd Hin. induction j' as [|[k v] l IH]; intros Hk; [reflexivity|].
  cbn [to_rows map first_match fst snd dget]. destruct (String.eqb_spec d k) as [ -> |Hne].
  - rewrite Z.eqb_refl. reflexivity.
  - destruct (Z.eqb_spec (doc_key E d) (doc_key E k)) as [He|_].
    + apply Hd in He; [contradiction|exact Hin|]. apply Hk. now left.
    + apply IH. intros x Hx. apply Hk. now right.
Qed.

Context (r : dict F).
Context (Hj : dict_ok j) (Hid : ids_distinct (doc_key E) (dkeys j ++ dkeys r)).

(** the gain of a document as a float *)
Definition gain_g (d : string) : F := match dget j d with Some v => if (lvl <=? v)%Z then fofZ v else fzero | None => fzero end.
Lemma scan_g d : In d (dkeys r) -> scan (clean_qrels (qr j) lvl) (doc_key E d) = if relevant j lvl d then Some (gain_g d) else None.
Proof.
  intros Hd. rewrite clean_g, scan_first_match. rewrite (first_match_g _ d (dkeys j ++ dkeys r) Hid).
  - rewrite jfilter_get by exact Hj. unfold relevant, gain_g. destruct (dget j d) as [v|]; [|reflexivity]. now destruct (lvl <=? v)%Z.
  - apply in_or_app. now right.
  - intros x Hx. apply in_or_app. left. eapply jfilter_incl; eauto.
Qed.
Definition rkg : list string := dkeys r.
Lemma rr_length_g : length (rr r) = length rkg.
Proof. unfold to_rows, rkg, dkeys. now rewrite !map_length. Qed.
Lemma top_rows_g k : firstn (fix_k k (rr r)) (rr r) = map (fun kv => (doc_key E (fst kv), snd kv)) (match k with O => r | _ => firstn k r end).
Proof.
  unfold fix_k. rewrite rr_length_g. unfold rkg, dkeys. rewrite map_length. destruct k as [|k]; cbn [Nat.eqb orb].
  - unfold to_rows. rewrite firstn_all2 by (rewrite map_length; lia). reflexivity.
  - destruct (Nat.ltb_spec (length r) (S k)).
    + unfold to_rows. rewrite firstn_all2 by (rewrite map_length; lia). rewrite firstn_all2 by lia. reflexivity.
    + unfold to_rows. now rewrite firstn_map.
Qed.
Lemma map_top_g {B} (f : Z * F -> B) (g : string -> B) k : (forall d s, In d rkg -> f (doc_key E d, s) = g d) ->
  map f (firstn (fix_k k (rr r)) (rr r)) = map g (top rkg k).
Proof.
  intros H. rewrite top_rows_g, map_map. unfold top, rkg, dkeys. destruct k as [|k].
  - rewrite map_map. apply map_ext_in. intros [d s] Hi. apply H. unfold rkg, dkeys. change d with (fst (d, s)). now apply in_map.
  - rewrite firstn_map, map_map. apply map_ext_in. intros [d s] Hi. apply H.
    unfold rkg, dkeys. change d with (fst (d, s)). apply in_map. rewrite <- (firstn_skipn (S k) r). apply in_or_app. now left.
Qed.
Lemma fold_left_map {A B T} (f : T -> A -> T) (g : B -> A) (l : list B) : forall s, fold_left f (map g l) s = fold_left (fun t b => f t (g b)) l s.
Proof. induction l as [|b l IH]; intros s; [reflexivity|]. apply IH. Qed.
Lemma top_in_g k d : In d (top rkg k) -> In d rkg.
Proof. unfold top. destruct k; [auto|]. intros H. rewrite <- (firstn_skipn (S k) rkg). apply in_or_app. now left. Qed.

(** the hit list, and hits as a left-to-right count *)
Definition hitf (d : string) : F := if relevant j lvl d then fone else fzero.
Lemma hit_list_g k : hit_list_of (clean_qrels (qr j) lvl) (rr r) (fix_k k (rr r)) = map hitf (top rkg k).
Proof. unfold hit_list_of. apply map_top_g. intros d s Hd. cbn [fst]. rewrite scan_g by exact Hd. unfold hitf. now destruct (relevant j lvl d). Qed.
Lemma weighted_g k : weighted_hit_list_of (clean_qrels (qr j) lvl) (rr r) (fix_k k (rr r)) = map gain_g (top rkg k).
Proof.
  unfold weighted_hit_list_of. apply map_top_g. intros d s Hd. cbn [fst]. rewrite scan_g by exact Hd. unfold gain_g, relevant.
  destruct (dget j d) as [v|]; [|reflexivity]. now destruct (lvl <=? v)%Z.
Qed.
Fixpoint count_f (n : nat) : F := match n with O => fzero | S n' => fadd (count_f n') fone end.
Lemma fold_count_g (p : string -> bool) l : forall n, fold_left (fun h d => if p d then fadd h fone else h) l (count_f n) = count_f (n + count p l).
Proof.
  induction l as [|d l IH]; intros n; cbn [fold_left count]; [now rewrite Nat.add_0_r|]. destruct (p d).
  - change (fadd (count_f n) fone) with (count_f (S n)). rewrite IH. f_equal. lia.
  - rewrite IH. reflexivity.
Qed.
Lemma hits_g k : _hits (qr j) (rr r) k lvl = count_f (S_hits j lvl rkg k).
Proof.
  unfold _hits. rewrite clean_length_g. unfold S_hits. destruct (n_relevant j lvl) eqn:Hn; cbn [Nat.eqb].
  - rewrite count_false by now apply no_relevant_top. reflexivity.
  - assert (Hm := map_top_g (fun x => match scan (clean_qrels (qr j) lvl) (fst x) with Some _ => true | None => false end) (relevant j lvl) k).
    assert (Hp : forall (d : string) (s : F), In d rkg -> (match scan (clean_qrels (qr j) lvl) (fst (doc_key E d, s)) with Some _ => true | None => false end) = relevant j lvl d).
    { intros d s Hd. cbn [fst]. rewrite scan_g by exact Hd. now destruct (relevant j lvl d). }
    specialize (Hm Hp). clear Hp. change fzero with (count_f 0). rewrite <- (Nat.add_0_l (count _ _)). rewrite <- fold_count_g.
    set (a := firstn _ (rr r)) in *. clearbody a. revert Hm. generalize (top rkg k) as ds. generalize (count_f 0) as h. clear.
    induction a as [|x a IH]; intros h [|d ds] H; cbn in H; try discriminate; [reflexivity|]. injection H as H1 H2. cbn [fold_left].
    rewrite <- H1. destruct (scan _ (fst x)); now apply IH.
Qed.
Lemma hits_clean_g k : _hits (clean_qrels (qr j) lvl) (rr r) k lvl = count_f (S_hits j lvl rkg k).
Proof. rewrite <- hits_g. unfold _hits. now rewrite clean_clean_g. Qed.
Lemma hit_rate_g k : _hit_rate (qr j) (rr r) k lvl = if existsb (relevant j lvl) (top rkg k) then fone else fzero.
Proof.
  unfold _hit_rate. rewrite clean_length_g.
  assert (Hex : forall A (p : A -> bool) l, existsb p l = existsb (fun b => b) (map p l)).
  { intros A p l. induction l as [|a l IH]; cbn; [reflexivity|]. now rewrite IH. }
  destruct (n_relevant j lvl) eqn:Hn; cbn [Nat.eqb].
  - rewrite Hex, (map_ext_in _ (fun _ => false)) by (intros; now apply no_relevant_top).
    replace (existsb (fun b => b) (map (fun _ => false) (top rkg k))) with false; [reflexivity|]. symmetry. induction (top rkg k); cbn; auto.
  - rewrite Hex. rewrite (map_top_g _ (fun d => relevant j lvl d)).
    + rewrite <- Hex. reflexivity.
    + intros d s Hd. cbn [fst]. rewrite scan_g by exact Hd. now destruct (relevant j lvl d).
Qed.
Lemma S_hits_depth_g k : depth rkg k <> 0 -> S_hits j lvl rkg (depth rkg k) = S_hits j lvl rkg k.
Proof.
  intros H. unfold S_hits. f_equal. unfold depth in *. destruct k; [|reflexivity]. unfold top. destruct (length rkg) eqn:Hl; [congruence|]. rewrite <- Hl. apply firstn_all.
Qed.
Lemma precision_g k : _precision (qr j) (rr r) k lvl = match depth rkg k with O => fzero | n => fdiv (count_f (S_hits j lvl rkg k)) (fnat n) end.
Proof.
  unfold _precision. rewrite rr_length_g. replace (if k =? 0 then length rkg else k) with (depth rkg k) by (now destruct k).
  destruct (depth rkg k) as [|n] eqn:Hd; cbn [Nat.eqb]; [reflexivity|]. rewrite hits_g, <- Hd, S_hits_depth_g by (rewrite Hd; discriminate). reflexivity.
Qed.
Lemma recall_g k : _recall (qr j) (rr r) k lvl = match n_relevant j lvl, depth rkg k with O, _ | _, O => fzero | n, _ => fdiv (count_f (S_hits j lvl rkg k)) (fnat n) end.
Proof.
  unfold _recall. rewrite clean_length_g, rr_length_g. destruct (n_relevant j lvl) as [|n] eqn:Hn; cbn [Nat.eqb]; [reflexivity|].
  replace (if k =? 0 then length rkg else k) with (depth rkg k) by (now destruct k). destruct (depth rkg k) as [|m] eqn:Hd; cbn [Nat.eqb]; [reflexivity|].
  rewrite hits_clean_g, <- Hd, S_hits_depth_g by (rewrite Hd; discriminate). reflexivity.
Qed.
Lemma f1_g k : _f1 (qr j) (rr r) k lvl = match n_relevant j lvl, depth rkg k with O, _ | _, O => fzero
  | n, m => let h := count_f (S_hits j lvl rkg k) in let p := fdiv h (fnat m) in let rc := fdiv h (fnat n) in
            if feqb (fadd p rc) fzero then fzero else fmul (fofZ 2) (fdiv (fmul p rc) (fadd p rc)) end.
Proof.
  unfold _f1. rewrite clean_length_g, rr_length_g. destruct (n_relevant j lvl) as [|n] eqn:Hn; cbn [Nat.eqb]; [reflexivity|].
  replace (if k =? 0 then length rkg else k) with (depth rkg k) by (now destruct k). destruct (depth rkg k) as [|m] eqn:Hd; cbn [Nat.eqb]; [reflexivity|].
  rewrite hits_clean_g, <- Hd, S_hits_depth_g by (rewrite Hd; discriminate). reflexivity.
Qed.
Lemma r_precision_g : _r_precision (qr j) (rr r) lvl = match n_relevant j lvl with O => fzero | n => fdiv (count_f (S_hits j lvl rkg n)) (fnat n) end.
Proof.
  unfold _r_precision. rewrite clean_length_g. destruct (n_relevant j lvl) as [|n] eqn:Hn; cbn [Nat.eqb]; [reflexivity|].
  unfold _precision. cbn [Nat.eqb]. now rewrite hits_clean_g.
Qed.
Lemma exists_first_match_g (q : rows) id : existsb (fun y => (id =? fst y)%Z) q = match first_match id q with Some _ => true | None => false end.
Proof. induction q as [|[i v] q IH]; [reflexivity|]. cbn [existsb first_match fst snd]. destruct (id =? i)%Z; cbn [orb]; [reflexivity|exact IH]. Qed.
Lemma rr_loop_g (q : rows) (l : rows) (p : string -> bool) ds : forall i, Forall2 (fun x d => existsb (fun y => (fst x =? fst y)%Z) q = p d) l ds ->
  rr_loop i q l = match first_pos p ds with Some n => fdiv fone (fnat (i + n + 1)) | None => fzero end.
Proof.
  intros i H. revert i. induction H as [|x d l ds Hx H IH]; intros i; [reflexivity|]. cbn [rr_loop first_pos]. rewrite <- Hx.
  destruct (existsb (fun y => (fst x =? fst y)%Z) q); [now rewrite Nat.add_0_r|]. rewrite IH. destruct (first_pos p ds); cbn [option_map]; [|reflexivity]. now replace (S i + n + 1) with (i + S n + 1) by lia.
Qed.
Lemma mrr_g k : _reciprocal_rank (qr j) (rr r) k lvl = match first_pos (relevant j lvl) (top rkg k) with Some n => fdiv fone (fnat (n + 1)) | None => fzero end.
Proof.
  unfold _reciprocal_rank. rewrite clean_length_g. destruct (n_relevant j lvl) as [|n] eqn:Hn; cbn [Nat.eqb].
  - replace (first_pos (relevant j lvl) (top rkg k)) with (@None nat); [reflexivity|].
    symmetry. induction (top rkg k) as [|d l IH]; [reflexivity|]. cbn. rewrite (no_relevant_top j lvl Hn). now rewrite IH.
  - rewrite (rr_loop_g _ _ (relevant j lvl) (top rkg k)); [reflexivity|].
    assert (Hm := map_top_g (fun x => existsb (fun y => (fst x =? fst y)%Z) (clean_qrels (qr j) lvl)) (relevant j lvl) k).
    assert (Hp : forall (d : string) (s : F), In d rkg -> existsb (fun y => (fst (doc_key E d, s) =? fst y)%Z) (clean_qrels (qr j) lvl) = relevant j lvl d).
    { intros d s Hd. cbn [fst]. rewrite exists_first_match_g, <- scan_first_match, scan_g by exact Hd. now destruct (relevant j lvl d). }
    specialize (Hm Hp). clear Hp. set (a := firstn _ (rr r)) in *. clearbody a. revert Hm.
    generalize (top rkg k). clear. induction a as [|x a IH]; intros [|d l] H; cbn in H; try discriminate; constructor.
    + now inversion H.
    + apply IH. now inversion H.
Qed.
Lemma map_g k : _average_precision (qr j) (rr r) k lvl = match n_relevant j lvl with O => fzero
  | n => fdiv (fsum (precision_scores_of (map hitf (top rkg k)))) (fnat n) end.
Proof. unfold _average_precision. rewrite clean_length_g. destruct (n_relevant j lvl) as [|n] eqn:Hn; cbn [Nat.eqb]; [reflexivity|]. now rewrite hit_list_g. Qed.
Definition dcg_terms (jv : bool) (w : list F) : list F :=
  map (fun ig => fdiv (if jv then snd ig else fsub (fpow (fofZ 2) (snd ig)) fone) (flog2 (fnat (fst ig + 1 + 1)))) (enumerate w).
Lemma dcg_g k jv : _dcg (qr j) (rr r) k lvl jv = match n_relevant j lvl with O => fzero | _ => fsum (dcg_terms jv (map gain_g (top rkg k))) end.
Proof. unfold _dcg. rewrite clean_length_g. destruct (n_relevant j lvl) as [|n] eqn:Hn; cbn [Nat.eqb]; [reflexivity|]. now rewrite weighted_g. Qed.
End G.

(** the ideal ranking handed to [_dcg] by [_idcg] is the judgments themselves *)
Lemma idcg_g {N : Num} (E : env N) j lvl k jv : (forall v, In v (map snd j) -> fleb (fofZ lvl) (fofZ v : F) = (lvl <=? v)%Z) -> dict_ok j -> ids_distinct (doc_key E) (dkeys j) ->
  _idcg (@to_rows N E Z (@q_tof N) j) k lvl jv = match n_relevant j lvl with O => fzero | _ => fsum (dcg_terms jv (map (gain_g j lvl) (top (dkeys j) k))) end.
Proof.
  intros Hle Hj Hid. unfold _idcg.
  assert (Hr : @to_rows N E Z (@q_tof N) j = @to_rows N E F (@r_tof N) (map (fun dv => (fst dv, fofZ (snd dv))) j)) by (unfold to_rows; now rewrite map_map).
  assert (Hk : dkeys (map (fun dv => (fst dv, fofZ (snd dv) : F)) j) = dkeys j) by (unfold dkeys; now rewrite map_map).
  rewrite Hr at 2. rewrite (dcg_g E j lvl Hle _ Hj) by (rewrite Hk; intros d d' Hd Hd' He; apply Hid; auto; apply in_app_or in Hd; apply in_app_or in Hd'; tauto).
  unfold rkg. now rewrite Hk.
Qed.

(** the functions of the package, query by query *)
Lemma lift4_g {N : Num} (E : env N) (HE : env_ok E) (f : rows -> rows -> nat -> Z -> F) tag js (rs : list (dict F)) k lvl :
  (0 <= k)%Z -> length js = length rs ->
  lift4 E f tag (map (fun j => @to_rows N E Z (@q_tof N) j) js) (map (fun r => @to_rows N E F (@r_tof N) r) rs) k lvl
  = Ok (map (fun jr => f (@to_rows N E Z (@q_tof N) (fst jr)) (@to_rows N E F (@r_tof N) (snd jr)) (Z.to_nat k) lvl) (combine js rs)).
Proof.
  intros Hk Hlen. unfold lift4, with_k, assertr. destruct (Z.leb_spec 0 k); [|lia]. cbn [bindr].
  rewrite (parallel_map E tag fzero _ _ _ (fun q r => f q r (Z.to_nat k) lvl) HE).
  - f_equal. clear - Hlen. revert rs Hlen. induction js as [|a js IH]; intros [|b rs] Hl; try discriminate; [reflexivity|]. cbn. f_equal. apply IH. now injection Hl.
  - revert rs Hlen. induction js as [|a js IH]; intros [|b rs] Hl; try discriminate; cbn [map]; constructor; [reflexivity|]. apply IH. now injection Hl.
Qed.
