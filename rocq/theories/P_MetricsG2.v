(** P_MetricsG2.v: bpref, for any number type *)
From Coq Require Import Reals.
From Verif Require Import Base Dict Num NumLaws Env M_Common M_Qrels M_Run M_Metrics Spec_Metrics P_Base P_Dict P_Metrics P_Metrics2 P_Metrics4 P_MetricsG.
Open Scope list_scope.
Open Scope nat_scope.

Lemma filter_map_g {A B} (f : A -> B) (p : B -> bool) m : filter p (map f m) = map f (filter (fun a => p (f a)) m).
Proof. induction m as [|a m IH]; [reflexivity|]. cbn [map filter]. destruct (p (f a)); cbn [map]; now rewrite IH. Qed.

Section G2.
Context {N : Num} (E : env N) (j : dict Z) (lvl : Z).
Context (Hle : forall v, In v (map snd j) -> fleb (fofZ lvl) (fofZ v : F) = (lvl <=? v)%Z).
Context (Hlt : forall v, In v (map snd j) -> fltb (fofZ v : F) (fofZ lvl) = (v <? lvl)%Z).
Context (E11 : @feqb N fone fone = true) (E01 : @feqb N fzero fone = false) (E10 : @feqb N fone fzero = false) (E00 : @feqb N fzero fzero = true).
Context (r : dict F).
Context (Hj : dict_ok j) (Hid : ids_distinct (doc_key E) (dkeys j ++ dkeys r)).
Notation qr := (to_rows E q_tof).
Notation rr := (to_rows E r_tof).
Notation ds := (dkeys r).
Notation rel := (relevant j lvl).

Lemma firstn_fix0 : firstn (fix_k 0 (rr r)) (rr r) = rr r.
Proof. unfold fix_k. cbn [Nat.eqb orb]. apply firstn_all. Qed.
Lemma map_all_g {B} (f : Z * F -> B) (g : string -> B) : (forall d s, In d ds -> f (doc_key E d, s) = g d) -> map f (rr r) = map g ds.
Proof.
  intros H. unfold to_rows, dkeys in *. rewrite !map_map. apply map_ext_in. intros [d s] Hd. cbn [fst snd]. apply H. apply in_map_iff. now exists (d, s).
Qed.
Lemma repeat_map {A B} (l : list A) (b : B) : repeat b (length l) = map (fun _ => b) l.
Proof. induction l; cbn; congruence. Qed.
Lemma get_hit_list_g : _get_hit_list (qr j) (rr r) 0 lvl = map (fun d => if rel d then fone else fzero) ds.
Proof.
  unfold _get_hit_list. rewrite (clean_length_g E j lvl Hle). destruct (n_relevant j lvl) as [|n] eqn:Hn; cbn [Nat.eqb].
  - unfold fix_k. cbn [Nat.eqb orb]. replace (length (rr r)) with (length ds) by (unfold to_rows, dkeys; now rewrite !map_length). rewrite repeat_map.
    apply map_ext_in. intros d _. destruct (rel d) eqn:Hr; [|reflexivity]. exfalso. unfold relevant in Hr. destruct (dget j d) as [v|] eqn:Hd; [|discriminate].
    apply dget_Some_in in Hd. unfold n_relevant in Hn. rewrite count_zero_iff in Hn. specialize (Hn _ Hd). cbn in Hn. congruence.
  - unfold hit_list_of. rewrite firstn_fix0. apply map_all_g. intros d s Hd. cbn [fst]. rewrite (scan_g E j lvl Hle r Hj Hid d Hd). now destruct (rel d).
Qed.
Lemma get_unjudged_list_g : _get_unjudged_list (qr j) (rr r) 0 = map (fun d => if judged j d then fzero else fone) ds.
Proof.
  unfold _get_unjudged_list. assert (Hl : length (qr j) = length j) by apply map_length. rewrite Hl. destruct (length j) as [|n] eqn:Hn; cbn [Nat.eqb].
  - unfold fix_k. cbn [Nat.eqb orb]. replace (length (rr r)) with (length ds) by (unfold to_rows, dkeys; now rewrite !map_length). rewrite repeat_map.
    apply map_ext. intros d. apply length_zero_iff_nil in Hn. rewrite Hn. reflexivity.
  - rewrite firstn_fix0. apply map_all_g. intros d s Hd. cbn [fst]. rewrite scan_first_match, (first_match_g E j d (dkeys j ++ dkeys r) Hid).
    + unfold judged. destruct (dget j d); reflexivity.
    + apply in_or_app. now right.
    + intros x Hx. apply in_or_app. now left.
Qed.
(** the numbers of judged non-relevant documents above the relevant ones *)
Definition aboves (l : list string) : list nat :=
  map (nonrel_above j lvl l) (filter (fun i => rel (nth i l EmptyString)) (seq 0 (length l))).
Lemma above_list (jd : string -> bool) l : forall a, (forall d, rel d = true -> jd d = true) ->
  mask (cumsum_from a (map (fun d => negb (rel d)) (filter jd l))) (map rel (filter jd l)) =
  map (fun i => count (fun d => jd d && negb (rel d)) (firstn i l) + a) (filter (fun i => rel (nth i l EmptyString)) (seq 0 (length l))).
Proof.
  induction l as [|d l IH]; intros a H; [reflexivity|].
  cbn [length]. rewrite <- cons_seq, <- seq_shift. cbn [filter nth]. rewrite filter_map_g.
  assert (Hs : filter (fun x => rel (nth (S x) (d :: l) EmptyString)) (seq 0 (length l)) = filter (fun i => rel (nth i l EmptyString)) (seq 0 (length l))) by reflexivity.
  cbn [filter]. destruct (jd d) eqn:Hjd.
  - cbn [map cumsum_from mask]. destruct (rel d) eqn:Hr; cbn [negb andb].
    + cbn [map firstn count plus]. f_equal. rewrite IH by exact H. rewrite map_map. apply map_ext. intros i. cbn [firstn count]. rewrite Hjd, Hr. reflexivity.
    + rewrite IH by exact H. rewrite map_map. apply map_ext. intros i. cbn [firstn count]. rewrite Hjd, Hr. cbn [negb andb]. lia.
  - assert (Hr : rel d = false) by (destruct (rel d) eqn:Hr; auto; apply H in Hr; congruence). rewrite Hr.
    rewrite IH by exact H. rewrite map_map. apply map_ext. intros i. cbn [firstn count]. rewrite Hjd. reflexivity.
Qed.
Lemma bpref_g : _bpref (qr j) (rr r) lvl =
  if n_relevant j lvl =? 0 then Err ZeroDivisionError else
  Ok (fdiv (fsum (map (fun c => fsub fone (fdiv (fnat (Nat.min c (n_relevant j lvl))) (fnat (Nat.min (n_relevant j lvl) (n_judged_nonrelevant j lvl))))) (aboves ds)))
           (fnat (n_relevant j lvl))).
Proof.
  unfold _bpref. rewrite get_hit_list_g, get_unjudged_list_g, !map_map.
  assert (C1 : count (fun r => fleb (fofZ lvl) (snd r)) (qr j) = n_relevant j lvl).
  { unfold to_rows, n_relevant. rewrite count_map. apply count_ext. intros [d v] Hd. cbn [fst snd]. apply Hle. apply in_map_iff. now exists (d, v). }
  assert (C2 : count (fun r => fltb (snd r) (fofZ lvl)) (qr j) = n_judged_nonrelevant j lvl).
  { unfold to_rows, n_judged_nonrelevant. rewrite count_map. apply count_ext. intros [d v] Hd. cbn [fst snd]. apply Hlt. apply in_map_iff. now exists (d, v). }
  rewrite C1, C2. destruct (n_relevant j lvl =? 0); [reflexivity|]. do 4 f_equal.
  rewrite (map_ext (fun x => negb (feqb (if judged j x then fzero else fone) fone)) (judged j)) by (intros d; destruct (judged j d); rewrite ?E01, ?E11; reflexivity).
  rewrite mask_filter, !map_map.
  rewrite (map_ext (fun x => feqb (if rel x then fone else fzero) fzero) (fun d => negb (rel d))) by (intros d; destruct (rel d); rewrite ?E10, ?E00; reflexivity).
  rewrite (map_ext (fun x => feqb (if rel x then fone else fzero) fone) rel) by (intros d; destruct (rel d); rewrite ?E01, ?E11; reflexivity).
  rewrite above_list; [|intros d; unfold relevant, judged; destruct (dget j d); auto]. apply map_ext. intros i. apply Nat.add_0_r.
Qed.
End G2.
