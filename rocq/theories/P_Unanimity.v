(** P_Unanimity.v: sums compared run by run *)
From Coq Require Import Reals Lra Psatz.
From Verif Require Import Base Dict Num NumLaws Env EnvEx M_Common M_Qrels M_Run M_History M_Norm M_Fusion
  Spec_DS Spec_Hist Spec_Metrics Spec_Eval Spec_Norm Spec_Fusion Spec_Unanimity
  P_Base P_Dict P_Common P_DS P_Metrics P_Eval P_Norm T_Norm T_Norm2 T_Norm3 P_Fusion P_Fusion2 P_Fusion3
  T_Fusion T_Fusion2 T_Fusion3 T_Fusion4 T_Fusion5 T_Fusion6 Ex_Metrics.
Open Scope string_scope.
Open Scope list_scope.
Open Scope nat_scope.

Lemma Rsum_map_le {A} (f g : A -> R) l : (forall x, In x l -> (f x <= g x)%R) -> (Rsum (map f l) <= Rsum (map g l))%R.
Proof.
  intros H. induction l as [|x l IH]; cbn; [lra|]. change (fold_right Rplus 0%R) with Rsum.
  pose proof (H x (or_introl eq_refl)). assert (Rsum (map f l) <= Rsum (map g l))%R by (apply IH; intros; apply H; now right). lra.
Qed.
Lemma Rsum_map_lt {A} (f g : A -> R) l : (forall x, In x l -> (f x <= g x)%R) -> (exists x, In x l /\ (f x < g x)%R) -> (Rsum (map f l) < Rsum (map g l))%R.
Proof.
  intros H (z & Hz & Hlt). induction l as [|x l IH]; [easy|]. cbn. change (fold_right Rplus 0%R) with Rsum.
  pose proof (H x (or_introl eq_refl)). assert (Hle : (Rsum (map f l) <= Rsum (map g l))%R) by (apply Rsum_map_le; intros; apply H; now right).
  destruct Hz as [ -> |Hz]; [lra|]. assert (Rsum (map f l) < Rsum (map g l))%R by (apply IH; auto; intros; apply H; now right). lra.
Qed.
Lemma Rsum_map_nonneg {A} (f : A -> R) l : (forall x, In x l -> (0 <= f x)%R) -> (0 <= Rsum (map f l))%R.
Proof. intros H. induction l as [|x l IH]; cbn; [lra|]. change (fold_right Rplus 0%R) with Rsum. pose proof (H x (or_introl eq_refl)). assert (0 <= Rsum (map f l))%R by (apply IH; intros; apply H; now right). lra. Qed.

Definition at0 (o : option R) : R := match o with Some s => s | None => 0%R end.
Definition there (o : option R) : R := match o with Some s => 1%R | None => 0%R end.

Lemma sum_scores xs q d : Rsum (scores_given xs q d) = Rsum (map (fun x => at0 (score_of x q d)) xs).
Proof.
  unfold scores_given. induction xs as [|x xs IH]; [reflexivity|]. cbn [map concat]. rewrite Rsum_app, IH.
  cbn [Rsum fold_right]. change (fold_right Rplus 0%R) with Rsum. f_equal. destruct (score_of x q d); cbn; lra.
Qed.
Lemma count_scores xs q d : INR (length (scores_given xs q d)) = Rsum (map (fun x => there (score_of x q d)) xs).
Proof.
  unfold scores_given. induction xs as [|x xs IH]; [reflexivity|]. cbn [map concat]. rewrite app_length, plus_INR, IH.
  cbn [Rsum fold_right]. change (fold_right Rplus 0%R) with Rsum. f_equal. destruct (score_of x q d); reflexivity.
Qed.
Definition hr (h : nat -> R) (o : option nat) : R := match o with Some r => h r | None => 0%R end.
Lemma sum_ranks (h : nat -> R) xs q d : Rsum (map h (ranks_given xs q d)) = Rsum (map (fun x => hr h (rank_of x q d)) xs).
Proof.
  unfold ranks_given. induction xs as [|x xs IH]; [reflexivity|]. cbn [map concat]. rewrite map_app, Rsum_app, IH.
  cbn [Rsum fold_right]. change (fold_right Rplus 0%R) with Rsum. f_equal. destruct (rank_of x q d); cbn; lra.
Qed.
Lemma count_ranks xs q d : INR (length (ranks_given xs q d)) = Rsum (map (fun x => hr (fun _ => 1%R) (rank_of x q d)) xs).
Proof.
  rewrite <- (sum_ranks (fun _ => 1%R)). rewrite Rsum_map_const. lra.
Qed.
Lemma wsum_scores ws xs q d : Rsum (map (fun wv => fst wv * snd wv)%R (weighted_given ws xs q d)) = Rsum (map (fun wx => (fst wx * at0 (score_of (snd wx) q d))%R) (combine ws xs)).
Proof.
  unfold weighted_given. induction (combine ws xs) as [|[w x] l IH]; [reflexivity|]. cbn [map concat fst snd]. rewrite map_app, Rsum_app, IH.
  cbn [Rsum fold_right]. change (fold_right Rplus 0%R) with Rsum. f_equal. destruct (score_of x q d); cbn; lra.
Qed.
Lemma wsum_snd ws xs q d : Rsum (map snd (weighted_given ws xs q d)) = Rsum (map (fun wx => at0 (score_of (snd wx) q d)) (combine ws xs)).
Proof.
  unfold weighted_given. induction (combine ws xs) as [|[w x] l IH]; [reflexivity|]. cbn [map concat fst snd]. rewrite map_app, Rsum_app, IH.
  cbn [Rsum fold_right]. change (fold_right Rplus 0%R) with Rsum. f_equal. destruct (score_of x q d); cbn; lra.
Qed.
Lemma wsum_fst ws xs q d : Rsum (map fst (weighted_given ws xs q d)) = Rsum (map (fun wx => (fst wx * there (score_of (snd wx) q d))%R) (combine ws xs)).
Proof.
  unfold weighted_given. induction (combine ws xs) as [|[w x] l IH]; [reflexivity|]. cbn [map concat fst snd]. rewrite map_app, Rsum_app, IH.
  cbn [Rsum fold_right]. change (fold_right Rplus 0%R) with Rsum. f_equal. destruct (score_of x q d); cbn; lra.
Qed.
Lemma wcount ws xs q d : INR (length (weighted_given ws xs q d)) = Rsum (map (fun wx => there (score_of (snd wx) q d)) (combine ws xs)).
Proof.
  unfold weighted_given. induction (combine ws xs) as [|[w x] l IH]; [reflexivity|]. cbn [map concat]. rewrite app_length, plus_INR, IH.
  cbn [Rsum fold_right]. change (fold_right Rplus 0%R) with Rsum. f_equal. cbn [fst snd]. destruct (score_of x q d); reflexivity.
Qed.

(** from the formula to the comparison *)
Lemma not_below_intro (r : result (Run NumR)) xs P (n : option string) q a b :
  (exists y, r = Ok y /\ r_name y = n /\ fusion_of xs y P) ->
  (candidate xs q b -> candidate xs q a) ->
  (forall sa sb, candidate xs q a -> candidate xs q b -> P q a sa -> P q b sb -> (sb <= sa)%R) -> not_below r q a b.
Proof.
  intros (y & Hy & _ & (_ & _ & Hr & Hv & _)) Hc HP. exists y. split; auto. intros sb Hsb.
  assert (Hb : candidate xs q b) by (apply Hr; eexists; eauto). pose proof (Hc Hb) as Ha.
  destruct (proj2 (Hr q a) Ha) as [sa Hsa]. exists sa. split; [exact Hsa|apply HP; auto].
Qed.
Lemma ranked_above y q a b sa sb : a_run y -> ranked y -> score_of y q a = Some sa -> score_of y q b = Some sb -> (sb < sa)%R ->
  prefers y q a b = true.
Proof.
  intros Hy Hrk Ha Hb Hlt. unfold prefers.
  assert (Hex : forall d s, score_of y q d = Some s -> exists r, rank_of y q d = Some r).
  { intros d s Hs. rewrite score_of_results in Hs. unfold rank_of. rewrite rank_in_index.
    destruct (index_of (dkeys (results_of y q)) d) eqn:Hi; [cbn; eauto|]. exfalso. apply index_of_None in Hi. apply Hi. now apply dget_Some_key in Hs. }
  destruct (Hex a sa Ha) as [ra Hra], (Hex b sb Hb) as [rb Hrb]. rewrite Hra, Hrb. apply Nat.ltb_lt.
  exact (C52_ranked_by_score y q b a sb sa rb ra Hy Hrk Hb Ha Hlt Hrb Hra).
Qed.
Lemma above_intro (r : result (Run NumR)) xs P (n : option string) q a b :
  (exists y, r = Ok y /\ r_name y = n /\ fusion_of xs y P) -> candidate xs q a -> candidate xs q b ->
  (forall sa sb, P q a sa -> P q b sb -> (sb < sa)%R) -> above r q a b.
Proof.
  intros (y & Hy & _ & (Hay & _ & Hr & Hv & _ & Hrk)) Ha Hb HP.
  destruct (proj2 (Hr q a) Ha) as [sa Hsa], (proj2 (Hr q b) Hb) as [sb Hsb].
  assert (Hlt : (sb < sa)%R) by (apply HP; auto).
  exists y, sa, sb. split; auto. split; auto. split; auto. split; auto. eapply ranked_above; eauto.
Qed.
Lemma count_pos xs q d : candidate xs q d -> (1 <= INR (length (scores_given xs q d)))%R.
Proof. intros Hc. apply (le_INR 1). apply scores_given_ne in Hc. destruct (scores_given xs q d); cbn; [easy|lia]. Qed.

(** both or neither *)
Lemma both_F2 xs q a b : (forall x, In x xs -> scores_both x q a b) -> Forall2 Rle (scores_given xs q b) (scores_given xs q a).
Proof.
  unfold scores_given. intros H. induction xs as [|x xs IH]; cbn; [constructor|].
  assert (IH' := IH (fun z Hz => H z (or_intror Hz))). destruct (H x (or_introl eq_refl)) as [Hr Hs]. unfold retrieves in Hr.
  destruct (score_of x q a) as [sa|], (score_of x q b) as [sb|]; cbn; auto.
  - destruct (proj1 Hr) as [? ?]; [eauto|discriminate].
  - destruct (proj2 Hr) as [? ?]; [eauto|discriminate].
Qed.
Lemma both_default xs q a b v : (forall x, In x xs -> scores_both x q a b) ->
  Forall2 Rle (map (fun x => match score_of x q b with Some s => s | None => v end) xs) (map (fun x => match score_of x q a with Some s => s | None => v end) xs).
Proof.
  intros H. induction xs as [|x xs IH]; cbn; [constructor|]. constructor; [|apply IH; intros; apply H; now right].
  destruct (H x (or_introl eq_refl)) as [Hr Hs]. unfold retrieves in Hr.
  destruct (score_of x q a) as [sa|], (score_of x q b) as [sb|]; cbn; auto; try lra.
  - destruct (proj1 Hr) as [? ?]; [eauto|discriminate].
  - destruct (proj2 Hr) as [? ?]; [eauto|discriminate].
Qed.
Lemma both_point x q a b : scores_both x q a b -> (at0 (score_of x q b) <= at0 (score_of x q a))%R /\ there (score_of x q b) = there (score_of x q a).
Proof.
  intros [Hr Hs]. unfold retrieves in Hr. destruct (score_of x q a) as [sa|], (score_of x q b) as [sb|]; cbn; auto; try lra.
  - destruct (proj1 Hr) as [? ?]; [eauto|discriminate].
  - destruct (proj2 Hr) as [? ?]; [eauto|discriminate].
Qed.
Lemma both_cand xs q a b : (forall x, In x xs -> scores_both x q a b) -> (candidate xs q b <-> candidate xs q a).
Proof. intros H. split; intros (x & Hx & Hd); exists x; (split; [exact Hx|]); now apply (proj1 (H x Hx)). Qed.
Lemma both_count xs q a b : (forall x, In x xs -> scores_both x q a b) -> length (scores_given xs q b) = length (scores_given xs q a).
Proof. intros H. exact (F2_len _ _ _ (both_F2 _ _ _ _ H)). Qed.

(** wherever b is, a is *)
Lemma more_point x q a b : scores_more x q a b -> (forall d s, score_of x q d = Some s -> (0 <= s)%R) ->
  (0 <= at0 (score_of x q b) <= at0 (score_of x q a))%R /\ (0 <= there (score_of x q b) <= there (score_of x q a))%R.
Proof.
  intros H Hn. destruct (score_of x q b) as [sb|] eqn:Hb.
  - destruct (H sb Hb) as (sa & Ha & Hle). rewrite Ha. cbn. pose proof (Hn b sb Hb). lra.
  - destruct (score_of x q a) as [sa|] eqn:Ha; cbn; [pose proof (Hn a sa Ha)|]; lra.
Qed.
Lemma more_cand xs q a b : (forall x, In x xs -> scores_more x q a b) -> candidate xs q b -> candidate xs q a.
Proof. intros H (x & Hx & [s Hs]). destruct (H x Hx s Hs) as (sa & Ha & _). exists x. split; auto. now exists sa. Qed.

(** ranks *)
Lemma rank_point (h : nat -> R) x q a b : (forall r r', 1 <= r -> r <= r' -> (0 <= h r' <= h r)%R) -> ranks_more x q a b ->
  (0 <= hr h (rank_of x q b) <= hr h (rank_of x q a))%R.
Proof.
  intros Hh H. assert (Hpos : forall d r, rank_of x q d = Some r -> 1 <= r).
  { intros d r. unfold rank_of. rewrite rank_in_index. destruct (index_of (dkeys (results_of x q)) d); cbn; [|easy]. intros [= <-]. lia. }
  destruct (rank_of x q b) as [rb|] eqn:Hb.
  - destruct (H rb Hb) as (ra & Ha & Hle). rewrite Ha. cbn. apply Hh; eauto.
  - destruct (rank_of x q a) as [ra|] eqn:Ha; cbn; [|lra]. pose proof (Hh ra ra (Hpos a ra Ha) (le_n _)). lra.
Qed.
Lemma rank_strict (h : nat -> R) x q a b : (forall r r', 1 <= r -> r < r' -> (h r' < h r)%R) -> (forall r, 1 <= r -> (0 < h r)%R) -> prefers x q a b = true ->
  (hr h (rank_of x q b) < hr h (rank_of x q a))%R.
Proof.
  intros Hh Hp H. unfold prefers in H. assert (Hpos : forall d r, rank_of x q d = Some r -> 1 <= r).
  { intros d r. unfold rank_of. rewrite rank_in_index. destruct (index_of (dkeys (results_of x q)) d); cbn; [|easy]. intros [= <-]. lia. }
  destruct (rank_of x q a) as [ra|] eqn:Ha; [|discriminate]. destruct (rank_of x q b) as [rb|] eqn:Hb; cbn.
  - apply Nat.ltb_lt in H. apply Hh; eauto.
  - apply Hp. eauto.
Qed.
Lemma rank_retrieves x q d : retrieves x q d <-> exists r, rank_of x q d = Some r.
Proof.
  unfold retrieves, rank_of. rewrite rank_in_index. split.
  - intros [s Hs]. rewrite score_of_results in Hs. destruct (index_of (dkeys (results_of x q)) d) eqn:Hi; [cbn; eauto|].
    exfalso. apply index_of_None in Hi. apply Hi. now apply dget_Some_key in Hs.
  - intros [r Hr]. destruct (index_of (dkeys (results_of x q)) d) eqn:Hi; [|discriminate]. apply retrieves_key. destruct (in_dec string_dec d (dkeys (results_of x q))) as [|Hn]; auto. apply index_of_None in Hn. congruence.
Qed.
Lemma ranks_cand xs q a b : (forall x, In x xs -> ranks_more x q a b) -> candidate xs q b -> candidate xs q a.
Proof.
  intros H (x & Hx & Hd). apply rank_retrieves in Hd as [r Hr]. destruct (H x Hx r Hr) as (ra & Ha & _). exists x. split; auto. apply rank_retrieves. eauto.
Qed.
