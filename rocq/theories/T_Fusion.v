(** T_Fusion.v: what the fusion methods compute (C43, C44, C45), over the reals *)
From Coq Require Import Reals Lra Psatz.
From Verif Require Import Base Dict Num NumLaws Env M_Common M_Qrels M_Run M_Norm M_Fusion
  Spec_DS Spec_Metrics Spec_Eval Spec_Norm Spec_Fusion
  P_Base P_Dict P_Common P_DS P_Metrics P_Norm T_Norm T_Norm2 P_Fusion P_Fusion2.
Open Scope string_scope.
Open Scope list_scope.
Open Scope nat_scope.

Definition billion : R := 1000000000%R.

(** ** lists of scores *)
Lemma scores_given_in xs q d s : In s (scores_given xs q d) <-> exists x, In x xs /\ score_of x q d = Some s.
Proof.
  unfold scores_given. rewrite in_concat. split.
  - intros (l & Hl & Hs). apply in_map_iff in Hl as (x & <- & Hx). destruct (score_of x q d) as [v|] eqn:Hv; [|easy].
    destruct Hs as [->|[]]. eauto.
  - intros (x & Hx & Hs). exists [s]. split; [|now left]. apply in_map_iff. exists x. now rewrite Hs.
Qed.
Lemma scores_given_ne xs q d : candidate xs q d -> scores_given xs q d <> [].
Proof.
  intros (x & Hx & s & Hs) H. assert (Hin : In s (scores_given xs q d)) by (apply scores_given_in; eauto). rewrite H in Hin. easy.
Qed.
Lemma ranks_given_len xs q d : length (ranks_given xs q d) = length (scores_given xs q d).
Proof.
  unfold ranks_given, scores_given. induction xs as [|x xs IH]; cbn; auto. rewrite !app_length, IH. f_equal.
  pose proof (rank_of_retrieves x q d) as H. unfold retrieves in H.
  destruct (rank_of x q d) as [r|], (score_of x q d) as [s|]; auto.
  - destruct (proj2 H) as [s Hs]; [eauto|discriminate].
  - destruct (proj1 H) as [r Hr]; [eauto|discriminate].
Qed.

(** ** sorting reals *)
Lemma finsert_perm (x : R) l : Permutation (@finsert NumR x l) (x :: l).
Proof.
  induction l as [|y l IH]; [apply Permutation_refl|]. cbn [finsert].
  match goal with |- context[if ?b then _ else _] => destruct b end; [apply Permutation_refl|].
  eapply perm_trans; [apply perm_skip; exact IH|apply perm_swap].
Qed.
Lemma fsort_perm (l : list R) : Permutation (@fsort NumR l) l.
Proof.
  induction l as [|x l IH]; [constructor|]. change (@fsort NumR (x :: l)) with (@finsert NumR x (@fsort NumR l)).
  eapply perm_trans; [apply finsert_perm|]. now constructor.
Qed.
Lemma finsert_sorted (x : R) l : StronglySorted Rle l -> StronglySorted Rle (@finsert NumR x l).
Proof.
  induction 1 as [|y l Hs IH Hy]; [repeat constructor|]. cbn [finsert]. change (@fleb NumR x y) with (Rleb x y). unfold Rleb.
  destruct (Rle_dec x y) as [H|H].
  - constructor; [now constructor|]. constructor; auto. rewrite Forall_forall in Hy |- *. intros z Hz. specialize (Hy z Hz). lra.
  - constructor; auto. apply Rnot_le_lt in H. rewrite Forall_forall in Hy |- *. intros z Hz.
    apply (Permutation_in _ (finsert_perm x l)) in Hz as [<-|Hz]; [lra|auto].
Qed.
Lemma fsort_sorted (l : list R) : StronglySorted Rle (@fsort NumR l).
Proof. induction l as [|x l IH]; [constructor|]. now apply finsert_sorted. Qed.
Lemma fmedian_is_median (l : list R) : l <> [] -> is_median l (@fmedian NumR l).
Proof.
  intros Hne. exists (@fsort NumR l). split; [apply fsort_perm|]. split; [apply fsort_sorted|].
  assert (Hlen : length (@fsort NumR l) = length l) by apply (Permutation_length (fsort_perm l)).
  assert (Hn : length l <> 0) by (destruct l; cbn; [easy|lia]).
  assert (Hnth : forall i, i < length l -> nth_error (@fsort NumR l) i = Some (nth i (@fsort NumR l) (@fzero NumR))).
  { intros i Hi. apply nth_error_nth'. rewrite <- Hlen in Hi. exact Hi. }
  unfold fmedian. cbv zeta. change (@length (@F NumR) l) with (@length R l). destruct (Nat.even (length l)) eqn:Hev.
  - right. apply Nat.even_spec in Hev as [h Hh]. exists (h - 1), (nth (h - 1) (@fsort NumR l) (@fzero NumR)), (nth h (@fsort NumR l) (@fzero NumR)).
    assert (Hd : length l / 2 = h) by (rewrite Hh; rewrite Nat.mul_comm; apply Nat.div_mul; lia).
    split; [lia|]. split; [apply Hnth; lia|]. split; [replace (h - 1 + 1) with h by lia; apply Hnth; lia|].
    rewrite Hd. reflexivity.
  - left. assert (Hodd : Nat.odd (length l) = true) by (now rewrite <- Nat.negb_even, Hev).
    apply Nat.odd_spec in Hodd as [h Hh]. exists h, (nth h (@fsort NumR l) (@fzero NumR)).
    assert (Hd : length l / 2 = h) by (rewrite Hh, Nat.add_comm, (Nat.mul_comm 2 h), Nat.div_add by lia; reflexivity).
    split; [lia|]. split; [apply Hnth; lia|]. rewrite Hd. reflexivity.
Qed.

(** ** C43 *)
Theorem C43_comb_sum : forall (E : env NumR), env_ok E -> forall xs name, fusable xs ->
  exists y, comb_sum E xs name = Ok y /\ r_name y = Some name /\
    fusion_of xs y (fun q d s => s = Rsum (scores_given xs q d)).
Proof.
  intros E HE xs name Hxs. apply (score_comb E HE "_comb_sum" (@sum_formula NumR) name xs (fun q d => Rsum (scores_given xs q d)) Hxs).
  intros q d Hc. unfold sum_formula. f_equal. rewrite <- present_runs. apply sum_get_all.
Qed.

(** the value with the sentinel standing for a missing document *)
Lemma comb_max_value (E : env NumR) (HE : env_ok E) xs name : fusable xs ->
  exists y, comb_max E xs name = Ok y /\ r_name y = Some name /\
    fusion_of xs y (fun q d s => is_max_of (map (fun x => match score_of x q d with Some v => v | None => (- billion)%R end) xs) s).
Proof.
  intros Hxs.
  set (φ := fun q d => match @get_all NumR (fopp sentinel) (map (fun x => results_of x q) xs) d with [] => 0%R | x :: l => @fmaxl NumR x l end).
  destruct (score_comb E HE "_comb_max" (@max_formula NumR) name xs φ Hxs) as (y & Hy & Hn & Hf).
  { intros q d Hc. unfold max_formula, φ. destruct Hxs as (Hne & _). destruct xs as [|x xs]; [easy|]. reflexivity. }
  exists y. split; [exact Hy|]. split; [exact Hn|]. eapply fusion_of_impl; [|exact Hf]. cbn beta. intros q d s Hc ->.
  unfold φ, get_all. rewrite map_map. destruct Hxs as (Hne & _). destruct xs as [|x0 xs0]; [easy|].
  replace (map (fun x => match score_of x q d with Some v => v | None => (- billion)%R end) (x0 :: xs0))
    with (map (fun x => match @dget R (results_of x q) d with Some v => v | None => @fopp NumR (@sentinel NumR) end) (x0 :: xs0)).
  - apply fmaxl_is_max.
  - apply map_ext. intros x. now rewrite score_of_results.
Qed.
Theorem C43_comb_max : forall (E : env NumR), env_ok E -> forall xs name, fusable xs ->
  exists y, comb_max E xs name = Ok y /\ r_name y = Some name /\
    fusion_of xs y (fun q d s => (exists v, In v (scores_given xs q d) /\ (- billion <= v)%R) \/ (forall x, In x xs -> retrieves x q d) ->
                                 is_max_of (scores_given xs q d) s).
Proof.
  intros E HE xs name Hxs. destruct (comb_max_value E HE xs name Hxs) as (y & Hy & Hn & Hf).
  exists y. split; [exact Hy|]. split; [exact Hn|]. eapply fusion_of_impl; [|exact Hf]. cbn beta. intros q d s Hc [Hin Hle] Hh.
  apply in_map_iff in Hin as (x & Hx & Hxin).
  assert (Hle' : forall v, In v (scores_given xs q d) -> (v <= s)%R).
  { intros v Hv. apply scores_given_in in Hv as (z & Hz & Hs). apply Hle. apply in_map_iff. exists z. now rewrite Hs. }
  split; [|exact Hle'].
  destruct (score_of x q d) as [v|] eqn:Hv.
  - apply scores_given_in. exists x. split; [exact Hxin|]. now rewrite Hv, Hx.
  - destruct Hh as [(v & Hin & Hge)|Hall].
    + specialize (Hle' v Hin) as H1. assert (v = s) as <- by lra. exact Hin.
    + destruct (Hall x Hxin) as [s' Hs]. congruence.
Qed.
(** a document that some run misses and that all others score below -10^9 gets -10^9 *)
Theorem C43_comb_max_sentinel : forall (E : env NumR), env_ok E -> forall xs name, fusable xs ->
  exists y, comb_max E xs name = Ok y /\
    forall q d s, score_of y q d = Some s -> (exists x, In x xs /\ ~ retrieves x q d) ->
      (forall v, In v (scores_given xs q d) -> (v < - billion)%R) -> s = (- billion)%R /\ ~ In s (scores_given xs q d).
Proof.
  intros E HE xs name Hxs. destruct (comb_max_value E HE xs name Hxs) as (y & Hy & Hn & Hf).
  exists y. split; [exact Hy|]. destruct Hf as (_ & _ & _ & Hv & _). intros q d s Hs (x0 & Hx0 & Hn0) Hlow.
  destruct (Hv q d s Hs) as [Hin Hle].
  assert (Hge : (- billion <= s)%R).
  { apply Hle. apply in_map_iff. exists x0. split; auto. destruct (score_of x0 q d) as [v|] eqn:H; auto. exfalso. apply Hn0. now exists v. }
  apply in_map_iff in Hin as (x & Hx & Hxin). destruct (score_of x q d) as [v|] eqn:H.
  - assert (v < - billion)%R by (apply Hlow, scores_given_in; eauto). lra.
  - split; [auto|]. intros Hin. apply Hlow in Hin. lra.
Qed.

Lemma comb_min_value (E : env NumR) (HE : env_ok E) xs name : fusable xs ->
  exists y, comb_min E xs name = Ok y /\ r_name y = Some name /\
    fusion_of xs y (fun q d s => is_min_of (map (fun x => match score_of x q d with Some v => v | None => billion end) xs) s).
Proof.
  intros Hxs.
  set (φ := fun q d => match @get_all NumR sentinel (map (fun x => results_of x q) xs) d with [] => 0%R | x :: l => @fminl NumR x l end).
  destruct (score_comb E HE "_comb_min" (@min_formula NumR) name xs φ Hxs) as (y & Hy & Hn & Hf).
  { intros q d Hc. unfold min_formula, φ. destruct Hxs as (Hne & _). destruct xs as [|x xs]; [easy|]. reflexivity. }
  exists y. split; [exact Hy|]. split; [exact Hn|]. eapply fusion_of_impl; [|exact Hf]. cbn beta. intros q d s Hc ->.
  unfold φ, get_all. rewrite map_map. destruct Hxs as (Hne & _). destruct xs as [|x0 xs0]; [easy|].
  replace (map (fun x => match score_of x q d with Some v => v | None => billion end) (x0 :: xs0))
    with (map (fun x => match @dget R (results_of x q) d with Some v => v | None => @sentinel NumR end) (x0 :: xs0)).
  - apply fminl_is_min.
  - apply map_ext. intros x. now rewrite score_of_results.
Qed.
Theorem C43_comb_min : forall (E : env NumR), env_ok E -> forall xs name, fusable xs ->
  exists y, comb_min E xs name = Ok y /\ r_name y = Some name /\
    fusion_of xs y (fun q d s => (exists v, In v (scores_given xs q d) /\ (v <= billion)%R) \/ (forall x, In x xs -> retrieves x q d) ->
                                 is_min_of (scores_given xs q d) s).
Proof.
  intros E HE xs name Hxs. destruct (comb_min_value E HE xs name Hxs) as (y & Hy & Hn & Hf).
  exists y. split; [exact Hy|]. split; [exact Hn|]. eapply fusion_of_impl; [|exact Hf]. cbn beta. intros q d s Hc [Hin Hle] Hh.
  apply in_map_iff in Hin as (x & Hx & Hxin).
  assert (Hle' : forall v, In v (scores_given xs q d) -> (s <= v)%R).
  { intros v Hv. apply scores_given_in in Hv as (z & Hz & Hs). apply Hle. apply in_map_iff. exists z. now rewrite Hs. }
  split; [|exact Hle'].
  destruct (score_of x q d) as [v|] eqn:Hv.
  - apply scores_given_in. exists x. split; [exact Hxin|]. now rewrite Hv, Hx.
  - destruct Hh as [(v & Hin & Hge)|Hall].
    + specialize (Hle' v Hin) as H1. assert (v = s) as <- by lra. exact Hin.
    + destruct (Hall x Hxin) as [s' Hs]. congruence.
Qed.
Theorem C43_comb_min_sentinel : forall (E : env NumR), env_ok E -> forall xs name, fusable xs ->
  exists y, comb_min E xs name = Ok y /\
    forall q d s, score_of y q d = Some s -> (exists x, In x xs /\ ~ retrieves x q d) ->
      (forall v, In v (scores_given xs q d) -> (billion < v)%R) -> s = billion /\ ~ In s (scores_given xs q d).
Proof.
  intros E HE xs name Hxs. destruct (comb_min_value E HE xs name Hxs) as (y & Hy & Hn & Hf).
  exists y. split; [exact Hy|]. destruct Hf as (_ & _ & _ & Hv & _). intros q d s Hs (x0 & Hx0 & Hn0) Hlow.
  destruct (Hv q d s Hs) as [Hin Hle].
  assert (Hge : (s <= billion)%R).
  { apply Hle. apply in_map_iff. exists x0. split; auto. destruct (score_of x0 q d) as [v|] eqn:H; auto. exfalso. apply Hn0. now exists v. }
  apply in_map_iff in Hin as (x & Hx & Hxin). destruct (score_of x q d) as [v|] eqn:H.
  - assert (billion < v)%R by (apply Hlow, scores_given_in; eauto). lra.
  - split; [auto|]. intros Hin. apply Hlow in Hin. lra.
Qed.

Theorem C43_comb_med : forall (E : env NumR), env_ok E -> forall xs name, fusable xs ->
  exists y, comb_med E xs name = Ok y /\ r_name y = Some name /\
    fusion_of xs y (fun q d s => is_median (scores_given xs q d) s).
Proof.
  intros E HE xs name Hxs.
  destruct (score_comb E HE "_comb_med" (@med_formula NumR) name xs (fun q d => @fmedian NumR (scores_given xs q d)) Hxs) as (y & Hy & Hn & Hf).
  { intros q d Hc. unfold med_formula. f_equal. f_equal. apply present_runs. }
  exists y. split; [exact Hy|]. split; [exact Hn|]. eapply fusion_of_impl; [|exact Hf]. cbn beta. intros q d s Hc ->.
  apply fmedian_is_median. now apply scores_given_ne.
Qed.

Lemma present_formula (E : env NumR) (HE : env_ok E) tag formula name xs (g : list R -> R) : fusable xs ->
  (forall rs d, formula rs d = Ok (g (@present NumR rs d))) ->
  exists y, @comb NumR E tag formula name (maps xs) = Ok y /\ r_name y = Some name /\
    fusion_of xs y (fun q d s => s = g (scores_given xs q d)).
Proof.
  intros Hxs Hf. apply (score_comb E HE tag formula name xs (fun q d => g (scores_given xs q d)) Hxs).
  intros q d Hc. rewrite Hf. now rewrite present_runs.
Qed.

(** the mean of the scores *)
Theorem C43_comb_anz : forall (E : env NumR), env_ok E -> forall xs name, fusable xs ->
  exists y, comb_anz E xs name = Ok y /\ r_name y = Some name /\
    fusion_of xs y (fun q d s => s = (Rsum (scores_given xs q d) / INR (length (scores_given xs q d)))%R).
Proof.
  intros E HE xs name Hxs. apply (present_formula E HE "_comb_anz" (@anz_formula NumR) name xs (fun l => (Rsum l / INR (length l))%R) Hxs).
  intros rs d. unfold anz_formula. now rewrite fsum_R, fnat_R.
Qed.
Theorem C43_comb_mnz : forall (E : env NumR), env_ok E -> forall xs name, fusable xs ->
  exists y, comb_mnz E xs name = Ok y /\ r_name y = Some name /\
    fusion_of xs y (fun q d s => s = (Rsum (scores_given xs q d) * INR (length (scores_given xs q d)))%R).
Proof.
  intros E HE xs name Hxs. apply (present_formula E HE "_comb_mnz" (@mnz_formula NumR) name xs (fun l => (Rsum l * INR (length l))%R) Hxs).
  intros rs d. unfold mnz_formula. now rewrite fsum_R, fnat_R.
Qed.
Theorem C43_comb_gmnz : forall (E : env NumR), env_ok E -> forall xs gamma name, fusable xs ->
  exists y, comb_gmnz E xs gamma name = Ok y /\ r_name y = Some name /\
    fusion_of xs y (fun q d s => s = (Rsum (scores_given xs q d) * Rpower (INR (length (scores_given xs q d))) gamma)%R).
Proof.
  intros E HE xs gamma name Hxs.
  destruct (present_formula E HE "_comb_gmnz" (@gmnz_formula NumR gamma) name xs (fun l => (Rsum l * Rpow (INR (length l)) gamma)%R) Hxs) as (y & Hy & Hn & Hf).
  { intros rs d. unfold gmnz_formula. now rewrite fsum_R, fnat_R. }
  exists y. split; [exact Hy|]. split; [exact Hn|]. eapply fusion_of_impl; [|exact Hf]. cbn beta. intros q d s Hc ->. f_equal.
  unfold Rpow. destruct (Rlt_dec 0 (INR (length (scores_given xs q d)))) as [|H]; auto. exfalso. apply H. apply lt_0_INR.
  apply scores_given_ne in Hc. destruct (scores_given xs q d); cbn; [easy|lia].
Qed.

(** ** C44 *)
Definition inv_square (r : nat) : R := (1 / INR r ^ 2)%R.
Lemma units_len (xs : list (Run NumR)) : length xs <= length (repeat tt (length xs)).
Proof. now rewrite repeat_length. Qed.
Lemma combine_units {A B} (f : A -> B) xs : map (fun px : unit * A => f (snd px)) (combine (repeat tt (length xs)) xs) = map f xs.
Proof. induction xs; cbn; congruence. Qed.

Lemma rank_fusion (E : env NumR) (HE : env_ok E) tag f tag' formula name xs (h : nat -> R) (g : list R -> R) : fusable xs ->
  (forall r, dict_ok r -> f r = Ok (@by_pos NumR h r)) ->
  (forall rs d, formula rs d = Ok (g (@present NumR rs d))) ->
  exists y, bindr (@rescore NumR E tag f xs) (fun ms => @comb NumR E tag' formula name ms) = Ok y /\ r_name y = Some name /\
    fusion_of xs y (fun q d s => s = g (map (fun r => h (r - 1)) (ranks_given xs q d))).
Proof.
  intros Hxs Hf Hg. rewrite (rescore_ok (N := NumR) E HE tag f (fun _ => h)).
  2:{ destruct Hxs as (_ & Ha & _). exact Ha. } 2:{ exact Hf. } cbn [bindr].
  destruct (pos_comb E HE tag' formula name (fun (_ : unit) _ => h) (repeat tt (length xs)) xs
    (fun q d => g (map (fun r => h (r - 1)) (ranks_given xs q d))) Hxs (units_len xs)) as (y & Hy & Hn & Hfu).
  { intros q d Hc. rewrite Hg. f_equal. f_equal.
    etransitivity; [exact (present_pos (fun (_ : unit) _ => h) (repeat tt (length xs)) xs q d)|].
    exact (values_ranks (repeat tt (length xs)) xs (fun r => h (r - 1)) q d (units_len xs)). }
  exists y. split; [|auto]. etransitivity; [|exact Hy]. f_equal. unfold prescored. symmetry.
  exact (combine_units (fun x : Run NumR => @posmap NumR (fun _ => h) (r_map x)) xs).
Qed.

Lemma ranks_given_pos xs q d r : In r (ranks_given xs q d) -> 1 <= r.
Proof.
  unfold ranks_given. rewrite in_concat. intros (l & Hl & Hr). apply in_map_iff in Hl as (x & <- & Hx).
  unfold rank_of in Hr. rewrite rank_in_index in Hr. destruct (index_of (dkeys (results_of x q)) d); cbn in Hr; [|easy]. destruct Hr as [<-|[]]. lia.
Qed.
Lemma isr_value xs q d : map (fun r => (1 / IZR ((Z.of_nat (r - 1) + 1) ^ 2))%R) (ranks_given xs q d) = map inv_square (ranks_given xs q d).
Proof.
  apply map_ext_in. intros r Hr. apply ranks_given_pos in Hr. unfold inv_square. f_equal. f_equal.
  rewrite Nat2Z.inj_sub by lia. replace (Z.of_nat r - Z.of_nat 1 + 1)%Z with (Z.of_nat r) by lia.
  rewrite INR_IZR_INZ. rewrite (pow_IZR (Z.of_nat r) 2). reflexivity.
Qed.
Lemma isr_score_ok (r : dict R) : dict_ok r -> @_isr_score NumR r = Ok (@by_pos NumR (fun i => (1 / IZR ((Z.of_nat i + 1) ^ 2))%R) r).
Proof. intros Hr. apply (pos_scores_ok (N := NumR)); auto. Qed.

Theorem C44_isr : forall (E : env NumR), env_ok E -> forall xs name, fusable xs ->
  exists y, isr E xs name = Ok y /\ r_name y = Some name /\
    fusion_of xs y (fun q d s => s = (INR (length (ranks_given xs q d)) * Rsum (map inv_square (ranks_given xs q d)))%R).
Proof.
  intros E HE xs name Hxs. unfold isr.
  destruct (rank_fusion E HE "_isr_score" (@_isr_score NumR) "_comb_mnz" (@mnz_formula NumR) name xs
    (fun i => (1 / IZR ((Z.of_nat i + 1) ^ 2))%R) (fun l => (Rsum l * INR (length l))%R) Hxs isr_score_ok) as (y & Hy & Hn & Hf).
  { intros rs d. unfold mnz_formula. now rewrite fsum_R, fnat_R. }
  exists y. split; [exact Hy|]. split; [exact Hn|]. eapply fusion_of_impl; [|exact Hf]. cbn beta. intros q d s _ ->.
  rewrite isr_value, map_length. lra.
Qed.
Theorem C44_log_isr : forall (E : env NumR), env_ok E -> forall xs name, fusable xs ->
  exists y, log_isr E xs name = Ok y /\ r_name y = Some name /\
    fusion_of xs y (fun q d s => s = (ln (INR (length (ranks_given xs q d))) * Rsum (map inv_square (ranks_given xs q d)))%R).
Proof.
  intros E HE xs name Hxs. unfold log_isr.
  destruct (rank_fusion E HE "_isr_score" (@_isr_score NumR) "_log_comb_mnz" (@log_mnz_formula NumR) name xs
    (fun i => (1 / IZR ((Z.of_nat i + 1) ^ 2))%R) (fun l => (Rsum l * ln (INR (length l)))%R) Hxs isr_score_ok) as (y & Hy & Hn & Hf).
  { intros rs d. unfold log_mnz_formula. now rewrite fsum_R, fnat_R. }
  exists y. split; [exact Hy|]. split; [exact Hn|]. eapply fusion_of_impl; [|exact Hf]. cbn beta. intros q d s _ ->.
  rewrite isr_value, map_length. lra.
Qed.
Theorem C44_logn_isr : forall (E : env NumR), env_ok E -> forall xs sigma name, fusable xs -> (0 <= sigma <= 1)%R ->
  exists y, logn_isr E xs sigma name = Ok y /\ r_name y = Some name /\
    fusion_of xs y (fun q d s => s = (ln (INR (length (ranks_given xs q d)) + sigma) * Rsum (map inv_square (ranks_given xs q d)))%R).
Proof.
  intros E HE xs sigma name Hxs Hsig. unfold logn_isr.
  assert (Hass : (@fleb NumR fzero sigma && @fleb NumR sigma fone) = true).
  { change (Rleb 0 sigma && Rleb sigma 1 = true). unfold Rleb. destruct (Rle_dec 0 sigma), (Rle_dec sigma 1); auto; lra. }
  rewrite Hass. cbn [assertr bindr].
  destruct (rank_fusion E HE "_isr_score" (@_isr_score NumR) "_norm_log_comb_mnz" (@logn_mnz_formula NumR sigma) name xs
    (fun i => (1 / IZR ((Z.of_nat i + 1) ^ 2))%R) (fun l => (Rsum l * ln (INR (length l) + sigma))%R) Hxs isr_score_ok) as (y & Hy & Hn & Hf).
  { intros rs d. unfold logn_mnz_formula. now rewrite fsum_R, fnat_R. }
  exists y. split; [exact Hy|]. split; [exact Hn|]. eapply fusion_of_impl; [|exact Hf]. cbn beta. intros q d s _ ->.
  rewrite isr_value, map_length. lra.
Qed.
Theorem C44_logn_isr_rejects : forall (E : env NumR) xs sigma name, ~ (0 <= sigma <= 1)%R ->
  logn_isr E xs sigma name = Err AssertionError.
Proof.
  intros E xs sigma name Hsig. unfold logn_isr.
  assert (Hass : (@fleb NumR fzero sigma && @fleb NumR sigma fone) = false).
  { change (Rleb 0 sigma && Rleb sigma 1 = false). unfold Rleb. destruct (Rle_dec 0 sigma), (Rle_dec sigma 1); auto; lra. }
  now rewrite Hass.
Qed.
Theorem C44_rrf : forall (E : env NumR), env_ok E -> forall xs k name, fusable xs -> (0 <= k)%Z ->
  exists y, rrf E xs k name = Ok y /\ r_name y = Some name /\
    fusion_of xs y (fun q d s => s = Rsum (map (fun r => 1 / (IZR k + INR r))%R (ranks_given xs q d))).
Proof.
  intros E HE xs k name Hxs Hk. unfold rrf.
  destruct (rank_fusion E HE "_rrf_score" (@_rrf_score NumR k) "_comb_sum" (@sum_formula NumR) name xs
    (fun i => (1 / IZR (k + Z.of_nat i + 1))%R) Rsum Hxs) as (y & Hy & Hn & Hf).
  { intros r Hr. apply (pos_scores_ok (N := NumR)); auto. intros i Hi. cbv zeta.
    destruct (k + Z.of_nat i + 1 =? 0)%Z eqn:H0; [lia|]. reflexivity. }
  { intros rs d. unfold sum_formula. now rewrite sum_get_all. }
  exists y. split; [exact Hy|]. split; [exact Hn|]. eapply fusion_of_impl; [|exact Hf]. cbn beta. intros q d s _ ->.
  f_equal. apply map_ext_in. intros r Hr. apply ranks_given_pos in Hr. f_equal.
  rewrite INR_IZR_INZ, <- plus_IZR. f_equal. lia.
Qed.
Theorem C44_rbc : forall (E : env NumR), env_ok E -> forall xs phi name, fusable xs ->
  exists y, rbc E xs phi name = Ok y /\ r_name y = Some name /\
    fusion_of xs y (fun q d s => s = Rsum (map (fun r => (1 - phi) * phi ^ (r - 1))%R (ranks_given xs q d))).
Proof.
  intros E HE xs phi name Hxs. unfold rbc.
  destruct (rank_fusion E HE "_rbc_score" (@_rbc_score NumR phi) "_comb_sum" (@sum_formula NumR) name xs
    (fun i => ((1 - phi) * phi ^ i)%R) Rsum Hxs) as (y & Hy & Hn & Hf).
  { intros r Hr. apply (pos_scores_ok (N := NumR)); auto. }
  { intros rs d. unfold sum_formula. now rewrite sum_get_all. }
  exists y. auto.
Qed.

(** ** C45 *)
Lemma weighted_comb (E : env NumR) (HE : env_ok E) tag formula name xs (φ : string -> string -> R) : fusable xs ->
  (forall q d, formula (map (fun x => results_of x q) xs) d = Ok (φ q d)) ->
  exists y, @comb NumR E tag formula name (maps xs) = Ok y /\ r_name y = Some name /\ fusion_of xs y (fun q d s => s = φ q d).
Proof. intros Hxs Hf. apply score_comb; auto. Qed.
Lemma combine_map_r {A B C} (f : B -> C) (ws : list A) (xs : list B) : combine ws (map f xs) = map (fun wx => (fst wx, f (snd wx))) (combine ws xs).
Proof. revert xs; induction ws as [|w ws IH]; intros [|x xs]; cbn; auto. f_equal. apply IH. Qed.

Lemma wsum_value (ws : list R) xs q d : length xs <= length ws ->
  @wsum_formula NumR ws (map (fun x => results_of x q) xs) d =
  Ok (Rsum (map (fun wv => (fst wv * snd wv)%R) (weighted_given ws xs q d))).
Proof.
  intros Hl. rewrite (wsum_formula_ok (N := NumR)) by now rewrite map_length. f_equal. rewrite fsum_R, combine_map_r, map_map. cbn [fst snd].
  unfold weighted_given. change (@combine (@F NumR) (Run NumR) ws xs) with (@combine R (Run NumR) ws xs).
  induction (combine ws xs) as [|[w x] l IH]; [reflexivity|]. cbn [map concat fst snd]. rewrite map_app, Rsum_app, <- IH.
  cbn [Rsum fold_right]. change (fold_right Rplus 0%R) with Rsum. f_equal. rewrite score_of_results.
  assert (Hgen : forall o : option R, @fmul NumR w match o with Some v => v | None => fzero end =
    Rsum (map (fun wv : R * R => (fst wv * snd wv)%R) match o with Some s => [(w, s)] | None => [] end)).
  { intros [v|]; cbn; lra. }
  apply Hgen.
Qed.
Lemma weighted_pairs (ws : list R) xs q d : length xs <= length ws ->
  @present_weighted NumR ws (map (fun x => results_of x q) xs) d =
  Ok (map (fun wv => (snd wv, fst wv)) (weighted_given ws xs q d)).
Proof.
  intros Hl. rewrite (present_weighted_ok (N := NumR)) by now rewrite map_length. f_equal. rewrite combine_map_r, map_map. cbn [fst snd].
  unfold weighted_given. rewrite concat_map, map_map. f_equal. apply map_ext. intros [w x]. cbn [fst snd]. rewrite score_of_results.
  assert (Hgen : forall o : option R, match o with Some v => [(v, w)] | None => [] end =
    map (fun wv : R * R => (snd wv, fst wv)) match o with Some s => [(w, s)] | None => [] end).
  { intros [v|]; reflexivity. }
  apply Hgen.
Qed.

Theorem C45_wsum : forall (E : env NumR), env_ok E -> forall xs ws name, fusable xs -> length xs <= length ws ->
  exists y, wsum E xs ws name = Ok y /\ r_name y = Some name /\
    fusion_of xs y (fun q d s => s = Rsum (map (fun wv => fst wv * snd wv)%R (weighted_given ws xs q d))).
Proof.
  intros E HE xs ws name Hxs Hl. apply (weighted_comb E HE "_weighted_sum" (@wsum_formula NumR ws) name xs
    (fun q d => Rsum (map (fun wv => fst wv * snd wv)%R (weighted_given ws xs q d))) Hxs). intros q d. now apply wsum_value.
Qed.
Theorem C45_wmnz : forall (E : env NumR), env_ok E -> forall xs ws name, fusable xs -> length xs <= length ws ->
  exists y, wmnz E xs ws name = Ok y /\ r_name y = Some name /\
    fusion_of xs y (fun q d s => s = (Rsum (map snd (weighted_given ws xs q d)) * Rsum (map fst (weighted_given ws xs q d)))%R).
Proof.
  intros E HE xs ws name Hxs Hl. apply (weighted_comb E HE "_wmnz" (@wmnz_formula NumR ws) name xs
    (fun q d => (Rsum (map snd (weighted_given ws xs q d)) * Rsum (map fst (weighted_given ws xs q d)))%R) Hxs).
  intros q d. unfold wmnz_formula. rewrite weighted_pairs by exact Hl. cbn [bindr]. now rewrite !fsum_R, !map_map.
Qed.
Theorem C45_mixed : forall (E : env NumR), env_ok E -> forall xs ws name, fusable xs -> length xs <= length ws ->
  exists y, mixed E xs ws name = Ok y /\ r_name y = Some name /\
    fusion_of xs y (fun q d s => s = (sqrt (INR (length (weighted_given ws xs q d))) *
                                      Rsum (map (fun wv => fst wv * snd wv)%R (weighted_given ws xs q d)))%R).
Proof.
  intros E HE xs ws name Hxs Hl. apply (weighted_comb E HE "_mixed" (@mixed_formula NumR ws) name xs
    (fun q d => (sqrt (INR (length (weighted_given ws xs q d))) * Rsum (map (fun wv => fst wv * snd wv)%R (weighted_given ws xs q d)))%R) Hxs).
  intros q d. unfold mixed_formula. rewrite weighted_pairs by exact Hl. cbn [bindr]. f_equal. rewrite fsum_R, map_map, map_length, fnat_R.
  rewrite (Rmult_comm (sqrt _)).
  assert (Hm : map (fun x : R * R => @fmul NumR (snd x) (fst x)) (weighted_given ws xs q d) = map (fun wv => fst wv * snd wv)%R (weighted_given ws xs q d)).
  { apply map_ext. intros [w v]. cbn [fst snd]. apply Rmult_comm. }
  cbn [fst snd]. rewrite Hm. reflexivity.
Qed.

Lemma unit_weights xs q d ws : length xs = length ws -> (forall w, In w ws -> w = 1%R) ->
  map snd (weighted_given ws xs q d) = scores_given xs q d /\ map fst (weighted_given ws xs q d) = map (fun _ => 1%R) (scores_given xs q d) /\
  map (fun wv => fst wv * snd wv)%R (weighted_given ws xs q d) = scores_given xs q d.
Proof.
  unfold weighted_given, scores_given. revert ws; induction xs as [|x xs IH]; intros [|w ws] Hl Hw; cbn in Hl; try lia; [auto|].
  destruct (IH ws) as (H1 & H2 & H3); [lia|intros; apply Hw; now right|]. cbn [combine map concat fst snd].
  rewrite !map_app, H1, H2, H3. rewrite (Hw w (or_introl eq_refl)). destruct (score_of x q d) as [s|]; [|auto].
  cbn [map app fst snd]. split; [reflexivity|]. split; [reflexivity|]. now rewrite Rmult_1_l.
Qed.
Lemma fusion_same xs xs' a b (P Q : string -> string -> R -> Prop) : fusion_of xs a P -> fusion_of xs' b Q ->
  (forall q d, candidate xs q d <-> candidate xs' q d) ->
  (forall q d s t, candidate xs q d -> P q d s -> Q q d t -> s = t) -> forall q d, score_of a q d = score_of b q d.
Proof.
  intros Fa Fb Hc HPQ q d. destruct Fa as (_ & _ & Ra & Va & _), Fb as (_ & _ & Rb & Vb & _).
  specialize (Ra q d). specialize (Rb q d). specialize (Hc q d). unfold retrieves in *.
  destruct (score_of a q d) as [s|] eqn:Hs, (score_of b q d) as [t|] eqn:Ht; auto.
  - f_equal. apply (HPQ q d); auto. apply Ra. eauto.
  - destruct (proj2 Rb) as [t Ht']; [apply Hc, Ra; eauto|discriminate].
  - destruct (proj2 Ra) as [t' Ht']; [apply Hc, Rb; eauto|discriminate].
Qed.
(** with all weights 1: wsum is comb_sum, wmnz is comb_mnz *)
Theorem C45_unit_weights : forall (E : env NumR), env_ok E -> forall xs ws name name', fusable xs -> length xs = length ws ->
  (forall w, In w ws -> w = 1%R) ->
  exists y y' z z', wsum E xs ws name = Ok y /\ comb_sum E xs name' = Ok y' /\ wmnz E xs ws name = Ok z /\ comb_mnz E xs name' = Ok z' /\
    forall q d, score_of y q d = score_of y' q d /\ score_of z q d = score_of z' q d.
Proof.
  intros E HE xs ws name name' Hxs Hl Hw.
  destruct (C45_wsum E HE xs ws name Hxs) as (y & Hy & _ & Fy); [rewrite Hl; apply le_n|]. destruct (C43_comb_sum E HE xs name' Hxs) as (y' & Hy' & _ & Fy').
  destruct (C45_wmnz E HE xs ws name Hxs) as (z & Hz & _ & Fz); [rewrite Hl; apply le_n|]. destruct (C43_comb_mnz E HE xs name' Hxs) as (z' & Hz' & _ & Fz').
  exists y, y', z, z'. repeat (split; [assumption|]).
  intros q d. destruct (unit_weights xs q d ws Hl Hw) as (H1 & H2 & H3). split.
  - apply (fusion_same _ _ _ _ _ _ Fy Fy'); [tauto|]. intros q' d' s t _ -> ->. now destruct (unit_weights xs q' d' ws Hl Hw) as (_ & _ & ->).
  - apply (fusion_same _ _ _ _ _ _ Fz Fz'); [tauto|]. intros q' d' s t _ -> ->. destruct (unit_weights xs q' d' ws Hl Hw) as (-> & -> & _). f_equal.
    rewrite Rsum_map_const. lra.
Qed.
