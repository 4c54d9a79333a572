(** P_Float11.v: the score based normalisations on binary64 runs *)
From Coq Require Import Reals ZArith Lra Lia SpecFloat Psatz List String.
From Flocq Require Import Core.Core IEEE754.BinarySingleNaN.
From Verif Require Import Base Dict Num NumLaws Env M_Common M_Qrels M_Run M_Norm Spec_DS Spec_Hist Spec_Metrics Spec_Eval Spec_Norm Spec_Float Spec_Float3
  P_Base P_Dict P_Common P_Norm P_Float P_Float2 P_Float10.
Import ListNotations.
Open Scope R_scope.

(** ** for any number type *)
Section G.
Context {N : Num}.
Definition score_map (G : dict F -> F -> F) (m : dict (dict F)) : dict (dict F) := map (fun qr => (fst qr, mapv (G (snd qr)) (snd qr))) m.
Lemma score_map_get G m q d : dget2 (score_map G m) q d = option_map (G (of_query m q)) (dget2 m q d).
Proof.
  unfold dget2, of_query, score_map. rewrite (map_inner_get (fun r => mapv (G r) r) m q). destruct (dget m q) as [r|]; [|reflexivity].
  cbn [option_map]. apply mapv_get.
Qed.
Lemma score_map_keys G m : dkeys (score_map G m) = dkeys m.
Proof. exact (dmap_keys (fun r => mapv (G r) r) m). Qed.
Lemma score_map_ok G m : dict2_ok m -> dict2_ok (score_map G m).
Proof. intros H. apply (map_inner_ok (fun r => mapv (G r) r) m H). intros r Hr. unfold dict_ok. now rewrite mapv_keys. Qed.

Definition G_max (r : dict F) (s : F) : F := fdiv s (fmax2 (safe_max (dvals r)) eps9).
Definition G_mm (r : dict F) (s : F) : F := fdiv (fsub s (safe_min (dvals r))) (fmax2 (fsub (safe_max (dvals r)) (safe_min (dvals r))) eps9).
Definition G_inv (r : dict F) (s : F) : F := fdiv (fsub (safe_max (dvals r)) s) (fmax2 (fsub (safe_max (dvals r)) (safe_min (dvals r))) eps9).
Definition pos_map (g : dict F -> nat -> F) (m : dict (dict F)) : dict (dict F) := map (fun qr => (fst qr, by_pos (g (snd qr)) (snd qr))) m.
Definition G_rank (r : dict F) (i : nat) : F := fsub fone (fdiv (fnat i) (fnat (length r))).
Lemma pos_map_get g m q d : dget2 (pos_map g m) q d = option_map (g (of_query m q)) (index_of (dkeys (of_query m q)) d).
Proof.
  unfold dget2, of_query, pos_map. rewrite (map_inner_get (fun r => by_pos (g r) r) m q). destruct (dget m q) as [r|]; [|reflexivity].
  cbn [option_map]. apply by_pos_get.
Qed.
Lemma pos_map_keys g m : dkeys (pos_map g m) = dkeys m.
Proof. exact (dmap_keys (fun r => by_pos (g r) r) m). Qed.

Context (E : env N) (HE : env_ok E).
Lemma max_norm_g x : dict2_ok (r_map x) -> max_norm E x = Ok (new_run (r_name x) (score_map G_max (r_map x))).
Proof.
  intros H. unfold max_norm. rewrite (per_query_ok E HE _ _ (fun r => mapv (G_max r) r)); [reflexivity|exact H|].
  intros r Hr. unfold _max_norm. now rewrite map_results_ok by exact Hr.
Qed.
Lemma mm_norm_g x : dict2_ok (r_map x) -> min_max_norm E false x = Ok (new_run (r_name x) (score_map G_mm (r_map x))).
Proof.
  intros H. unfold min_max_norm. rewrite (per_query_ok E HE _ _ (fun r => mapv (G_mm r) r)); [reflexivity|exact H|].
  intros r Hr. unfold _min_max_norm. now rewrite map_results_ok by exact Hr.
Qed.
Lemma inv_norm_g x : dict2_ok (r_map x) -> min_max_norm E true x = Ok (Run_sort E (new_run (r_name x) (score_map G_inv (r_map x)))).
Proof.
  intros H. unfold min_max_norm. rewrite (per_query_ok E HE _ _ (fun r => mapv (G_inv r) r)); [reflexivity|exact H|].
  intros r Hr. unfold _min_max_norm. now rewrite map_results_ok by exact Hr.
Qed.
Lemma rank_norm_g x : dict2_ok (r_map x) -> rank_norm E x = Ok (new_run (r_name x) (pos_map G_rank (r_map x))).
Proof.
  intros H. unfold rank_norm. rewrite (per_query_ok E HE _ _ (fun r => by_pos (G_rank r) r)); [reflexivity|exact H|].
  intros r Hr. now apply rank_norm_ok.
Qed.
Lemma sort_get x q d : dict2_ok (r_map x) -> dget2 (r_map (Run_sort E x)) q d = dget2 (r_map x) q d.
Proof. intros H. exact (canon_get2 E HE r_negf (r_map x) q d H). Qed.
Lemma sort_keys_in x q : dict2_ok (r_map x) -> In q (dkeys (r_map (Run_sort E x))) <-> In q (dkeys (r_map x)).
Proof.
  intros H. change (In q (dkeys (canon E r_negf (r_map x))) <-> In q (dkeys (r_map x))).
  rewrite canon_keys by apply H. apply str_sort_in.
Qed.
Lemma dget2_in m q d (s : F) : dget2 m q d = Some s -> In s (dvals (of_query m q)).
Proof.
  unfold dget2, of_query. destruct (dget m q) as [r|]; [|discriminate]. intros H. apply dget_Some_in in H. now apply (in_map snd) in H.
Qed.
Lemma in_dget2 m q (s : F) : dict2_ok m -> In s (dvals (of_query m q)) -> exists d, dget2 m q d = Some s.
Proof.
  intros [_ Hok]. unfold dget2, of_query. destruct (dget m q) as [r|] eqn:Hr; [|intros []]. intros H. apply in_map_iff in H as ([d v] & <- & Hi).
  exists d. apply in_dget; [now apply (Hok q)|exact Hi].
Qed.
End G.

(** ** binary64 *)
Section N.
Variables (l1 l2 : sf -> sf) (pw : sf -> sf -> sf).
Notation N64 := (NumSF_with l1 l2 pw).

Lemma bounded a : Rabs a <= bpow radix2 900 -> Rabs (rnd64 a) < bpow radix2 1024.
Proof.
  intros H. apply Rle_lt_trans with (bpow radix2 900); [|apply bpow_lt; lia]. apply Rabs_le_inv in H.
  assert (Hf : fmt (bpow radix2 900)) by (apply generic_format_bpow; cbn; lia). apply Rabs_le. split; [|apply rnd_le_fmt; [exact Hf|lra]].
  apply rnd_ge_fmt; [now apply generic_format_opp|lra].
Qed.
Lemma fin_eps : is64 (@eps9 N64) eps_r.
Proof.
  change (@eps9 N64) with (sf_dec 1 9). replace (sf_dec 1 9) with (sf_div (sf_of_Z 1) (sf_of_Z (10 ^ 9))) by (vm_compute; reflexivity).
  unfold eps_r, tiny. replace (10 ^ 9) with (IZR (10 ^ 9)) by (rewrite (pow_IZR 10 9); reflexivity).
  apply fin_div; [apply (fin_ofZ 1); unfold small; lia|apply (fin_ofZ (10 ^ 9)); unfold small; lia|apply IZR_neq; lia|].
  apply bounded. rewrite Rabs_pos_eq; [|apply div_ge0; [apply (IZR_lt 0); lia|lra]].
  apply Rle_trans with 1; [apply div_le1; [apply (IZR_lt 0); lia|apply IZR_le; lia]|]. change 1 with (bpow radix2 0). apply bpow_le. lia.
Qed.
Lemma fin_max2 x y a b : is64 x a -> is64 y b -> is64 (@fmax2 N64 x y) (Rmax a b).
Proof.
  intros Hx Hy. unfold fmax2. change (@fltb N64 x y) with (sf_ltb x y). rewrite (ltb64 x y a b Hx Hy).
  case Rlt_bool_spec; intros H; [now rewrite Rmax_right by lra|now rewrite Rmax_left by lra].
Qed.
Lemma fin_min2 x y a b : is64 x a -> is64 y b -> is64 (@fmin2 N64 x y) (Rmin a b).
Proof.
  intros Hx Hy. unfold fmin2. change (@fltb N64 y x) with (sf_ltb y x). rewrite (ltb64 y x b a Hy Hx).
  case Rlt_bool_spec; intros H; [now rewrite Rmin_right by lra|now rewrite Rmin_left by lra].
Qed.
Definition fin (s : sf) : Prop := exists r, is64 s r.
Lemma maxl_spec l : forall x a, is64 x a -> Forall fin l ->
  exists m, is64 (@fmaxl N64 x l) m /\ (exists s, In s (x :: l) /\ is64 s m) /\ forall s r, In s (x :: l) -> is64 s r -> r <= m.
Proof.
  induction l as [|y l IH]; intros x a Hx Hl.
  - exists a. split; [exact Hx|]. split; [exists x; split; [now left|exact Hx]|]. intros s r [<-|[]] Hs. right. eapply is64_fun; eassumption.
  - inversion_clear Hl as [|? ? [b Hb] Hl']. destruct (IH (@fmax2 N64 x y) (Rmax a b) (fin_max2 _ _ _ _ Hx Hb) Hl') as (m & H1 & (s & H2 & H2') & H3).
    exists m. split; [exact H1|].
    assert (Hmax : Rmax a b <= m) by (apply (H3 (@fmax2 N64 x y)); [now left|now apply fin_max2]). split.
    + destruct H2 as [<-|H2].
      * unfold fmax2 in H2'. change (@fltb N64 x y) with (sf_ltb x y) in H2'. destruct (sf_ltb x y); [exists y|exists x]; (split; [|exact H2']); cbn; tauto.
      * exists s. split; [now right; right|exact H2'].
    + intros s' r [<-|[<-|Hi]] Hs'.
      * rewrite (is64_fun _ _ _ Hs' Hx). eapply Rle_trans; [apply Rmax_l|exact Hmax].
      * rewrite (is64_fun _ _ _ Hs' Hb). eapply Rle_trans; [apply Rmax_r|exact Hmax].
      * apply (H3 s'); [now right|exact Hs'].
Qed.
Lemma minl_spec l : forall x a, is64 x a -> Forall fin l ->
  exists m, is64 (@fminl N64 x l) m /\ (exists s, In s (x :: l) /\ is64 s m) /\ forall s r, In s (x :: l) -> is64 s r -> m <= r.
Proof.
  induction l as [|y l IH]; intros x a Hx Hl.
  - exists a. split; [exact Hx|]. split; [exists x; split; [now left|exact Hx]|]. intros s r [<-|[]] Hs. right. eapply is64_fun; eassumption.
  - inversion_clear Hl as [|? ? [b Hb] Hl']. destruct (IH (@fmin2 N64 x y) (Rmin a b) (fin_min2 _ _ _ _ Hx Hb) Hl') as (m & H1 & (s & H2 & H2') & H3).
    exists m. split; [exact H1|].
    assert (Hmin : m <= Rmin a b) by (apply (H3 (@fmin2 N64 x y)); [now left|now apply fin_min2]). split.
    + destruct H2 as [<-|H2].
      * unfold fmin2 in H2'. change (@fltb N64 y x) with (sf_ltb y x) in H2'. destruct (sf_ltb y x); [exists y|exists x]; (split; [|exact H2']); cbn; tauto.
      * exists s. split; [now right; right|exact H2'].
    + intros s' r [<-|[<-|Hi]] Hs'.
      * rewrite (is64_fun _ _ _ Hs' Hx). eapply Rle_trans; [exact Hmin|apply Rmin_l].
      * rewrite (is64_fun _ _ _ Hs' Hb). eapply Rle_trans; [exact Hmin|apply Rmin_r].
      * apply (H3 s'); [now right|exact Hs'].
Qed.

Variable x : Run N64.
Hypothesis Hx : run64 x.
Notation res q := (@of_query spec_float (r_map x) q).
Lemma in_fin q s : In s (dvals (res q)) -> fin s.
Proof. intros H. destruct (in_dget2 (N := N64) (r_map x) q s (proj1 Hx) H) as (d & Hd). destruct (proj2 Hx _ _ _ Hd) as (r & Hr & _). now exists r. Qed.
Lemma bounded_val q d r : value64 x q d r -> Rabs r <= 2 ^ 200.
Proof. intros (s & Hs & Hr). destruct (proj2 Hx _ _ _ Hs) as (r' & Hr' & Hb). now rewrite (is64_fun _ _ _ Hr Hr'). Qed.
Lemma lowest_ok q d s : @dget2 spec_float (r_map x) q d = Some s -> exists lo, lowest x q lo /\ is64 (@safe_min N64 (dvals (res q))) lo.
Proof.
  intros Hs. apply (dget2_in (N := N64)) in Hs. pose proof (in_fin q) as Hf. 
  assert (Hd : forall s, In s (dvals (res q)) <-> exists d, @dget2 spec_float (r_map x) q d = Some s).
  { intros s'. split; [apply (in_dget2 (N := N64)); exact (proj1 Hx)|intros [d' Hd']; exact (dget2_in (N := N64) _ _ _ _ Hd')]. }
  change (In s (@dvals spec_float (res q))) in Hs. unfold lowest, value64. revert Hs Hf Hd. generalize (@dvals spec_float (res q)). intros l Hs Hf Hd.
  destruct l as [|a l]; [destruct Hs|]. destruct (Hf a (or_introl eq_refl)) as (ra & Ha).
  destruct (minl_spec l a ra Ha) as (m & H1 & (s' & H2 & H2') & H3). { apply Forall_forall. intros b Hb. apply Hf. now right. }
  exists m. split; [|exact H1]. split.
  - apply Hd in H2 as (d' & Hd'). exists d', s'. now split.
  - intros d' r (s0 & Hs0 & Hr). apply (H3 s0); [|exact Hr]. apply Hd. now exists d'.
Qed.
Lemma highest_ok q d s : @dget2 spec_float (r_map x) q d = Some s -> exists hi, highest x q hi /\ is64 (@safe_max N64 (dvals (res q))) hi.
Proof.
  intros Hs. apply (dget2_in (N := N64)) in Hs. pose proof (in_fin q) as Hf. 
  assert (Hd : forall s, In s (dvals (res q)) <-> exists d, @dget2 spec_float (r_map x) q d = Some s).
  { intros s'. split; [apply (in_dget2 (N := N64)); exact (proj1 Hx)|intros [d' Hd']; exact (dget2_in (N := N64) _ _ _ _ Hd')]. }
  change (In s (@dvals spec_float (res q))) in Hs. unfold highest, value64. revert Hs Hf Hd. generalize (@dvals spec_float (res q)). intros l Hs Hf Hd.
  destruct l as [|a l]; [destruct Hs|]. destruct (Hf a (or_introl eq_refl)) as (ra & Ha).
  destruct (maxl_spec l a ra Ha) as (m & H1 & (s' & H2 & H2') & H3). { apply Forall_forall. intros b Hb. apply Hf. now right. }
  exists m. split; [|exact H1]. split.
  - apply Hd in H2 as (d' & Hd'). exists d', s'. now split.
  - intros d' r (s0 & Hs0 & Hr). apply (H3 s0); [|exact Hr]. apply Hd. now exists d'.
Qed.
Lemma lowest_fun q lo lo' : lowest x q lo -> lowest x q lo' -> lo = lo'.
Proof. intros [(d & H) H1] [(d' & H') H1']. apply Rle_antisym; eauto. Qed.
Lemma highest_fun q lo lo' : highest x q lo -> highest x q lo' -> lo = lo'.
Proof. intros [(d & H) H1] [(d' & H') H1']. apply Rle_antisym; eauto. Qed.
Lemma pow200_bpow : 2 ^ 200 = bpow radix2 200.
Proof. rewrite <- (IZR_Zpower radix2 200) by lia. rewrite (pow_IZR 2 200). reflexivity. Qed.
Lemma diff_bounded a b : Rabs a <= 2 ^ 200 -> Rabs b <= 2 ^ 200 -> Rabs (a - b) <= bpow radix2 201.
Proof.
  intros Ha Hb. rewrite pow200_bpow in *. replace (bpow radix2 201) with (bpow radix2 200 * 2) by (rewrite (bpow_plus radix2 200 1 : bpow radix2 201 = _); reflexivity).
  apply Rabs_le_inv in Ha, Hb. apply Rabs_le. lra.
Qed.
Lemma bpow201_900 : bpow radix2 201 <= bpow radix2 900.
Proof. apply bpow_le. lia. Qed.
Lemma fin_diff s t a b : is64 s a -> is64 t b -> Rabs a <= 2 ^ 200 -> Rabs b <= 2 ^ 200 -> is64 (sf_sub s t) (rnd64 (a - b)).
Proof. intros Hs Ht Ha Hb. apply fin_sub; [exact Hs|exact Ht|]. apply bounded. eapply Rle_trans; [now apply diff_bounded|apply bpow201_900]. Qed.
Lemma quot_bounded a D : Rabs a <= bpow radix2 201 -> eps_r <= D -> Rabs (a / D) <= bpow radix2 900.
Proof.
  intros Ha HD. pose proof eps_bounds as [He _]. pose proof (bpow_gt_0 radix2 (-30)) as Hp. assert (HD' : bpow radix2 (-30) <= D) by lra.
  unfold Rdiv. rewrite Rabs_mult, (Rabs_pos_eq (/ D)) by (left; apply Rinv_0_lt_compat; lra).
  apply Rle_trans with (bpow radix2 201 * bpow radix2 30).
  - apply Rmult_le_compat; [apply Rabs_pos|left; apply Rinv_0_lt_compat; lra|exact Ha|]. change 30%Z with (- (-30))%Z. rewrite bpow_opp. apply Rinv_le; lra.
  - rewrite <- bpow_plus. apply bpow_le. lia.
Qed.
Lemma rnd_201 a : Rabs a <= bpow radix2 201 -> Rabs (rnd64 a) <= bpow radix2 201.
Proof.
  intros H. apply Rabs_le_inv in H. assert (Hf : fmt (bpow radix2 201)) by (apply generic_format_bpow; cbn; lia). apply Rabs_le. split; [|apply rnd_le_fmt; [exact Hf|lra]].
  apply rnd_ge_fmt; [now apply generic_format_opp|lra].
Qed.
Lemma fin_den hi lo mn mx : is64 mx hi -> is64 mn lo -> Rabs hi <= 2 ^ 200 -> Rabs lo <= 2 ^ 200 ->
  is64 (@fmax2 N64 (@fsub N64 mx mn) (@eps9 N64)) (mm_den lo hi).
Proof. intros H1 H2 B1 B2. apply fin_max2; [now apply fin_diff|apply fin_eps]. Qed.
Lemma mm_den_ge lo hi : eps_r <= mm_den lo hi.
Proof. apply Rmax_r. Qed.
Lemma fin_mm s a t b mn mx lo hi : is64 mx hi -> is64 mn lo -> Rabs hi <= 2 ^ 200 -> Rabs lo <= 2 ^ 200 ->
  is64 s a -> is64 t b -> Rabs a <= 2 ^ 200 -> Rabs b <= 2 ^ 200 ->
  is64 (@fdiv N64 (@fsub N64 s t) (@fmax2 N64 (@fsub N64 mx mn) (@eps9 N64))) (mm (a - b) (mm_den lo hi)).
Proof.
  intros H1 H2 B1 B2 H3 H4 B3 B4. pose proof eps_pos as He. pose proof (mm_den_ge lo hi) as Hg. apply fin_div; [now apply fin_diff|now apply fin_den|lra|].
  apply bounded, quot_bounded; [|exact Hg]. apply rnd_201. now apply diff_bounded.
Qed.

Lemma mm_value q d s v lo hi : value64 x q d s -> lowest x q lo -> highest x q hi ->
  @dget2 spec_float (score_map (N := N64) G_mm (r_map x)) q d = Some v -> is64 v (mm (s - lo) (mm_den lo hi)).
Proof.
  intros Hv Hlo Hhi Hy. pose proof (bounded_val _ _ _ Hv) as Bs. destruct Hv as (s0 & Hs & Hr).
  destruct (lowest_ok q d s0 Hs) as (lo' & L1 & L2). destruct (highest_ok q d s0 Hs) as (hi' & U1 & U2).
  rewrite (lowest_fun q lo lo' Hlo L1), (highest_fun q hi hi' Hhi U1).
  assert (Bl : Rabs lo' <= 2 ^ 200) by (destruct L1 as [(d' & Hd') _]; eapply bounded_val; exact Hd').
  assert (Bh : Rabs hi' <= 2 ^ 200) by (destruct U1 as [(d' & Hd') _]; eapply bounded_val; exact Hd').
  assert (Hg : Some v = Some (@G_mm N64 (res q) s0)).
  { etransitivity; [symmetry; exact Hy|]. etransitivity; [apply (score_map_get (N := N64))|]. exact (f_equal (option_map (@G_mm N64 (res q))) Hs). }
  injection Hg as ->. now apply fin_mm.
Qed.
Lemma inv_value q d s v lo hi : value64 x q d s -> lowest x q lo -> highest x q hi ->
  @dget2 spec_float (score_map (N := N64) G_inv (r_map x)) q d = Some v -> is64 v (mm (hi - s) (mm_den lo hi)).
Proof.
  intros Hv Hlo Hhi Hy. pose proof (bounded_val _ _ _ Hv) as Bs. destruct Hv as (s0 & Hs & Hr).
  destruct (lowest_ok q d s0 Hs) as (lo' & L1 & L2). destruct (highest_ok q d s0 Hs) as (hi' & U1 & U2).
  rewrite (lowest_fun q lo lo' Hlo L1), (highest_fun q hi hi' Hhi U1).
  assert (Bl : Rabs lo' <= 2 ^ 200) by (destruct L1 as [(d' & Hd') _]; eapply bounded_val; exact Hd').
  assert (Bh : Rabs hi' <= 2 ^ 200) by (destruct U1 as [(d' & Hd') _]; eapply bounded_val; exact Hd').
  assert (Hg : Some v = Some (@G_inv N64 (res q) s0)).
  { etransitivity; [symmetry; exact Hy|]. etransitivity; [apply (score_map_get (N := N64))|]. exact (f_equal (option_map (@G_inv N64 (res q))) Hs). }
  injection Hg as ->. now apply fin_mm.
Qed.
Lemma max_value q d s v hi : value64 x q d s -> highest x q hi ->
  @dget2 spec_float (score_map (N := N64) G_max (r_map x)) q d = Some v -> is64 v (rnd64 (s / Rmax hi eps_r)).
Proof.
  intros Hv Hhi Hy. pose proof (bounded_val _ _ _ Hv) as Bs. destruct Hv as (s0 & Hs & Hr).
  destruct (highest_ok q d s0 Hs) as (hi' & U1 & U2). rewrite (highest_fun q hi hi' Hhi U1).
  assert (Hg : Some v = Some (@G_max N64 (res q) s0)).
  { etransitivity; [symmetry; exact Hy|]. etransitivity; [apply (score_map_get (N := N64))|]. exact (f_equal (option_map (@G_max N64 (res q))) Hs). }
  injection Hg as ->. pose proof eps_pos as He. pose proof (Rmax_r hi' eps_r) as Hm. apply fin_div; [exact Hr|apply fin_max2; [exact U2|apply fin_eps]|lra|].
  apply bounded, quot_bounded; [|exact Hm]. eapply Rle_trans; [exact Bs|]. rewrite pow200_bpow. apply bpow_le. lia.
Qed.
Lemma score_map_same G nm : (forall q d v, @dget2 spec_float (score_map (N := N64) G (r_map x)) q d = Some v -> fin v) ->
  same_results x (@new_run N64 nm (score_map (N := N64) G (r_map x))).
Proof.
  intros Hf. split; [|split].
  - intros q. cbn [r_map new_run]. change (In q (dkeys (r_map x)) <-> In q (dkeys (score_map (N := N64) G (r_map x)))). now rewrite (score_map_keys (N := N64)).
  - intros q d. change (r_map (new_run nm (score_map (N := N64) G (r_map x)))) with (score_map (N := N64) G (r_map x)). pose proof (score_map_get (N := N64) G (r_map x) q d) as Hg.
    assert (Hgen : forall o o' : option spec_float, o' = option_map (G (of_query (r_map x) q)) o -> (exists s, o = Some s) <-> (exists s, o' = Some s)).
    { intros [s|] o' ->; cbn; split; intros [s' Hs']; try discriminate; eauto. }
    exact (Hgen _ _ Hg).
  - intros q d s Hs. destruct (Hf q d s Hs) as (r & Hr). exists r, s. now split.
Qed.
End N.
