(** T_Norm.v: normalisation (C37-C41) *)
From Coq Require Import Reals Lra Psatz.
From Verif Require Import Base Dict Num NumLaws Env EnvEx M_Common M_Qrels M_Run M_History M_Norm
  Spec_DS Spec_Hist Spec_Metrics Spec_Eval Spec_Norm
  P_Base P_Dict P_Common P_History P_DS P_Metrics P_Eval P_Eval3 P_Norm.
Open Scope string_scope.
Open Scope list_scope.
Open Scope nat_scope.

Ltac numR := cbn [F fadd fsub fmul fdiv fopp fabs fltb fleb feqb fofZ fdec fsqrt fln flog2 fpow fnpow ftrunc NumR] in *.

Lemma fmax2_R (a b : R) : @fmax2 NumR a b = Rmax a b.
Proof.
  unfold fmax2. numR. unfold Rltb. destruct (Rlt_dec a b); [rewrite Rmax_right|rewrite Rmax_left]; auto; lra.
Qed.
Lemma fmin2_R (a b : R) : @fmin2 NumR a b = Rmin a b.
Proof.
  unfold fmin2. numR. unfold Rltb. destruct (Rlt_dec b a); [rewrite Rmin_right|rewrite Rmin_left]; auto; lra.
Qed.
Lemma eps9_R : @eps9 NumR = tiny.
Proof. reflexivity. Qed.
Lemma tiny_pos : (0 < tiny)%R.
Proof. unfold tiny. apply Rdiv_lt_0_compat; [lra|]. apply pow_lt. lra. Qed.
Lemma fmaxl_is_max (l : list R) : forall x, is_max_of (x :: l) (@fmaxl NumR x l).
Proof.
  induction l as [|y l IH]; intros x; [split; [now left|intros v [->|[]]; apply Rle_refl]|].
  change (is_max_of (x :: y :: l) (@fmaxl NumR (@fmax2 NumR x y) l)). rewrite fmax2_R.
  destruct (IH (Rmax x y)) as [Hi Hm]. split.
  - destruct Hi as [Hi|Hi]; [|cbn; tauto]. rewrite <- Hi. unfold Rmax. destruct (Rle_dec x y); cbn; tauto.
  - assert (Hxy := Hm _ (or_introl eq_refl)). intros v [<-|[<-|Hv]].
    + eapply Rle_trans; [apply Rmax_l|exact Hxy].
    + eapply Rle_trans; [apply Rmax_r|exact Hxy].
    + apply Hm. now right.
Qed.
Lemma fminl_is_min (l : list R) : forall x, is_min_of (x :: l) (@fminl NumR x l).
Proof.
  induction l as [|y l IH]; intros x; [split; [now left|intros v [->|[]]; apply Rle_refl]|].
  change (is_min_of (x :: y :: l) (@fminl NumR (@fmin2 NumR x y) l)). rewrite fmin2_R.
  destruct (IH (Rmin x y)) as [Hi Hm]. split.
  - destruct Hi as [Hi|Hi]; [|cbn; tauto]. rewrite <- Hi. unfold Rmin. destruct (Rle_dec x y); cbn; tauto.
  - assert (Hxy := Hm _ (or_introl eq_refl)). intros v [<-|[<-|Hv]].
    + eapply Rle_trans; [exact Hxy|apply Rmin_l].
    + eapply Rle_trans; [exact Hxy|apply Rmin_r].
    + apply Hm. now right.
Qed.
Lemma max_unique l m m' : is_max_of l m -> is_max_of l m' -> m = m'.
Proof. intros [H1 H2] [H3 H4]. apply Rle_antisym; auto. Qed.
Lemma min_unique l m m' : is_min_of l m -> is_min_of l m' -> m = m'.
Proof. intros [H1 H2] [H3 H4]. apply Rle_antisym; auto. Qed.
Lemma safe_max_R (l : list R) m : is_max_of l m -> @safe_max NumR l = m.
Proof. destruct l as [|x l]; intros H; [now destruct H|]. eapply max_unique; [apply fmaxl_is_max|exact H]. Qed.
Lemma safe_min_R (l : list R) m : is_min_of l m -> @safe_min NumR l = m.
Proof. destruct l as [|x l]; intros H; [now destruct H|]. eapply min_unique; [apply fminl_is_min|exact H]. Qed.
Lemma has_max (l : list R) : l <> [] -> exists m, is_max_of l m.
Proof. destruct l as [|x l]; intros H; [easy|]. eexists. apply fmaxl_is_max. Qed.
Lemma has_min (l : list R) : l <> [] -> exists m, is_min_of l m.
Proof. destruct l as [|x l]; intros H; [easy|]. eexists. apply fminl_is_min. Qed.

(** ** one value per score *)
Definition g_max (r : dict R) (s : R) : R := (s / Rmax (@safe_max NumR (dvals r)) tiny)%R.
Definition g_minmax (r : dict R) (s : R) : R :=
  ((s - @safe_min NumR (dvals r)) / Rmax (@safe_max NumR (dvals r) - @safe_min NumR (dvals r)) tiny)%R.
Definition g_inv (r : dict R) (s : R) : R :=
  ((@safe_max NumR (dvals r) - s) / Rmax (@safe_max NumR (dvals r) - @safe_min NumR (dvals r)) tiny)%R.
Definition g_sum (r : dict R) (s : R) : R :=
  ((s - @safe_min NumR (dvals r)) / Rmax (Rsum (dvals r) - @safe_min NumR (dvals r) * INR (length r)) tiny)%R.
Definition g_zmuv (r : dict R) (s : R) : R := ((s - mean_of (dvals r)) / Rmax (std_of (dvals r)) tiny)%R.
Definition g_rank (r : dict R) (i : nat) : R := (1 - INR i / INR (length r))%R.

Definition by_score (g : dict R -> R -> R) (m : dict (dict R)) : dict (dict R) :=
  map (fun qr => (fst qr, @mapv NumR (g (snd qr)) (snd qr))) m.

Lemma fnat_R n : @fnat NumR n = INR n.
Proof. unfold fnat. numR. symmetry. apply INR_IZR_INZ. Qed.

Section N.
Context (E : env NumR) (HE : env_ok E).

Lemma max_norm_R x : a_run x -> max_norm E x = Ok (new_run (r_name x) (by_score g_max (r_map x))).
Proof.
  intros H. unfold max_norm. rewrite (per_query_ok E HE _ _ (fun r => @mapv NumR (g_max r) r)); [reflexivity|exact H|].
  intros r Hr. unfold _max_norm. rewrite map_results_ok by exact Hr. do 2 f_equal. unfold g_max. now rewrite fmax2_R.
Qed.
Lemma minmax_norm_R x : a_run x -> min_max_norm E false x = Ok (new_run (r_name x) (by_score g_minmax (r_map x))).
Proof.
  intros H. unfold min_max_norm. rewrite (per_query_ok E HE _ _ (fun r => @mapv NumR (g_minmax r) r)); [reflexivity|exact H|].
  intros r Hr. unfold _min_max_norm. rewrite map_results_ok by exact Hr. do 2 f_equal. unfold g_minmax. now rewrite fmax2_R.
Qed.
Lemma inv_norm_R x : a_run x -> min_max_norm E true x = Ok (Run_sort E (new_run (r_name x) (by_score g_inv (r_map x)))).
Proof.
  intros H. unfold min_max_norm. rewrite (per_query_ok E HE _ _ (fun r => @mapv NumR (g_inv r) r)); [reflexivity|exact H|].
  intros r Hr. unfold _min_max_norm. rewrite map_results_ok by exact Hr. do 2 f_equal. unfold g_inv. now rewrite fmax2_R.
Qed.
Lemma sum_norm_R x : a_run x -> sum_norm E x = Ok (new_run (r_name x) (by_score g_sum (r_map x))).
Proof.
  intros H. unfold sum_norm. rewrite (per_query_ok E HE _ _ (fun r => @mapv NumR (g_sum r) r)); [reflexivity|exact H|].
  intros r Hr. unfold _sum_norm. rewrite map_results_ok by exact Hr. do 2 f_equal. unfold g_sum.
  rewrite fmax2_R, fnat_R. unfold extract_scores. now rewrite fsum_R.
Qed.
Lemma zmuv_norm_R x : a_run x -> zmuv_norm E x = Ok (new_run (r_name x) (by_score g_zmuv (r_map x))).
Proof.
  intros H. unfold zmuv_norm. rewrite (per_query_ok E HE _ _ (fun r => @mapv NumR (g_zmuv r) r)); [reflexivity|exact H|].
  intros r Hr. unfold _zmuv_norm. rewrite map_results_ok by exact Hr. do 2 f_equal. unfold g_zmuv.
  rewrite fmax2_R. unfold extract_scores. now rewrite fmean_R, fstd_R.
Qed.
Lemma rank_norm_R x : a_run x ->
  rank_norm E x = Ok (new_run (r_name x) (map (fun qr => (fst qr, @by_pos NumR (g_rank (snd qr)) (snd qr))) (r_map x))).
Proof.
  intros H. unfold rank_norm. rewrite (per_query_ok E HE _ _ (fun r => @by_pos NumR (g_rank r) r)); [reflexivity|exact H|].
  intros r Hr. rewrite rank_norm_ok by exact Hr. f_equal. unfold by_pos. apply map_ext. intros id.
  unfold g_rank. rewrite !fnat_R. reflexivity.
Qed.
End N.

Lemma by_score_query g (m : dict (dict R)) q : dget (by_score g m) q = option_map (fun r => @mapv NumR (g r) r) (dget m q).
Proof. exact (map_inner_get (N := NumR) (fun r => @mapv NumR (g r) r) m q). Qed.
Lemma by_score_ok g (m : dict (dict R)) : dict2_ok m -> dict2_ok (by_score g m).
Proof.
  intros H. apply (map_inner_ok (N := NumR) (fun r => @mapv NumR (g r) r) m H).
  intros r Hr. unfold dict_ok. now rewrite mapv_keys.
Qed.
Lemma by_score_get2 g (m : dict (dict R)) q d s : dget2 m q d = Some s ->
  dget2 (by_score g m) q d = Some (g (of_query m q) s).
Proof.
  unfold dget2, of_query. rewrite by_score_query. destruct (dget m q) as [r|]; cbn; [|discriminate].
  intros H. etransitivity; [apply (mapv_get (N := NumR))|]. exact (f_equal (option_map (g r)) H).
Qed.
Lemma by_score_get2_inv g (m : dict (dict R)) q d v : dget2 (by_score g m) q d = Some v ->
  exists s, dget2 m q d = Some s /\ v = g (of_query m q) s.
Proof.
  unfold dget2, of_query. rewrite by_score_query. destruct (dget m q) as [r|]; cbn; [|discriminate].
  intros H. assert (H' := eq_trans (eq_sym (mapv_get (N := NumR) (g r) r d)) H). cbn in H'.
  assert (Hgen : forall o : option R, option_map (g r) o = Some v -> exists s, o = Some s /\ v = g r s).
  { intros [s|]; cbn; intros Hx; inversion Hx; eauto. }
  exact (Hgen _ H').
Qed.
Lemma by_score_vals g (m : dict (dict R)) q :
  @dvals R (of_query (by_score g m) q) = map (g (of_query m q)) (dvals (of_query m q)).
Proof.
  unfold of_query. rewrite by_score_query. destruct (dget m q) as [r|]; cbn; [|reflexivity].
  unfold mapv, dvals. now rewrite !map_map.
Qed.
Lemma by_score_keys g (m : dict (dict R)) : dkeys (by_score g m) = dkeys m.
Proof. exact (dmap_keys (fun r => @mapv NumR (g r) r) m). Qed.
Lemma by_pos_map_query g (m : dict (dict R)) q :
  dget (map (fun qr => (fst qr, @by_pos NumR (g (snd qr)) (snd qr))) m) q = option_map (fun r => @by_pos NumR (g r) r) (dget m q).
Proof. exact (map_inner_get (N := NumR) (fun r => @by_pos NumR (g r) r) m q). Qed.

Lemma Some_mem {V} (r : dict V) d : (exists s, dget r d = Some s) <-> In d (dkeys r).
Proof. split; [intros [s Hs]; eapply dget_Some_key; eauto|apply key_dget]. Qed.
Lemma by_pos_retrieves g (m : dict (dict R)) q d :
  (exists s, @dget2 R (map (fun qr => (fst qr, @by_pos NumR (g (snd qr)) (snd qr))) m) q d = Some s) <-> (exists s, dget2 m q d = Some s).
Proof.
  unfold dget2.
  assert (Hgen : forall o o' : option (dict R), o = option_map (fun r => @by_pos NumR (g r) r) o' ->
    (exists s, match o with Some r => dget r d | None => None end = Some s) <->
    (exists s, match o' with Some r => dget r d | None => None end = Some s)).
  { intros o [r|] ->; cbn; [|tauto]. rewrite (Some_mem r).
    etransitivity; [exact (Some_mem (by_pos (N := NumR) (g r) r) d)|]. now rewrite by_pos_keys. }
  apply Hgen. apply by_pos_map_query.
Qed.

Lemma score_in x q d s : score_of x q d = Some s -> In s (scores_for x q).
Proof.
  unfold score_of, scores_for, results_of, dget2, of_query. intros H.
  assert (Hgen : forall o : option (dict R), match o with Some r => dget r d | None => None end = Some s ->
    In s (dvals match o with Some r => r | None => [] end)).
  { intros [r|] Hr; [|discriminate]. apply dget_Some_in in Hr. now apply (in_map snd) in Hr. }
  exact (Hgen _ H).
Qed.
Lemma score_has_query x q d s : score_of x q d = Some s -> has_query x q.
Proof.
  unfold score_of, dget2, has_query. intros H.
  assert (Hgen : forall o : option (dict R), match o with Some r => dget r d | None => None end = Some s -> o <> None).
  { intros [r|] Hr; discriminate. }
  destruct (in_dec string_dec q (dkeys (r_map x))) as [|Hn]; auto.
  apply dget_None in Hn. now destruct (Hgen _ H).
Qed.
Lemma sort_score E x q d : env_ok E -> a_run x -> score_of (Run_sort E x) q d = score_of x q d.
Proof. intros HE H. exact (canon_get2 E HE r_negf (r_map x) q d H). Qed.

Lemma sort_has_query E x q : a_run x -> (has_query (Run_sort E x) q <-> has_query x q).
Proof.
  intros H. change (In q (dkeys (canon E r_negf (r_map x))) <-> In q (dkeys (r_map x))).
  rewrite canon_keys by apply H. apply str_sort_in.
Qed.
Lemma sort_a_run E x : env_ok E -> a_run x -> a_run (Run_sort E x).
Proof. intros HE H. exact (canon_ok E HE r_negf _ H). Qed.

Lemma sort_queries_sorted E x : a_run x -> queries_sorted (Run_sort E x).
Proof. intros H. exact (canon_strict_keys E r_negf (r_map x) (proj1 H)). Qed.
Lemma sort_ranked E x : env_ok E -> a_run x -> ranked (Run_sort E x).
Proof.
  intros HE H q.
  assert (Hs : is_sorted r_negf (canon E r_negf (r_map x))).
  { apply canon_sorted; auto. apply r_nan_free. }
  apply is_sorted_in_order in Hs as [_ Hs]; [|apply NumR_laws].
  specialize (Hs q).
  assert (Hgen : forall o : option (dict R), (forall r : dict R, o = Some r -> StronglySorted (fun a b : string * R => @fleb NumR (snd b) (snd a) = true) r) ->
    StronglySorted (fun a b : string * R => (snd b <= snd a)%R) match o with Some r => r | None => [] end).
  { intros [r|] Hr; [|constructor]. eapply StronglySorted_impl; [|apply (Hr r eq_refl)]. intros a b Hab. now apply Rleb_true. }
  exact (Hgen _ Hs).
Qed.

(** ** C37 *)
Theorem C37_norm_keeps : forall (E : env NumR), env_ok E ->
  forall x norm, a_run x -> In norm single_norms -> (norm = "zmuv" -> no_empty_results x) ->
  exists y, normalize E x norm = Ok y /\ a_run y /\ r_name y = r_name x /\
    (forall q, has_query y q <-> has_query x q) /\
    (forall q d, retrieves y q d <-> retrieves x q d).
Proof.
  intros E HE x norm Hx Hn _.
  assert (Hscore : forall g, a_run (new_run (r_name x) (by_score g (r_map x))) /\
    (forall q, has_query (new_run (r_name x) (by_score g (r_map x))) q <-> has_query x q) /\
    (forall q d, retrieves (new_run (r_name x) (by_score g (r_map x))) q d <-> retrieves x q d)).
  { intros g. split; [now apply by_score_ok|]. split.
    - intros q. unfold has_query. cbn [new_run r_map]. now rewrite by_score_keys.
    - intros q d. split; intros [s Hs].
      + apply by_score_get2_inv in Hs as (s' & Hs' & _). now exists s'.
      + eexists. apply by_score_get2. exact Hs. }
  assert (Hfin : forall g, exists y, Ok (new_run (r_name x) (by_score g (r_map x))) = Ok y /\ a_run y /\ r_name y = r_name x /\
    (forall q, has_query y q <-> has_query x q) /\ (forall q d, retrieves y q d <-> retrieves x q d)).
  { intros g. destruct (Hscore g) as (H1 & H2 & H3). eexists. split; [reflexivity|]. auto. }
  assert (Hinv : exists y, min_max_norm E true x = Ok y /\ a_run y /\ r_name y = r_name x /\
    (forall q, has_query y q <-> has_query x q) /\ (forall q d, retrieves y q d <-> retrieves x q d)).
  { rewrite inv_norm_R by assumption. destruct (Hscore g_inv) as (H1 & H2 & H3). eexists. split; [reflexivity|].
    split; [|split; [reflexivity|]]; [|split].
    - exact (canon_ok E HE r_negf _ H1).
    - intros q. rewrite <- H2. now apply sort_has_query.
    - intros q d. rewrite <- H3. unfold retrieves. now rewrite sort_score. }
  cbn in Hn. decompose [or] Hn; subst; try contradiction; unfold normalize; cbn [norm_switch String.eqb Ascii.eqb Bool.eqb orb bindr].
  - rewrite max_norm_R by assumption. apply Hfin.
  - rewrite minmax_norm_R by assumption. apply Hfin.
  - rewrite minmax_norm_R by assumption. apply Hfin.
  - exact Hinv.
  - exact Hinv.
  - rewrite rank_norm_R by assumption. eexists. split; [reflexivity|].
    split; [|split; [reflexivity|]]; [|split].
    + apply (map_inner_ok (N := NumR) (fun r => @by_pos NumR (g_rank r) r) _ Hx).
      intros r Hr. unfold dict_ok. now rewrite by_pos_keys.
    + intros q. unfold has_query. cbn [new_run r_map].
      match goal with |- In q ?a <-> In q ?b => assert (a = b) as -> by exact (dmap_keys (fun r => @by_pos NumR (g_rank r) r) (r_map x)); tauto end.
    + intros q d. apply by_pos_retrieves.
  - rewrite sum_norm_R by assumption. apply Hfin.
  - rewrite zmuv_norm_R by assumption. apply Hfin.
Qed.

(** The schedule of the parallel loop does not matter: the result is a function of the run
    (and, for the inverted variant, of the order in which argsort leaves ties). *)
Theorem C37_schedule_independent : forall (E E' : env NumR), env_ok E -> env_ok E' ->
  (forall l, e_argsort E l = e_argsort E' l) ->
  forall x norm, a_run x -> In norm single_norms -> normalize E x norm = normalize E' x norm.
Proof.
  intros E E' HE HE' Has x norm Hx Hn.
  cbn in Hn. decompose [or] Hn; subst; try contradiction; unfold normalize; cbn [norm_switch String.eqb Ascii.eqb Bool.eqb orb bindr].
  - now rewrite !max_norm_R.
  - now rewrite !minmax_norm_R.
  - now rewrite !minmax_norm_R.
  - rewrite !inv_norm_R by assumption. unfold Run_sort. do 2 f_equal.
    unfold sort_dict_of_dict_by_value. assert (Hs : forall r, sort_dict_by_value E r_negf r = sort_dict_by_value E' r_negf r).
    { intros r. unfold sort_dict_by_value, typed_list_argsort. now rewrite Has. }
    now rewrite (map_ext _ _ Hs).
  - rewrite !inv_norm_R by assumption. unfold Run_sort. do 2 f_equal.
    unfold sort_dict_of_dict_by_value. assert (Hs : forall r, sort_dict_by_value E r_negf r = sort_dict_by_value E' r_negf r).
    { intros r. unfold sort_dict_by_value, typed_list_argsort. now rewrite Has. }
    now rewrite (map_ext _ _ Hs).
  - now rewrite !rank_norm_R.
  - now rewrite !sum_norm_R.
  - now rewrite !zmuv_norm_R.
Qed.
