(** T_Optimize3.v: what the grids contain (C57, C58), the optimisation report (C59) *)
From Coq Require Import Reals Lra Lia Permutation SpecFloat.
From Verif Require Import Base Dict Num NumLaws Env EnvEx M_Common M_Qrels M_Run M_Metrics M_Strings M_Text M_Evaluate M_Norm M_Fusion M_Train M_Optimize
  Spec_DS Spec_Metrics Spec_Optimize P_Base P_Dict P_Common P_DS P_Metrics P_Optimize T_Optimize T_Optimize2.
Open Scope string_scope.
Open Scope list_scope.
Open Scope nat_scope.

(** ** rounding over the reals *)
Lemma Int_part_IZR z : Int_part (IZR z) = z.
Proof.
  destruct (base_Int_part (IZR z)) as [H1 H2]. apply le_IZR in H1.
  assert (IZR z < IZR (Int_part (IZR z)) + 1)%R by lra. rewrite <- plus_IZR in H. apply lt_IZR in H. lia.
Qed.
Lemma Rtrunc_IZR z : Rtrunc (IZR z) = z.
Proof. unfold Rtrunc. destruct (Rle_dec 0 (IZR z)); [apply Int_part_IZR|]. rewrite <- opp_IZR, Int_part_IZR. lia. Qed.
Lemma frint_IZR z : @frint NumR (IZR z) = IZR z.
Proof.
  unfold frint. numR. rewrite Rtrunc_IZR. replace (IZR z - IZR z)%R with 0%R by lra. rewrite Rabs_R0.
  rewrite (proj2 (Rltb_true 0 (5 / 10 ^ 1))); [reflexivity|]. cbn. lra.
Qed.
Lemma fround_id x d m : (0 <= d)%Z -> (x * IZR (10 ^ d) = IZR m)%R -> @fround NumR x d = x.
Proof.
  intros Hd Hm. unfold fround. numR. rewrite (proj2 (Z.leb_le 0 d) Hd). rewrite Hm, frint_IZR, <- Hm. field.
  intros H. apply eq_IZR in H. assert (0 < 10 ^ d)%Z by (apply Z.pow_pos_nonneg; lia). lia.
Qed.
Lemma fceil_spec x i : (i < @fceil NumR x)%Z <-> (IZR i < x)%R.
Proof.
  unfold fceil. numR. unfold Rtrunc. destruct (Rle_dec 0 x) as [Hx|Hx].
  - destruct (base_Int_part x) as [H1 H2]. destruct (Rltb (IZR (Int_part x)) x) eqn:Hl.
    + apply Rltb_true in Hl. split; intros H.
      * assert (i <= Int_part x)%Z by lia. apply IZR_le in H0. lra.
      * apply lt_IZR. rewrite plus_IZR. lra.
    + apply Rltb_false in Hl. split; intros H; [apply IZR_lt in H; lra|apply lt_IZR; lra].
  - destruct (base_Int_part (- x)) as [H1 H2]. set (t := Int_part (- x)) in *. rewrite opp_IZR.
    destruct (Rltb (- IZR t) x) eqn:Hl; [apply Rltb_true in Hl; lra|]. split; intros H.
    + assert (i <= - t - 1)%Z by lia. apply IZR_le in H0. rewrite minus_IZR, opp_IZR in H0. lra.
    + apply lt_IZR. rewrite opp_IZR. lra.
Qed.
Lemma arange_R a b s : (0 < s)%R -> exists n, @arange NumR a b s = Ok (map (fun i => (a + INR i * s)%R) (seq 0 n)) /\
  forall i, i < n <-> (a + INR i * s < b)%R.
Proof.
  intros Hs. exists (Z.to_nat (@fceil NumR ((b - a) / s)%R)). split.
  - unfold arange. numR. rewrite (proj2 (Reqb_false s 0)) by lra. f_equal. apply map_ext. intros [|[|i]]; cbn [INR]; try lra.
    unfold fnat. cbn [fofZ NumR]. rewrite <- INR_IZR_INZ. cbn [INR]. destruct i; cbn [INR]; lra.
  - intros i. assert (Hi : i < Z.to_nat (@fceil NumR ((b - a) / s)%R) <-> (Z.of_nat i < @fceil NumR ((b - a) / s)%R)%Z) by lia.
    rewrite Hi, fceil_spec, <- INR_IZR_INZ. split; intros H.
    + apply (Rmult_lt_compat_r s) in H; [|exact Hs]. replace ((b - a) / s * s)%R with (b - a)%R in H by (field; lra). lra.
    + apply (Rmult_lt_reg_r s); [exact Hs|]. replace ((b - a) / s * s)%R with (b - a)%R by (field; lra). lra.
Qed.

(** ** the digits of the step *)
Lemma pow10_IZR d : (10 ^ d = IZR (10 ^ Z.of_nat d))%R.
Proof. rewrite pow_IZR. reflexivity. Qed.
Lemma str_rev_go_app a s : str_rev_go a s = (str_rev s ++ a)%string.
Proof.
  unfold str_rev. revert a. induction s as [|c s IH]; intros a; cbn [str_rev_go]; [reflexivity|].
  rewrite IH, (IH (String c EmptyString)). clear. generalize (str_rev_go "" s). intros t.
  induction t as [|x t IH]; cbn; [reflexivity|]. now rewrite IH.
Qed.
Lemma str_app_assoc a b c : ((a ++ b) ++ c = a ++ b ++ c)%string.
Proof. induction a as [|x a IH]; cbn; [reflexivity|]. now rewrite IH. Qed.
Lemma str_rev_app a b : str_rev (a ++ b)%string = (str_rev b ++ str_rev a)%string.
Proof.
  induction a as [|x a IH]; cbn [append].
  - change (str_rev "") with "". induction (str_rev b) as [|y t IH]; cbn; [reflexivity|]. now rewrite <- IH.
  - unfold str_rev. cbn [str_rev_go]. rewrite !(str_rev_go_app (String x "")), IH. apply str_app_assoc.
Qed.
Lemma str_rev_len a : String.length (str_rev a) = String.length a.
Proof.
  assert (H : forall s t, String.length (s ++ t)%string = String.length s + String.length t)
    by (induction s as [|y s IHs]; intros t; cbn; [reflexivity|now rewrite IHs]).
  induction a as [|x a IH]; [reflexivity|]. unfold str_rev. cbn [str_rev_go]. rewrite str_rev_go_app, H, IH. cbn. lia.
Qed.
Lemma in_text_app c a b : in_text c (a ++ b)%string -> in_text c a \/ in_text c b.
Proof.
  revert b. induction a as [|x a IH]; intros b (u & v & H); cbn in H; [right; now exists u, v|].
  destruct u as [|y u]; cbn in H; inversion H; subst.
  - left. exists "", a. reflexivity.
  - destruct (IH b (ex_intro _ u (ex_intro _ v H2))) as [(u' & v' & ->)|Hb]; [left; exists (String y u'), v'; reflexivity|now right].
Qed.
Lemma in_text_rev c a : in_text c (str_rev a) -> in_text c a.
Proof.
  induction a as [|x a IH]; intros H; [exact H|]. unfold str_rev in H. cbn [str_rev_go] in H. rewrite str_rev_go_app in H.
  apply in_text_app in H as [H|(u & v & H)].
  - destruct (IH H) as (u & v & ->). exists (String x u), v. reflexivity.
  - destruct u as [|y [|z u]]; cbn in H; inversion H; subst. exists "", a. reflexivity.
Qed.
Lemma find_char_app c a b i : ~ in_text c a -> find_char c (a ++ String c b)%string i = (i + Z.of_nat (String.length a))%Z.
Proof.
  revert i. induction a as [|x a IH]; intros i H; cbn [append find_char String.length].
  - rewrite Ascii.eqb_refl. lia.
  - destruct (Ascii.eqb_spec x c) as [->|Hx]; [destruct H; exists "", a; reflexivity|].
    rewrite IH; [lia|]. intros (u & v & ->). apply H. exists (String x u), v. reflexivity.
Qed.
Lemma find_char_none c a i : ~ in_text c a -> find_char c a i = (-1)%Z.
Proof.
  revert i. induction a as [|x a IH]; intros i H; cbn [find_char]; [reflexivity|].
  destruct (Ascii.eqb_spec x c) as [->|Hx]; [destruct H; exists "", a; reflexivity|].
  apply IH. intros (u & v & ->). apply H. exists (String x u), v. reflexivity.
Qed.
Lemma step_digits_shown (sh : shower NumR) (step : R) d : digits_after_point (s_float sh step) d -> step_digits sh (@PF NumR step) = Z.of_nat d.
Proof.
  intros (w & f & He & <- & Hf). unfold step_digits.
  transitivity (find_char "." (str_rev (w ++ "." ++ f)%string) 0); [exact (f_equal (fun t => find_char "." (str_rev t) 0) He)|].
  rewrite str_rev_app, str_rev_app, str_app_assoc. change (str_rev "." ++ str_rev w)%string with (String "." (str_rev w)).
  rewrite find_char_app; [rewrite str_rev_len; lia|]. intros H. apply Hf, in_text_rev, H.
Qed.

(** ** C57: the grid of a real parameter.  [d] digits follow the point in the text of [step]; if
    [lo] and [step] are decimals with [d] digits, the values tried are lo, lo + step, ... up to
    (but excluding) hi + step.  The bounds may be given as floats or as ints. *)
Definition is_number (v : @pval NumR) (x : R) : Prop := v = @PF NumR x \/ exists z, v = @PZ NumR z /\ x = IZR z.
Theorem C57_float_grid : forall (sh : shower NumR) lo' hi' (lo hi step : R), is_number lo' lo -> is_number hi' hi ->
  (0 < step)%R -> forall d, digits_after_point (s_float sh step) d ->
  (exists m, lo * 10 ^ d = IZR m)%R -> (exists m, step * 10 ^ d = IZR m)%R ->
  exists n, @float_grid NumR sh lo' hi' (@PF NumR step) = Ok (map (fun i => (lo + INR i * step)%R) (seq 0 n)) /\
    forall i, i < n <-> (lo + INR i * step < hi + step)%R.
Proof.
  intros sh lo' hi' lo hi step Hlo Hhi Hs d0 Hd0 (ml & Hl) (ms & Hm).
  pose proof (step_digits_shown sh step d0 Hd0) as Ed. rewrite pow10_IZR in Hl, Hm. rewrite <- Ed in Hl, Hm.
  set (d := step_digits sh (@PF NumR step)) in *. assert (Hd : (0 <= d)%Z) by lia. destruct (arange_R lo (hi + step)%R step Hs) as (n & Ha & Hn).
  exists n. split; [|exact Hn]. unfold float_grid.
  assert (K : forall v x, is_number v x -> @as_F NumR v = Ok x) by (intros v x [->|(z & -> & ->)]; reflexivity).
  rewrite (K _ _ Hlo), (K _ _ Hhi). cbn [as_F bindr].
  etransitivity; [exact (f_equal (fun r : result (list R) => do a <- r; Ok (map (fun x => @fround NumR x (step_digits sh (@PF NumR step))) a)) Ha)|].
  cbn [bindr]. f_equal. rewrite map_map. apply map_ext. intros i. fold d.
  apply (fround_id _ d (ml + Z.of_nat i * ms)%Z Hd). rewrite plus_IZR, mult_IZR, <- INR_IZR_INZ, <- Hl, <- Hm. lra.
Qed.
(** the grid of an integer parameter: [range(a, b + 1, s)] *)
Theorem C57_int_grid : forall a b s, (0 < s)%Z -> exists l, py_range a (b + 1) s = Ok l /\ NoDup l /\
  forall k, In k l <-> (a <= k <= b /\ exists i, k = a + i * s)%Z.
Proof.
  intros a b s Hs. unfold py_range. destruct (Z.eqb_spec s 0); [lia|]. destruct (Z.ltb_spec 0 s); [|lia].
  eexists. split; [reflexivity|]. split.
  - apply FinFun.Injective_map_NoDup; [intros i j; nia|apply seq_NoDup].
  - intros k. rewrite in_map_iff. split.
    + intros (i & <- & Hi). apply in_seq in Hi. assert (Z.of_nat i < (b + 1 - a + s - 1) / s)%Z by lia.
      assert (Z.of_nat i + 1 <= (b + 1 - a + s - 1) / s)%Z by lia.
      assert (s * ((b + 1 - a + s - 1) / s) <= b + 1 - a + s - 1)%Z by (apply Z.mul_div_le; lia).
      split; [nia|]. exists (Z.of_nat i). reflexivity.
    + intros ((H1 & H2) & i & ->). assert (0 <= i)%Z by nia. exists (Z.to_nat i). split; [rewrite Z2Nat.id by lia; reflexivity|].
      apply in_seq. split; [lia|]. cbn. apply Z2Nat.inj_lt; [lia| |].
      * apply Z.div_pos; nia.
      * assert (i + 1 <= (b + 1 - a + s - 1) / s)%Z by (apply Z.div_le_lower_bound; nia). lia.
Qed.

(** ** C58: the weights tried *)
Lemma in_product {A} (ws : list A) n w : In w (product ws n) <-> length w = n /\ Forall (fun v => In v ws) w.
Proof.
  revert w. induction n as [|n IH]; intros w; cbn [product].
  - split; [intros [<-|[]]; split; [reflexivity|constructor]|]. intros (H & _). destruct w; [left; reflexivity|discriminate].
  - rewrite in_flat_map. split.
    + intros (v & Hv & Hw). apply in_map_iff in Hw as (w' & <- & Hw'). apply IH in Hw' as (Hl & Hf). split; [cbn; lia|constructor; assumption].
    + intros (Hl & Hf). destruct w as [|v w]; [discriminate|]. inversion Hf; subst. exists v. split; [assumption|].
      apply in_map. apply IH. split; [cbn in Hl; lia|assumption].
Qed.
Lemma NoDup_app_i {A} (l1 l2 : list A) : NoDup l1 -> NoDup l2 -> (forall x, In x l1 -> In x l2 -> False) -> NoDup (l1 ++ l2).
Proof.
  induction l1 as [|a l1 IH]; intros H1 H2 H; [exact H2|]. inversion H1; subst. cbn. constructor.
  - rewrite in_app_iff. intros [Hi|Hi]; [contradiction|]. apply (H a); [now left|exact Hi].
  - apply IH; try assumption. intros x Hx. apply H. now right.
Qed.
Lemma product_NoDup {A} (ws : list A) n : NoDup ws -> NoDup (product ws n).
Proof.
  intros Hws. induction n as [|n IH]; cbn [product]; [constructor; [intros []|constructor]|].
  revert Hws. generalize ws at 1 3. intros l Hl. induction l as [|v l IHl]; cbn [flat_map]; [constructor|].
  inversion Hl; subst. apply NoDup_app_i.
  - apply FinFun.Injective_map_NoDup; [intros a b H; inversion H; reflexivity|exact IH].
  - apply IHl; assumption.
  - intros w Hw Hw'. apply in_map_iff in Hw as (w1 & <- & _). apply in_flat_map in Hw' as (v' & Hv' & Hw').
    apply in_map_iff in Hw' as (w2 & He & _). inversion He; subst. contradiction.
Qed.

(** Exact arithmetic: with a positive step whose text has [d] digits after the point, the weight
    vectors tried for [n] runs are exactly (each once) the vectors of [n] non-negative multiples of
    the step with sum 1. *)
Theorem C58_exact : forall (sh : shower NumR) (step : R) (n : nat),
  (0 < step)%R -> forall d, digits_after_point (s_float sh step) d -> (exists m, step * 10 ^ d = IZR m)%R ->
  exists ws, @get_possible_weights NumR sh (@PF NumR step) = Ok ws /\ NoDup (@get_trial_configs NumR ws n) /\
    forall w : list R, In w (@get_trial_configs NumR ws n) <->
      length w = n /\ Forall (fun v => exists k : nat, v = INR k * step)%R w /\ Rsum w = 1%R.
Proof.
  intros sh step n Hs d0 Hd0 (ms & Hm).
  pose proof (step_digits_shown sh step d0 Hd0) as Ed. rewrite pow10_IZR in Hm. rewrite <- Ed in Hm.
  set (d := step_digits sh (@PF NumR step)) in *. assert (Hd : (0 <= d)%Z) by lia. destruct (arange_R 0%R (1 + step)%R step Hs) as (len & Ha & Hn).
  exists (map (fun i => (INR i * step)%R) (seq 0 len)). split.
  { unfold get_possible_weights. cbn [as_F bindr].
    etransitivity; [exact (f_equal (fun r : result (list R) => do a <- r; Ok (map (fun x => @fround NumR x (step_digits sh (@PF NumR step))) a)) Ha)|].
    cbn [bindr]. f_equal. rewrite map_map. apply map_ext. intros i. fold d. rewrite Rplus_0_l.
    apply (fround_id _ d (Z.of_nat i * ms)%Z Hd). rewrite mult_IZR, <- INR_IZR_INZ, <- Hm. lra. }
  assert (Hin : forall v, In v (map (fun i => (INR i * step)%R) (seq 0 len)) <-> exists k : nat, v = (INR k * step)%R /\ (INR k * step < 1 + step)%R).
  { intros v. rewrite in_map_iff. split.
    - intros (i & <- & Hi). exists i. split; [reflexivity|]. apply in_seq in Hi. assert (i < len) by lia. apply Hn in H. lra.
    - intros (k & -> & Hk). exists k. split; [reflexivity|]. apply in_seq. split; [lia|]. cbn. apply Hn. lra. }
  split.
  { unfold get_trial_configs. apply NoDup_filter, product_NoDup. apply FinFun.Injective_map_NoDup; [|apply seq_NoDup].
    intros i j H. apply INR_eq. apply Rmult_eq_reg_r with step; lra. }
  intros w. unfold get_trial_configs. rewrite filter_In.
  assert (Hsum : @feqb NumR (@fsum NumR w) (@fone NumR) = true <-> Rsum w = 1%R).
  { numR. rewrite Reqb_true. split; intros H; [rewrite <- H; symmetry|etransitivity; [|exact H]]; apply fsum_R. }
  rewrite Hsum.
  assert (Hp : In w (product (map (fun i => (INR i * step)%R) (seq 0 len)) n) <-> length w = n /\ Forall (fun v => In v (map (fun i => (INR i * step)%R) (seq 0 len))) w) by apply in_product.
  etransitivity; [apply and_iff_compat_r, Hp|]. clear Hp Hsum. split.
  - intros ((H1 & H2) & H3). split; [exact H1|]. split; [|exact H3]. eapply Forall_impl; [|exact H2].
    intros v Hv. apply Hin in Hv as (k & Hk & _). exists k. exact Hk.
  - intros (H1 & H2 & H3). split; [|exact H3]. split; [exact H1|]. apply Forall_forall. intros v Hv. apply Hin.
    rewrite Forall_forall in H2. destruct (H2 v Hv) as (k & ->). exists k. split; [reflexivity|].
    assert (Hle : forall (l : list R) u, (forall x, In x l -> (0 <= x)%R) -> In u l -> (u <= Rsum l)%R).
    { induction l as [|a l IH]; intros u Hl Hu; [destruct Hu|]. destruct Hu as [ -> | Hu ].
      - assert (0 <= Rsum l)%R by (apply Rsum_nonneg; intros; apply Hl; now right). change (u <= u + Rsum l)%R. lra.
      - assert (u <= Rsum l)%R by (apply IH; [intros; apply Hl; now right|exact Hu]). pose proof (Hl a (or_introl eq_refl)). change (u <= a + Rsum l)%R. lra. }
    assert (INR k * step <= Rsum w)%R; [|lra]. apply Hle; [|exact Hv]. intros x Hx. destruct (H2 x Hx) as (j & ->). pose proof (pos_INR j). nra.
Qed.

(** a shower writing 0.1 as "0.1" (the other texts do not matter here) *)
Definition sh_sf : @shower NumSF := @Shower NumSF (fun x => "0.1") (fun _ => "").
(** Binary64: with the default step the grid of weights is 0.0, 0.1, ..., 1.0 but
    0.6 + 0.3 + 0.1 evaluates to 0.9999999999999999, so (0.6, 0.3, 0.1) is not tried *)
Theorem C58_binary64_refuted : exists ws, @get_possible_weights NumSF sh_sf (@PF NumSF (@fdec NumSF 1 1)) = Ok ws /\
  ws = map (fun k => @fdec NumSF (Z.of_nat k) 1) (seq 0 11) /\
  (forall v, In v [@fdec NumSF 6 1; @fdec NumSF 3 1; @fdec NumSF 1 1] -> In v ws) /\
  ~ In [@fdec NumSF 6 1; @fdec NumSF 3 1; @fdec NumSF 1 1] (@get_trial_configs NumSF ws 3) /\
  length (@get_trial_configs NumSF ws 3) = 62.
Proof.
  exists (map (fun k => @fdec NumSF (Z.of_nat k) 1) (seq 0 11)). split; [vm_compute; reflexivity|]. split; [reflexivity|].
  split; [|split].
  - intros v [<-|[<-|[<-|[]]]]; apply in_map_iff; [exists 6|exists 3|exists 1]; (split; [reflexivity|apply in_seq; lia]).
  - unfold get_trial_configs. rewrite filter_In. intros [_ H]. vm_compute in H. discriminate.
  - vm_compute. reflexivity.
Qed.
(** A step whose text has no point: an int, or a float printed like 1e-05.  The weights are rounded
    to tens, no vector of them sums to 1 and nothing at all is tried. *)
Lemma frint_int (x : R) : exists z, @frint NumR x = IZR z.
Proof. unfold frint. cbn [fofZ NumR]. repeat match goal with |- context [if ?b then _ else _] => destruct b end; eexists; reflexivity. Qed.
Theorem C58_no_point_refuted : forall (sh : shower NumR) v (step : R) n, (0 < step)%R ->
  (exists z, v = @PZ NumR z /\ step = IZR z) \/ (v = @PF NumR step /\ ~ in_text "." (s_float sh step)) ->
  exists ws, @get_possible_weights NumR sh v = Ok ws /\ @get_trial_configs NumR ws n = [].
Proof.
  intros sh v step n Hs Hv.
  assert (Hd : step_digits sh v = (-1)%Z).
  { destruct Hv as [(z & -> & _)|(-> & Hp)]; [reflexivity|]. unfold step_digits. apply find_char_none. intros H. apply Hp, in_text_rev, H. }
  assert (Hf : @as_F NumR v = Ok step) by (destruct Hv as [(z & -> & ->)|(-> & _)]; reflexivity).
  destruct (arange_R 0%R (1 + step)%R step Hs) as (len & Ha & _).
  set (l := map (fun i => (0 + INR i * step)%R) (seq 0 len)) in *. clearbody l.
  exists (map (fun x => @fround NumR x (-1)) l). split.
  - unfold get_possible_weights. rewrite Hf. cbn [bindr].
    etransitivity; [exact (f_equal (fun r : result (list R) => do a <- r; Ok (map (fun x => @fround NumR x (step_digits sh v)) a)) Ha)|].
    cbn [bindr]. rewrite Hd. reflexivity.
  - assert (Hz : forall w : list R, Forall (fun v => In v (map (fun x => @fround NumR x (-1)) l)) w -> exists z, Rsum w = IZR (10 * z)).
    { intros w Hw. induction Hw as [|u w Hu Hw (z & IH)]; [exists 0%Z; reflexivity|].
      apply in_map_iff in Hu as (x & <- & _). destruct (frint_int (x / 10)%R) as (k & Hk). exists (k + z)%Z.
      assert (Hx : @fround NumR x (-1) = (IZR k * 10)%R) by (rewrite <- Hk; reflexivity).
      change (@fround NumR x (-1) + Rsum w = IZR (10 * (k + z)))%R. rewrite Hx, IH, !mult_IZR, plus_IZR. lra. }
    unfold get_trial_configs.
    assert (Hall : forall c : list (list R), (forall w, In w c -> exists z, Rsum w = IZR (10 * z)) -> filter (fun seq => @feqb NumR (@fsum NumR seq) (@fone NumR)) c = []).
    { induction c as [|w c IH]; intros Hl; [reflexivity|]. cbn [filter].
      assert (Hw : @feqb NumR (@fsum NumR w) (@fone NumR) = false).
      { numR. apply Reqb_false. assert (Hf' : @fsum NumR w = Rsum w) by apply fsum_R. intros Hc. destruct (Hl w (or_introl eq_refl)) as (z & Hz').
        assert (He : (IZR (10 * z) = IZR 1)%R) by (rewrite <- Hz', <- Hf'; exact Hc). apply eq_IZR in He. lia. }
      rewrite Hw. apply IH. intros w' Hw'. apply Hl. now right. }
    apply Hall. intros w Hw. apply Hz. apply (proj1 (in_product (A := R) _ n w)) in Hw as (_ & Hw). exact Hw.
Qed.
