(** T_Float11.v: theorem C104: Condorcet in binary64 is exact *)
From Coq Require Import Reals ZArith Lra Lia SpecFloat Psatz List String Permutation.
From Flocq Require Import Core.Core IEEE754.BinarySingleNaN.
From Verif Require Import Base Dict Num NumLaws Env EnvEx M_Common M_Qrels M_Run M_Norm M_Fusion Spec_DS Spec_Hist Spec_Metrics Spec_Eval Spec_Norm Spec_Fusion Spec_Float Spec_Float3 Spec_Float4 Spec_Float6 Spec_Float7
  P_Base P_Dict P_Common P_History P_Metrics P_Norm P_Fusion P_Fusion2 P_Float P_Float2 P_Float3 P_Float10 P_Float11 P_Float12 P_Float13 P_Float14 P_Float15 P_Float16 T_Fusion T_Fusion2 T_Fusion3 T_Fusion4 T_Fusion5 T_Fusion6 P_Metrics7 T_Float2 T_Float5 T_Float6 T_Float7 T_Float8 T_Float10.
Import ListNotations.
Open Scope R_scope.
Open Scope list_scope.

(** ** reading the scores *)
Definition rdr (r : dict sf) : dict R := map (fun ds : string * sf => (fst ds, SF2R radix2 (snd ds))) r.
Definition rd (m : dict (dict sf)) : dict (dict R) := map (fun qr : string * dict sf => (fst qr, rdr (snd qr))) m.
Lemma rdr_keys r : dkeys (rdr r) = dkeys r.
Proof. unfold rdr, dkeys. rewrite map_map. reflexivity. Qed.
Lemma rd_keys m : dkeys (rd m) = dkeys m.
Proof. unfold rd, dkeys. rewrite map_map. reflexivity. Qed.
Lemma rd_get m q : @dget (dict R) (rd m) q = option_map rdr (@dget (dict sf) m q).
Proof. induction m as [|[k r] m IH]; [reflexivity|]. cbn [rd map dget fst snd]. destruct (String.eqb q k); [reflexivity|exact IH]. Qed.
Lemma rdr_get r d : @dget R (rdr r) d = option_map (SF2R radix2) (@dget sf r d).
Proof. induction r as [|[k s] r IH]; [reflexivity|]. cbn [rdr map dget fst snd]. destruct (String.eqb d k); [reflexivity|exact IH]. Qed.
Lemma rd_ofq_keys m q : dkeys (@ofq R (rd m) q) = dkeys (@ofq sf m q).
Proof. unfold ofq. rewrite rd_get. destruct (@dget (dict sf) m q); cbn [option_map]; [apply rdr_keys|reflexivity]. Qed.
Lemma rd_ok m : @dict2_ok sf m -> @dict2_ok R (rd m).
Proof.
  intros [H1 H2]. split; [unfold dict_ok; rewrite rd_keys; exact H1|]. intros q r Hr. rewrite rd_get in Hr. destruct (@dget (dict sf) m q) as [r0|] eqn:Hq; [|discriminate Hr].
  injection Hr as <-. unfold dict_ok. rewrite rdr_keys. now apply (H2 q).
Qed.

Lemma In_eq {A} (x : A) l l' : l = l' -> (In x l <-> In x l').
Proof. intros ->. tauto. Qed.
Lemma scored_rd c l : rdr (map (fun id : nat * string => (snd id, sf_of_Z (Z.of_nat c - Z.of_nat (fst id))%Z)) l) = map (fun id : nat * string => (snd id, SF2R radix2 (sf_of_Z (Z.of_nat c - Z.of_nat (fst id))))) l.
Proof. unfold rdr. rewrite map_map. reflexivity. Qed.
Lemma keyed_get {V} (g : string -> dict V) ks q : @dget (dict V) (map (fun q => (q, g q)) ks) q = if in_dec string_dec q ks then Some (g q) else None.
Proof.
  induction ks as [|k ks IH]; [reflexivity|]. cbn [map dget]. destruct (String.eqb_spec q k) as [ -> |Hn].
  - destruct (in_dec string_dec k (k :: ks)) as [_|H]; [reflexivity|exfalso; apply H; now left].
  - rewrite IH. destruct (in_dec string_dec q ks) as [H|H], (in_dec string_dec q (k :: ks)) as [H'|H']; try reflexivity; exfalso; [apply H'; now right|destruct H'; [now apply Hn|contradiction]].
Qed.
Lemma keyed_in {V} (g : string -> dict V) ks q d s : @dget2 V (map (fun q => (q, g q)) ks) q d = Some s -> In (d, s) (g q).
Proof. unfold dget2. rewrite keyed_get. destruct (in_dec string_dec q ks); [|discriminate]. apply P_Dict.dget_Some_in. Qed.
Section N.
Variables (l1 l2 : sf -> sf) (pw : sf -> sf -> sf).
Notation N64 := (NumSF_with l1 l2 pw).
Variable E : @env N64.
Variable E' : env NumR.
Hypothesis HE : env_ok E.
Hypothesis HE' : env_ok E'.
Hypothesis HO : e_setorder E = e_setorder E'.
Variable pysort : (nat -> nat -> bool) -> list nat -> list nat.
Hypothesis Hsort : sorter_ok pysort.
Variable xs : list (Run N64).
Hypothesis Hxs : fusable64 xs.
Hypothesis Hsz : forall q cs, listing64 xs q cs -> (Z.of_nat (length cs) <= 2 ^ 53)%Z.
Notation xs' := (map read64 xs).

Lemma read_map (x : Run N64) : r_map (read64 x) = rd (r_map x).
Proof. reflexivity. Qed.
Lemma cands_read q : @cands_of N64 E (@maps N64 xs) q = @cands_of NumR E' (@maps NumR xs') q.
Proof.
  unfold cands_of. rewrite HO. f_equal. f_equal. unfold maps. rewrite !map_map. apply map_ext. intros x. symmetry. exact (rd_ofq_keys (r_map x) q).
Qed.
Lemma res_read q : map (fun x : Run NumR => dkeys (@ofq R (r_map x) q)) xs' = map (fun x : Run N64 => dkeys (@ofq sf (r_map x) q)) xs.
Proof. rewrite map_map. apply map_ext. intros x. exact (rd_ofq_keys (r_map x) q). Qed.
Lemma read_has (x : Run N64) q : has_query (read64 x) q <-> query_of64 x q.
Proof. exact (In_eq q _ _ (rd_keys (r_map x))). Qed.
Lemma read_retrieves (x : Run N64) q d : retrieves (read64 x) q d <-> holds64 x q d.
Proof. rewrite retrieves_key. rewrite (holds_key l1 l2 pw). exact (In_eq d _ _ (rd_ofq_keys (r_map x) q)). Qed.
Lemma read_fusable : fusable xs'.
Proof.
  pose proof Hxs as (Hne & Hr & _ & Hq). split; [now destruct xs|]. split.
  - apply Forall_forall. intros y Hy. apply in_map_iff in Hy as (x & <- & Hx). rewrite Forall_forall in Hr. exact (rd_ok (r_map x) (proj1 (Hr x Hx))).
  - intros y y' q Hy Hy'. apply in_map_iff in Hy as (x & <- & Hx). apply in_map_iff in Hy' as (x' & <- & Hx'). rewrite !read_has. now apply Hq.
Qed.
(** the two calls side by side *)
Definition scored {V} (f : Z -> V) (c : list string) (order : list nat) : dict V :=
  map (fun id => (snd id, f (Z.of_nat (length c) - Z.of_nat (fst id))%Z)) (enumerate (map (fun i => nth i c "") order)).
Lemma with_read f f' (order : string -> list nat) name :
  (forall q, Permutation (order q) (seq 0 (length (@cands_of N64 E (@maps N64 xs) q)))) ->
  (forall q, f (map (fun x : Run N64 => dkeys (@ofq sf (r_map x) q)) xs) (@cands_of N64 E (@maps N64 xs) q) = Ok (scored sf_of_Z (@cands_of N64 E (@maps N64 xs) q) (order q))) ->
  (forall q, f' (map (fun x : Run N64 => dkeys (@ofq sf (r_map x) q)) xs) (@cands_of N64 E (@maps N64 xs) q) = Ok (scored IZR (@cands_of N64 E (@maps N64 xs) q) (order q))) ->
  same_as_exact (@condorcet_with N64 E f xs name) (@condorcet_with NumR E' f' xs' name).
Proof.
  intros Hord Hf Hf'. assert (Hpos : forall q id, In id (enumerate (map (fun i => nth i (@cands_of N64 E (@maps N64 xs) q) "") (order q))) -> small (Z.of_nat (length (@cands_of N64 E (@maps N64 xs) q)) - Z.of_nat (fst id))).
  { intros q [i d] Hid. pose proof (Hsz q _ (cands_listing l1 l2 pw E HE xs q)) as Hc. apply (in_map fst) in Hid. unfold enumerate in Hid. rewrite enum_from_fst in Hid. apply in_seq in Hid. rewrite map_length, (Permutation_length (Hord q)), seq_length in Hid.
    unfold small. cbn [fst] in *. lia. }
  assert (Hval : forall z, small z -> SF2R radix2 (sf_of_Z z) = IZR z) by (intros z Hz; apply (fin_ofZ z Hz)).
  pose proof Hxs as (Hne & Hr & _ & Hq). destruct xs as [|x0 xs0] eqn:Hx; [easy|]. rewrite <- Hx in *.
  assert (Hin0 : In x0 xs) by (rewrite Hx; now left). rewrite Forall_forall in Hr.
  pose proof (@condorcet_with_ok N64 E f (fun q => scored sf_of_Z (@cands_of N64 E (@maps N64 xs) q) (order q)) xs name x0 xs0 Hx (proj1 (proj1 (Hr x0 Hin0)))
    (fun q x H1 H2 => Hq x0 x q Hin0 H2 H1) (fun q _ => Hf q)) as H.
  assert (Hx' : xs' = read64 x0 :: map read64 xs0) by (rewrite Hx; reflexivity).
  assert (Hok' : @dict_ok (dict R) (r_map (read64 x0))) by (unfold dict_ok; rewrite read_map; exact (eq_ind_r (fun l => NoDup l) (proj1 (proj1 (Hr x0 Hin0))) (rd_keys (r_map x0)))).
  pose proof (@condorcet_with_ok NumR E' f' (fun q => scored IZR (@cands_of N64 E (@maps N64 xs) q) (order q)) xs' name (read64 x0) (map read64 xs0) Hx' Hok') as H'.
  match type of H' with ?P -> _ => assert (HP : P) end.
  { intros q y H1 H2. apply in_map_iff in H2 as (x & <- & H2). apply (read_has x). apply (Hq x0 x q Hin0 H2). now apply (read_has x0). }
  specialize (H' HP). clear HP. match type of H' with ?P -> _ => assert (HP : P) end.
  { intros q _. rewrite res_read, <- cands_read. apply Hf'. }
  specialize (H' HP). clear HP.
  eexists; eexists. split; [exact H|]. split; [exact H'|]. split; [|split; [reflexivity|split; [reflexivity|]]].
  - transitivity (rd (map (fun q => (q, scored sf_of_Z (@cands_of N64 E (@maps N64 xs) q) (order q))) (dkeys (r_map x0)))); [reflexivity|].
    transitivity (map (fun q => (q, scored IZR (@cands_of N64 E (@maps N64 xs) q) (order q))) (dkeys (r_map x0))).
    + unfold rd. rewrite map_map. apply map_ext. intros q. cbn [fst snd]. f_equal. unfold scored. rewrite scored_rd. apply map_ext_in. intros id Hid. f_equal.
      apply Hval. now apply Hpos in Hid.
    + apply (f_equal (map (fun q => (q, scored IZR (@cands_of N64 E (@maps N64 xs) q) (order q))))). symmetry. exact (rd_keys (r_map x0)).
  - intros q d s Hs. apply (keyed_in (fun q => scored sf_of_Z (@cands_of N64 E (@maps N64 xs) q) (order q))) in Hs. unfold scored in Hs. apply in_map_iff in Hs as (id & He & Hid). injection He as _ <-.
    apply Hpos in Hid. rewrite (Hval _ Hid). now apply fin_ofZ.
Qed.
Lemma condorcet_read name : same_as_exact (@condorcet N64 E pysort xs name) (@condorcet NumR E' pysort xs' name).
Proof.
  unfold condorcet. apply (with_read _ _ (fun q => pysort (condorcet_lt (run_indices (map (fun x : Run N64 => dkeys (@ofq sf (r_map x) q)) xs) (@cands_of N64 E (@maps N64 xs) q))) (seq 0 (length (@cands_of N64 E (@maps N64 xs) q))))).
  - intros q. apply Hsort.
  - intros q. apply (@score_by_order_ok N64); [now apply (@cands_of_nodup N64 E HE)|apply Hsort].
  - intros q. apply (@score_by_order_ok NumR); [now apply (@cands_of_nodup N64 E HE)|apply Hsort].
Qed.
Lemma votes_read x y : forall (ws : list Z) idx a b, (Z.abs a + Z.abs b + zsum ws <= 2 ^ 53)%Z -> exists a' b', (Z.abs a' + Z.abs b' <= 2 ^ 53)%Z /\
  (let v := fold_left (fun (v : sf * sf) (wr : sf * list Z) => if (nth x (snd wr) 0 <? nth y (snd wr) 0)%Z then (sf_add (fst v) (fst wr), snd v) else (fst v, sf_add (snd v) (fst wr))) (combine (map sf_of_Z ws) idx) (sf_of_Z a, sf_of_Z b) in
   is64 (fst v) (IZR a') /\ is64 (snd v) (IZR b')) /\
  fold_left (fun (v : R * R) (wr : R * list Z) => if (nth x (snd wr) 0 <? nth y (snd wr) 0)%Z then (fst v + fst wr, snd v) else (fst v, snd v + fst wr)) (combine (map IZR ws) idx) (IZR a, IZR b) = (IZR a', IZR b').
Proof.
  assert (H0 : forall (ws : list Z) idx s t a b, is64 s (IZR a) -> is64 t (IZR b) -> (Z.abs a + Z.abs b + zsum ws <= 2 ^ 53)%Z -> exists a' b', (Z.abs a' + Z.abs b' <= 2 ^ 53)%Z /\
    (let v := fold_left (fun (v : sf * sf) (wr : sf * list Z) => if (nth x (snd wr) 0 <? nth y (snd wr) 0)%Z then (sf_add (fst v) (fst wr), snd v) else (fst v, sf_add (snd v) (fst wr))) (combine (map sf_of_Z ws) idx) (s, t) in
     is64 (fst v) (IZR a') /\ is64 (snd v) (IZR b')) /\
    fold_left (fun (v : R * R) (wr : R * list Z) => if (nth x (snd wr) 0 <? nth y (snd wr) 0)%Z then (fst v + fst wr, snd v) else (fst v, snd v + fst wr)) (combine (map IZR ws) idx) (IZR a, IZR b) = (IZR a', IZR b')).
  { induction ws as [|w ws IH]; intros [|i idx] s t a b Hs Ht Hz; cbn [map combine fold_left] in *; try (exists a, b; pose proof (zsum_ge0 (w :: ws)); cbn [zsum] in *; split; [lia|]; split; [split; assumption|reflexivity]).
    - exists a, b. cbn [zsum] in Hz. split; [lia|]. split; [split; assumption|reflexivity].
    - exists a, b. cbn [zsum] in Hz. split; [lia|]. split; [split; assumption|reflexivity].
    - cbn [zsum] in Hz. pose proof (zsum_ge0 ws). assert (Hw : is64 (sf_of_Z w) (IZR w)) by (apply fin_ofZ; unfold small; lia).
      assert (Hadd : forall u c, is64 u (IZR c) -> small (c + w) -> is64 (sf_add u (sf_of_Z w)) (IZR (c + w))).
      { intros u c Hu Hc. rewrite <- (rnd_Z _ Hc), plus_IZR. apply fin_add; auto. rewrite <- plus_IZR, (rnd_Z _ Hc). apply bpow_1024_big. now apply small_abs. }
      cbn [fst snd]. destruct (nth x i 0 <? nth y i 0)%Z; cbn [fst snd]; rewrite <- plus_IZR; apply IH; auto; try (apply Hadd; auto; unfold small; lia); lia. }
  intros ws idx a b Hz. pose proof (zsum_ge0 ws). apply H0; auto; apply fin_ofZ; unfold small; lia.
Qed.
Lemma wlt_read ws idx x y : (zsum ws <= 2 ^ 53)%Z -> @wcondorcet_lt N64 (map sf_of_Z ws) idx x y = @wcondorcet_lt NumR (map IZR ws) idx x y.
Proof.
  intros Hz. destruct (votes_read x y ws idx 0 0 ltac:(lia)) as (a & b & Hab & [Ha Hb] & Hr). unfold wcondorcet_lt.
  transitivity (let v := fold_left (fun (v : sf * sf) (wr : sf * list Z) => if (nth x (snd wr) 0 <? nth y (snd wr) 0)%Z then (sf_add (fst v) (fst wr), snd v) else (fst v, sf_add (snd v) (fst wr))) (combine (map sf_of_Z ws) idx) (sf_of_Z 0, sf_of_Z 0) in sf_leb (snd v) (fst v)).
  { cbv zeta. match goal with |- (let '(_, _) := ?u in _) = _ => change (let '(p, q) := u in sf_leb q p) with (let '(p, q) := u in @fleb N64 q p) end. exact (match fold_left (fun (v : sf * sf) (wr : sf * list Z) => if (nth x (snd wr) 0 <? nth y (snd wr) 0)%Z then (sf_add (fst v) (fst wr), snd v) else (fst v, sf_add (snd v) (fst wr))) (combine (map sf_of_Z ws) idx) (sf_of_Z 0, sf_of_Z 0) as u return (let '(p, q) := u in sf_leb q p) = sf_leb (snd u) (fst u) with (p, q) => eq_refl end). }
  cbv zeta. rewrite (leb64 _ _ _ _ Hb Ha).
  transitivity (Rleb (IZR b) (IZR a)).
  - unfold Rleb. destruct (Rle_dec (IZR b) (IZR a)); [now apply Rle_bool_true|apply Rle_bool_false; lra].
  - exact (f_equal (fun pq : R * R => let '(p, q) := pq in Rleb q p) (eq_sym Hr)).
Qed.
Lemma wcondorcet_read ws name : (length xs <= length ws)%nat -> (zsum ws <= 2 ^ 53)%Z ->
  same_as_exact (@weighted_condorcet N64 E pysort xs (map sf_of_Z ws) name) (@weighted_condorcet NumR E' pysort xs' (map IZR ws) name).
Proof.
  intros Hl Hz. unfold weighted_condorcet. apply (with_read _ _ (fun q => pysort (@wcondorcet_lt NumR (map IZR ws) (run_indices (map (fun x : Run N64 => dkeys (@ofq sf (r_map x) q)) xs) (@cands_of N64 E (@maps N64 xs) q))) (seq 0 (length (@cands_of N64 E (@maps N64 xs) q))))).
  - intros q. apply Hsort.
  - intros q. unfold _wcondorcet. rewrite !map_length. assert (Hb : (length ws <? length xs)%nat = false) by (apply Nat.ltb_ge; exact Hl). rewrite Hb, andb_false_r.
    assert (He : @wcondorcet_lt N64 (map sf_of_Z ws) (run_indices (map (fun x : Run N64 => dkeys (@ofq sf (r_map x) q)) xs) (@cands_of N64 E (@maps N64 xs) q)) = @wcondorcet_lt NumR (map IZR ws) (run_indices (map (fun x : Run N64 => dkeys (@ofq sf (r_map x) q)) xs) (@cands_of N64 E (@maps N64 xs) q))).
    { apply FunctionalExtensionality.functional_extensionality. intros i. apply FunctionalExtensionality.functional_extensionality. intros j. now apply wlt_read. }
    rewrite He. apply (@score_by_order_ok N64); [now apply (@cands_of_nodup N64 E HE)|apply Hsort].
  - intros q. unfold _wcondorcet. rewrite !map_length. assert (Hb : (length ws <? length xs)%nat = false) by (apply Nat.ltb_ge; exact Hl). rewrite Hb, andb_false_r.
    apply (@score_by_order_ok NumR); [now apply (@cands_of_nodup N64 E HE)|apply Hsort].
Qed.
End N.

Lemma like_map xs y y' b : r_map y = r_map y' -> condorcet_like xs y' b -> condorcet_like xs y b.
Proof. destruct y as [m ? ? ? ? ?], y' as [m' ? ? ? ? ?]. cbn [r_map]. intros <- H. exact H. Qed.
(** the real environment with the same hash, schedule and set order *)
Definition env_of {l1 l2 pw} (E : @env (NumSF_with l1 l2 pw)) : env NumR := Env NumR (e_hash E) (e_argsort (@env_ex NumR)) (e_sched E) (e_setorder E).
Lemma env_of_ok {l1 l2 pw} (E : @env (NumSF_with l1 l2 pw)) : env_ok E -> env_ok (env_of E).
Proof.
  intros H. assert (HX : env_ok (@env_ex NumR)) by apply env_ex_ok, NumR_laws. split; cbn [env_of e_argsort e_sched e_setorder].
  - exact (argsort_perm _ HX).
  - exact (argsort_sorted _ HX).
  - exact (sched_perm _ H).
  - exact (setorder_nodup _ H).
  - exact (setorder_in _ H).
Qed.

(** Condorcet in binary64 is Condorcet over the reals *)
Theorem C104_condorcet : forall l1 l2 pw (E : @env (NumSF_with l1 l2 pw)) (E' : env NumR) pysort, env_ok E -> env_ok E' -> e_setorder E = e_setorder E' -> sorter_ok pysort ->
  forall (xs : list (Run (NumSF_with l1 l2 pw))) name, fusable64 xs -> few_candidates xs ->
  same_as_exact (condorcet E pysort xs name) (condorcet E' pysort (map read64 xs) name).
Proof. intros l1 l2 pw E E' pysort HE _ HO Hsort xs name Hxs Hsz. now apply condorcet_read. Qed.
Print Assumptions C104_condorcet.
(** so is the weighted form, for integer weights of absolute sum at most 2^53 *)
Theorem C104_weighted : forall l1 l2 pw (E : @env (NumSF_with l1 l2 pw)) (E' : env NumR) pysort, env_ok E -> env_ok E' -> e_setorder E = e_setorder E' -> sorter_ok pysort ->
  forall (xs : list (Run (NumSF_with l1 l2 pw))) ws name, fusable64 xs -> few_candidates xs ->
  (length xs <= length ws)%nat -> (fold_right Z.add 0 (map Z.abs ws) <= 2 ^ 53)%Z ->
  same_as_exact (weighted_condorcet E pysort xs (map sf_of_Z ws) name) (weighted_condorcet E' pysort (map read64 xs) (map IZR ws) name).
Proof.
  intros l1 l2 pw E E' pysort HE _ HO Hsort xs ws name Hxs Hsz Hl Hz. apply wcondorcet_read; auto.
  replace (zsum ws) with (fold_right Z.add 0 (map Z.abs ws))%Z; [exact Hz|]. clear. induction ws as [|w ws IH]; [reflexivity|]. cbn [map fold_right zsum]. now rewrite IH.
Qed.
Print Assumptions C104_weighted.
(** hence the majority properties of C47 hold of the binary64 result *)
Theorem C104_majority : forall l1 l2 pw (E : @env (NumSF_with l1 l2 pw)) pysort, env_ok E -> sorter_ok pysort ->
  forall (xs : list (Run (NumSF_with l1 l2 pw))) name, fusable64 xs -> few_candidates xs -> short_results (map read64 xs) ->
  (exists y, condorcet E pysort xs name = Ok y /\ condorcet_like (map read64 xs) (read64 y) (majority (map read64 xs))) /\
  (forall ws, length ws = length xs -> Forall (Z.le 0) ws -> (fold_right Z.add 0 ws <= 2 ^ 53)%Z ->
    exists y, weighted_condorcet E pysort xs (map sf_of_Z ws) name = Ok y /\ condorcet_like (map read64 xs) (read64 y) (weighted_majority (map IZR ws) (map read64 xs))).
Proof.
  intros l1 l2 pw E pysort HE Hsort xs name Hxs Hsz Hsh. pose proof (env_of_ok E HE) as HE'. pose proof (read_fusable l1 l2 pw xs Hxs Hsz) as Hf. split.
  - destruct (C104_condorcet l1 l2 pw E (env_of E) pysort HE HE' eq_refl Hsort xs name Hxs Hsz) as (y & y' & Hy & Hy' & Hm & _). exists y. split; [exact Hy|].
    destruct (C47_condorcet (env_of E) pysort HE' Hsort (map read64 xs) name Hf Hsh) as (z & Hz & _ & Hl). assert (He : Ok z = Ok y') by exact (eq_trans (eq_sym Hz) Hy'). injection He as ->.
    exact (like_map _ _ _ _ Hm Hl).
  - intros ws Hl Hp Hs. assert (Ha : map Z.abs ws = ws). { clear - Hp. induction Hp as [|w ws Hw Hp IH]; [reflexivity|]. cbn [map]. rewrite IH, Z.abs_eq by exact Hw. reflexivity. }
    destruct (C104_weighted l1 l2 pw E (env_of E) pysort HE HE' eq_refl Hsort xs ws name Hxs Hsz) as (y & y' & Hy & Hy' & Hm & _); [rewrite Hl; apply le_n|now rewrite Ha|]. exists y. split; [exact Hy|].
    destruct (C47_weighted_condorcet (env_of E) pysort HE' Hsort (map read64 xs) (map IZR ws) name Hf Hsh) as (z & Hz & _ & Hlk).
    + rewrite !map_length. exact Hl.
    + intros w Hw. apply in_map_iff in Hw as (k & <- & Hk). rewrite Forall_forall in Hp. apply (IZR_le 0). now apply Hp.
    + assert (He : Ok z = Ok y') by exact (eq_trans (eq_sym Hz) Hy'). injection He as ->. exact (like_map _ _ _ _ Hm Hlk).
Qed.
Print Assumptions C104_majority.

(** ** weights that do not add up exactly *)
Open Scope string_scope.
Open Scope list_scope.
Definition cw_xs : list (Run NumSF) := map int_run [[("b", 2); ("a", 1)]; [("a", 2); ("b", 1)]; [("a", 2); ("b", 1)]]%Z.
Definition cw_ws : list Z := [2 ^ 53; 2 ^ 53; 1]%Z.
Definition cw_y : Run NumSF := match @weighted_condorcet NumSF env_sorted ins_sort cw_xs (map sf_of_Z cw_ws) "c" with Ok y => y | Err _ => int_run [] end.
Lemma env_sorted_ok64 : env_ok (@env_sorted N0).
Proof.
  pose proof (env_ex_ok NumSF_ok : env_ok (@env_ex N0)) as HX. split; cbn [env_sorted e_argsort e_sched e_setorder].
  - exact (argsort_perm _ HX).
  - exact (argsort_sorted _ HX).
  - intros tag n. apply Permutation_refl.
  - exact (setorder_nodup _ env_sorted_ok).
  - exact (setorder_in _ env_sorted_ok).
Qed.
(** the runs preferring [a] weigh 2^53 + 1, the run preferring [b] weighs 2^53: [b] is put directly before [a] *)
Theorem C104_weights_refuted : exists (E : @env N0) pysort (xs : list (Run N0)) ws y, env_ok E /\ sorter_ok pysort /\ fusable64 xs /\ few_candidates xs /\
  weighted_condorcet E pysort xs (map sf_of_Z ws) "c" = Ok y /\ dkeys (of_query (r_map y) "q") = ["b"; "a"] /\
  weighted_majority (map IZR ws) (map read64 xs) "q" "a" "b".
Proof.
  exists env_sorted, ins_sort, cw_xs, cw_ws, cw_y. split; [exact env_sorted_ok64|]. split; [exact ins_sort_ok|].
  split; [apply int_fusable; [discriminate|cbn; lia|]; repeat constructor; unfold small; cbn; lia|].
  split.
  - intros q cs [Hn Hcs]. assert (Hi : incl cs ["a"; "b"]).
    { intros d Hd. apply Hcs in Hd as (x & Hx & s & Hs). destruct (string_dec q "q") as [ -> |Hq].
      - assert (Hk : forall l, @dget2 sf (r_map (int_run l)) "q" d = Some s -> In d (map fst l)).
        { intros l H. pose proof (eq_trans (eq_sym (int_run_get l d)) H) as H'. destruct (@dget Z l d) as [z|] eqn:Hz; [|discriminate H']. apply dget_In_Z in Hz. apply in_map_iff. exists (d, z). now split. }
        destruct Hx as [ <- |[ <- |[ <- |[]]]]; apply Hk in Hs; cbn in Hs |- *; tauto.
      - exfalso. assert (Hk : forall l, @dget2 sf (r_map (int_run l)) q d = Some s -> False).
        { intros l H. pose proof (eq_trans (eq_sym (int_run_other l q d Hq)) H) as H'. discriminate H'. }
        destruct Hx as [ <- |[ <- |[ <- |[]]]]; exact (Hk _ Hs). }
    apply (NoDup_incl_length Hn) in Hi. cbn in Hi. lia.
  - split; [vmr|]. split; [vmr|]. unfold weighted_majority, weighted_votes.
    unfold cw_xs, cw_ws. cbn [map combine fst snd].
    change (prefers (read64 (int_run [("a", 2); ("b", 1)]%Z : Run N0)) "q" "a" "b") with true. change (prefers (read64 (int_run [("b", 2); ("a", 1)]%Z : Run N0)) "q" "a" "b") with false.
    change (prefers (read64 (int_run [("a", 2); ("b", 1)]%Z : Run N0)) "q" "b" "a") with false. change (prefers (read64 (int_run [("b", 2); ("a", 1)]%Z : Run N0)) "q" "b" "a") with true.
    cbn [Rsum fold_right]. assert (H53 : 0 < IZR (2 ^ 53)) by (apply (IZR_lt 0); reflexivity). lra.
Qed.
Print Assumptions C104_weights_refuted.
Example ex_C104 : exists (xs : list (Run N0)) ws, fusable64 xs /\ few_candidates xs /\ short_results (map read64 xs) /\ length ws = length xs /\ Forall (Z.le 0) ws /\ (fold_right Z.add 0 ws <= 2 ^ 53)%Z /\ e_setorder (@env_sorted N0) = e_setorder (@env_sorted NumR).
Proof.
  exists borda_xs, [3; 1]%Z. pose proof ex_C103 as (H1 & _ & H3 & _). split; [exact H1|]. split; [intros q cs Hcs; apply (proj2 H3) in Hcs; lia|]. split; [|split; [reflexivity|split; [repeat constructor; lia|split; [cbn; lia|reflexivity]]]].
  intros x q Hx. unfold results_of, of_query. destruct (string_dec q "q") as [ -> |Hq].
  - destruct Hx as [ <- |[ <- |[]]]; cbn; lia.
  - replace (Z.of_nat _) with 0%Z; [lia|]. destruct Hx as [ <- |[ <- |[]]]; unfold read64, int_run; cbn [r_map map dget fst snd]; destruct (String.eqb_spec q "q"); try contradiction; reflexivity.
Qed.
