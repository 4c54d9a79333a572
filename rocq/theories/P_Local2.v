(** P_Local2.v: normalisation, condorcet and the whole of fuse, read query by query *)
From Verif Require Import Base Dict Num NumLaws Env M_Common M_Qrels M_Run M_Norm M_Fusion Spec_Local
  P_Base P_Dict P_Common P_Norm P_Fusion P_Fusion3 T_Fusion4 P_Local.
Open Scope string_scope.
Open Scope list_scope.
Open Scope nat_scope.

Lemma F2_nth {A B} (R : A -> B -> Prop) l l' i a : Forall2 R l l' -> nth_error l i = Some a -> exists b, nth_error l' i = Some b /\ R a b.
Proof. intros H. revert i. induction H as [|x y l l' Hxy H IH]; intros [|i] Hi; cbn in *; try discriminate; [injection Hi as <-; eauto|auto]. Qed.
Lemma nth_error_seq0 n i : i < n -> nth_error (seq 0 n) i = Some i.
Proof. intros H. rewrite (nth_error_nth' _ 0) by (now rewrite seq_length). f_equal. now rewrite seq_nth. Qed.

Section Two.
Context {N : Num} (E E' : env N) (HE : env_ok E) (HE' : env_ok E') (HO : same_orders E E').

Lemma norm_same (x x' : Run N) norm y y' q : dict2_ok (r_map x) -> dict2_ok (r_map x') -> at_q q (r_map x) (r_map x') ->
  normalize E x norm = Ok y -> normalize E' x' norm = Ok y' -> at_q q (r_map y) (r_map y').
Proof.
  intros Hx Hx' Hq H H'. unfold normalize in H, H'. apply bindr_ok in H as (f & Hf & H). apply bindr_ok in H' as (f' & Hf' & H').
  destruct f as [f|]; [|discriminate]. destruct f' as [f'|]; [|discriminate].
  assert (Hgen : forall tag (g : dict F -> result (dict F)), keeps g ->
    bindr (M_Norm.per_query E tag (fun _ => g) (r_map x)) (fun m => Ok (new_run (r_name x) m)) = Ok y ->
    bindr (M_Norm.per_query E' tag (fun _ => g) (r_map x')) (fun m => Ok (new_run (r_name x') m)) = Ok y' -> at_q q (r_map y) (r_map y')).
  { intros tag g Hk Hb Hb'. apply bindr_ok in Hb as (m & Hm & Hb). apply bindr_ok in Hb' as (m' & Hm' & Hb'). inversion Hb; inversion Hb'; subst. cbn [new_run r_map].
    unfold at_q in *. rewrite (per_query_ofq E HE tag g (r_map x) m q); [|apply Hx|now apply keeps_nil|exact Hm].
    rewrite (per_query_ofq E' HE' tag g (r_map x') m' q); [|apply Hx'|now apply keeps_nil|exact Hm']. now rewrite Hq. }
  unfold norm_switch in Hf, Hf'.
  destruct (String.eqb norm "borda"); [discriminate|].
  destruct (String.eqb norm "max").
  { inversion Hf; subst f. inversion Hf'; subst f'. eapply Hgen; [|exact H|exact H']. exact (map_results_keeps _). }
  destruct (String.eqb norm "min_max" || String.eqb norm "min-max").
  { inversion Hf; subst f. inversion Hf'; subst f'. eapply Hgen; [|exact H|exact H']. exact (map_results_keeps _). }
  destruct (String.eqb norm "min_max_inverted" || String.eqb norm "min-max-inverted").
  { inversion Hf; subst f. inversion Hf'; subst f'. unfold min_max_norm in H, H'.
    apply bindr_ok in H as (m & Hm & Hb). apply bindr_ok in H' as (m' & Hm' & Hb'). inversion Hb; inversion Hb'; subst.
    assert (Hk : keeps (@_min_max_norm N true)) by exact (map_results_keeps _). pose proof (proj1 Hx) as Hx0. pose proof (proj1 Hx') as Hx0'.
    pose proof (per_query_inv E HE _ _ _ _ Hx Hk Hm) as (_ & Hok & _). pose proof (per_query_inv E' HE' _ _ _ _ Hx' Hk Hm') as (_ & Hok' & _).
    unfold at_q in *. rewrite !(sort_ofq E HE), (sort_ofq E' HE') by (apply Hok || apply Hok'). rewrite (by_value_same E E' HO). f_equal.
    rewrite (per_query_ofq E HE _ (_min_max_norm true) (r_map x) m q Hx0 (keeps_nil _ Hk) Hm).
    rewrite (per_query_ofq E' HE' _ (_min_max_norm true) (r_map x') m' q Hx0' (keeps_nil _ Hk) Hm'). now rewrite Hq. }
  destruct (String.eqb norm "rank").
  { inversion Hf; subst f. inversion Hf'; subst f'. eapply Hgen; [|exact H|exact H']. exact rank_norm_keeps. }
  destruct (String.eqb norm "sum").
  { inversion Hf; subst f. inversion Hf'; subst f'. eapply Hgen; [|exact H|exact H']. exact (map_results_keeps _). }
  destruct (String.eqb norm "zmuv"); [|discriminate].
  inversion Hf; subst f. inversion Hf'; subst f'. eapply Hgen; [|exact H|exact H']. exact (map_results_keeps _).
Qed.

Definition norm_keys (norm : string) (l : list string) : list string := if inverted norm then str_sort l else l.
Lemma norm_one (E0 : env N) (HE0 : env_ok E0) (x y : Run N) norm : dict2_ok (r_map x) -> normalize E0 x norm = Ok y ->
  dict2_ok (r_map y) /\ dkeys (r_map y) = norm_keys norm (dkeys (r_map x)).
Proof.
  intros Hx H. apply (norm_inv E0 HE0) in H as (m & (Hk & Hok & _) & ->); auto. unfold norm_keys. destruct (inverted norm); [|now split].
  cbn [Run_sort Run_with_map new_run r_map]. change (sort_dict_of_dict_by_value E0 r_negf (sort_dict_by_key m)) with (canon E0 r_negf m).
  split; [now apply canon_ok|]. rewrite canon_keys by apply Hok. now rewrite Hk.
Qed.
Lemma norm_keys_in norm l q : In q (norm_keys norm l) <-> In q l.
Proof. unfold norm_keys. destruct (inverted norm); [|tauto]. split; apply Permutation_in; [apply Permutation_sym|]; apply str_sort_perm. Qed.

Lemma norm_tables (E0 : env N) (HE0 : env_ok E0) norm (xs ys : list (Run N)) : tables (maps xs) -> map_m (fun x => normalize E0 x norm) xs = Ok ys ->
  tables (maps ys) /\ (ordered xs -> ordered ys).
Proof.
  intros [Hok Hs] H. apply map_m_inv in H.
  assert (Hex : forall y, In y ys -> exists x, In x xs /\ dict2_ok (r_map y) /\ dkeys (r_map y) = norm_keys norm (dkeys (r_map x))).
  { intros y Hy. assert (Hok' : forall x, In x xs -> dict2_ok (r_map x)) by (intros; apply Hok; now apply in_map). clear Hok Hs.
    induction H as [|x y' xs ys Hxy H IH]; [easy|]. destruct Hy as [->|Hy].
    - exists x. split; [now left|]. apply (norm_one E0 HE0); auto. apply Hok'. now left.
    - destruct IH as (x1 & Hx1 & H1); auto; [intros; apply Hok'; now right|]. exists x1. split; [now right|auto]. }
  split; [split|].
  - intros m Hm. apply in_map_iff in Hm as (y & <- & Hy). destruct (Hex y Hy) as (x & _ & H1 & _). exact H1.
  - intros m m' q Hm Hm'. apply in_map_iff in Hm as (y & <- & Hy). apply in_map_iff in Hm' as (y' & <- & Hy').
    destruct (Hex y Hy) as (x & Hx & _ & ->). destruct (Hex y' Hy') as (x' & Hx' & _ & ->). rewrite !norm_keys_in. apply Hs; now apply in_map.
  - intros Ho y y' Hy Hy'. destruct (Hex y Hy) as (x & Hx & _ & ->). destruct (Hex y' Hy') as (x' & Hx' & _ & ->). f_equal. now apply Ho.
Qed.

Lemma normalize_runs_same norm (xs xs' ys ys' : list (Run N)) q : tables (maps xs) -> tables (maps xs') -> agree q xs xs' ->
  (norm = Some "borda" -> ordered xs /\ ordered xs') ->
  normalize_runs E xs norm = Ok ys -> normalize_runs E' xs' norm = Ok ys' ->
  tables (maps ys) /\ tables (maps ys') /\ agree q ys ys' /\ (ordered xs -> ordered ys) /\ (ordered xs' -> ordered ys').
Proof.
  intros Ht Ht' HA Hb H H'. destruct norm as [n|]; cbn [normalize_runs] in H, H'.
  2:{ inversion H; inversion H'; subst. auto. }
  destruct (String.eqb n "borda") eqn:Hn.
  - apply String.eqb_eq in Hn. subst n. destruct (Hb eq_refl) as [Ho Ho'].
    destruct (borda_norm_same E E' HE HE' HO xs xs' ys ys' q) as (H1 & H2 & H3 & H4 & H5); auto.
  - destruct (norm_tables E HE n xs ys Ht H) as [H1 H2]. destruct (norm_tables E' HE' n xs' ys' Ht' H') as [H3 H4].
    split; [exact H1|]. split; [exact H3|]. split; [|auto]. apply tables_forall in Ht. apply tables_forall in Ht'.
    apply map_m_inv in H. apply map_m_inv in H'. clear - HA H H' HE HE' HO Ht Ht'. revert ys ys' H H'.
    induction HA as [|x x' xs xs' Hx HA IH]; intros ys ys' H H'.
    + inversion H. inversion H'. constructor.
    + inversion H as [|? y ? ys1 Hy H1]; subst. inversion H' as [|? y' ? ys1' Hy' H1']; subst. inversion_clear Ht. inversion_clear Ht'. constructor.
      * eapply (norm_same x x' n y y' q); eassumption.
      * now apply IH.
Qed.

(** condorcet *)
Lemma condorcet_at (E0 : env N) (HE0 : env_ok E0) f (xs : list (Run N)) name y q : tables (maps xs) -> (forall res, (forall r, In r res -> r = []) -> f res [] = Ok []) ->
  condorcet_with E0 f xs name = Ok y ->
  ofq (r_map y) q = okor (f (map (fun x => dkeys (ofq (r_map x) q)) xs) (cands_of E0 (maps xs) q)).
Proof.
  intros Ht Hnil H. destruct xs as [|x0 xs0]; [discriminate|]. pose proof Ht as [Hok Hs].
  unfold condorcet_with in H. apply bindr_ok in H as (res & Hres & H). apply bindr_ok in H as (cs & Hcs & H).
  apply bindr_ok in H as (out & Hout & H). apply bindr_ok in H as (m & Hm & H). inversion H; subst y. clear H. cbn [new_run r_map].
  set (xs := x0 :: xs0) in *. assert (Hm0 : dict_ok (r_map x0)) by (apply (Hok (r_map x0)); now left).
  change (maps xs) with (r_map x0 :: maps xs0) in *. rewrite (cands_at E0 _ _ Ht) in Hcs. injection Hcs as <-.
  apply map_m_inv in Hout.
  assert (Hlen : length out = length (dkeys (r_map x0))).
  { rewrite <- (seq_length (length (dkeys (r_map x0))) 0). symmetry. clear - Hout. induction Hout; cbn; auto. }
  rewrite convert_results_ok in Hm; [|exact Hm0|exact Hlen]. inversion Hm; subst m. clear Hm.
  set (h := fun q : string => match index_of (dkeys (r_map x0)) q return dict F with Some i => nth i out [] | None => [] end).
  assert (Hout' : out = map h (dkeys (r_map x0))).
  { apply nth_error_ext. intros i. rewrite nth_error_map. destruct (nth_error (dkeys (r_map x0)) i) as [p|] eqn:Hp; cbn.
    - unfold h. apply index_of_spec in Hp as Hi; [|exact Hm0]. rewrite Hi. apply nth_error_nth'. rewrite Hlen. apply nth_error_Some. congruence.
    - apply nth_error_None. rewrite Hlen. now apply nth_error_None. }
  rewrite Hout'. assert (Hcomb : forall l, combine l (map h l) = map (fun q => (q, h q)) l) by (induction l; cbn; congruence). rewrite Hcomb.
  unfold ofq at 1. rewrite (const_map_get h (dkeys (r_map x0)) q). destruct (in_dec string_dec q (dkeys (r_map x0))) as [Hin|Hin].
  - apply In_nth_error in Hin as [i Hi]. assert (Hil : i < length (dkeys (r_map x0))) by (apply nth_error_Some; congruence).
    assert (Hres' : res = map (fun q => map (fun m : dict (dict F) => dkeys (ofq m q)) (r_map x0 :: maps xs0)) (dkeys (r_map x0))).
    { unfold get_results in Hres. rewrite (map_m_ok _ (fun q => map (fun m : dict (dict F) => dkeys (ofq m q)) (r_map x0 :: maps xs0))) in Hres; [now inversion Hres|].
      intros q' Hq'. apply map_m_ok. intros m Hm. assert (Hmq : In q' (dkeys m)) by (apply (Hs (r_map x0) m q'); auto; now left).
      apply key_dget in Hmq as [r Hr]. unfold dget_r, ofq. now rewrite Hr. }
    destruct (F2_nth _ _ _ i i Hout (nth_error_seq0 _ _ Hil)) as (b & Hb & Hf).
    assert (Hh : h q = b). { unfold h. apply index_of_spec in Hi; [|exact Hm0]. rewrite Hi. now apply nth_error_nth. }
    rewrite Hh. subst res. unfold nth_r in Hf. rewrite !nth_error_map, Hi in Hf. cbn [option_map bindr] in Hf.
    change (r_map x0 :: maps xs0) with (maps xs) in Hf |- *. unfold maps in Hf at 1. rewrite map_map in Hf. now rewrite Hf.
  - rewrite (cands_absent E0 HE0).
    + rewrite Hnil; [reflexivity|]. intros r Hr. apply in_map_iff in Hr as (x & <- & Hx). rewrite ofq_absent; [reflexivity|]. intros Hq. apply Hin.
      apply (Hs (r_map x) (r_map x0) q); [|now left|exact Hq]. change (r_map x0 :: maps xs0) with (maps xs). now apply in_map.
    + intros m Hm Hq. apply Hin. apply (Hs m (r_map x0) q); auto. now left.
Qed.
End Two.

Section Switch.
Context {N : Num} (E E' : env N) (HE : env_ok E) (HE' : env_ok E') (HO : same_orders E E').
Variable pysort : (nat -> nat -> bool) -> list nat -> list nat.
Hypothesis Hsort : sorter_ok pysort.

Lemma pysort_nil0 lt : pysort lt [] = [].
Proof. destruct (Hsort lt []) as [Hp _]. apply Permutation_sym in Hp. now apply Permutation_nil in Hp. Qed.

Lemma simple_inv2 (f f' : list (Run N) -> string -> result (Run N)) dn xs xs' ps y y' : simple f dn xs ps = Ok y -> simple f' dn xs' ps = Ok y' ->
  exists nm, f xs nm = Ok y /\ f' xs' nm = Ok y'.
Proof.
  unfold simple. intros H H'. apply bindr_ok in H as (_ & _ & H). apply bindr_ok in H as (nm & Hn & H).
  apply bindr_ok in H' as (_ & _ & H'). apply bindr_ok in H' as (nm' & Hn' & H'). rewrite Hn in Hn'. injection Hn' as <-. eauto.
Qed.
Lemma with_arg_inv2 {A} (f f' : list (Run N) -> A -> string -> result (Run N)) k (conv : pval -> result A) dflt dn xs xs' ps y y' :
  with_arg f k conv dflt dn xs ps = Ok y -> with_arg f' k conv dflt dn xs' ps = Ok y' -> exists a nm, f xs a nm = Ok y /\ f' xs' a nm = Ok y'.
Proof.
  unfold with_arg. intros H H'. apply bindr_ok in H as (_ & _ & H). apply bindr_ok in H as (a & Ha & H). apply bindr_ok in H as (nm & Hn & H).
  apply bindr_ok in H' as (_ & _ & H'). apply bindr_ok in H' as (a' & Ha' & H'). apply bindr_ok in H' as (nm' & Hn' & H').
  rewrite Hn in Hn'. injection Hn' as <-. rewrite Ha in Ha'. injection Ha' as <-. eauto.
Qed.

Lemma switch_same method f f' (xs xs' : list (Run N)) ps y y' q : tables (maps xs) -> tables (maps xs') -> agree q xs xs' ->
  (method = "bordafuse" \/ method = "w_bordafuse" -> ordered xs /\ ordered xs') ->
  fusion_switch E pysort method = Ok f -> fusion_switch E' pysort method = Ok f' -> f xs ps = Ok y -> f' xs' ps = Ok y' -> at_q q (r_map y) (r_map y').
Proof.
  intros Ht Ht' HA Hord Hs Hs' Hf Hf'.
  assert (Hcomb : forall tag formula nm, comb E tag formula nm (maps xs) = Ok y -> comb E' tag formula nm (maps xs') = Ok y' -> at_q q (r_map y) (r_map y')).
  { intros tag formula nm Hc Hc'. eapply (comb_same E E' HE HE' HO); [exact Ht|exact Ht'| |exact Hc|exact Hc']. now apply agree_maps. }
  assert (Hres : forall t f tag formula nm, keeps f -> bindr (rescore E t f xs) (fun ms => comb E tag formula nm ms) = Ok y ->
    bindr (rescore E' t f xs') (fun ms => comb E' tag formula nm ms) = Ok y' -> at_q q (r_map y) (r_map y')).
  { intros t f0 tag formula nm Hk Hc Hc'. apply bindr_ok in Hc as (ms & Hms & Hc). apply bindr_ok in Hc' as (ms' & Hms' & Hc').
    destruct (rescore_same E E' HE HE' t t f0 xs xs' ms ms' q Hk Ht Ht' HA Hms Hms') as (H1 & H2 & H3).
    exact (comb_same E E' HE HE' HO _ _ _ _ _ _ _ _ _ q H1 H2 H3 Hc Hc'). }
  assert (Hresw : forall P t (f : P -> dict F -> result (dict F)) prm tag formula nm, (forall p, keeps (f p)) ->
    bindr (rescore_with E t f prm xs) (fun ms => comb E tag formula nm ms) = Ok y ->
    bindr (rescore_with E' t f prm xs') (fun ms => comb E' tag formula nm ms) = Ok y' -> at_q q (r_map y) (r_map y')).
  { intros P t f0 prm tag formula nm Hk Hc Hc'. apply bindr_ok in Hc as (ms & Hms & Hc). apply bindr_ok in Hc' as (ms' & Hms' & Hc').
    destruct (rescore_with_same E E' HE HE' t t f0 prm xs xs' ms ms' q Hk Ht Ht' HA Hms Hms') as (H1 & H2 & H3).
    exact (comb_same E E' HE HE' HO _ _ _ _ _ _ _ _ _ q H1 H2 H3 Hc Hc'). }
  assert (Hbor : forall tag formula nm, ordered xs /\ ordered xs' -> bindr (borda_scores E xs) (fun ms => comb E tag formula nm ms) = Ok y ->
    bindr (borda_scores E' xs') (fun ms => comb E' tag formula nm ms) = Ok y' -> at_q q (r_map y) (r_map y')).
  { intros tag formula nm [Ho Ho'] Hc Hc'. apply bindr_ok in Hc as (ms & Hms & Hc). apply bindr_ok in Hc' as (ms' & Hms' & Hc').
    destruct (borda_scores_same E E' HE HE' HO xs xs' ms ms' q Ht Ht' Ho Ho' HA Hms Hms') as (H1 & H2 & H3).
    exact (comb_same E E' HE HE' HO _ _ _ _ _ _ _ _ _ q H1 H2 H3 Hc Hc'). }
  assert (Hcon : forall g nm, (forall res, (forall r, In r res -> r = []) -> g res [] = Ok []) ->
    condorcet_with E g xs nm = Ok y -> condorcet_with E' g xs' nm = Ok y' -> at_q q (r_map y) (r_map y')).
  { intros g nm Hg Hc Hc'. apply (condorcet_at E HE g xs nm y q Ht Hg) in Hc. apply (condorcet_at E' HE' g xs' nm y' q Ht' Hg) in Hc'.
    unfold at_q. rewrite Hc, Hc', (cands_same E E' HO q _ _ (agree_maps q xs xs' HA)). do 2 f_equal.
    clear - HA. induction HA as [|x x' xs xs' Hx HA IH]; cbn; [reflexivity|]. unfold at_q in Hx. now rewrite Hx, IH. }
  unfold fusion_switch in Hs, Hs'.
  repeat match type of Hs with
  | (if String.eqb ?m ?s then _ else _) = _ =>
      let Heq := fresh in destruct (String.eqb m s) eqn:Heq; [apply String.eqb_eq in Heq; inversion Hs; subst f; inversion Hs'; subst f'; clear Hs Hs'|clear Heq]
  end; try discriminate;
  try (destruct (simple_inv2 _ _ _ _ _ _ _ _ Hf Hf') as (nm & Hg & Hg')); try (destruct (with_arg_inv2 _ _ _ _ _ _ _ _ _ _ _ Hf Hf') as (a & nm & Hg & Hg'));
  try (solve [eapply Hcomb; [exact Hg|exact Hg']|eapply Hres; [|exact Hg|exact Hg']; apply pos_scores_keeps|
     eapply Hresw; [|exact Hg|exact Hg']; intros p; first [apply pos_scores_keeps|apply prob_keeps|apply seg_keeps]]).
  - eapply Hbor; [|exact Hg|exact Hg']. auto.
  - eapply Hcon; [|exact Hg|exact Hg']. intros res _. unfold _condorcet. cbn [length seq]. rewrite pysort_nil0. reflexivity.
  - unfold logn_isr in Hg, Hg'. apply bindr_ok in Hg as (_ & _ & Hg). apply bindr_ok in Hg' as (_ & _ & Hg'). eapply Hres; [|exact Hg|exact Hg']. apply pos_scores_keeps.
  - unfold slide_call in Hf, Hf'. apply bindr_ok in Hf as (_ & _ & Hf). apply bindr_ok in Hf as (p & Hp & Hf). apply bindr_ok in Hf as (w & Hw & Hf).
    apply bindr_ok in Hf as (nm & Hn & Hf). apply bindr_ok in Hf' as (_ & _ & Hf'). apply bindr_ok in Hf' as (p' & Hp' & Hf'). apply bindr_ok in Hf' as (w' & Hw' & Hf').
    apply bindr_ok in Hf' as (nm' & Hn' & Hf'). rewrite Hp in Hp'. injection Hp' as <-. rewrite Hw in Hw'. injection Hw' as <-. rewrite Hn in Hn'. injection Hn' as <-.
    eapply Hresw; [|exact Hf|exact Hf']. intros p0 r r' Hr Hrr; unfold _slide_score in Hrr; eapply pos_scores_keeps; eauto.
  - eapply Hbor; [|exact Hg|exact Hg']. auto.
  - eapply Hcon; [|exact Hg|exact Hg']. intros res _. unfold _wcondorcet. cbn [length seq]. rewrite pysort_nil0. reflexivity.
Qed.

Lemma keys_check (xs : list (Run N)) : same_keys_check xs = true -> forall x x' q, In x xs -> In x' xs -> In q (dkeys (r_map x)) -> In q (dkeys (r_map x')).
Proof.
  induction xs as [|x xs IH]; cbn [same_keys_check]; intros H; [easy|]. apply andb_true_iff in H as [H1 H2]. rewrite forallb_forall in H1.
  assert (Hk : forall y q, In y xs -> (In q (dkeys (r_map x)) <-> In q (dkeys (r_map y)))).
  { intros y q Hy. specialize (H1 y Hy). exact (proj1 (keys_eqb_spec (r_map x) (r_map y)) H1 q). }
  intros a b q [<-|Ha] [<-|Hb] Hq; auto.
  - now apply (Hk b q).
  - now apply (Hk a q).
  - exact (IH H2 a b q Ha Hb Hq).
Qed.
Lemma fuse_same (xs xs' : list (Run N)) norm method ps y y' q :
  Forall (fun x : Run N => dict2_ok (r_map x)) xs -> Forall (fun x : Run N => dict2_ok (r_map x)) xs' -> agree q xs xs' ->
  (norm = Some "borda" \/ method = "bordafuse" \/ method = "w_bordafuse" -> ordered xs /\ ordered xs') ->
  fuse E pysort xs norm method ps = Ok y -> fuse E' pysort xs' norm method ps = Ok y' -> at_q q (r_map y) (r_map y').
Proof.
  intros Ha Ha' HA Hord H H'. unfold fuse in H, H'.
  apply bindr_ok in H as (u1 & _ & H). apply bindr_ok in H as (u2 & H2 & H). apply bindr_ok in H as (ys & H3 & H). apply bindr_ok in H as (f & Hf & Hy).
  apply bindr_ok in H' as (u1' & _ & H'). apply bindr_ok in H' as (u2' & H2' & H'). apply bindr_ok in H' as (ys' & H3' & H'). apply bindr_ok in H' as (f' & Hf' & Hy').
  assert (Hk : same_keys_check xs = true) by (destruct (same_keys_check xs); [reflexivity|discriminate]).
  assert (Hk' : same_keys_check xs' = true) by (destruct (same_keys_check xs'); [reflexivity|discriminate]).
  assert (Htab : forall l : list (Run N), Forall (fun x : Run N => dict2_ok (r_map x)) l -> same_keys_check l = true -> tables (maps l)).
  { intros l Hl Hkl. split.
    - intros m Hm. apply in_map_iff in Hm as (x & <- & Hx). rewrite Forall_forall in Hl. now apply Hl.
    - intros m m' p Hm Hm'. apply in_map_iff in Hm as (x & <- & Hx). apply in_map_iff in Hm' as (x' & <- & Hx'). now apply (keys_check l Hkl). }
  destruct (normalize_runs_same E E' HE HE' HO norm xs xs' ys ys' q (Htab xs Ha Hk) (Htab xs' Ha' Hk') HA (fun e => Hord (or_introl e)) H3 H3') as (T1 & T2 & T3 & T4 & T5).
  eapply (switch_same method f f' ys ys' ps y y' q T1 T2 T3); eauto. intros Hm. destruct (Hord (or_intror Hm)) as [O1 O2]. auto.
Qed.
End Switch.
