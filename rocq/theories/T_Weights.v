(** T_Weights.v: only the proportions of the weights matter (C101) *)
From Coq Require Import Reals Lra Lia Psatz Permutation FunctionalExtensionality.
From Verif Require Import Base Dict Num NumLaws Env EnvEx M_Common M_Qrels M_Run M_History M_Metrics M_Strings M_Evaluate M_Norm M_Fusion
  Spec_DS Spec_Hist Spec_Metrics Spec_Eval Spec_Norm Spec_Fusion Spec_Weights
  P_Base P_Dict P_Common P_History P_DS P_Metrics P_Eval P_Eval2 P_Eval3 P_Eval4 P_Eval5 P_Norm T_Norm T_Norm2 T_Norm3 P_Fusion P_Fusion2 P_Fusion3
  T_Fusion T_Fusion2 T_Fusion3 T_Fusion4 T_Fusion5 T_Fusion6 Ex_Metrics P_Unanimity T_Unanimity T_Scale T_Evaluate Spec_Closure P_Closure T_Evaluate2 T_Closure Spec_Alike P_Alike T_Alike.
Open Scope string_scope.
Open Scope list_scope.
Open Scope nat_scope.

Lemma given_scaled c ws : forall xs q d, weighted_given (map (Rmult c) ws) xs q d = map (fun wv => (c * fst wv, snd wv)%R) (weighted_given ws xs q d).
Proof.
  unfold weighted_given. induction ws as [|w ws IH]; intros [|x xs] q d; try reflexivity. cbn [map combine concat fst snd].
  rewrite map_app, <- IH. f_equal. destruct (score_of x q d); reflexivity.
Qed.
Lemma Rsum_scaled c (l : list R) : Rsum (map (Rmult c) l) = (c * Rsum l)%R.
Proof. induction l as [|a l IH]; cbn [map Rsum fold_right]; [lra|]. change (c * a + Rsum (map (Rmult c) l) = c * (a + Rsum l))%R. rewrite IH. ring. Qed.

Lemma fusion_scaled xs a b c (P Q : string -> string -> R -> Prop) : xs <> [] -> fusion_of xs a P -> fusion_of xs b Q ->
  (forall q d s t, candidate xs q d -> P q d s -> Q q d t -> t = (c * s)%R) -> scaled_by c a b.
Proof.
  intros Hne Fa Fb HPQ. destruct Fa as (_ & Qa & Ra & Va & _), Fb as (_ & Qb & Rb & Vb & _). split.
  - intros q. destruct xs as [|x xs]; [easy|]. rewrite (Qa x q (or_introl eq_refl)), (Qb x q (or_introl eq_refl)). tauto.
  - intros q d. specialize (Ra q d). specialize (Rb q d). unfold retrieves in *.
    destruct (score_of a q d) as [s|] eqn:Hs, (score_of b q d) as [t|] eqn:Ht; cbn [option_map]; auto.
    + f_equal. apply (HPQ q d); auto. apply Ra. eauto.
    + destruct (proj2 Rb) as [t Ht']; [apply Ra; eauto|discriminate].
    + destruct (proj2 Ra) as [s Hs']; [apply Rb; eauto|discriminate].
Qed.

Section S.
Context (E : env NumR) (HE : env_ok E) (pysort : (nat -> nat -> bool) -> list nat -> list nat).
Lemma fused_inputs xs norm method ps y : Forall a_run xs -> fuse E pysort xs norm method ps = Ok y ->
  2 <= length xs /\ fusable xs /\ exists ys, normalize_runs E xs norm = Ok ys /\ length ys = length xs.
Proof.
  intros Ha H0. unfold fuse in H0.
  apply bindr_ok in H0 as (u1 & H1 & H0). apply bindr_ok in H0 as (u2 & H2 & H0). apply bindr_ok in H0 as (ys & H3 & _).
  assert (Hl : 1 <? length xs = true) by (destruct (1 <? length xs); [reflexivity|discriminate]). apply Nat.ltb_lt in Hl.
  assert (Hk : same_keys_check xs = true) by (destruct (same_keys_check xs); [reflexivity|discriminate]).
  split; [lia|]. split. { split; [destruct xs; [cbn in Hl; lia|easy]|]. split; auto. now apply same_keys_sets. }
  exists ys. split; [exact H3|]. eapply P_Optimize.normalize_length; eauto.
Qed.
End S.

Definition weighted_methods : list string := ["wsum"; "wmnz"; "mixed"; "w_bordafuse"].
(** Multiplying all weights by [c] multiplies all fused scores by [c]. *)
Theorem C101_scaled : forall (E : env NumR) pysort, env_ok E ->
  forall xs norm method ws c y, Forall a_run xs -> (norm = Some "borda" \/ method = "w_bordafuse" -> same_query_order xs) ->
  In method weighted_methods -> length ws = length xs ->
  fuse E pysort xs norm method [("weights", PL ws)] = Ok y ->
  exists y', fuse E pysort xs norm method [("weights", PL (map (Rmult c) ws))] = Ok y' /\ scaled_by c y y'.
Proof.
  intros E pysort HE xs norm method ws c y Ha Ho Hm Hw H.
  destruct (fused_inputs E pysort xs norm method _ y Ha H) as (Hl & Hxs & ys & Hn & Hlen).
  destruct (norm_fusable E HE xs norm ys Hxs (fun e => Ho (or_introl e)) Hn) as (Hys & _ & _ & Hord).
  destruct (C51_dispatch E pysort xs norm ys Hxs Hl Hn) as (_ & _ & _ & _ & _ & _ & _ & _ & _ & _ & _ & _ & _ & _ & _ & D & _).
  set (ws' := map (Rmult c) ws).
  assert (Hw0 : length ys = @length R ws) by exact (eq_trans Hlen (eq_sym Hw)). clear Hw.
  assert (Hw1 : length ys <= @length R ws) by lia.
  assert (Hw2 : length ys <= @length R ws') by (unfold ws'; rewrite map_length; lia).
  assert (Hne : ys <> []) by apply Hys.
  destruct (D ws) as (D1 & D2 & D3 & D4 & _). destruct (D ws') as (D1' & D2' & D3' & D4' & _).
  destruct Hm as [<-|[<-|[<-|[<-|[]]]]].
  - rewrite D1 in H. destruct (C45_wsum E HE ys ws "weighted_sum" Hys Hw1) as (a & A1 & _ & A2). destruct (C45_wsum E HE ys ws' "weighted_sum" Hys Hw2) as (b & B1 & _ & B2).
    rewrite A1 in H. injection H as <-. exists b. split; [rewrite <- B1; exact D1'|]. eapply fusion_scaled; [exact Hne|exact A2|exact B2|].
    intros q d s t _ -> ->. unfold ws'. rewrite given_scaled, map_map, <- Rsum_scaled, map_map. f_equal. apply map_ext. intros [w v]. cbn [fst snd]. ring.
  - rewrite D2 in H. destruct (C45_wmnz E HE ys ws "wmnz" Hys Hw1) as (a & A1 & _ & A2). destruct (C45_wmnz E HE ys ws' "wmnz" Hys Hw2) as (b & B1 & _ & B2).
    rewrite A1 in H. injection H as <-. exists b. split; [rewrite <- B1; exact D2'|]. eapply fusion_scaled; [exact Hne|exact A2|exact B2|].
    intros q d s t _ -> ->. unfold ws'. rewrite given_scaled, !map_map. cbn [fst snd].
    rewrite <- (map_map fst (Rmult c)), Rsum_scaled. change (map (fun x : R * R => snd x) (weighted_given ws ys q d)) with (map snd (weighted_given ws ys q d)). ring.
  - rewrite D3 in H. destruct (C45_mixed E HE ys ws "mixed" Hys Hw1) as (a & A1 & _ & A2). destruct (C45_mixed E HE ys ws' "mixed" Hys Hw2) as (b & B1 & _ & B2).
    rewrite A1 in H. injection H as <-. exists b. split; [rewrite <- B1; exact D3'|]. eapply fusion_scaled; [exact Hne|exact A2|exact B2|].
    intros q d s t _ -> ->. unfold ws'. rewrite given_scaled, map_map, map_length.
    assert (He : Rsum (map (fun x : R * R => (fst (c * fst x, snd x) * snd (c * fst x, snd x))%R) (weighted_given ws ys q d))
      = (c * Rsum (map (fun wv => fst wv * snd wv)%R (weighted_given ws ys q d)))%R).
    { rewrite <- Rsum_scaled, map_map. f_equal. apply map_ext. intros [w v]. cbn [fst snd]. ring. }
    rewrite He. ring.
  - rewrite D4 in H. specialize (Hord (Ho (or_intror eq_refl))).
    destruct (C46_weighted_bordafuse E HE ys ws "weighted_bordafuse" Hys Hord Hw0) as (a & A1 & _ & A2 & _).
    destruct (C46_weighted_bordafuse E HE ys ws' "weighted_bordafuse" Hys Hord (eq_trans Hw0 (eq_sym (map_length (Rmult c) ws)))) as (b & B1 & _ & B2 & _).
    rewrite A1 in H. injection H as <-. exists b. split; [rewrite <- B1; exact D4'|]. eapply fusion_scaled; [exact Hne|exact A2|exact B2|].
    intros q d s t _ Hs Ht. pose proof (cands_candidates E HE ys q) as Hc. rewrite (Hs _ Hc), (Ht _ Hc). unfold ws'.
    rewrite <- Rsum_scaled, map_map. f_equal. generalize (length (cands_of E (maps ys) q)). clear. intros n. revert ys. induction ws as [|w ws IH]; intros [|x ys]; try reflexivity.
    cbn [map combine fst snd]. f_equal; [ring|]. apply IH.
Qed.
Print Assumptions C101_scaled.

(** Condorcet compares sums of weights: the result is the same. *)
Lemma wlt_scaled c (ws : list R) idx : (0 < c)%R -> @wcondorcet_lt NumR (map (Rmult c) ws) idx = @wcondorcet_lt NumR ws idx.
Proof.
  intros Hc. apply functional_extensionality. intros x. apply functional_extensionality. intros y. unfold wcondorcet_lt.
  set (f := fun (v : R * R) (wr : R * list Z) => if (nth x (snd wr) 0 <? nth y (snd wr) 0)%Z
                           then ((fst v + fst wr)%R, snd v) else (fst v, (snd v + fst wr)%R)).
  assert (Hf : forall (l : list R) (i : list (list Z)) a b, fold_left f (combine (map (Rmult c) l) i) ((c * a)%R, (c * b)%R)
    = ((c * fst (fold_left f (combine l i) (a, b)))%R, (c * snd (fold_left f (combine l i) (a, b)))%R)).
  { induction l as [|w l IH]; intros [|r i] a b; try reflexivity. cbn [map combine fold_left]. unfold f at 2 4 6. cbn [fst snd].
    destruct (nth x r 0 <? nth y r 0)%Z; rewrite <- IH; f_equal; f_equal; ring. }
  change (@fzero NumR) with 0%R.
  pose proof (Hf ws idx 0%R 0%R) as H. rewrite Rmult_0_r in H.
  change (match fold_left f (combine (map (Rmult c) ws) idx) (0%R, 0%R) with (a, b) => @fleb NumR b a end
        = match fold_left f (combine ws idx) (0%R, 0%R) with (a, b) => @fleb NumR b a end).
  rewrite H. destruct (fold_left f (combine ws idx) (0%R, 0%R)) as [a b]. cbn [fst snd].
  change (Rleb (c * b) (c * a) = Rleb b a). unfold Rleb. destruct (Rle_dec (c * b) (c * a)), (Rle_dec b a); auto; exfalso; nra.
Qed.
Lemma wc_len (c : R) (ws : list R) : @length (@F NumR) (map (Rmult c) ws) = @length (@F NumR) ws.
Proof. exact (map_length (Rmult c) ws). Qed.
Theorem C101_condorcet : forall (E : env NumR) pysort xs norm ws c, (0 < c)%R ->
  fuse E pysort xs norm "w_condorcet" [("weights", PL (map (Rmult c) ws))] = fuse E pysort xs norm "w_condorcet" [("weights", PL ws)].
Proof.
  intros E pysort xs norm ws c Hc. unfold fuse. destruct (assertr (1 <? length xs)) as [[]|]; [|reflexivity]. cbn [bindr].
  destruct (assertr (same_keys_check xs)) as [[]|]; [|reflexivity]. cbn [bindr]. destruct (normalize_runs E xs norm) as [ys|]; [|reflexivity].
  change (weighted_condorcet E pysort ys (map (Rmult c) ws) "weighted_condorcet" = weighted_condorcet E pysort ys ws "weighted_condorcet").
  unfold weighted_condorcet. f_equal. apply functional_extensionality. intros results. apply functional_extensionality. intros cands.
  unfold _wcondorcet. rewrite wlt_scaled by exact Hc. rewrite wc_len. reflexivity.
Qed.
Print Assumptions C101_condorcet.

(** Equal weights: the weighted method is the unweighted one, up to the common factor. *)
Lemma wlt_equal c idx : (0 < c)%R -> @wcondorcet_lt NumR (repeat c (length idx)) idx = condorcet_lt idx.
Proof.
  intros Hc. apply functional_extensionality. intros x. apply functional_extensionality. intros y. unfold wcondorcet_lt, condorcet_lt.
  set (f := fun (v : R * R) (wr : R * list Z) => if (nth x (snd wr) 0 <? nth y (snd wr) 0)%Z
                           then ((fst v + fst wr)%R, snd v) else (fst v, (snd v + fst wr)%R)).
  set (p := fun run : list Z => (nth x run 0 <? nth y run 0)%Z).
  assert (Hcount : forall i, count p i <= length i) by (induction i as [|r i IH]; cbn; [lia|destruct (p r); cbn; lia]).
  assert (Hf : forall (i : list (list Z)) a b, fold_left f (combine (repeat c (length i)) i) (a, b)
    = ((a + c * INR (count p i))%R, (b + c * INR (length i - count p i))%R)).
  { induction i as [|r i IH]; intros a b; [cbn; f_equal; lra|]. cbn [length repeat combine fold_left]. unfold f at 2. cbn [fst snd].
    change ((nth x r 0 <? nth y r 0)%Z) with (p r). specialize (Hcount i).
    assert (Hc1 : count p (r :: i) = if p r then S (count p i) else count p i) by (unfold count; cbn; destruct (p r); reflexivity).
    rewrite Hc1. destruct (p r); rewrite IH; f_equal.
    - rewrite S_INR. ring.
    - replace (S (length i) - count p i) with (S (length i - count p i)) by lia. rewrite S_INR. ring. }
  change (@fzero NumR) with 0%R.
  change (match fold_left f (combine (repeat c (length idx)) idx) (0%R, 0%R) with (a, b) => @fleb NumR b a end
    = (length idx - count p idx <=? count p idx)).
  rewrite Hf. change (Rleb (0 + c * INR (length idx - count p idx)) (0 + c * INR (count p idx)) = (length idx - count p idx <=? count p idx)).
  unfold Rleb. destruct (Rle_dec _ _) as [H|H]; destruct (Nat.leb_spec (length idx - count p idx) (count p idx)) as [H'|H']; auto; exfalso.
  - apply lt_INR in H'. nra.
  - apply le_INR in H'. nra.
Qed.

Lemma get_results_length ms rs : @get_results NumR ms = Ok rs -> forall r, In r rs -> length r = length ms.
Proof.
  destruct ms as [|m0 ms]; cbn [get_results]; [discriminate|]. intros H. apply map_m_inv in H. revert H. generalize (dkeys m0).
  intros l H. induction H as [|q r l rs Hq H IH]; intros r' Hr; [destruct Hr|]. destruct Hr as [<-|Hr]; [|auto].
  eapply P_Optimize.map_m_length; eauto.
Qed.
Definition same_outcome (r r' : result (Run NumR)) : Prop :=
  match r, r' with
  | Ok y, Ok y' => r_map y = r_map y'
  | Err e, Err e' => e = e'
  | _, _ => False
  end.
Theorem C101_equal_condorcet : forall (E : env NumR) pysort xs norm c, (0 < c)%R ->
  same_outcome (fuse E pysort xs norm "w_condorcet" [("weights", PL (repeat c (length xs)))]) (fuse E pysort xs norm "condorcet" []).
Proof.
  intros E pysort xs norm c Hc. unfold fuse. destruct (assertr (1 <? length xs)) as [[]|]; [|reflexivity]. cbn [bindr].
  destruct (assertr (same_keys_check xs)) as [[]|]; [|reflexivity]. cbn [bindr].
  destruct (normalize_runs E xs norm) as [ys|] eqn:Hn; [|reflexivity]. apply P_Optimize.normalize_length in Hn. rewrite <- Hn.
  change (same_outcome (condorcet_with E (_wcondorcet pysort (repeat c (length ys))) ys "weighted_condorcet") (condorcet_with E (_condorcet pysort) ys "condorcet")).
  unfold condorcet_with. destruct (get_results (maps ys)) as [rs|] eqn:Hr; [|reflexivity]. cbn [bindr].
  destruct (get_candidates E (maps ys)) as [cands|]; [|reflexivity]. cbn [bindr]. destruct ys as [|x0 ys0] eqn:Hys; [reflexivity|]. rewrite <- Hys in *.
  assert (He : forall i, (do r <- nth_r rs i; do k <- nth_r cands i; _wcondorcet pysort (repeat c (length ys)) r k) = (do r <- nth_r rs i; do k <- nth_r cands i; _condorcet pysort r k)).
  { intros i. unfold nth_r. destruct (nth_error rs i) as [r|] eqn:Hi; [|reflexivity]. cbn [bindr]. destruct (nth_error cands i) as [k|]; [|reflexivity]. cbn [bindr].
    apply nth_error_In in Hi. pose proof (get_results_length _ _ Hr r Hi) as Hlen. unfold maps in Hlen. rewrite map_length in Hlen.
    unfold _wcondorcet, _condorcet. assert (Hrl : @length (@F NumR) (repeat c (length ys)) = length r) by (rewrite Hlen; exact (repeat_length c (length ys))).
    rewrite Hrl, Nat.ltb_irrefl, Bool.andb_false_r. rewrite <- Hlen. assert (Hil : length r = length (run_indices r k)) by (unfold run_indices; now rewrite map_length).
    rewrite Hil, wlt_equal by exact Hc. reflexivity. }
  assert (Hm : forall l, map_m (fun i => do r <- nth_r rs i; do k <- nth_r cands i; _wcondorcet pysort (repeat c (length ys)) r k) l
    = map_m (fun i => do r <- nth_r rs i; do k <- nth_r cands i; _condorcet pysort r k) l) by (intros l; apply P_Fusion.map_m_eq; intros; apply He).
  refine (eq_ind_r (fun u => same_outcome (do out <- u; do m <- convert_results _ out; Ok (new_run (Some "weighted_condorcet") m)) _) _ (Hm _)).
  destruct (map_m _ _) as [out|]; [|reflexivity]. cbn [bindr]. destruct (convert_results _ out); reflexivity.
Qed.
Print Assumptions C101_equal_condorcet.

Lemma given_equal c xs q d : weighted_given (repeat c (length xs)) xs q d = map (fun s => (c, s)) (scores_given xs q d).
Proof.
  unfold weighted_given, scores_given. induction xs as [|x xs IH]; [reflexivity|]. cbn [length repeat combine map concat fst snd].
  rewrite map_app, <- IH. f_equal. destruct (score_of x q d); reflexivity.
Qed.
Definition unweighted : list (string * string) := [("wsum", "sum"); ("wmnz", "mnz"); ("w_bordafuse", "bordafuse")].
Theorem C101_equal : forall (E : env NumR) pysort, env_ok E ->
  forall xs norm weighted plain c y, Forall a_run xs -> (norm = Some "borda" \/ plain = "bordafuse" -> same_query_order xs) ->
  In (weighted, plain) unweighted -> fuse E pysort xs norm plain [] = Ok y ->
  exists y', fuse E pysort xs norm weighted [("weights", PL (repeat c (length xs)))] = Ok y' /\ scaled_by c y y'.
Proof.
  intros E pysort HE xs norm weighted plain c y Ha Ho Hm H.
  destruct (fused_inputs E pysort xs norm plain _ y Ha H) as (Hl & Hxs & ys & Hn & Hlen).
  destruct (norm_fusable E HE xs norm ys Hxs (fun e => Ho (or_introl e)) Hn) as (Hys & _ & _ & Hord).
  destruct (C51_dispatch E pysort xs norm ys Hxs Hl Hn) as (D1 & _ & _ & _ & _ & D2 & _ & _ & _ & _ & _ & _ & _ & D3 & _ & D & _).
  rewrite <- Hlen in *. set (ws := repeat c (length ys)).
  assert (Hw : length ys = @length R ws) by (unfold ws; now rewrite repeat_length).
  assert (Hw1 : length ys <= @length R ws) by lia.
  assert (Hne : ys <> []) by apply Hys.
  destruct (D ws) as (W1 & W2 & _ & W4 & _).
  destruct Hm as [Hm|[Hm|[Hm|[]]]]; injection Hm as <- <-.
  - rewrite D1 in H. destruct (C43_comb_sum E HE ys "comb_sum" Hys) as (a & A1 & _ & A2). destruct (C45_wsum E HE ys ws "weighted_sum" Hys Hw1) as (b & B1 & _ & B2).
    rewrite A1 in H. injection H as <-. exists b. split; [rewrite <- B1; exact W1|]. eapply fusion_scaled; [exact Hne|exact A2|exact B2|].
    intros q d s t _ -> ->. unfold ws. rewrite given_equal, map_map, <- Rsum_scaled. reflexivity.
  - rewrite D2 in H. destruct (C43_comb_mnz E HE ys "comb_mnz" Hys) as (a & A1 & _ & A2). destruct (C45_wmnz E HE ys ws "wmnz" Hys Hw1) as (b & B1 & _ & B2).
    rewrite A1 in H. injection H as <-. exists b. split; [rewrite <- B1; exact W2|]. eapply fusion_scaled; [exact Hne|exact A2|exact B2|].
    intros q d s t _ -> ->. unfold ws. rewrite given_equal, !map_map. cbn [fst snd]. rewrite map_id, Rsum_map_const. ring.
  - rewrite D3 in H. specialize (Hord (Ho (or_intror eq_refl))).
    destruct (C46_bordafuse E HE ys "bordafuse" Hys Hord) as (a & A1 & _ & A2 & _).
    destruct (C46_weighted_bordafuse E HE ys ws "weighted_bordafuse" Hys Hord Hw) as (b & B1 & _ & B2 & _).
    rewrite A1 in H. injection H as <-. exists b. split; [rewrite <- B1; exact W4|]. eapply fusion_scaled; [exact Hne|exact A2|exact B2|].
    intros q d s t _ Hs Ht. pose proof (cands_candidates E HE ys q) as Hc. rewrite (Hs _ Hc), (Ht _ Hc). unfold ws.
    rewrite <- Rsum_scaled, map_map. f_equal. generalize (length (cands_of E (maps ys) q)). clear. intros n. induction ys as [|x ys IH]; [reflexivity|].
    cbn [length repeat map combine fst snd]. now rewrite IH.
Qed.
Print Assumptions C101_equal.

(** ** The evaluation *)
Lemma results_in (m : dict (dict R)) q d s : dict2_ok m -> (In (d, s) (of_query m q) <-> dget2 m q d = Some s).
Proof.
  intros [_ Hok]. unfold of_query, dget2. destruct (dget m q) as [r|] eqn:Hr; [|split; [intros []|discriminate]].
  split; intros H; [now apply P_Dict.in_dget; [exact (Hok q r Hr)|]|now apply P_Dict.dget_Some_in].
Qed.
Lemma results_nodup (m : dict (dict R)) q : dict2_ok m -> NoDup (dkeys (of_query m q)).
Proof. intros [_ Hok]. unfold of_query. destruct (dget m q) as [r|] eqn:Hr; [exact (Hok q r Hr)|constructor]. Qed.
Lemma results_distinct (m : dict (dict R)) q : dict2_ok m -> (forall d d' s, dget2 m q d = Some s -> dget2 m q d' = Some s -> d = d') ->
  NoDup (dvals (of_query m q)).
Proof.
  intros Hok Hd. pose proof (results_nodup m q Hok) as Hr.
  assert (Hinj : forall d d' s, In (d, s) (of_query m q) -> In (d', s) (of_query m q) -> d = d').
  { intros d d' s H1 H2. apply (Hd d d' s); apply (results_in m q _ _ Hok); assumption. }
  revert Hr Hinj. generalize (of_query m q). clear. induction d as [|[d s] r IH]; intros Hr Hinj; [constructor|].
  inversion Hr as [|? ? Hni Hnd]; subst. cbn [dvals map snd]. constructor.
  - intros Hin. apply in_map_iff in Hin as ([d' s'] & Heq & Hin). cbn in Heq. subst s'. apply Hni.
    rewrite (Hinj d d' s (or_introl eq_refl) (or_intror Hin)). apply in_map_iff. exists (d', s). auto.
  - apply IH; auto. intros; eapply Hinj; right; eauto.
Qed.
Lemma results_scaled (c : R) (m m' : dict (dict R)) q : dict2_ok m -> dict2_ok m' ->
  (forall q d, dget2 m' q d = option_map (Rmult c) (dget2 m q d)) -> Permutation (map_scores (Rmult c) (of_query m q)) (of_query m' q).
Proof.
  intros Hok Hok' Hs. apply NoDup_Permutation.
  - apply (NoDup_map_inv fst). unfold map_scores. rewrite map_map. cbn [fst]. exact (results_nodup m q Hok).
  - apply (NoDup_map_inv fst). exact (results_nodup m' q Hok').
  - intros [d t]. rewrite (results_in m' q d t Hok'), Hs. unfold map_scores. rewrite in_map_iff. split.
    + intros ([d' s] & Heq & Hin). cbn [fst snd] in Heq. injection Heq as -> <-. apply (results_in m q d s Hok) in Hin. now rewrite Hin.
    + destruct (dget2 m q d) as [s|] eqn:Hd; [|discriminate]. cbn [option_map]. intros Heq. injection Heq as <-. exists (d, s). split; [reflexivity|]. now apply (results_in m q d s Hok).
Qed.
Theorem C101_evaluate : forall (E : env NumR) pysort, env_ok E ->
  forall xs norm method ws c y y' Q metrics mean std save, Forall a_run xs -> (norm = Some "borda" \/ method = "w_bordafuse" -> same_query_order xs) ->
  In method weighted_methods -> length ws = length xs -> (0 < c)%R ->
  fuse E pysort xs norm method [("weights", PL ws)] = Ok y ->
  fuse E pysort xs norm method [("weights", PL (map (Rmult c) ws))] = Ok y' ->
  distinct_scores y -> obtained_qrels E Q ->
  same_queries (q_map Q) (r_map y) -> docs_distinct E (q_map Q) (r_map y) -> metrics_ok metrics (q_map Q) ->
  same_result (ev_res (@evaluate NumR E (QObj Q) (RObj y) metrics mean std save false))
              (ev_res (@evaluate NumR E (QObj Q) (RObj y') metrics mean std save false)).
Proof.
  intros E pysort HE xs norm method ws c y y' Q metrics mean std save Ha Ho Hm Hw Hc H H' Hd HQ Hs Hids Hmet.
  destruct (C101_scaled E pysort HE xs norm method ws c y Ha Ho Hm Hw H) as (z & Hz & Hsc). rewrite H' in Hz. injection Hz as <-.
  assert (Hy : @run_inv NumR y) by (apply (fused_inv E HE); eapply fuse_fused; exact H).
  assert (Hy' : @run_inv NumR y') by (apply (fused_inv E HE); eapply fuse_fused; exact H').
  assert (Ay : a_run y) by apply Hy. assert (Ay' : a_run y') by apply Hy'.
  assert (Hp : forall q, Permutation (map_scores (Rmult c) (of_query (r_map y) q)) (of_query (r_map y') q)) by (intros q; exact (results_scaled c (r_map y) (r_map y') q Ay Ay' (proj2 Hsc))).
  apply same_rankings_same_result; auto; [exact (obtained_qrels_inv E HE Q HQ)| | |].
  - intros q. rewrite (Hs q). symmetry. exact (proj1 Hsc q).
  - intros q Hq. eapply ids_distinct_perm; [|apply (Hids q Hq)]. apply Permutation_app_head.
    pose proof (Permutation_map fst (Hp q)) as Hk. unfold map_scores in Hk. rewrite map_map in Hk. exact Hk.
  - intros q l l' H1 H2.
    assert (H3 : ranks (of_query (r_map y') q) l). { eapply ranks_perm; [exact (Hp q)|]. apply ranks_map; [intros a b Hab; apply Rmult_lt_compat_l; assumption|exact H1]. }
    eapply ranks_unique; [|exact H3|exact H2].
    eapply Permutation_NoDup; [exact (Permutation_map snd (Hp q))|]. unfold map_scores. rewrite map_map. cbn [snd].
    rewrite <- (map_map snd (Rmult c)). apply FinFun.Injective_map_NoDup; [intros a b Hab; apply (Rmult_eq_reg_l c); lra|]. exact (results_distinct (r_map y) q Ay (Hd q)).
Qed.
Print Assumptions C101_evaluate.

(** ** In binary64 *)
Definition w64_x (a b : @F NumSF) : Run NumSF := @new_run NumSF (Some "x") [("q", [("a", a); ("b", b)])].
Definition d64 (z : Z) : @F NumSF := @fdec NumSF z 1.
Definition w64_runs : list (Run NumSF) := [w64_x (d64 1) (d64 8); w64_x (d64 9) (d64 4)].
Definition w64_fuse (ws : list (@F NumSF)) : result (Run NumSF) := fuse env_ex (fun _ l => l) w64_runs None "wsum" [("weights", PL ws)].
Definition w64_res (ws : list (@F NumSF)) : Run NumSF := match w64_fuse ws with Ok y => y | Err _ => new_run None [] end.
Definition sf_a : @F NumSF := SpecFloat.S754_finite false 6124895493223875 (-53).
Definition sf_b : @F NumSF := SpecFloat.S754_finite false 6124895493223874 (-53).
Definition sf_b' : @F NumSF := SpecFloat.S754_finite false 7656119366529844 (-50).
Definition sf_a' : @F NumSF := SpecFloat.S754_finite false 7656119366529843 (-50).
(** the weights 0.5 and 0.7, and ten times as much: a is first with the former, b with the latter
    (over the reals the two documents tie) *)
Theorem C101_binary64_refuted : exists ws ws' y y' sa sb sa' sb',
  ws' = map (fmul (fofZ 10)) ws /\ w64_fuse ws = Ok y /\ w64_fuse ws' = Ok y' /\
  r_map y = [("q", [("a", sa); ("b", sb)])] /\ r_map y' = [("q", [("b", sb'); ("a", sa')])] /\
  fltb sb sa = true /\ fltb sa' sb' = true.
Proof.
  exists [d64 5; d64 7], [d64 50; d64 70], (w64_res [d64 5; d64 7]), (w64_res [d64 50; d64 70]), sf_a, sf_b, sf_a', sf_b'.
  split; [vmr|]. split; [vmr|]. split; [vmr|]. split; [vmr|]. split; [vmr|]. split; vmr.
Qed.
Print Assumptions C101_binary64_refuted.

(** ** A case that meets the hypotheses: two runs, the weights 1 and 2, their double and three
    times as much, and a judged document *)
Definition ex_Q : Qrels := Qrels_add_score Qrels_empty "q" "a" 1.
Example ex_C101 : exists y y', fuse env_sorted ins_sort [al1; al2] None "wsum" [("weights", PL [1%R; 2%R])] = Ok y /\
  fuse env_sorted ins_sort [al1; al2] None "wsum" [("weights", PL (map (Rmult 3) [1%R; 2%R]))] = Ok y' /\
  Forall a_run [al1; al2] /\ same_query_order [al1; al2] /\ score_of y "q" "a" = Some 7%R /\ score_of y' "q" "a" = Some 21%R /\
  distinct_scores y /\ obtained_qrels env_sorted ex_Q /\ same_queries (q_map ex_Q) (r_map y) /\
  docs_distinct env_sorted (q_map ex_Q) (r_map y) /\ metrics_ok ["hits"] (q_map ex_Q).
Proof.
  assert (Hin : forall x, In x [al1; al2] -> In x [al1; al2]) by auto.
  pose proof (al_fusable [al1; al2] ltac:(discriminate) Hin) as Hxs. pose proof (al_order [al1; al2] Hin) as Ho.
  destruct (C51_dispatch env_sorted ins_sort [al1; al2] None [al1; al2] Hxs (le_n 2) eq_refl) as (_ & _ & _ & _ & _ & _ & _ & _ & _ & _ & _ & _ & _ & _ & _ & D & _).
  destruct (C45_wsum env_sorted env_sorted_ok [al1; al2] [1%R; 2%R] "weighted_sum" Hxs (le_n 2)) as (y & Hy & _ & Ay & Qy & Ry & Vy & _).
  assert (Hf : fuse env_sorted ins_sort [al1; al2] None "wsum" [("weights", PL [1%R; 2%R])] = Ok y) by (destruct (D [1%R; 2%R]) as [D1 _]; rewrite D1; exact Hy).
  assert (Ha : Forall a_run [al1; al2]) by apply Hxs.
  destruct (C101_scaled env_sorted ins_sort env_sorted_ok [al1; al2] None "wsum" [1%R; 2%R] 3 y Ha (fun _ => Ho) (or_introl eq_refl) eq_refl Hf) as (y' & Hy' & Hq' & Hs').
  assert (Hk : forall x q d, In x [al1; al2] -> retrieves x q d <-> q = "q" /\ (d = "a" \/ d = "b")).
  { intros x q d Hx. rewrite retrieves_key. pose proof (proj1 (al_ranks x q Hx)) as Hk. rewrite Hk. destruct (String.eqb_spec q "q"); cbn; intuition. }
  assert (Hc : forall q d, retrieves y q d <-> q = "q" /\ (d = "a" \/ d = "b")).
  { intros q d. rewrite Ry. split; [intros (x & Hx & Hd); apply (Hk x); auto|]. intros H. exists al1. split; [now left|]. apply Hk; [now left|exact H]. }
  assert (Hg : forall x s d, In x [al1; al2] -> In (d, s) (results_of x "q") -> score_of x "q" d = Some s).
  { intros x s d Hx. apply results_in. apply (al_run x Hx). }
  assert (Hr1 : results_of al1 "q" = [("b", 2%R); ("a", 1%R)]) by (unfold results_of; rewrite al1_map; reflexivity).
  assert (Hr2 : results_of al2 "q" = [("b", 9%R); ("a", 3%R)]) by (unfold results_of; rewrite al2_map; reflexivity).
  assert (S1a : score_of al1 "q" "a" = Some 1%R) by (apply Hg; [now left|]; rewrite Hr1; cbn; auto).
  assert (S1b : score_of al1 "q" "b" = Some 2%R) by (apply Hg; [now left|]; rewrite Hr1; cbn; auto).
  assert (S2a : score_of al2 "q" "a" = Some 3%R) by (apply Hg; [right; now left|]; rewrite Hr2; cbn; auto).
  assert (S2b : score_of al2 "q" "b" = Some 9%R) by (apply Hg; [right; now left|]; rewrite Hr2; cbn; auto).
  assert (Sa : score_of y "q" "a" = Some 7%R).
  { destruct (proj2 (Hc "q" "a")) as [s Hs]; [auto|]. rewrite Hs. f_equal. rewrite (Vy _ _ _ Hs). unfold weighted_given. cbn [combine map fst snd]. rewrite S1a, S2a. cbn. lra. }
  assert (Sb : score_of y "q" "b" = Some 20%R).
  { destruct (proj2 (Hc "q" "b")) as [s Hs]; [auto|]. rewrite Hs. f_equal. rewrite (Vy _ _ _ Hs). unfold weighted_given. cbn [combine map fst snd]. rewrite S1b, S2b. cbn. lra. }
  exists y, y'. split; [exact Hf|]. split; [exact Hy'|]. split; [exact Ha|]. split; [exact Ho|]. split; [exact Sa|].
  split. { rewrite Hs', Sa. cbn [option_map]. f_equal. lra. }
  split. { intros q d d' s H1 H2. destruct (proj1 (Hc q d) (ex_intro _ _ H1)) as [-> [->| ->]]; destruct (proj1 (Hc "q" d') (ex_intro _ _ H2)) as [_ [->| ->]]; try reflexivity;
    exfalso; assert (Hab : score_of y "q" "a" = score_of y "q" "b") by congruence; rewrite Sa, Sb in Hab; apply (f_equal (fun o : option R => match o with Some v => v | None => 0%R end)) in Hab; lra. }
  split. { apply (OQ_call env_sorted Qrels_empty (QAddScore "q" "a" 1)); [constructor|exact I]. }
  split. { intros q. rewrite (Qy al1 q (or_introl eq_refl)). unfold has_query. rewrite (al_keys al1 (or_introl eq_refl)). reflexivity. }
  split; [|apply T_Evaluate.hits_ok].
  intros q [<-|[]]. assert (Hkeys : forall d, In d (dkeys (of_query (q_map ex_Q) "q") ++ dkeys (of_query (r_map y) "q")) -> d = "a" \/ d = "b").
  { intros d Hd. apply in_app_or in Hd as [[<-|[]]|Hd]; [now left|]. apply (proj1 (Hc "q" d)), retrieves_key. exact Hd. }
  assert (Hne : @doc_key NumR env_sorted "a" <> @doc_key NumR env_sorted "b") by (vm_compute; discriminate).
  intros d d' Hd Hd'. destruct (Hkeys d Hd) as [->| ->], (Hkeys d' Hd') as [->| ->]; auto; intros H; exfalso; apply Hne; auto.
Qed.
