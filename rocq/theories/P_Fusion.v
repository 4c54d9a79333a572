(** P_Fusion.v: lemmas about the combination loops of M_Fusion.v, for any number type *)
From Verif Require Import Base Dict Num NumLaws Env M_Common M_Qrels M_Run M_Norm M_Fusion
  P_Base P_Dict P_Common P_Norm.
Open Scope string_scope.
Open Scope list_scope.
Open Scope nat_scope.

Definition ofq {V} (m : dict (dict V)) (q : string) : dict V := match dget m q with Some r => r | None => [] end.
Definition has_doc {V} (rs : list (dict V)) (d : string) : bool := existsb (fun r => dmem r d) rs.
Lemma has_doc_in {V} (rs : list (dict V)) d : has_doc rs d = true <-> exists r, In r rs /\ In d (dkeys r).
Proof.
  unfold has_doc. rewrite existsb_exists. split; intros (r & Hr & Hd); exists r; split; auto; now apply dmem_in.
Qed.
Lemma dget2_ofq {V} (m : dict (dict V)) q d : dget2 m q d = dget (ofq m q) d.
Proof. unfold dget2, ofq. now destruct (dget m q). Qed.

Section P.
Context {N : Num} (E : env N) (HE : env_ok E).

Section One.
Variable formula : list (dict F) -> string -> result F.
Variable rs : list (dict F).
Variable g : string -> F.
Hypothesis Hf : forall d, has_doc rs d = true -> formula rs d = Ok (g d).
Let inv (ks : list string) (acc : dict F) : Prop :=
  dict_ok acc /\ forall d, dget acc d = if in_dec string_dec d ks then Some (g d) else None.
Lemma comb_inner l : forall ks acc, (forall d, In d l -> has_doc rs d = true) -> inv ks acc ->
  exists acc', foldr_m (fun combined d =>
       if match dget combined d with Some v => feqb v fzero | None => true end
       then do v <- formula rs d; Ok (dset combined d v)
       else Ok combined) l acc = Ok acc' /\ inv (ks ++ l) acc'.
Proof.
  induction l as [|d l IH]; intros ks acc Hl [Hok Hi].
  - exists acc. split; [reflexivity|]. rewrite app_nil_r. split; auto.
  - cbn [foldr_m]. assert (Hset : inv (ks ++ [d]) (dset acc d (g d))).
    { split; [now apply dict_ok_dset|]. intros d'. rewrite dget_dset.
      destruct (String.eqb_spec d' d); subst.
      - destruct (in_dec string_dec d (ks ++ [d])) as [Hy|Hn]; [reflexivity|]. exfalso. apply Hn. rewrite in_app_iff. cbn. auto.
      - rewrite Hi. destruct (in_dec string_dec d' ks) as [H|H], (in_dec string_dec d' (ks ++ [d])) as [H'|H']; auto;
          rewrite in_app_iff in H'; cbn in H'; exfalso; intuition. }
    assert (Hset' : (match dget acc d with Some v => feqb v fzero | None => true end) = false -> inv (ks ++ [d]) acc).
    { intros Hd. split; auto. intros d'. rewrite Hi.
      destruct (in_dec string_dec d' ks) as [H|H], (in_dec string_dec d' (ks ++ [d])) as [H'|H']; auto;
        rewrite in_app_iff in H'; cbn in H'; try (exfalso; intuition; fail).
      destruct H' as [H'|[->|[]]]; [easy|]. rewrite Hi in Hd. destruct (in_dec string_dec d' ks); [easy|discriminate]. }
    replace (ks ++ d :: l) with ((ks ++ [d]) ++ l) by now rewrite <- app_assoc.
    destruct (match dget acc d with Some v => feqb v fzero | None => true end).
    + rewrite Hf by (apply Hl; now left). cbn [bindr]. apply IH; auto. intros; apply Hl; now right.
    + cbn [bindr]. apply IH; auto. intros; apply Hl; now right.
Qed.
Lemma comb_results_ok : exists acc, comb_results formula rs = Ok acc /\ dict_ok acc /\
  forall d, dget acc d = if has_doc rs d then Some (g d) else None.
Proof.
  unfold comb_results.
  assert (H : forall l ks acc, (forall r, In r l -> In r rs) -> inv ks acc ->
    exists acc', foldr_m (fun combined res =>
      foldr_m (fun combined d =>
         if match dget combined d with Some v => feqb v fzero | None => true end
         then do v <- formula rs d; Ok (dset combined d v)
         else Ok combined) (dkeys res) combined) l acc = Ok acc' /\ inv (ks ++ concat (map dkeys l)) acc').
  { induction l as [|r l IH]; intros ks acc Hl Hi.
    - exists acc. split; [reflexivity|]. cbn. now rewrite app_nil_r.
    - cbn [foldr_m map concat]. destruct (comb_inner (dkeys r) ks acc) as (acc1 & H1 & Hi1); auto.
      { intros d Hd. apply has_doc_in. exists r. split; auto. apply Hl. now left. }
      rewrite H1. cbn [bindr]. rewrite app_assoc. apply IH; auto. intros; apply Hl; now right. }
  destruct (H rs [] []) as (acc & Ha & Hok & Hi); auto.
  { split; [constructor|]. intros d. reflexivity. }
  exists acc. split; [exact Ha|]. split; [exact Hok|]. intros d. rewrite Hi. cbn [app].
  destruct (in_dec string_dec d (concat (map dkeys rs))) as [Hd|Hd]; destruct (has_doc rs d) eqn:Hh; auto; exfalso.
  - apply in_concat in Hd as (ks & Hks & Hd). apply in_map_iff in Hks as (r & <- & Hr).
    assert (has_doc rs d = true); [|congruence]. apply has_doc_in. eauto.
  - apply Hd. apply has_doc_in in Hh as (r & Hr & Hd'). apply in_concat. exists (dkeys r). split; auto. now apply in_map.
Qed.
End One.

Lemma comb_parallel_ok tag formula m0 ms φ : dict_ok m0 ->
  (forall q m, In q (dkeys m0) -> In m ms -> In q (dkeys m)) ->
  (forall q d, In q (dkeys m0) -> has_doc (map (fun m => ofq m q) (m0 :: ms)) d = true ->
     formula (map (fun m => ofq m q) (m0 :: ms)) d = Ok (φ q d)) ->
  exists out, comb_parallel E tag formula (m0 :: ms) = Ok out /\ dkeys out = dkeys m0 /\ dict2_ok out /\
    forall q d, In q (dkeys m0) ->
      dget2 out q d = if has_doc (map (fun m => ofq m q) (m0 :: ms)) d then Some (φ q d) else None.
Proof.
  intros Hok Hk Hf. set (rs := fun q => map (fun m : dict (dict F) => ofq m q) (m0 :: ms)).
  set (h := fun q => match comb_results formula (rs q) with Ok r => r | Err _ => [] end).
  assert (Hh : forall q, In q (dkeys m0) -> comb_results formula (rs q) = Ok (h q) /\ dict_ok (h q) /\
     forall d, dget (h q) d = if has_doc (rs q) d then Some (φ q d) else None).
  { intros q Hq. destruct (comb_results_ok formula (rs q) (φ q)) as (acc & Ha & Hd & Hg); [intros d Hd; now apply Hf|].
    unfold h. rewrite Ha. auto. }
  exists (map (fun q => (q, h q)) (dkeys m0)).
  assert (Hkeys : dkeys (map (fun q => (q, h q)) (dkeys m0)) = dkeys m0).
  { unfold dkeys at 1. rewrite map_map. cbn. apply map_id. }
  split; [|split; [exact Hkeys|split]].
  - unfold comb_parallel.
    rewrite (prange_r_ok _ _ _ _ (fun i => match nth_error (dkeys m0) i with Some q => h q | None => [] end)).
    + cbn [bindr]. rewrite convert_results_ok; [|exact Hok|now rewrite map_length, seq_length].
      f_equal. rewrite (map_seq_nth_error (dkeys m0) _ h).
      * clear. induction (dkeys m0); cbn; congruence.
      * intros i q Hi. now rewrite Hi.
    + apply (sched_perm _ HE).
    + intros i Hi. unfold nth_r. destruct (nth_error (dkeys m0) i) as [q|] eqn:Hq; [|apply nth_error_None in Hq; lia].
      cbn [bindr]. assert (Hqi : In q (dkeys m0)) by (eapply nth_error_In; eauto).
      rewrite map_m_get by (intros m [<-|Hm]; auto). cbn [bindr]. apply (Hh q Hqi).
  - split; [unfold dict_ok; now rewrite Hkeys|]. intros q r. rewrite (const_map_get h (dkeys m0) q).
    destruct (in_dec string_dec q (dkeys m0)) as [Hq|]; [|discriminate]. intros H. inversion H; subst. apply (Hh q Hq).
  - intros q d Hq. unfold dget2. rewrite (const_map_get h (dkeys m0) q).
    destruct (in_dec string_dec q (dkeys m0)) as [_|]; [|easy]. apply (Hh q Hq).
Qed.

Lemma comb_eq tag formula name ms out : comb_parallel E tag formula ms = Ok out ->
  comb E tag formula name ms = Ok (Run_sort E (new_run (Some name) out)).
Proof. intros H. unfold comb. now rewrite H. Qed.

(** errors of the formula reach the caller *)
Lemma comb_inner_err (formula : list (dict F) -> string -> result F) rs e l : forall acc, (exists d, In d l) -> (forall d, In d l -> dget acc d = None) ->
  (forall d, In d l -> formula rs d = Err e) ->
  foldr_m (fun combined d =>
       if match dget combined d with Some v => feqb v fzero | None => true end
       then do v <- formula rs d; Ok (dset combined d v)
       else Ok combined) l acc = Err e.
Proof.
  intros acc [d0 Hd0] Hacc Hf. destruct l as [|d l]; [easy|]. cbn [foldr_m].
  rewrite Hacc by now left. rewrite Hf by now left. reflexivity.
Qed.
Lemma comb_results_err (formula : list (dict F) -> string -> result F) rs e : (exists d, has_doc rs d = true) ->
  (forall d, has_doc rs d = true -> formula rs d = Err e) -> comb_results formula rs = Err e.
Proof.
  intros [d0 Hd0] Hf. unfold comb_results.
  assert (Hex : exists r, In r rs /\ dkeys r <> []).
  { apply has_doc_in in Hd0 as (r & Hr & Hd). exists r. split; auto. intros H. now rewrite H in Hd. }
  assert (H : forall l, (forall r, In r l -> In r rs) -> (exists r, In r l /\ dkeys r <> []) ->
    foldr_m (fun combined res =>
      foldr_m (fun combined d =>
         if match dget combined d with Some v => feqb v fzero | None => true end
         then do v <- formula rs d; Ok (dset combined d v)
         else Ok combined) (dkeys res) combined) l [] = Err e).
  { induction l as [|r l IH]; intros Hl (r1 & Hr1 & Hne); [easy|]. cbn [foldr_m].
    destruct (dkeys r) as [|d ks] eqn:Hk.
    - cbn [foldr_m bindr]. apply IH; [intros; apply Hl; now right|]. destruct Hr1 as [<-|Hr1]; [congruence|]. eauto.
    - rewrite (comb_inner_err formula rs e (d :: ks)).
      + reflexivity.
      + exists d. now left.
      + reflexivity.
      + intros d' Hd'. apply Hf. apply has_doc_in. exists r. split; [apply Hl; now left|]. now rewrite Hk. }
  apply H; auto.
Qed.

(** ** lists of scores of one document *)
Lemma present_map rs (d : string) : present rs d =
  concat (map (fun res : dict F => match dget res d with Some v => [v] | None => [] end) rs).
Proof. reflexivity. Qed.
Lemma get_all_ne dflt rs d : has_doc rs d = true -> exists x l, get_all dflt rs d = x :: l.
Proof. destruct rs; cbn; [discriminate|]. intros _. unfold get_all. cbn. eauto. Qed.

Lemma map_m_enum_nth {A B C} (ws : list A) (f : A -> B -> C) : forall (l : list B) j pre, length pre = j ->
  length l + j <= length ws -> firstn j ws = pre ->
  map_m (fun ir => do w <- nth_r ws (fst ir); Ok (f w (snd ir))) (enum_from j l) = Ok (map (fun wr => f (fst wr) (snd wr)) (combine (skipn j ws) l)).
Proof.
  induction l as [|b l IH]; intros j pre Hp Hl Hpre.
  - cbn. now rewrite combine_nil.
  - cbn [enum_from map_m fst snd]. cbn [length] in Hl. unfold nth_r at 1.
    destruct (nth_error ws j) as [w|] eqn:Hw; [|apply nth_error_None in Hw; lia]. cbn [bindr].
    rewrite (IH (S j) (firstn (S j) ws)); [|apply firstn_length_le; lia|lia|reflexivity]. cbn [bindr].
    assert (Hsk : skipn j ws = w :: skipn (S j) ws).
    { clear - Hw. revert ws Hw. induction j; intros [|a ws] H; cbn in *; try discriminate; [congruence|]. rewrite (IHj ws H). reflexivity. }
    rewrite Hsk. reflexivity.
Qed.
Lemma map_m_enum {A B C} (ws : list A) (f : A -> B -> C) (l : list B) : length l <= length ws ->
  map_m (fun ir => do w <- nth_r ws (fst ir); Ok (f w (snd ir))) (enumerate l) = Ok (map (fun wr => f (fst wr) (snd wr)) (combine ws l)).
Proof. intros H. unfold enumerate. now rewrite (map_m_enum_nth ws f l 0 []) by (cbn; lia || reflexivity). Qed.
Lemma map_m_err {A B} (f : A -> result B) e l : (exists a, In a l /\ f a = Err e) ->
  (forall a, In a l -> f a = Err e \/ exists b, f a = Ok b) -> map_m f l = Err e.
Proof.
  induction l as [|a l IH]; intros (a0 & Ha & He) H; [easy|]. cbn [map_m].
  destruct (H a (or_introl eq_refl)) as [H1|[b H1]]; rewrite H1; cbn [bindr]; auto.
  destruct Ha as [->|Ha]; [congruence|]. rewrite IH; auto. - exists a0. auto. - intros; apply H; now right.
Qed.

Lemma wsum_formula_ok ws rs d : length rs <= length ws ->
  wsum_formula ws rs d = Ok (fsum (map (fun wr => fmul (fst wr) match dget (snd wr) d with Some v => v | None => fzero end) (combine ws rs))).
Proof.
  intros H. unfold wsum_formula.
  rewrite (map_m_enum ws (fun w (r : dict F) => fmul w match dget r d with Some v => v | None => fzero end)) by exact H.
  reflexivity.
Qed.
Lemma wsum_formula_err ws rs d : length ws < length rs -> wsum_formula ws rs d = Err IndexError.
Proof.
  intros H. unfold wsum_formula. rewrite (map_m_err _ IndexError); [reflexivity| |].
  - destruct (nth_error rs (length ws)) as [r|] eqn:Hr; [|apply nth_error_None in Hr; lia].
    exists (length ws, r). split; [now apply enumerate_in|]. cbn [fst]. unfold nth_r.
    now rewrite (proj2 (nth_error_None ws (length ws))) by lia.
  - intros [i r] _. cbn [fst snd]. unfold nth_r. destruct (nth_error ws i); cbn; eauto.
Qed.
Lemma map_m_eq {A B} (f g : A -> result B) l : (forall a, In a l -> f a = g a) -> map_m f l = map_m g l.
Proof. induction l as [|a l IH]; cbn; auto. intros H. rewrite H by now left. now rewrite IH by auto. Qed.
Lemma present_weighted_ok ws rs d : length rs <= length ws ->
  present_weighted ws rs d = Ok (concat (map (fun wr => match dget (snd wr) d with Some v => [(v, fst wr)] | None => [] end) (combine ws rs))).
Proof.
  intros H. unfold present_weighted.
  assert (Hm := map_m_enum ws (fun w (r : dict F) => match dget r d with Some v => [(v, w)] | None => [] end) rs H).
  match type of Hm with ?a = _ => match goal with |- context[bindr ?b _] => assert (Hab : b = a) end end.
  { apply map_m_eq. intros [i r] Hi. cbn [fst snd]. apply enumerate_in in Hi.
    assert (i < length ws) by (apply Nat.lt_le_trans with (length rs); auto; apply nth_error_Some; congruence).
    unfold nth_r. destruct (nth_error ws i) eqn:Hw; [|apply nth_error_None in Hw; lia]. cbn [bindr]. now destruct (dget r d). }
  rewrite Hab, Hm. reflexivity.
Qed.

(** ** rank based scores *)
Lemma pos_scores_ok (g : nat -> result F) (h : nat -> F) r : dict_ok r ->
  (forall i, i < length r -> g i = Ok (h i)) -> pos_scores g r = Ok (by_pos h r).
Proof.
  intros Hr Hg. unfold pos_scores. apply pos_loop_ok; auto. intros acc id Hi. now rewrite Hg.
Qed.
Lemma pos_scores_err (g : nat -> result F) e r j : j < length r -> g j = Err e ->
  (forall i, i < j -> exists v, g i = Ok v) -> pos_scores g r = Err e.
Proof.
  intros Hj Hg Hb. unfold pos_scores.
  assert (H : forall (l : list string) k acc, k <= j -> j < length l + k ->
    foldr_m (fun (acc : dict F) (id : nat * string) => do v <- g (fst id); Ok (dset acc (snd id) v)) (enum_from k l) acc = Err e).
  { induction l as [|d l IH]; intros k acc Hk Hl; cbn in Hl; [lia|]. cbn [enum_from foldr_m fst snd].
    destruct (Nat.eq_dec k j) as [->|Hne].
    - now rewrite Hg.
    - destruct (Hb k) as [v Hv]; [lia|]. rewrite Hv. cbn [bindr]. apply IH; lia. }
  apply H; [lia|]. unfold dkeys. rewrite map_length. lia.
Qed.

(** rescored runs: same queries, same documents, new scores by position *)
Definition posmap (h : dict F -> nat -> F) (m : dict (dict F)) : dict (dict F) :=
  map (fun qr => (fst qr, by_pos (h (snd qr)) (snd qr))) m.
Lemma posmap_ofq h m q : ofq (posmap h m) q = by_pos (h (ofq m q)) (ofq m q).
Proof.
  unfold ofq, posmap. rewrite (map_inner_get (fun r => by_pos (h r) r) m q). destruct (dget m q); reflexivity.
Qed.
Lemma posmap_keys h m : dkeys (posmap h m) = dkeys m.
Proof. unfold posmap. apply (dmap_keys (fun r => by_pos (h r) r)). Qed.
Lemma posmap_ok h m : dict2_ok m -> dict2_ok (posmap h m).
Proof.
  intros H. unfold posmap. apply (map_inner_ok (fun r => by_pos (h r) r) m H).
  intros r Hr. unfold dict_ok. now rewrite by_pos_keys.
Qed.
Lemma rescore_ok tag f (h : dict F -> nat -> F) (xs : list (Run N)) : Forall (fun x => dict2_ok (r_map x)) xs ->
  (forall r, dict_ok r -> f r = Ok (by_pos (h r) r)) ->
  rescore E tag f xs = Ok (map (fun x => posmap h (r_map x)) xs).
Proof.
  intros Hx Hf. unfold rescore. apply map_m_ok. intros x Hin. rewrite Forall_forall in Hx.
  now rewrite (per_query_ok E HE _ _ (fun r => by_pos (h r) r)) by auto.
Qed.
Lemma rescore_with_ok {P} tag (f : P -> dict F -> result (dict F)) (h : P -> dict F -> nat -> F) ps (xs : list (Run N)) :
  Forall (fun x => dict2_ok (r_map x)) xs -> length xs <= length ps ->
  (forall p r, In p ps -> dict_ok r -> f p r = Ok (by_pos (h p r) r)) ->
  rescore_with E tag f ps xs = Ok (map (fun px => posmap (h (fst px)) (r_map (snd px))) (combine ps xs)).
Proof.
  intros Hx Hl Hf. unfold rescore_with.
  rewrite <- (map_m_enum ps (fun p (x : Run N) => posmap (h p) (r_map x)) xs Hl).
  apply map_m_eq. intros [i x] Hi. cbn [fst snd]. unfold nth_r. apply enumerate_in in Hi.
  destruct (nth_error ps i) as [p|] eqn:Hp; [|reflexivity]. cbn [bindr]. rewrite Forall_forall in Hx.
  rewrite (per_query_ok E HE _ _ (fun r => by_pos (h p r) r)); auto.
  - apply Hx. eapply nth_error_In; eauto.
  - intros r Hr. apply Hf; auto. eapply nth_error_In; eauto.
Qed.
End P.
