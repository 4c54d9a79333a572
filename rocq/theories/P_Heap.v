(** P_Heap.v: proofs about the memory model *)
From Verif Require Import Base Dict Num Env M_Common M_Qrels M_Run M_History M_Evaluate M_Norm M_Fusion M_Heap
  NumLaws P_Base P_Dict P_Common P_Fusion3 P_Closure.
Open Scope list_scope.
Open Scope nat_scope.

(** ** Dictionaries with mapped values *)
Definition mapv {V W} (f : V -> W) (d : dict V) : dict W := map (fun kv => (fst kv, f (snd kv))) d.
Lemma mapv_keys {V W} (f : V -> W) d : dkeys (mapv f d) = dkeys d.
Proof. unfold mapv, dkeys. now rewrite map_map. Qed.
Lemma mapv_vals {V W} (f : V -> W) d : dvals (mapv f d) = map f (dvals d).
Proof. unfold mapv, dvals. now rewrite !map_map. Qed.
Lemma mapv_get {V W} (f : V -> W) d k : dget (mapv f d) k = option_map f (dget d k).
Proof. induction d as [|[k' v] d IH]; cbn; [reflexivity|]. destruct (String.eqb k k'); auto. Qed.
Lemma mapv_mem {V W} (f : V -> W) d k : dmem (mapv f d) k = dmem d k.
Proof. unfold dmem. rewrite mapv_get. now destruct (dget d k). Qed.
Lemma mapv_set {V W} (f : V -> W) d k v : mapv f (dset d k v) = dset (mapv f d) k (f v).
Proof. induction d as [|[k' v'] d IH]; cbn; [reflexivity|]. destruct (String.eqb k k'); cbn; [reflexivity|]. f_equal. exact IH. Qed.
Lemma mapv_del {V W} (f : V -> W) d k : mapv f (ddel d k) = ddel (mapv f d) k.
Proof. induction d as [|[k' v'] d IH]; cbn; [reflexivity|]. destruct (String.eqb k k'); cbn; [reflexivity|]. f_equal. exact IH. Qed.
Lemma mapv_sort {V W} (f : V -> W) d : mapv f (sort_dict_by_key d) = sort_dict_by_key (mapv f d).
Proof.
  unfold sort_dict_by_key. rewrite mapv_keys. generalize (str_sort (dkeys d)). intros ks. change (@nil (string * W)) with (mapv f (@nil (string * V))).
  generalize (@nil (string * V)). induction ks as [|k ks IH]; intros nd; cbn [fold_left]; [reflexivity|].
  rewrite IH, mapv_get. f_equal. destruct (dget d k); cbn; [apply mapv_set|reflexivity].
Qed.
Lemma mapv_ext {V W} (f g : V -> W) d : (forall v, In v (dvals d) -> f v = g v) -> mapv f d = mapv g d.
Proof. intros H. apply map_ext_in. intros [k v] Hi. cbn. f_equal. apply H. unfold dvals. apply in_map_iff. now exists (k, v). Qed.
Lemma dvals_ddel_incl {V} (d : dict V) k v : In v (dvals (ddel d k)) -> In v (dvals d).
Proof. induction d as [|[k' v'] d IH]; cbn; [easy|]. destruct (String.eqb k k'); cbn; intuition. Qed.
Lemma NoDup_ddel {V} (d : dict V) k : NoDup (dvals d) -> NoDup (dvals (ddel d k)).
Proof.
  induction d as [|[k' v'] d IH]; cbn; [easy|]. intros H. inversion H; subst. destruct (String.eqb k k'); cbn; [assumption|].
  constructor; [|auto]. intros Hc. apply dvals_ddel_incl in Hc. contradiction.
Qed.
Lemma dvals_dset_incl {V} (d : dict V) k v w : In w (dvals (dset d k v)) -> w = v \/ In w (dvals d).
Proof. induction d as [|[k' v'] d IH]; cbn; [intuition|]. destruct (String.eqb k k'); cbn; intuition. Qed.
Lemma NoDup_dset {V} (d : dict V) k v : NoDup (dvals d) -> ~ In v (dvals d) -> NoDup (dvals (dset d k v)).
Proof.
  induction d as [|[k' v'] d IH]; cbn; [intros; constructor; auto|]. intros H Hv. inversion H; subst. destruct (String.eqb k k'); cbn.
  - constructor; [|assumption]. intuition.
  - constructor; [|apply IH; [assumption|intuition]]. intros Hc. apply dvals_dset_incl in Hc as [ -> |Hc]; [intuition|contradiction].
Qed.
Lemma dget_vals {V} (d : dict V) k v : dget d k = Some v -> In v (dvals d).
Proof. intros H. apply dget_Some_in in H. unfold dvals. apply in_map_iff. now exists (k, v). Qed.

Section G.
Context {V : Type}.
Notation heap := (heap V).
Lemma deref_mapv (h : heap) m : deref h m = mapv (hget h) m.
Proof. reflexivity. Qed.
Lemma hput_length (h : heap) : forall l r, length (hput h l r) = length h.
Proof. induction h as [|a h IH]; intros [|l] r; cbn; auto. Qed.
Lemma hget_hput_eq (h : heap) : forall l r, l < length h -> hget (hput h l r) l = r.
Proof. induction h as [|a h IH]; intros [|l] r; cbn; intros H; try lia; [reflexivity|]. apply IH. lia. Qed.
Lemma hget_hput_ne (h : heap) : forall l r l', l' <> l -> hget (hput h l r) l' = hget h l'.
Proof. induction h as [|a h IH]; intros [|l] r [|l'] H; cbn; auto; try congruence. apply IH. congruence. Qed.
Lemma hget_app (h h2 : heap) l : l < length h -> hget (h ++ h2) l = hget h l.
Proof. intros H. unfold hget. now apply app_nth1. Qed.
Lemma hget_app_new (h h2 : heap) i : hget (h ++ h2) (length h + i) = hget h2 i.
Proof. unfold hget. rewrite app_nth2 by lia. f_equal. lia. Qed.

Definition bounded (h : heap) (m : hmap) : Prop := forall l, In l (dvals m) -> l < length h.
(** the memory is extended and written only at places owned by [m]; [m'] owns such places or new ones *)
Definition upd (h : heap) (m : hmap) (h' : heap) (m' : hmap) : Prop :=
  length h <= length h' /\
  (forall l, l < length h -> ~ In l (dvals m) -> hget h' l = hget h l) /\
  (forall l, In l (dvals m') -> l < length h' /\ (In l (dvals m) \/ length h <= l)) /\
  NoDup (dvals m') /\ dict_ok m'.
Definition own (h : heap) (m : hmap) : Prop := bounded h m /\ NoDup (dvals m) /\ dict_ok m.
Lemma upd_own h m h' m' : upd h m h' m' -> own h' m'.
Proof. intros (_ & _ & H & Hn & Hk). split; [|now split]. intros l Hl. now apply H. Qed.
Lemma upd_refl h m : own h m -> upd h m h m.
Proof. intros (Hb & Hn & Hk). repeat split; auto. Qed.
Lemma upd_trans h m h1 m1 h2 m2 : upd h m h1 m1 -> upd h1 m1 h2 m2 -> upd h m h2 m2.
Proof.
  intros (A1 & A2 & A3 & A4 & A5) (B1 & B2 & B3 & B4 & B5). split; [lia|]. split; [|split; [|now split]].
  - intros l Hl Hn. rewrite B2; [now apply A2|lia|]. intros Hc. destruct (A3 l Hc) as [_ [?|?]]; [contradiction|lia].
  - intros l Hl. destruct (B3 l Hl) as [Hb [Hi|Hi]]; (split; [exact Hb|]); [|right; lia].
    destruct (A3 l Hi) as [_ ?]. assumption.
Qed.
(** a new inner dictionary is stored *)
Lemma new_ok h m q r : own h m -> upd h m (h ++ [r]) (dset m q (length h)) /\
  deref (h ++ [r]) (dset m q (length h)) = dset (deref h m) q r.
Proof.
  intros (Hb & Hn & Hk). split.
  - rewrite <- (app_nil_r (h ++ [r])), app_nil_r. split; [rewrite app_length; lia|]. split; [intros l Hl _; now apply hget_app|]. split.
    + intros l Hl. rewrite app_length. cbn. apply dvals_dset_incl in Hl as [ -> |Hl]; [split; [lia|right; lia]|]. pose proof (Hb l Hl). split; [lia|now left].
    + split; [|now apply dict_ok_dset]. apply NoDup_dset; [exact Hn|]. intros Hc. pose proof (Hb _ Hc). lia.
  - rewrite !deref_mapv, mapv_set. f_equal.
    + apply mapv_ext. intros l Hl. apply hget_app. now apply Hb.
    + pose proof (hget_app_new h [r] 0) as H. rewrite Nat.add_0_r in H. exact H.
Qed.
(** an inner dictionary is written in place *)
Lemma deref_hput h (m : hmap) : forall q l r, bounded h m -> NoDup (dvals m) -> dget m q = Some l -> deref (hput h l r) m = dset (deref h m) q r.
Proof.
  induction m as [|[k l0] m IH]; intros q l r Hb Hn H; [discriminate|]. cbn in *. inversion Hn; subst.
  destruct (String.eqb q k) eqn:Hq.
  - injection H as ->. f_equal.
    + rewrite hget_hput_eq; [reflexivity|]. apply Hb. now left.
    + apply mapv_ext. intros l' Hl'. apply hget_hput_ne. intros ->. contradiction.
  - f_equal.
    + rewrite hget_hput_ne; [reflexivity|]. intros ->. apply H2. eapply dget_vals. exact H.
    + apply IH; auto. intros l' Hl'. apply Hb. now right.
Qed.
Lemma put_ok h m q l r : own h m -> dget m q = Some l -> upd h m (hput h l r) m /\ deref (hput h l r) m = dset (deref h m) q r.
Proof.
  intros (Hb & Hn & Hk) H. split; [|now apply deref_hput]. split; [now rewrite hput_length|]. split.
  - intros l' _ Hl. apply hget_hput_ne. intros ->. apply Hl. eapply dget_vals. exact H.
  - split; [|now split]. intros l' Hl. rewrite hput_length. split; [now apply Hb|now left].
Qed.

Lemma add_score_ok h m q d s : own h m -> let '(h', m') := h_add_score h m q d s in
  upd h m h' m' /\ deref h' m' = add_score_map (deref h m) q d s.
Proof.
  intros Ho. unfold h_add_score, add_score_map. change (deref h m) with (mapv (hget h) m). rewrite mapv_get.
  destruct (dget m q) as [l|] eqn:Hq; cbn [option_map].
  - rewrite Hq, mapv_get, Hq. cbn [option_map]. apply put_ok; assumption.
  - rewrite dget_dset_eq. destruct (new_ok h m q [] Ho) as [H1 H2].
    destruct (put_ok (h ++ [[]]) (dset m q (length h)) q (length h) (dset (hget (h ++ [[]]) (length h)) d s)) as [H3 H4]; [eapply upd_own; exact H1|apply dget_dset_eq|].
    split; [eapply upd_trans; eassumption|]. refine (eq_trans H4 _). refine (eq_trans (f_equal (fun z => dset z q _) H2) _). change (deref h m) with (mapv (hget h) m).
    rewrite dget_dset_eq. f_equal. pose proof (hget_app_new h [[]] 0) as H. rewrite Nat.add_0_r in H. rewrite H. reflexivity.
Qed.

Section Sort.
Context {N : Num} (E : env N) (negf : V -> F).
Lemma fold_dset_combine {W} (ks : list string) (vs : list W) : NoDup ks -> length ks = length vs ->
  fold_left (fun s kv => dset s (fst kv) (snd kv)) (combine ks vs) [] = combine ks vs.
Proof.
  intros Hn Hl. apply dict_of_list_id. replace (map fst (combine ks vs)) with ks; [exact Hn|].
  clear Hn. revert vs Hl. induction ks as [|k ks IH]; intros [|v vs] Hl; cbn in *; try lia; [reflexivity|]. f_equal. apply IH. lia.
Qed.
Lemma combine_keys {W} (ks : list string) (vs : list W) : length ks = length vs -> dkeys (combine ks vs) = ks.
Proof. revert vs. induction ks as [|k ks IH]; intros [|v vs] Hl; cbn in *; try lia; [reflexivity|]. f_equal. apply IH. lia. Qed.
Lemma combine_vals {W} (ks : list string) (vs : list W) : length ks = length vs -> dvals (combine ks vs) = vs.
Proof. revert vs. induction ks as [|k ks IH]; intros [|v vs] Hl; cbn in *; try lia; [reflexivity|]. f_equal. apply IH. lia. Qed.
Lemma mapv_combine {W W'} (f : W -> W') ks : forall vs, mapv f (combine ks vs) = combine ks (map f vs).
Proof. induction ks as [|k ks IH]; intros [|v vs]; cbn; [reflexivity..|]. f_equal. apply IH. Qed.
Lemma hget_block (h rs : heap) : map (hget (h ++ rs)) (seq (length h) (length rs)) = rs.
Proof.
  revert h. induction rs as [|r rs IH]; intros h; cbn; [reflexivity|]. f_equal.
  - pose proof (hget_app_new h (r :: rs) 0) as H. rewrite Nat.add_0_r in H. exact H.
  - specialize (IH (h ++ [r])). rewrite app_length in IH. cbn in IH. rewrite Nat.add_1_r, <- app_assoc in IH. exact IH.
Qed.
(** a block of new inner dictionaries *)
Lemma block_ok h m ks rs : NoDup ks -> length ks = length rs ->
  upd h m (h ++ rs) (combine ks (seq (length h) (length rs))) /\
  deref (h ++ rs) (combine ks (seq (length h) (length rs))) = combine ks rs.
Proof.
  intros Hn Hl. split.
  - split; [rewrite app_length; lia|]. split; [intros l Hl' _; now apply hget_app|].
    unfold dict_ok. rewrite combine_vals, combine_keys by (rewrite seq_length; exact Hl). split; [|split; [apply seq_NoDup|exact Hn]].
    intros l Hi. apply in_seq in Hi. rewrite app_length. split; [lia|right; lia].
  - rewrite deref_mapv, mapv_combine, hget_block. reflexivity.
Qed.
Lemma sort_ok h m : own h m -> let '(h', m') := h_sort E negf h m in
  upd h m h' m' /\ deref h' m' = sort_dict_of_dict_by_value E negf (sort_dict_by_key (deref h m)).
Proof.
  intros (Hb & Hn & Hk). unfold h_sort. destruct (sort_dict_by_key_spec m Hk) as [Hks _].
  set (m1 := sort_dict_by_key m) in *.
  assert (Hk1 : NoDup (dkeys m1)) by (rewrite Hks; now apply str_sort_nodup).
  assert (Hlen : length (dkeys m1) = length (dvals m1)) by (unfold dkeys, dvals; now rewrite !map_length).
  rewrite (fold_enum_nth _ _ (fun nd k v => dset nd k v)) by now rewrite seq_length.
  rewrite fold_dset_combine by (try assumption; now rewrite seq_length).
  set (rs := map (fun l => sort_dict_by_value E negf (hget h l)) (dvals m1)).
  assert (Hrs : length rs = length (dvals m1)) by (unfold rs; now rewrite map_length).
  destruct (block_ok h m (dkeys m1) rs Hk1) as [H1 H2]; [now rewrite Hrs|]. rewrite Hrs in H1, H2. split; [exact H1|]. rewrite H2.
  rewrite deref_mapv, <- mapv_sort. fold m1. rewrite sort_dict_of_dict_by_value_eq by (unfold dict_ok; now rewrite mapv_keys).
  unfold rs. clear. induction m1 as [|[k l] m1 IH]; cbn; [reflexivity|]. f_equal. exact IH.
Qed.
Lemma sort_fresh h m : own h m -> upd h [] (fst (h_sort E negf h m)) (snd (h_sort E negf h m)).
Proof.
  intros (Hb & Hn & Hk). unfold h_sort. destruct (sort_dict_by_key_spec m Hk) as [Hks _].
  set (m1 := sort_dict_by_key m) in *.
  assert (Hk1 : NoDup (dkeys m1)) by (rewrite Hks; now apply str_sort_nodup).
  assert (Hlen : length (dkeys m1) = length (dvals m1)) by (unfold dkeys, dvals; now rewrite !map_length).
  rewrite (fold_enum_nth _ _ (fun nd k v => dset nd k v)) by now rewrite seq_length.
  rewrite fold_dset_combine by (try assumption; now rewrite seq_length).
  set (rs := map (fun l => sort_dict_by_value E negf (hget h l)) (dvals m1)).
  assert (Hrs : length rs = length (dvals m1)) by (unfold rs; now rewrite map_length).
  destruct (block_ok h [] (dkeys m1) rs Hk1) as [H1 H2]; [now rewrite Hrs|]. rewrite Hrs in H1. exact H1.
Qed.
Lemma bulk_ok qs dss sss : forall i h m, own h m ->
  match h_add_bulk_from i h m qs dss sss with (h', m', e) => upd h m h' m' /\ (deref h' m', e) = add_bulk_from i (deref h m) qs dss sss end.
Proof.
  induction qs as [|q qs IH]; intros i h m Ho; cbn [h_add_bulk_from add_bulk_from]; [split; [now apply upd_refl|reflexivity]|].
  destruct (nth_error dss i) as [ds|]; [|split; [now apply upd_refl|reflexivity]].
  destruct (nth_error sss i) as [ss|]; [|split; [now apply upd_refl|reflexivity]].
  destruct (create_dict_from_lists ds ss) as [r|e]; [|split; [now apply upd_refl|reflexivity]].
  destruct (new_ok h m q r Ho) as [H1 H2]. specialize (IH (S i) (h ++ [r]) (dset m q (length h)) (upd_own _ _ _ _ H1)).
  destruct (h_add_bulk_from (S i) (h ++ [r]) (dset m q (length h)) qs dss sss) as [[h' m'] e]. destruct IH as [H3 H4].
  split; [eapply upd_trans; eassumption|]. now rewrite H4, H2.
Qed.
Lemma add_and_sort_ok h m qs dss sss : own h m ->
  match h_add_and_sort E negf h m qs dss sss with
  | (h', m', e) => upd h m h' m' /\
      match e with
      | Some e => add_and_sort E negf (deref h m) qs dss sss = (deref h' m', Err e)
      | None => snd (add_and_sort E negf (deref h m) qs dss sss) = Ok (deref h' m')
      end
  end.
Proof.
  intros Ho. unfold h_add_and_sort, add_and_sort, add_bulk. pose proof (bulk_ok qs dss sss 0 h m Ho) as H.
  destruct (h_add_bulk_from 0 h m qs dss sss) as [[h' m'] e]. destruct H as [H1 H2]. rewrite <- H2. destruct e as [e|]; [now split|].
  pose proof (sort_ok h' m' (upd_own _ _ _ _ H1)) as H3. destruct (h_sort E negf h' m') as [h2 m2]. destruct H3 as [H3 H4].
  split; [eapply upd_trans; eassumption|]. cbn. now rewrite H4.
Qed.
End Sort.
End G.

Lemma del_ok {V} (h : heap V) m q : own h m -> upd h m h (ddel m q) /\ deref h (ddel m q) = ddel (deref h m) q.
Proof.
  intros (Hb & Hn & Hk). split; [|rewrite !deref_mapv; apply mapv_del]. split; [lia|]. split; [auto|]. split; [|split; [now apply NoDup_ddel|now apply dict_ok_ddel]].
  intros l Hl. apply dvals_ddel_incl in Hl. split; [now apply Hb|now left].
Qed.
Lemma align_ok {N : Num} (h : heap F) m qm : own h m -> let '(h', m') := h_align h m qm in
  upd h m h' m' /\ deref h' m' = make_comparable_map (deref h m) qm.
Proof.
  intros Ho. unfold h_align, make_comparable_map.
  assert (H1 : forall qs h m, own h m ->
     match fold_left (fun (hm : heap F * hmap) q => if dmem (snd hm) q then hm else (fst hm ++ [[]], dset (snd hm) q (length (fst hm)))) qs (h, m) with
     | (h', m') => upd h m h' m' /\ deref h' m' = fold_left (fun (acc : dict (dict F)) q => if dmem acc q then acc else dset acc q ([] : dict F)) qs (deref h m) end).
  { clear. induction qs as [|q qs IH]; intros h m Ho; cbn [fold_left]; [split; [now apply upd_refl|reflexivity]|].
    replace (dmem (deref h m) q) with (dmem m q) by (symmetry; apply mapv_mem). cbn [fst snd]. destruct (dmem m q); [apply IH; exact Ho|].
    destruct (new_ok h m q [] Ho) as [H1 H2]. specialize (IH _ _ (upd_own _ _ _ _ H1)).
    revert IH. match goal with |- (let (_, _) := ?X in _) -> (let (_, _) := ?Y in _) => change Y with X; destruct X as [h' m'] end. intros [H3 H4].
    split; [eapply upd_trans; eassumption|]. refine (eq_trans H4 _). now apply f_equal. }
  assert (H2 : forall qs (h : heap F) m, own h m -> 
     let m' := fold_left (fun acc q => if dmem qm q then acc else ddel acc q) qs m in
     upd h m h m' /\ deref h m' = fold_left (fun acc q => if dmem qm q then acc else ddel acc q) qs (deref h m)).
  { clear. induction qs as [|q qs IH]; intros h m Ho; cbn [fold_left]; [split; [now apply upd_refl|reflexivity]|].
    destruct (dmem qm q); [apply IH; exact Ho|]. destruct (del_ok h m q Ho) as [H1 H2]. 
    destruct (IH _ _ (upd_own _ _ _ _ H1)) as [H3 H4]. split; [eapply upd_trans; eassumption|]. now rewrite H4, H2. }
  specialize (H1 (dkeys qm) h m Ho). match type of H1 with let (_, _) := ?X in _ => destruct X as [h1 m1] end. destruct H1 as [H1 H3].
  destruct (H2 (dkeys m1) h1 m1 (upd_own _ _ _ _ H1)) as [H4 H5]. split; [eapply upd_trans; eassumption|]. rewrite H5, <- H3. cbn zeta.
  replace (dkeys (deref h1 m1)) with (dkeys m1) by (symmetry; apply mapv_keys). reflexivity.
Qed.

Ltac fldq := cbn [q_map q_sorted q_name hq_map hq_sorted hq_name fst snd].
Ltac fldr := cbn [r_map r_sorted r_name r_scores r_mean r_std hr_map hr_sorted hr_name hr_scores hr_mean hr_std hr_with fst snd].
(** ** Qrels *)
Section Q.
Context {N : Num} (E : env N) (HE : env_ok E).
Lemma set_level_ok h m lvl : own h m ->
  upd h m (h_set_level E h m lvl) m /\ deref (h_set_level E h m lvl) m = set_relevance_level_map E (deref h m) lvl.
Proof.
  intros Ho. pose proof Ho as (Hb & Hn & Hk). unfold h_set_level, set_relevance_level_map.
  replace (dkeys (deref h m)) with (dkeys m) by (symmetry; apply mapv_keys). replace (dvals (deref h m)) with (map (hget h) (dvals m)) by (symmetry; apply mapv_vals).
  set (order := e_sched E _ _).
  assert (Hnd : NoDup order). { eapply Permutation_NoDup; [apply Permutation_sym, (sched_perm _ HE)|apply seq_NoDup]. }
  clearbody order.
  assert (Hin : forall q l items h0 acc, own h0 m -> dget m q = Some l -> acc = deref h0 m ->
    let h1 := fold_left (fun (h : heap Z) (ds : string * Z) => hput h l (dset (hget h l) (fst ds) (snd ds - (lvl - 1))%Z)) items h0 in
    upd h0 m h1 m /\ (forall l', l' <> l -> hget h1 l' = hget h0 l') /\
    deref h1 m = fold_left (fun acc' ds => match dget acc' q with
                | Some inner => dset acc' q (dset inner (fst ds) (snd ds - (lvl - 1))%Z) | None => acc' end) items acc).
  { intros q l. induction items as [|ds items IH]; intros h0 acc Ho0 Hq ->; cbn [fold_left]; [split; [now apply upd_refl|split; [auto|reflexivity]]|].
    destruct (put_ok h0 m q l (dset (hget h0 l) (fst ds) (snd ds - (lvl - 1))%Z) Ho0 Hq) as [H1 H2].
    replace (dget (deref h0 m) q) with (Some (hget h0 l)) by (rewrite deref_mapv, mapv_get, Hq; reflexivity).
    destruct (IH (hput h0 l (dset (hget h0 l) (fst ds) (snd ds - (lvl - 1))%Z)) (dset (deref h0 m) q (dset (hget h0 l) (fst ds) (snd ds - (lvl - 1))%Z)) (upd_own _ _ _ _ H1) Hq (eq_sym H2)) as (H3 & H4 & H5).
    split; [eapply upd_trans; eassumption|]. split; [|exact H5]. intros l' Hl'. rewrite H4 by exact Hl'. now apply hget_hput_ne. }
  assert (Hgen : forall order hc, NoDup order -> own hc m -> (forall i l, In i order -> nth_error (dvals m) i = Some l -> hget hc l = hget h l) ->
    let h' := fold_left (fun h i => match nth_error (dkeys m) i with
       | Some q => match dget m q with
           | Some l => fold_left (fun h ds => hput h l (dset (hget h l) (fst ds) (snd ds - (lvl - 1))%Z)) (hget h l) h
           | None => h end
       | None => h end) order hc in
    upd hc m h' m /\ deref h' m = fold_left (fun acc i => match nth_error (dkeys m) i, nth_error (map (hget h) (dvals m)) i with
       | Some q, Some r =>
           fold_left (fun acc' ds => match dget acc' q with
                | Some inner => dset acc' q (dset inner (fst ds) (snd ds - (lvl - 1))%Z)
                | None => acc' end) r acc
       | _, _ => acc end) order (deref hc m)).
  { clear order Hnd. induction order as [|i order IH]; intros hc Hno Hoc Hsame; cbn [fold_left]; [split; [now apply upd_refl|reflexivity]|].
    inversion Hno; subst. rewrite nth_error_map.
    destruct (nth_error (dkeys m) i) as [q|] eqn:Hki.
    2:{ apply IH; auto. intros j l Hj. apply Hsame. now right. }
    destruct (dget_nth_key m i q Hk Hki) as (l & Hvi & Hq). rewrite Hq.
    assert (Hvi' : nth_error (dvals m) i = Some l) by (unfold dvals; now rewrite nth_error_map, Hvi).
    rewrite Hvi'. cbn [option_map]. rewrite (Hsame i l (or_introl eq_refl) Hvi').
    destruct (Hin q l (hget h l) hc (deref hc m) Hoc Hq eq_refl) as (A1 & A2 & A3).
    rewrite <- A3. destruct (IH (fold_left (fun (h : heap Z) (ds : string * Z) => hput h l (dset (hget h l) (fst ds) (snd ds - (lvl - 1))%Z)) (hget h l) hc)) as [B1 B2]; auto.
    - eapply upd_own. exact A1.
    - intros j l' Hj Hl'. rewrite A2; [apply (Hsame j l'); [now right|exact Hl']|]. intros ->.
      assert (i = j); [|subst; contradiction]. apply (proj1 (NoDup_nth_error (dvals m)) Hn); [apply nth_error_Some; congruence|congruence].
    - split; [eapply upd_trans; eassumption|exact B2]. }
  apply Hgen; auto.
Qed.

Definition q_upd h y h' y' (v : Qrels) : Prop := upd h (hq_map y) h' (hq_map y') /\ q_value h' y' = v.
Lemma hq_sort_ok h y : own h (hq_map y) -> let '(h', y') := hq_sort E h y in q_upd h y h' y' (Qrels_sort E (q_value h y)).
Proof.
  intros Ho. unfold hq_sort. pose proof (sort_ok E q_negf h (hq_map y) Ho) as H. destruct (h_sort E q_negf h (hq_map y)) as [h' m'].
  destruct H as [H1 H2]. split; [exact H1|]. unfold q_value, Qrels_sort. fldq. now rewrite H2.
Qed.
Lemma hq_add_multi_ok h y qs dss sss : own h (hq_map y) -> let '(h', y') := hq_add_multi E h y qs dss sss in
  q_upd h y h' y' (fst (Qrels_add_multi E (q_value h y) qs dss sss)).
Proof.
  intros Ho. unfold hq_add_multi. pose proof (add_and_sort_ok E q_negf h (hq_map y) qs dss sss Ho) as H.
  destruct (h_add_and_sort E q_negf h (hq_map y) qs dss sss) as [[h' m'] [e|]]; destruct H as [H1 H2]; (split; [exact H1|]); unfold q_value, Qrels_add_multi; fldq.
  - now rewrite H2.
  - destruct (add_and_sort E q_negf (deref h (hq_map y)) qs dss sss) as [m [m2|e]]; cbn [snd] in H2; [|discriminate]. injection H2 as ->. reflexivity.
Qed.
Lemma hq_step_ok h y o : own h (hq_map y) -> let '(h', y') := hq_step E h y o in q_upd h y h' y' (fst (qrels_step E (q_value h y) o)).
Proof.
  intros Ho. destruct o; cbn [hq_step qrels_step fst].
  - pose proof (add_score_ok h (hq_map y) q d s Ho) as H. destruct (h_add_score h (hq_map y) q d s) as [h' m']. destruct H as [H1 H2].
    split; [exact H1|]. unfold q_value, Qrels_add_score. fldq. now rewrite H2.
  - now apply hq_add_multi_ok.
  - now apply hq_add_multi_ok.
  - now apply hq_sort_ok.
  - destruct (set_level_ok h (hq_map y) l Ho) as [H1 H2]. split; [exact H1|]. unfold q_value, Qrels_set_relevance_level. fldq. now rewrite H2.
  - unfold Qrels_to_typed_list. cbn [fst q_sorted q_value]. destruct (hq_sorted y); [|now apply hq_sort_ok]. split; [now apply upd_refl|reflexivity].
Qed.
End Q.

(** ** Runs *)
Section R.
Context {N : Num} (E : env N).
Definition r_upd h x h' x' (v : Run N) : Prop := upd h (hr_map x) h' (hr_map x') /\ r_value h' x' = v.
Lemma hr_sort_ok h x : own h (hr_map x) -> let '(h', x') := hr_sort E h x in r_upd h x h' x' (Run_sort E (r_value h x)).
Proof.
  intros Ho. unfold hr_sort. pose proof (sort_ok E r_negf h (hr_map x) Ho) as H. destruct (h_sort E r_negf h (hr_map x)) as [h' m'].
  destruct H as [H1 H2]. split; [exact H1|]. unfold r_value, Run_sort, Run_with_map. fldr. now rewrite H2.
Qed.
Lemma hr_add_multi_ok h x qs dss sss : own h (hr_map x) -> let '(h', x') := hr_add_multi E h x qs dss sss in
  r_upd h x h' x' (fst (Run_add_multi E (r_value h x) qs dss sss)).
Proof.
  intros Ho. unfold hr_add_multi. pose proof (add_and_sort_ok E r_negf h (hr_map x) qs dss sss Ho) as H.
  destruct (h_add_and_sort E r_negf h (hr_map x) qs dss sss) as [[h' m'] [e|]]; destruct H as [H1 H2]; (split; [exact H1|]); unfold r_value, Run_add_multi, Run_with_map; fldr.
  - now rewrite H2.
  - destruct (add_and_sort E r_negf (deref h (hr_map x)) qs dss sss) as [m [m2|e]]; cbn [snd] in H2; [|discriminate]. injection H2 as ->. reflexivity.
Qed.
Lemma hr_make_comparable_ok h x y : own h (hr_map x) -> let '(h', x') := hr_make_comparable E h x (q_map y) in
  r_upd h x h' x' (Run_make_comparable E (r_value h x) y).
Proof.
  intros Ho. unfold hr_make_comparable. pose proof (align_ok h (hr_map x) (q_map y) Ho) as H. destruct (h_align h (hr_map x) (q_map y)) as [h' m'].
  destruct H as [H1 H2]. pose proof (hr_sort_ok h' (hr_with x m' (hr_sorted x)) (upd_own _ _ _ _ H1)) as H3.
  destruct (hr_sort E h' (hr_with x m' (hr_sorted x))) as [h2 x2]. destruct H3 as [H3 H4]. split; [eapply upd_trans; eassumption|].
  rewrite H4. unfold Run_make_comparable. f_equal. unfold r_value, Run_with_map. fldr. now rewrite H2.
Qed.
Lemma hr_step_ok h x o : own h (hr_map x) -> let '(h', x') := hr_step E h x o in r_upd h x h' x' (fst (run_step E (r_value h x) o)).
Proof.
  intros Ho. destruct o; cbn [hr_step run_step fst].
  - pose proof (add_score_ok h (hr_map x) q d s Ho) as H. destruct (h_add_score h (hr_map x) q d s) as [h' m']. destruct H as [H1 H2].
    split; [exact H1|]. unfold r_value, Run_add_score, Run_with_map. fldr. now rewrite H2.
  - now apply hr_add_multi_ok.
  - now apply hr_add_multi_ok.
  - now apply hr_sort_ok.
  - now apply hr_make_comparable_ok.
  - unfold Run_to_typed_list. cbn [fst r_sorted r_value]. destruct (hr_sorted x); [|now apply hr_sort_ok]. split; [now apply upd_refl|reflexivity].
Qed.
End R.
