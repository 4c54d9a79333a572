(** T_Report2.v: the boldface of the LaTeX table (C64) *)
From Coq Require Import Lia Sorted.
From Verif Require Import Base Dict Num NumLaws NumCmp Env M_Common M_Qrels M_Run M_Metrics M_Strings M_Text M_Evaluate M_Compare M_Report
  Spec_DS Spec_Compare Spec_Report P_Base P_Dict P_Strings P_Optimize P_Compare T_Compare T_Compare2 T_Report.
Open Scope string_scope.
Open Scope list_scope.
Open Scope nat_scope.

Lemma Ok_inj {A} (a b : A) : Ok a = Ok b -> a = b.
Proof. intros H. injection H as H. exact H. Qed.

Section L.
Context {N : Num} {HL : NumLaws N} {HC : NumCmp N}.
Lemma lt_not_nan (a b : F) : fltb a b = true -> is_nan a = false /\ is_nan b = false.
Proof.
  intros H. split; [destruct (is_nan a) eqn:Ha|destruct (is_nan b) eqn:Hb]; try reflexivity; exfalso.
  - destruct (nan_cmp a b (or_introl Ha)) as (_ & _ & Hc). congruence.
  - destruct (nan_cmp a b (or_intror Hb)) as (_ & _ & Hc). congruence.
Qed.
Lemma le_lt_trans (a b c : F) : fleb a b = true -> fltb b c = true -> fltb a c = true.
Proof.
  rewrite !cmp_lt, !andb_true_iff, !negb_true_iff. intros H1 (H2 & H3). split; [eapply law_le_trans; eassumption|].
  destruct (fleb c a) eqn:Hc; [|reflexivity]. rewrite (law_le_trans c a b Hc H1) in H3. discriminate.
Qed.
Lemma lt_irrefl (a b : F) : fltb a b = true -> fltb b a = false.
Proof. rewrite !cmp_lt, andb_true_iff, negb_true_iff. intros [H ->]. reflexivity. Qed.
Lemma nlt_le (a b : F) : is_nan a = false -> is_nan b = false -> fltb a b = false -> fleb b a = true.
Proof. intros Ha Hb. rewrite (flt_nle a b Ha Hb). now rewrite negb_false_iff. Qed.
End L.

Lemma format_shows {N : Num} (fm : format N) (rp : report N) v s : format_score fm rp v = Ok s <-> shown_score fm rp v s.
Proof.
  unfold format_score, shown_score, fixed. destruct (rp_percent rp).
  - destruct (Z.ltb_spec (rp_digits rp - 2) 0); [split; [discriminate|intros [? _]; lia]|]. rewrite Z.max_r by lia.
    split; [intros H'; injection H' as <-; split; [lia|reflexivity]|intros [_ ->]; reflexivity].
  - destruct (Z.ltb_spec (rp_digits rp) 0); [split; [discriminate|intros [? _]; lia]|].
    split; [intros H'; injection H' as <-; split; [lia|reflexivity]|intros [_ ->]; reflexivity].
Qed.

Section B.
Context {N : Num} {HL : NumLaws N} {HC : NumCmp N} (fm : format N) (rp : report N).

Definition best_inv (m : string) (done : list string) (st : option string * F) : Prop :=
  is_nan (snd st) = false /\
  (forall b r, In b done -> rounded_mean fm rp m b r -> fltb (snd st) r = false) /\
  match fst st with
  | None => snd st = fzero
  | Some a => fltb fzero (snd st) = true /\ rounded_mean fm rp m a (snd st) /\
      exists i, nth_error done i = Some a /\ forall j b r, j < i -> nth_error done j = Some b -> rounded_mean fm rp m b r -> is_nan r = false -> fltb r (snd st) = true
  end.
Lemma best_fold m st : foldr_m (fun (st : option string * F) model =>
                      do s <- result_of rp model m;
                      let r := f_round fm s (rp_digits rp) in
                      if fltb (snd st) r then Ok (Some model, r) else Ok st) (rp_names rp) (None, fzero) = Ok st -> best_inv m (rp_names rp) st.
Proof.
  apply (foldr_m_inv _ (best_inv m)).
  - intros done a rest s s1 _ (I1 & I2 & I3) Hs. unfold result_of, dget_r in Hs.
    destruct (dget (rp_results rp) a) as [d|] eqn:Hd; cbn [bindr] in Hs; [|discriminate]. destruct (dget d m) as [v|] eqn:Hv; cbn [bindr] in Hs; [|discriminate].
    assert (Ha : forall r, rounded_mean fm rp m a r <-> r = f_round fm v (rp_digits rp)).
    { intros r. unfold rounded_mean, dget2. rewrite Hd, Hv. split; [intros (s' & H1 & H2); now injection H1 as <-|]. intros ->. eauto. }
    set (r := f_round fm v (rp_digits rp)) in *. destruct (fltb (snd s) r) eqn:Hlt; injection Hs as <-.
    + destruct (lt_not_nan _ _ Hlt) as [_ Hnr]. unfold best_inv. cbn [fst snd]. split; [exact Hnr|].
      assert (Hbelow : forall b t, In b done -> rounded_mean fm rp m b t -> is_nan t = false -> fltb t r = true).
      { intros b t Hb Ht Hn. apply (le_lt_trans t (snd s) r); [|exact Hlt]. apply nlt_le; [exact I1|exact Hn|]. now apply (I2 b). }
      split; [|split; [|split]].
      * intros b t Hb Ht. apply in_app_or in Hb as [Hb|[ <- |[]]].
        -- destruct (is_nan t) eqn:Hn; [apply (nan_cmp r t (or_intror Hn))|]. apply lt_irrefl. now apply (Hbelow b).
        -- apply Ha in Ht as ->. destruct (fltb r r) eqn:Hrr; [|reflexivity]. rewrite (lt_irrefl r r Hrr) in Hrr. discriminate.
      * destruct (fst s) as [a'|]; [|now rewrite I3 in Hlt]. destruct I3 as (Hpos & _). apply (le_lt_trans fzero (snd s) r); [|exact Hlt].
        rewrite cmp_lt in Hpos. now apply andb_true_iff in Hpos.
      * now apply Ha.
      * exists (length done). split; [rewrite nth_error_app2, Nat.sub_diag by lia; reflexivity|]. intros j b t Hj Hb. rewrite nth_error_app1 in Hb by exact Hj. apply (Hbelow b). now apply nth_error_In in Hb.
    + split; [exact I1|]. split.
      * intros b t Hb Ht. apply in_app_or in Hb as [Hb|[ <- |[]]]; [now apply (I2 b)|]. now apply Ha in Ht as ->.
      * destruct (fst s) as [a'|]; [|exact I3]. destruct I3 as (Hpos & Hr & i & Hi & Hfirst). split; [exact Hpos|]. split; [exact Hr|]. exists i.
        assert (Hil : i < length done) by (apply nth_error_Some; congruence). split; [now rewrite nth_error_app1|].
        intros j b t Hj Hb. rewrite nth_error_app1 in Hb by lia. exact (Hfirst j b t Hj Hb).
  - split; [apply law_ofZ_nan|]. split; [intros b r []|reflexivity].
Qed.
End B.

(** ** C64: the model in boldface has the highest rounded mean, it is the first such model, and its
    rounded mean is positive; there is none if no rounded mean is positive. *)
Theorem C64_best : forall (N : Num), NumLaws N -> NumCmp N -> forall (fm : format N) (rp : report N) m best, best_model fm rp m = Ok best ->
  match best with
  | Some a => is_best fm rp m a
  | None => forall b t, In b (rp_names rp) -> rounded_mean fm rp m b t -> fltb fzero t = false
  end.
Proof.
  intros N HL HC fm rp m best H. unfold best_model in H.
  match type of H with bindr ?r _ = _ => destruct r as [st|] eqn:Hf; cbn [bindr] in H; [|discriminate] end. injection H as <-.
  apply best_fold in Hf as (I1 & I2 & I3). destruct (fst st) as [a|].
  - destruct I3 as (Hpos & Hr & i & Hi & Hfirst). exists i, (snd st). auto.
  - rewrite I3 in I2. exact I2.
Qed.
(** There is at most one best model. *)
Lemma best_unique (N : Num) (HL : NumLaws N) (HC : NumCmp N) (fm : format N) (rp : report N) m a b : is_best fm rp m a -> is_best fm rp m b -> a = b.
Proof.
  intros (i & r & Ha & Hr & Hp & Hmax & Hfst) (j & t & Hb & Ht & Hq & Hmax' & Hfst').
  destruct (lt_not_nan _ _ Hp) as [_ Hnr]. destruct (lt_not_nan _ _ Hq) as [_ Hnt].
  pose proof (Hmax b t (nth_error_In _ _ Hb) Ht) as H1. pose proof (Hmax' a r (nth_error_In _ _ Ha) Hr) as H2.
  destruct (lt_eq_lt_dec i j) as [[Hij|Hij]|Hij].
  - rewrite (Hfst' i a r Hij Ha Hr Hnr) in H1. discriminate.
  - congruence.
  - rewrite (Hfst j b t Hij Hb Ht Hnt) in H2. discriminate.
Qed.
Lemma best_model_iff (N : Num) (HL : NumLaws N) (HC : NumCmp N) (fm : format N) (rp : report N) m best a : best_model fm rp m = Ok best -> (best = Some a <-> is_best fm rp m a).
Proof.
  intros H. apply C64_best in H; [|exact HL|exact HC]. destruct best as [b|].
  - split; [intros H'; now injection H' as <-|]. intros Ha. f_equal. exact (best_unique N HL HC fm rp m b a H Ha).
  - split; [discriminate|]. intros (i & r & Ha & Hr & Hp & _). rewrite (H a r (nth_error_In _ _ Ha) Hr) in Hp. discriminate.
Qed.
(** It exists for every metric of the report of a comparison. *)
Theorem C64_total : forall (N : Num) (E : env N) (T : tests N) (fm : format N) y xs metrics test n max_p digits percent mk y' xs' rep,
  dict_ok (q_map y) -> Forall (fun x => dict2_ok (r_map x)) xs ->
  compare E T y xs metrics test n max_p digits percent mk = (y', xs', Ok rep) ->
  forall m, In m metrics -> is_Ok (best_model fm rep m) = true.
Proof.
  intros N E T fm y xs metrics test n max_p digits percent mk y' xs' rep Hy Hxs H m Hm.
  destruct (C68_results _ _ _ _ _ _ _ _ _ _ _ _ _ _ _ Hy Hxs H) as (_ & _ & _ & _ & _ & Hst & Hres & _).
  unfold best_model.
  match goal with |- is_Ok (bindr (foldr_m ?f ?l ?s0) _) = _ => destruct (fun H => foldr_m_total f (fun _ => True) l H s0 I) as (st & Hst' & _); [|rewrite Hst'; reflexivity] end.
  intros a s Ha _. destruct (Hst a Ha) as (x & Sx). destruct (Hres a x m Sx Hm) as (l & _ & Hd). unfold dget2 in Hd. unfold result_of, dget_r.
  destruct (dget (rp_results rep) a) as [d|]; [|discriminate]. cbn [bindr]. rewrite Hd. cbn [bindr]. destruct (fltb _ _); eauto.
Qed.

(** The rows of the LaTeX table: the letter and the name of the model, then for every metric its
    formatted mean, in boldface iff the model is the best one, with its superscript and phantoms. *)
Lemma drop_last_snoc (s : string) c : drop_last_char (s ++ String c "") = s.
Proof.
  unfold drop_last_char. induction s as [|a s IH]; [reflexivity|].
  change ((String a s ++ String c "")%string) with (String a (s ++ String c "")%string).
  change (String.length (String a (s ++ String c "")%string) - 1) with (String.length (s ++ String c "")%string - 0). rewrite Nat.sub_0_r.
  assert (Hl : String.length (s ++ String c "")%string = S (String.length (s ++ String c "")%string - 1)) by (clear; induction s; cbn; lia).
  rewrite Hl. change (String a (String.substring 0 (String.length (s ++ String c "")%string - 1) (s ++ String c "")%string) = String a s). f_equal. exact IH.
Qed.
Lemma join_cells (l : list string) (x : string) : String.concat nl (map (fun c => (c ++ "&")%string) l ++ [x]) = String.concat ("&" ++ nl) (l ++ [x]).
Proof.
  induction l as [|a l IH]; [reflexivity|]. cbn [map app].
  assert (Hc : forall sep (b : string) r, r <> [] -> String.concat sep (b :: r) = (b ++ sep ++ String.concat sep r)%string) by (intros sep b [|? ?] Hr; [congruence|reflexivity]).
  rewrite !Hc by (destruct l; discriminate). rewrite IH, !sapp_assoc. reflexivity.
Qed.
Lemma prefixb_iff a s : prefixb a s = true <-> exists u, s = (a ++ u)%string.
Proof.
  split; [|intros (u & ->); apply prefixb_self]. revert s. induction a as [|c a IH]; intros s H; [now exists s|]. destruct s as [|k s]; [discriminate|]. cbn [prefixb] in H.
  apply andb_true_iff in H as [H1 H2]. apply Ascii.eqb_eq in H1 as ->. destruct (IH s H2) as (u & ->). now exists u.
Qed.
Lemma replace_drop a b n : forall u t, String.length u = n -> replace_go a b n (u ++ t) = replace_go a b 0 t.
Proof. induction n as [|n IH]; intros [|x u] t Hu; try discriminate; [reflexivity|]. cbn [append replace_go]. apply IH. now injection Hu. Qed.
Lemma str_replace_ok a b s : a <> "" -> replaced a b s (str_replace a b s).
Proof.
  intros Ha. unfold str_replace. remember (String.length s) as n eqn:Hn. revert s Hn. induction n as [n IH] using lt_wf_ind. intros s Hn.
  destruct s as [|c s]; [constructor|]. cbn [replace_go]. destruct (prefixb a (String c s)) eqn:Hp.
  - apply prefixb_iff in Hp as (u & Hu). destruct a as [|x a]; [congruence|]. injection Hu as <- ->. change (String c (a ++ u)) with (String c a ++ u)%string.
    cbn [String.length]. rewrite Nat.sub_0_r || rewrite Nat.sub_succ, Nat.sub_0_r. rewrite replace_drop by reflexivity. constructor.
    apply (IH (String.length u)); [|reflexivity]. subst n. cbn [String.length]. clear. induction a as [|k a IHa]; cbn in *; lia.
  - constructor; [intros u Hu; rewrite (proj2 (prefixb_iff a (String c s))) in Hp by eauto; discriminate|]. apply (IH (String.length s)); [subst n; cbn; lia|reflexivity].
Qed.
Lemma test_label_in t lab : get_stat_test_label t = Ok lab -> In (t, lab) test_names.
Proof.
  unfold get_stat_test_label, dget_r, stat_test_labels. cbn [dget]. destruct (String.eqb_spec t "fisher") as [ -> |]; [intros H; injection H as <-; cbn; tauto|].
  destruct (String.eqb_spec t "student") as [ -> |]; [intros H; injection H as <-; cbn; tauto|]. destruct (String.eqb_spec t "tukey") as [ -> |]; [intros H; injection H as <-; cbn; tauto|discriminate].
Qed.
Lemma concat_header (f : string -> string) labels : forall x, (x ++ String.concat "" (map (fun l => (nl ++ f l)%string) labels))%string = String.concat nl (x :: map f labels).
Proof.
  induction labels as [|l labels IH]; intros x; [cbn; now rewrite sapp_nil_r|]. change (String.concat nl (x :: map f (l :: labels))) with (x ++ nl ++ String.concat nl (f l :: map f labels))%string.
  rewrite <- IH. f_equal. cbn [map]. destruct (map (fun l0 => (nl ++ f l0)%string) labels) as [|y ys] eqn:Hm; cbn [String.concat]; [now rewrite ?sapp_nil_r|]. cbn [append]. now rewrite !sapp_assoc.
Qed.
Lemma document_eq test mp labels body :
  (latex_preamble ++ nl ++ latex_prefix test mp labels ++ nl ++ body ++ nl ++ latex_suffix)%string = latex_document test mp labels body.
Proof.
  unfold latex_document. set (h := String.concat nl ("& \textbf{Model}" :: _)).
  assert (Hh : h = ("& \textbf{Model}" ++ String.concat "" (map (fun l => (nl ++ "& \textbf{" ++ l ++ "}")%string) labels))%string) by (symmetry; apply (concat_header (fun l => ("& \textbf{" ++ l ++ "}")%string))).
  rewrite Hh. clearbody h. unfold latex_preamble, latex_prefix, latex_suffix. cbn [String.concat]. rewrite !sapp_assoc. reflexivity.
Qed.
Theorem C64_latex : forall (N : Num), NumLaws N -> NumCmp N -> forall (fm : format N) (rp : report N) doc, to_latex fm rp = Ok doc ->
  exists test labels rows escaped body, In (rp_test rp, test) test_names /\ Forall2 (fun m l => get_metric_label m = Ok l) (rp_metrics rp) labels /\
    Forall2 (fun im row => row_shows fm rp (fst im) (snd im) row) (enumerate (rp_names rp)) rows /\
    replaced "_" "\_" (String.concat nl rows) escaped /\ replaced "$^{}$" "" escaped body /\
    doc = latex_document test (f_str fm (rp_max_p rp)) labels body.
Proof.
  intros N HL HC fm rp doc H. unfold to_latex in H.
  match type of H with bindr ?r _ = _ => destruct r as [bests|] eqn:Hb; cbn [bindr] in H; [|discriminate] end.
  destruct (get_stat_test_label (rp_test rp)) as [lab|] eqn:Hlab; cbn [bindr] in H; [|discriminate].
  destruct (map_m get_metric_label (rp_metrics rp)) as [labs|] eqn:Hlabs; cbn [bindr] in H; [|discriminate].
  destruct (map_m (latex_row fm rp bests) (enumerate (rp_names rp))) as [rows|] eqn:Hrows; cbn [bindr] in H; [|discriminate]. apply Ok_inj in H. subst doc.
  exists lab, labs, rows, (str_replace "_" "\_" (String.concat nl rows)), (str_replace "$^{}$" "" (str_replace "_" "\_" (String.concat nl rows))).
  split; [exact (test_label_in _ _ Hlab)|].
  split; [clear - Hlabs; revert labs Hlabs; induction (rp_metrics rp) as [|a l IH]; intros labs H; cbn [map_m] in H; [injection H as <-; constructor|];
    destruct (get_metric_label a) eqn:Hf; cbn [bindr] in H; [|discriminate]; destruct (map_m get_metric_label l); cbn [bindr] in H; [|discriminate]; injection H as <-; constructor; auto|].
  split; [|split; [apply str_replace_ok; discriminate|split; [apply str_replace_ok; discriminate|apply document_eq]]]. clear Hlabs Hlab.
  assert (Hbests : forall m b, dget bests m = Some b -> best_model fm rp m = Ok b).
  { clear - Hb. revert Hb. apply (foldr_m_inv _ (fun _ (d : dict (option string)) => forall m b, dget d m = Some b -> best_model fm rp m = Ok b)).
    - intros done a rest s s1 _ I Hs m b Hm. destruct (best_model fm rp a) as [b'|] eqn:Hba; cbn [bindr] in Hs; [|discriminate]. injection Hs as <-.
      destruct (string_dec m a) as [ -> |Hne]; [rewrite dget_dset_eq in Hm; now injection Hm as <-|]. rewrite dget_dset_neq in Hm by congruence. now apply I.
    - intros m b Hm. discriminate. }
  clear Hb. revert rows Hrows.
  induction (enumerate (rp_names rp)) as [|[i model] l IH]; intros rows Hrows; cbn [map_m] in Hrows; [injection Hrows as <-; constructor|].
  destruct (latex_row fm rp bests (i, model)) as [row|] eqn:Hrow; cbn [bindr] in Hrows; [|discriminate].
  destruct (map_m _ l) as [rows'|]; cbn [bindr] in Hrows; [|discriminate]. injection Hrows as <-. constructor; [|now apply IH]. clear IH. cbn [fst snd].
  unfold latex_row in Hrow. cbn [fst snd] in Hrow. unfold nth_r in Hrow. destruct (nth_error chars i) as [c|] eqn:Hc; cbn [bindr] in Hrow; [|discriminate].
  destruct (map_m _ (rp_metrics rp)) as [cells|] eqn:Hcells in Hrow; cbn [bindr] in Hrow; [|discriminate].
  assert (Hshow : exists cells', cells = map (fun s => (s ++ "&")%string) cells' /\ Forall2 (cell_shows fm rp model) (rp_metrics rp) cells').
  { clear Hrow. revert cells Hcells. induction (rp_metrics rp) as [|m ms IHm]; intros cells Hcells; cbn [map_m] in Hcells; [injection Hcells as <-; exists []; split; [reflexivity|constructor]|].
    destruct (do b <- dget_r bests m; latex_cell fm rp b model m) as [cell|] eqn:Hcell; cbn [bindr] in Hcells; [|discriminate].
    destruct (map_m _ ms) as [cells'|]; cbn [bindr] in Hcells; [|discriminate]. injection Hcells as <-. destruct (IHm _ eq_refl) as (cs & -> & Hf).
    unfold dget_r in Hcell. destruct (dget bests m) as [best|] eqn:Hbm; cbn [bindr] in Hcell; [|discriminate]. apply Hbests in Hbm.
    unfold latex_cell in Hcell. unfold result_of, dget_r in Hcell. destruct (dget (rp_results rp) model) as [d|] eqn:Hd; cbn [bindr] in Hcell; [|discriminate].
    destruct (dget d m) as [v|] eqn:Hv; cbn [bindr] in Hcell; [|discriminate]. destruct (format_score fm rp v) as [f|] eqn:Hfs; cbn [bindr] in Hcell; [|discriminate].
    destruct (get_superscript_for_latex rp model m) as [sup|] eqn:Hsup; cbn [bindr] in Hcell; [|discriminate].
    destruct (get_phantoms_for_latex rp model m) as [ph|] eqn:Hph; cbn [bindr] in Hcell; [|discriminate]. apply Ok_inj in Hcell. subst cell.
    assert (Hg : forall text, (best = Some model /\ text = ("\textbf{" ++ f ++ "}")%string \/ best <> Some model /\ text = f) ->
       cell_shows fm rp model m (text ++ "$^{" ++ sup ++ "}$\hphantom{$^{" ++ ph ++ "}$} ")%string).
    { intros text Htext. exists v, f, sup, ph. unfold dget2. rewrite Hd. split; [assumption|]. split; [now apply format_shows|]. split; [now apply C63_superscripts|]. split; [now apply C63_superscripts|].
      pose proof (best_model_iff N HL HC fm rp m best model Hbm) as Hbi. destruct Htext as [[H1 ->]|[H1 ->]]; [left|right]; (split; [rewrite <- Hbi; exact H1|]); [|reflexivity].
      now rewrite !sapp_assoc. }
    match goal with |- context [String.append (if ?b then ?x else ?y) _] => set (text := if b then x else y) end.
    exists ((text ++ "$^{" ++ sup ++ "}$\hphantom{$^{" ++ ph ++ "}$} ")%string :: cs). split; [cbn [map]; f_equal|constructor; [apply Hg|exact Hf]].
    - rewrite !sapp_assoc. reflexivity.
    - unfold text. destruct best as [a|]; [destruct (String.eqb_spec a model) as [ -> |Hne]; [left; auto|right; split; [congruence|reflexivity]]|right; split; [discriminate|reflexivity]]. }
  destruct Hshow as (cs & -> & Hf). destruct (rev (map (fun s => (s ++ "&")%string) cs)) as [|lastc before] eqn:Hrev; [discriminate|]. apply Ok_inj in Hrow. subst row.
  exists c, cs. split; [exact Hc|]. split; [exact Hf|].
  assert (Hcs : exists cs0 x, cs = cs0 ++ [x]) by (destruct cs as [|x0 cs0] using rev_ind; [discriminate|eauto]). destruct Hcs as (cs0 & x & ->).
  rewrite map_app, rev_app_distr in Hrev. cbn [map rev app] in Hrev. injection Hrev as <- <-. rewrite rev_involutive. unfold str_join.
  change "&" with (String "&" ""). rewrite drop_last_snoc. change (String "&" "") with "&". rewrite join_cells. reflexivity.
Qed.
