(** T_Keywords.v: keyword arguments and names of fuse (C51) *)
From Coq Require Import List String ZArith Reals Lia Bool Arith.
From Verif Require Import Base Dict Num NumLaws Env EnvEx M_Common M_Run M_Norm M_Fusion Spec_Norm Spec_Fusion Spec_Keywords
  P_Dict P_Fusion3 P_Closure T_Fusion T_Fusion4 T_Norm T_Norm3.
Import ListNotations.
Open Scope string_scope.
Open Scope list_scope.
Open Scope nat_scope.

Section K.
Context (E : env NumR) (pysort : (nat -> nat -> bool) -> list nat -> list nat).
Lemma only_unexpected allowed (ps : @params NumR) k : In k (dkeys ps) -> ~ In k allowed -> only allowed ps = Err TypeError.
Proof.
  intros Hk Hn. unfold only. destruct (forallb _ _) eqn:Hf; [|reflexivity]. rewrite forallb_forall in Hf.
  specialize (Hf k Hk). apply existsb_exists in Hf as (k' & Hk' & He). apply String.eqb_eq in He. subst. easy.
Qed.
Lemma arg_missing {A} (conv : @pval NumR -> result A) ps k : ~ In k (dkeys ps) -> arg conv ps k None = Err TypeError.
Proof. intros H. unfold arg. apply dget_None in H. now rewrite H. Qed.
Lemma only_cases allowed (ps : @params NumR) : only allowed ps = Ok tt \/ only allowed ps = Err TypeError.
Proof. unfold only. destruct (forallb _ _); auto. Qed.
Lemma argLL_cases (ps : @params NumR) k : (exists l, arg as_LL ps k None = Ok l) \/ arg as_LL ps k None = Err TypeError.
Proof. unfold arg. destruct (dget ps k) as [[]|]; cbn; eauto. Qed.

Lemma simple_kw f dname xs (ps : @params NumR) k : In k (dkeys ps) -> ~ In k ["name"] -> simple f dname xs ps = Err TypeError.
Proof. intros H Hn. unfold simple. now rewrite (only_unexpected _ _ _ H Hn). Qed.
Lemma with_arg_kw {A} f a conv (default : option A) dname xs (ps : @params NumR) k :
  In k (dkeys ps) -> ~ In k [a; "name"] -> with_arg f a conv default dname xs ps = Err TypeError.
Proof. intros H Hn. unfold with_arg. now rewrite (only_unexpected _ _ _ H Hn). Qed.
Lemma with_arg_missing {A} f a (conv : _ -> result A) dname xs (ps : @params NumR) :
  ~ In a (dkeys ps) -> with_arg f a conv None dname xs ps = Err TypeError.
Proof.
  intros H. unfold with_arg. destruct (only_cases [a; "name"] ps) as [ -> | -> ]; [|reflexivity]. cbn [bindr].
  now rewrite (arg_missing conv ps a H).
Qed.

Lemma switch_unexpected m req opt dn f xs (ps : @params NumR) k : In (m, (req, opt, dn)) signatures -> fusion_switch E pysort m = Ok f ->
  In k (dkeys ps) -> ~ In k (req ++ opt ++ ["name"]) -> f xs ps = Err TypeError.
Proof.
  intros Hs Hf Hk Hn. unfold signatures in Hs. cbn [In] in Hs.
  repeat (destruct Hs as [Hs|Hs]; [injection Hs as <- <- <- <-; cbn [app] in Hn; injection Hf as <-;
    first [ exact (simple_kw _ _ _ _ _ Hk Hn) | exact (with_arg_kw _ _ _ _ _ _ _ _ Hk Hn)
          | unfold slide_call; now rewrite (only_unexpected _ _ _ Hk Hn) ]|]).
  easy.
Qed.
Lemma switch_missing m req opt dn f xs (ps : @params NumR) k : In (m, (req, opt, dn)) signatures -> fusion_switch E pysort m = Ok f ->
  In k req -> ~ In k (dkeys ps) -> f xs ps = Err TypeError.
Proof.
  intros Hs Hf Hk Hn. unfold signatures in Hs. cbn [In] in Hs.
  repeat (destruct Hs as [Hs|Hs]; [injection Hs as <- <- <- <-; injection Hf as <-; cbn [In] in Hk; try (destruct Hk; fail);
    try (destruct Hk as [<-|[]]; exact (with_arg_missing _ _ _ _ _ _ Hn))|]); try easy.
  unfold slide_call. destruct (only_cases ["probs"; "w"; "name"] ps) as [ -> | -> ]; [|reflexivity]. cbn [bindr].
  destruct Hk as [<-|[<-|[]]]; [now rewrite (arg_missing _ _ _ Hn)|].
  destruct (argLL_cases ps "probs") as [(l & ->)| -> ]; [|reflexivity]. cbn [bindr]. now rewrite (arg_missing _ _ _ Hn).
Qed.

(** the name of the result *)
Lemma comb_named tag formula name ms x : @comb NumR E tag formula name ms = Ok x -> r_name x = Some name.
Proof. intros H. apply comb_dict in H as (m & Hm & ->). reflexivity. Qed.
Lemma rescored_named (r : result (list (dict (dict R)))) tag formula name x : (do ms <- r; @comb NumR E tag formula name ms) = Ok x -> r_name x = Some name.
Proof. intros H. apply bindr_ok in H as (ms & _ & H). eapply comb_named. exact H. Qed.
Lemma condorcet_named f xs name x : @condorcet_with NumR E f xs name = Ok x -> r_name x = Some name.
Proof.
  intros H. unfold condorcet_with in H. apply bindr_ok in H as (? & _ & H). apply bindr_ok in H as (? & _ & H). destruct xs as [|y0 ys]; [discriminate|].
  cbv zeta in H. apply bindr_ok in H as (? & _ & H). apply bindr_ok in H as (? & _ & H). injection H as <-. reflexivity.
Qed.
Definition chosen_name (ps : @params NumR) (dn : string) : string := match dget ps "name" with Some (PS s) => s | _ => dn end.
Lemma arg_name ps dn nm : @arg NumR string as_S ps "name" (Some dn) = Ok nm -> nm = chosen_name ps dn.
Proof. unfold arg, chosen_name. destruct (dget ps "name") as [[]|]; cbn; intros H; try discriminate; now injection H as <-. Qed.
Lemma simple_named f dname xs ps x : (forall xs name x, f xs name = Ok x -> r_name x = Some name) -> @simple NumR f dname xs ps = Ok x ->
  r_name x = Some (chosen_name ps dname).
Proof. intros Hf H. unfold simple in H. apply bindr_ok in H as (? & _ & H). apply bindr_ok in H as (nm & Hn & H). rewrite <- (arg_name _ _ _ Hn). eauto. Qed.
Lemma with_arg_named {A} (f : list (Run NumR) -> A -> string -> result (Run NumR)) k conv default dname xs ps x :
  (forall xs a name x, f xs a name = Ok x -> r_name x = Some name) -> @with_arg NumR A f k conv default dname xs ps = Ok x ->
  r_name x = Some (chosen_name ps dname).
Proof.
  intros Hf H. unfold with_arg in H. apply bindr_ok in H as (? & _ & H). apply bindr_ok in H as (? & _ & H). apply bindr_ok in H as (nm & Hn & H).
  rewrite <- (arg_name _ _ _ Hn). eauto.
Qed.
Lemma switch_named m req opt dn f xs (ps : @params NumR) y : In (m, (req, opt, dn)) signatures -> fusion_switch E pysort m = Ok f ->
  f xs ps = Ok y -> r_name y = Some (chosen_name ps dn).
Proof.
  intros Hs Hf Hy. unfold signatures in Hs. cbn [In] in Hs.
  repeat (destruct Hs as [Hs|Hs]; [injection Hs as <- <- <- <-; injection Hf as <-;
    [> first [ revert Hy; apply simple_named; clear; intros xs name x H
          | revert Hy; apply with_arg_named; clear; intros xs a name x H
          | unfold slide_call in Hy; apply bindr_ok in Hy as (? & _ & Hy); apply bindr_ok in Hy as (? & _ & Hy); apply bindr_ok in Hy as (? & _ & Hy);
            apply bindr_ok in Hy as (nm & Hn & Hy); rewrite <- (arg_name _ _ _ Hn); rename Hy into H ];
    first [eapply comb_named; exact H | eapply rescored_named; exact H | eapply condorcet_named; exact H
          | unfold logn_isr in H; apply bindr_ok in H as (? & _ & H); eapply rescored_named; exact H ]]|]).
  easy.
Qed.
Lemma fuse_switch xs norm ys m f ps : fusable xs -> 2 <= length xs -> normalize_runs E xs norm = Ok ys -> fusion_switch E pysort m = Ok f ->
  fuse E pysort xs norm m ps = f ys ps.
Proof.
  intros (Hne & Ha & Hs) Hl Hn Hf. unfold fuse. assert (Hl' : 1 <? length xs = true) by (apply Nat.ltb_lt; lia).
  rewrite Hl', (proj2 (same_keys_sets xs Ha) Hs). cbn [assertr bindr]. rewrite Hn. cbn [bindr]. rewrite Hf. reflexivity.
Qed.
Lemma signature_switch m sg : In (m, sg) signatures -> exists f, fusion_switch E pysort m = Ok f.
Proof.
  intros H. unfold signatures in H. cbn [In] in H. repeat (destruct H as [H|H]; [injection H as <- <-; eexists; reflexivity|]). easy.
Qed.
End K.

(** the methods of the table are those of fuse *)
Lemma signatures_methods : map fst signatures = fusion_methods.
Proof. reflexivity. Qed.

(** A keyword that the method does not have (also [runs], which is given already) raises TypeError. *)
Theorem C51_unexpected_keyword : forall (E : env NumR) pysort xs norm ys m req opt dn ps k,
  fusable xs -> 2 <= length xs -> normalize_runs E xs norm = Ok ys -> In (m, (req, opt, dn)) signatures ->
  In k (dkeys ps) -> ~ In k (req ++ opt ++ ["name"]) -> fuse E pysort xs norm m ps = Err TypeError.
Proof.
  intros E pysort xs norm ys m req opt dn ps k Hx Hl Hn Hs Hk Hnk. destruct (signature_switch E pysort _ _ Hs) as (f & Hf).
  rewrite (fuse_switch E pysort xs norm ys m f ps Hx Hl Hn Hf). eapply switch_unexpected; eauto.
Qed.
(** So does a keyword without a default that is not given. *)
Theorem C51_missing_keyword : forall (E : env NumR) pysort xs norm ys m req opt dn ps k,
  fusable xs -> 2 <= length xs -> normalize_runs E xs norm = Ok ys -> In (m, (req, opt, dn)) signatures ->
  In k req -> ~ In k (dkeys ps) -> fuse E pysort xs norm m ps = Err TypeError.
Proof.
  intros E pysort xs norm ys m req opt dn ps k Hx Hl Hn Hs Hk Hnk. destruct (signature_switch E pysort _ _ Hs) as (f & Hf).
  rewrite (fuse_switch E pysort xs norm ys m f ps Hx Hl Hn Hf). eapply switch_missing; eauto.
Qed.
(** The fused run is named after the argument [name], or after the method. *)
Theorem C51_name : forall (E : env NumR) pysort xs norm m req opt dn ps y, In (m, (req, opt, dn)) signatures ->
  fuse E pysort xs norm m ps = Ok y ->
  r_name y = Some (match dget ps "name" with Some (PS s) => s | _ => dn end).
Proof.
  intros E pysort xs norm m req opt dn ps y Hs H. unfold fuse in H. do 3 apply bindr_ok in H as (? & _ & H). apply bindr_ok in H as (f & Hf & H).
  exact (switch_named E pysort m req opt dn f _ ps y Hs Hf H).
Qed.

Example ex_C51_keyword : exists xs ys, fusable xs /\ 2 <= length xs /\ normalize_runs env_ex xs None = Ok ys /\
  fuse env_ex (fun _ l => l) xs None "sum" [("weights", PF 1%R)] = Err TypeError /\
  fuse env_ex (fun _ l => l) xs None "wsum" [("name", PS "mine")] = Err TypeError /\
  exists y, fuse env_ex (fun _ l => l) xs None "sum" [("name", PS "mine")] = Ok y /\ r_name y = Some "mine".
Proof.
  assert (HE : env_ok (@env_ex NumR)) by apply env_ex_ok, NumR_laws.
  exists [n_x; n_x], [n_x; n_x].
  assert (Hf : fusable [n_x; n_x]).
  { split; [discriminate|]. split; [repeat (constructor; [exact n_x_run|]); constructor|]. intros a b q Ha Hb. cbn [In] in Ha, Hb. assert (a = n_x) as -> by (destruct Ha as [Ha|[Ha|[]]]; now symmetry). assert (b = n_x) as -> by (destruct Hb as [Hb|[Hb|[]]]; now symmetry). tauto. }
  assert (Hl : 2 <= length [n_x; n_x]) by (cbn; lia).
  split; [exact Hf|]. split; [exact Hl|]. split; [reflexivity|]. split; [|split].
  - apply (C51_unexpected_keyword env_ex _ _ None [n_x; n_x] "sum" [] [] "comb_sum" _ "weights" Hf Hl eq_refl); cbn; [tauto|tauto|intuition discriminate].
  - apply (C51_missing_keyword env_ex _ _ None [n_x; n_x] "wsum" ["weights"] [] "weighted_sum" _ "weights" Hf Hl eq_refl); cbn; [tauto|tauto|intuition discriminate].
  - destruct (C43_comb_sum env_ex HE [n_x; n_x] "mine" Hf) as (z & Hz & _). exists z.
    assert (Hfz : fuse env_ex (fun _ l => l) [n_x; n_x] None "sum" [("name", PS "mine")] = Ok z).
    { erewrite (fuse_switch env_ex _ _ None [n_x; n_x] "sum" _ _ Hf Hl eq_refl eq_refl). exact Hz. }
    split; [exact Hfz|]. exact (C51_name env_ex _ _ _ "sum" [] [] "comb_sum" _ _ ltac:(cbn; tauto) Hfz).
Qed.
Print Assumptions C51_unexpected_keyword.
Print Assumptions C51_missing_keyword.
Print Assumptions C51_name.

(** An int may be given where a float is expected ([gamma], [sigma], [phi]): it means the same number. *)
Section IntArg.
Context {N : Num} (ps ps' : @params N) (Hk : dkeys ps = dkeys ps').
Context (Hg : forall key, ~ In key ["gamma"; "sigma"; "phi"] -> dget ps key = dget ps' key).
Context (Ha : forall key d, arg as_F ps key d = arg as_F ps' key d).
Lemma ia_only al : only al ps = only al ps'.
Proof. unfold only. now rewrite Hk. Qed.
Lemma ia_arg {A} (conv : @pval N -> result A) key d : ~ In key ["gamma"; "sigma"; "phi"] -> arg conv ps key d = arg conv ps' key d.
Proof. intros H. unfold arg. now rewrite (Hg key H). Qed.
Lemma ia_name {A} (d : option A) conv : arg conv ps "name" d = arg conv ps' "name" d.
Proof. apply ia_arg. cbn. intuition discriminate. Qed.
Lemma ia_simple f dn xs : simple f dn xs ps = simple f dn xs ps'.
Proof. unfold simple. now rewrite ia_only, ia_name. Qed.
Lemma ia_with {A} (f : _ -> A -> _) key conv d dn xs : ~ In key ["gamma"; "sigma"; "phi"] -> with_arg f key conv d dn xs ps = with_arg f key conv d dn xs ps'.
Proof. intros H. unfold with_arg. now rewrite ia_only, ia_name, (ia_arg conv key d H). Qed.
Lemma ia_float f key d dn xs : with_arg f key as_F d dn xs ps = with_arg f key as_F d dn xs ps'.
Proof. unfold with_arg. now rewrite ia_only, ia_name, Ha. Qed.
Lemma ia_switch E pysort m f xs : @fusion_switch N E pysort m = Ok f -> f xs ps = f xs ps'.
Proof.
  unfold fusion_switch. intros H.
  repeat (match type of H with (if ?b then _ else _) = _ => destruct b end;
          [injection H as <-; first [apply ia_simple|apply ia_float|apply ia_with; cbn; intuition discriminate|idtac]|]); [|discriminate].
  unfold slide_call. rewrite ia_only, ia_name. rewrite (ia_arg as_LL "probs"), (ia_arg as_Z "w"); [reflexivity|cbn; intuition discriminate|cbn; intuition discriminate].
Qed.
End IntArg.
Theorem C51_integer_value : forall (E : env NumR) pysort xs norm m before after k z,
  In k ["gamma"; "sigma"; "phi"] ->
  fuse E pysort xs norm m (before ++ (k, @PZ NumR z) :: after) = fuse E pysort xs norm m (before ++ (k, @PF NumR (IZR z)) :: after).
Proof.
  intros E pysort xs norm m before after k z Hk. unfold fuse.
  destruct (assertr _); [|reflexivity]. cbn [bindr]. destruct (assertr _); [|reflexivity]. cbn [bindr].
  destruct (normalize_runs E xs norm) as [ys|]; [|reflexivity]. cbn [bindr].
  destruct (fusion_switch E pysort m) as [f|] eqn:Hf; [|reflexivity]. cbn [bindr].
  assert (Hd : forall key, dget (before ++ (k, @PZ NumR z) :: after) key = dget (before ++ (k, @PF NumR (IZR z)) :: after) key \/
    (key = k /\ dget (before ++ (k, @PZ NumR z) :: after) key = Some (@PZ NumR z) /\ dget (before ++ (k, @PF NumR (IZR z)) :: after) key = Some (@PF NumR (IZR z)))).
  { intros key. induction before as [|[k' v'] b IH]; cbn [app dget fst snd].
    - destruct (String.eqb_spec key k); auto.
    - destruct (String.eqb key k'); auto. }
  eapply (ia_switch (N := NumR)); [| | |exact Hf].
  - unfold dkeys. now rewrite !map_app.
  - intros key Hn. destruct (Hd key) as [H|(-> & _)]; [exact H|contradiction].
  - intros key d. unfold arg. destruct (Hd key) as [->|(_ & -> & ->)]; reflexivity.
Qed.
Print Assumptions C51_integer_value.
Example ex_C51_integer : fuse env_ex (fun _ l => l) [n_x; n_x] None "gmnz" [("name", PS "g"); ("gamma", @PZ NumR 2)] =
  fuse env_ex (fun _ l => l) [n_x; n_x] None "gmnz" [("name", PS "g"); ("gamma", @PF NumR 2%R)].
Proof. exact (C51_integer_value env_ex (fun _ l => l) [n_x; n_x] None "gmnz" [("name", PS "g")] [] "gamma" 2 (or_introl eq_refl)). Qed.
