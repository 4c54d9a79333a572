(** Spec_Metrics.v: textbook definitions of the metrics on documents, over the reals.
    [j] maps judged documents to their judgment, [lvl] is the relevance level, a
    ranking is the list of retrieved documents, best first; [k = 0] means no cut-off.
    Nothing here refers to the model. *)
From Coq Require Import Reals.
From Verif Require Import Base Dict.
Open Scope list_scope.
Open Scope R_scope.

(** sum of a list of reals *)
Fixpoint Rsum (l : list R) : R := match l with [] => 0 | x :: l' => x + Rsum l' end.

(** f 0 + ... + f (n-1) *)
Definition Rsum_n (n : nat) (f : nat -> R) : R := Rsum (map f (seq 0 n)).

Definition log2 (x : R) : R := ln x / ln 2.

Section Defs.
Variables (j : dict Z) (lvl : Z).

Definition relevant (d : string) : bool :=
  match dget j d with Some v => (lvl <=? v)%Z | None => false end.
Definition judged (d : string) : bool :=
  match dget j d with Some _ => true | None => false end.
(** graded gain: the judgment of a relevant document, 0 otherwise *)
Definition gain (d : string) : R :=
  match dget j d with Some v => if (lvl <=? v)%Z then IZR v else 0 | None => 0 end.
Definition n_relevant : nat := count (fun dv => (lvl <=? snd dv)%Z) j.
Definition n_judged_nonrelevant : nat := count (fun dv => (snd dv <? lvl)%Z) j.

Variable ranking : list string.

(** the documents looked at by metric@k *)
Definition top (k : nat) : list string :=
  match k with O => ranking | _ => firstn k ranking end.
(** the divisor of precision@k *)
Definition depth (k : nat) : nat := match k with O => length ranking | _ => k end.

Definition S_hits (k : nat) : nat := count relevant (top k).
Definition S_hit_rate (k : nat) : R := if existsb relevant (top k) then 1 else 0.
Definition S_precision (k : nat) : R :=
  match depth k with O => 0 | n => INR (S_hits k) / INR n end.
Definition S_recall (k : nat) : R :=
  match n_relevant with O => 0 | n => INR (S_hits k) / INR n end.
(** harmonic mean *)
Definition S_f1 (k : nat) : R :=
  let P := S_precision k in let Rc := S_recall k in
  if Req_EM_T (P + Rc) 0 then 0 else 2 * P * Rc / (P + Rc).
Definition S_r_precision : R :=
  match n_relevant with O => 0 | n => S_precision n end.
(** 0-based position of the first relevant document *)
Fixpoint first_pos (p : string -> bool) (l : list string) : option nat :=
  match l with
  | [] => None
  | d :: l' => if p d then Some O else option_map S (first_pos p l')
  end.
Definition S_mrr (k : nat) : R :=
  match first_pos relevant (top k) with Some i => 1 / INR (i + 1) | None => 0 end.
(** precision at 1-based rank r *)
Definition precision_at (r : nat) : R := INR (count relevant (firstn r ranking)) / INR r.
Definition S_map (k : nat) : R :=
  match n_relevant with
  | O => 0
  | n => Rsum_n (length (top k))
           (fun i => if relevant (nth i ranking EmptyString) then precision_at (i + 1) else 0)
         / INR n
  end.

(** discounted cumulative gain with a gain function on documents *)
Definition S_dcg_with (g : string -> R) (k : nat) : R :=
  Rsum_n (length (top k)) (fun i => g (nth i ranking EmptyString) / log2 (INR (i + 2))).
Definition S_dcg (k : nat) : R := S_dcg_with gain k.
Definition burges_gain (d : string) : R := Rpower 2 (gain d) - 1.
Definition S_dcg_burges (k : nat) : R := S_dcg_with burges_gain k.

(** graded rank-biased precision *)
Definition S_rbp (p : R) : R :=
  (1 - p) * Rsum_n (length ranking) (fun i => gain (nth i ranking EmptyString) * p ^ i).
(** the documented (binary) rank-biased precision *)
Definition S_rbp_binary (p : R) : R :=
  (1 - p) * Rsum_n (length ranking)
    (fun i => (if relevant (nth i ranking EmptyString) then 1 else 0) * p ^ i).

(** bpref: judged non-relevant documents ranked above 0-based position i *)
Definition nonrel_above (i : nat) : nat :=
  count (fun d => judged d && negb (relevant d)) (firstn i ranking).
Definition S_bpref : R :=
  Rsum_n (length ranking)
    (fun i => if relevant (nth i ranking EmptyString)
              then 1 - INR (Nat.min (nonrel_above i) n_relevant)
                       / INR (Nat.min n_relevant n_judged_nonrelevant)
              else 0) / INR n_relevant.
End Defs.

(** Two documents never share the id under which the metrics know them. *)
Definition ids_distinct (key : string -> Z) (docs : list string) : Prop :=
  forall d d', In d docs -> In d' docs -> key d = key d' -> d = d'.

(** Interpolated precision: the largest precision at any rank by which at least [c]
    relevant documents have been found; 0 if there is no such rank. *)
Definition S_interpolated (j : dict Z) (lvl : Z) (ranking : list string) (c : nat) : R :=
  fold_right Rmax 0
    (map (precision_at j lvl ranking)
         (filter (fun i => (c <=? count (relevant j lvl) (firstn i ranking))%nat)
                 (seq 1 (length ranking)))).

(** ** Ideal rankings *)

(** [m] is the largest (g-)dcg@k that a ranking without repeated documents reaches. *)
Definition is_ideal (g : string -> R) (k : nat) (m : R) : Prop :=
  (exists ranking, NoDup ranking /\ S_dcg_with ranking g k = m) /\
  (forall ranking, NoDup ranking -> S_dcg_with ranking g k <= m).

(** the score [x] is dcg / ideal dcg, and 0 if the ideal is 0 *)
Definition is_ndcg (g : string -> R) (ds : list string) (k : nat) (x : R) : Prop :=
  exists ideal, is_ideal g k ideal /\
  x = (if Req_EM_T ideal 0 then 0 else S_dcg_with ds g k / ideal)%R.

(** Judgments listed from the highest to the lowest (the order in which a sorted Qrels
    keeps them). *)
Definition judgments_desc (j : dict Z) : Prop :=
  StronglySorted (fun a b => (snd b <= snd a)%Z) j.

(** Apply a per-query score to the judgments and the ranking of each query. *)
Definition per_query {A V} (f : dict Z -> list string -> A) (js : list (dict Z))
           (rs : list (dict V)) : list A :=
  map (fun jr => f (fst jr) (dkeys (snd jr))) (combine js rs).
