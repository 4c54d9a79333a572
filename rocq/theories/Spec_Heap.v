(** Spec_Heap.v: what a program with several objects means if every object is a separate value. *)
From Verif Require Import Base Dict Num Env M_Common M_Qrels M_Run M_History M_Evaluate M_Norm M_Fusion M_Heap.
Open Scope list_scope.

Section W.
Context {N : Num} (E : env N) (pysort : (nat -> nat -> bool) -> list nat -> list nat).

(** the contents of all Run objects and of all Qrels objects *)
Definition world : Type := list (Run N) * list Qrels.
Definition observe (t : state N) : world := (run_values t, qrels_values t).

(** Each call replaces the objects it is called on, or appends the object it returns, and touches no other. *)
Definition vstep (w : world) (c : call N) : world :=
  let '(rs, ys) := w in
  match c with
  | NewRun x => (rs ++ [x], ys)
  | NewQrels y => (rs, ys ++ [y])
  | RunCall i o => match nth_error rs i with Some x => (set_nth rs i (fst (run_step E x o)), ys) | None => w end
  | QrelsCall j o => match nth_error ys j with Some y => (rs, set_nth ys j (fst (qrels_step E y o))) | None => w end
  | Align i j => match nth_error rs i, nth_error ys j with
                 | Some x, Some y => (set_nth rs i (Run_make_comparable E x y), ys)
                 | _, _ => w end
  | Rename i name => match nth_error rs i with
                     | Some x => (set_nth rs i (mkRun (r_map x) (r_sorted x) name (r_scores x) (r_mean x) (r_std x)), ys)
                     | None => w end
  | Normalize i norm => match nth_error rs i with
                        | Some x => match normalize E x norm with Ok y => (rs ++ [y], ys) | Err _ => w end
                        | None => w end
  | Fuse is norm method ps =>
      match map_m (nth_r rs) is with
      | Ok xs => match fuse E pysort xs norm method ps with Ok y => (rs ++ [y], ys) | Err _ => w end
      | Err _ => w
      end
  | Evaluate j i metrics mean std save mk =>
      match nth_error ys j, nth_error rs i with
      | Some y, Some x =>
          let out := evaluate E (QObj y) (RObj x) metrics mean std save mk in
          match ev_q out, ev_r out with
          | QObj y', RObj x' => (set_nth rs i x', set_nth ys j y')
          | _, _ => w
          end
      | _, _ => w
      end
  | RunViews _ | QrelsViews _ | RunWrite _ _ _ | QrelsWrite _ _ _ => w
  end.

(** the program does not itself write into the dictionaries handed out by [get_doc_ids_and_scores] *)
Definition is_write (c : call N) : bool := match c with RunWrite _ _ _ | QrelsWrite _ _ _ => true | _ => false end.
(** a new object has no query twice (true of everything the constructors and readers return) *)
Definition call_ok (c : call N) : Prop :=
  match c with NewRun x => dict_ok (r_map x) | NewQrels y => dict_ok (q_map y) | _ => True end.
End W.
Arguments world _ : clear implicits.
