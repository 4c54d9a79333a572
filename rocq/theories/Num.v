(** Num.v: the numeric operations the modelled code performs on Python floats,
    numpy float64 and numba float64 values. *)
From Coq Require Import Reals Rpower.
From Coq Require Import SpecFloat.
From Verif Require Import Base.
Open Scope list_scope.

Class Num := {
  F : Type;
  fadd : F -> F -> F;            (* a + b *)
  fsub : F -> F -> F;            (* a - b *)
  fmul : F -> F -> F;            (* a * b *)
  fdiv : F -> F -> F;            (* a / b on arrays / numpy scalars: no exception *)
  fopp : F -> F;                 (* -a *)
  fabs : F -> F;                 (* abs(a) *)
  fltb : F -> F -> bool;         (* a < b *)
  fleb : F -> F -> bool;         (* a <= b *)
  feqb : F -> F -> bool;         (* a == b *)
  fofZ : Z -> F;                 (* float(int) *)
  fdec : Z -> nat -> F;          (* decimal literal m * 10^-e, correctly rounded *)
  fsqrt : F -> F;                (* math.sqrt / np.sqrt *)
  fln : F -> F;                  (* math.log / np.log *)
  flog2 : F -> F;                (* np.log2 *)
  fpow : F -> F -> F;            (* a ** b *)
  fnpow : F -> nat -> F;         (* a ** n for an integer exponent *)
  ftrunc : F -> Z                (* int(a) *)
}.

Section NumOps.
Context {N : Num}.

Definition fzero : F := fofZ 0.
Definition fone : F := fofZ 1.
Definition fnat (n : nat) : F := fofZ (Z.of_nat n).

(** Python's binary [max(a, b)]: returns [b] only if [b > a]. *)
Definition fmax2 (a b : F) : F := if fltb a b then b else a.
(** Python's binary [min(a, b)]. *)
Definition fmin2 (a b : F) : F := if fltb b a then b else a.

(** [sum(l)], [np.sum(l)] inside numba: left-to-right accumulation from 0.
    (Outside numba numpy sums pairwise, which changes only the rounding.) *)
Definition fsum (l : list F) : F := fold_left fadd l fzero.

(** [max(l)] / [min(l)] of a non-empty sequence *)
Definition fmaxl (x : F) (l : list F) : F := fold_left fmax2 l x.
Definition fminl (x : F) (l : list F) : F := fold_left fmin2 l x.

(** [np.mean(l)] *)
Definition fmean (l : list F) : F := fdiv (fsum l) (fnat (length l)).
(** [np.std(l)]: population standard deviation (ddof = 0) *)
Definition fstd (l : list F) : F :=
  let m := fmean l in
  fsqrt (fmean (map (fun x => fmul (fsub x m) (fsub x m)) l)).

(** NaN is the only value different from itself. *)
Definition is_nan (x : F) : bool := negb (feqb x x).

End NumOps.

(** ** Real numbers *)
Definition Rltb (a b : R) : bool := if Rlt_dec a b then true else false.
Definition Rleb (a b : R) : bool := if Rle_dec a b then true else false.
Definition Reqb (a b : R) : bool := if Req_EM_T a b then true else false.
Definition Rlog2 (x : R) : R := (ln x / ln 2)%R.
(** [Rpow x y] for real exponents: [x ** y] for x > 0; 0 ** 0 = 1, 0 ** y = 0. *)
Definition Rpow (x y : R) : R :=
  if Rlt_dec 0 x then Rpower x y
  else if Req_EM_T y 0 then 1%R else 0%R.
(** truncation toward zero *)
Definition Rtrunc (x : R) : Z :=
  if Rle_dec 0 x then Int_part x else (- Int_part (- x))%Z.

#[export] Instance NumR : Num := {|
  F := R; fadd := Rplus; fsub := Rminus; fmul := Rmult; fdiv := Rdiv;
  fopp := Ropp; fabs := Rabs; fltb := Rltb; fleb := Rleb; feqb := Reqb;
  fofZ := IZR; fdec := fun m e => (IZR m / 10 ^ e)%R;
  fsqrt := sqrt; fln := ln; flog2 := Rlog2; fpow := Rpow; fnpow := pow;
  ftrunc := Rtrunc |}.

(** ** IEEE binary64, by the standard library's executable specification *)
Definition sf := spec_float.
Definition sf_prec : Z := 53%Z.
Definition sf_emax : Z := 1024%Z.
Definition sf_add := SFadd sf_prec sf_emax.
Definition sf_sub := SFsub sf_prec sf_emax.
Definition sf_mul := SFmul sf_prec sf_emax.
Definition sf_div := SFdiv sf_prec sf_emax.
Definition sf_sqrt := SFsqrt sf_prec sf_emax.
Definition sf_ltb (a b : sf) : bool := SFltb a b.
Definition sf_leb (a b : sf) : bool := SFleb a b.
Definition sf_eqb (a b : sf) : bool := SFeqb a b.

Definition sf_of_Z (z : Z) : sf := binary_normalize sf_prec sf_emax z 0 false.

(** correctly rounded quotient of two integers (b > 0): used for decimal literals *)
Definition sf_quot (a : Z) (b : positive) : sf :=
  match a with
  | Z0 => S754_zero false
  | Zpos p =>
      let '(q, e, l) := SFdiv_core_binary sf_prec sf_emax (Zpos p) 0 (Zpos b) 0 in
      binary_round_aux sf_prec sf_emax false q e l
  | Zneg p =>
      let '(q, e, l) := SFdiv_core_binary sf_prec sf_emax (Zpos p) 0 (Zpos b) 0 in
      binary_round_aux sf_prec sf_emax true q e l
  end.
Definition pos_pow10 (e : nat) : positive := Z.to_pos (10 ^ Z.of_nat e).
Definition sf_dec (m : Z) (e : nat) : sf := sf_quot m (pos_pow10 e).

Fixpoint sf_npow (x : sf) (n : nat) : sf :=
  match n with O => sf_of_Z 1 | S n' => sf_mul (sf_npow x n') x end.

Definition sf_trunc (x : sf) : Z :=
  match x with
  | S754_finite s m e =>
      let z := match e with
               | Z0 => Zpos m
               | Zpos p => (Zpos m * 2 ^ Zpos p)%Z
               | Zneg p => (Zpos m / 2 ^ Zpos p)%Z
               end in
      if s then (- z)%Z else z
  | _ => 0%Z
  end.

(** Transcendental functions of binary64 are not specified by IEEE; the
    executable instance takes them as parameters (tests give tables). *)
Definition NumSF_with (ln2 lg2 : sf -> sf) (pw : sf -> sf -> sf) : Num := {|
  F := sf; fadd := sf_add; fsub := sf_sub; fmul := sf_mul; fdiv := sf_div;
  fopp := SFopp; fabs := SFabs; fltb := sf_ltb; fleb := sf_leb; feqb := sf_eqb;
  fofZ := sf_of_Z; fdec := sf_dec; fsqrt := sf_sqrt; fln := ln2; flog2 := lg2;
  fpow := pw; fnpow := sf_npow; ftrunc := sf_trunc |}.
