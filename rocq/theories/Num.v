(** The arithmetic used by the kernels, as a record of operations without laws.

    [real_t] and [real_wp] are [double] (/repo/typedefs.hpp).  A theorem proved for an
    arbitrary [Num V] holds for IEEE doubles, because it uses nothing about the
    operations; a theorem stated for [Num_R] is about exact arithmetic. *)
From Coq Require Import ZArith Reals.
From Coq.Floats Require Import SpecFloat.

Class Num (V : Type) := {
  nadd : V -> V -> V;
  nsub : V -> V -> V;
  nmul : V -> V -> V;
  ndiv : V -> V -> V;
  nopp : V -> V;
  nint : Z -> V;               (* integer literal, or conversion of an int *)
  nrat : Z -> positive -> V;   (* literal p/q, e.g. 0.5 or 0.140625 *)
  npow3 : V -> V;              (* pow(x, 3.0) *)
  npow2 : V -> V;              (* pow(x, 2.0) *)
  nsqrt : V -> V;              (* std::sqrt *)
  nabs : V -> V;               (* std::abs on doubles *)
  nltb : V -> V -> bool;       (* x < y; false when either is NaN *)
  neqb : V -> V -> bool        (* x == y *)
}.

Declare Scope num_scope.
Delimit Scope num_scope with num.
Notation "x + y" := (nadd x y) : num_scope.
Notation "x - y" := (nsub x y) : num_scope.
Notation "x * y" := (nmul x y) : num_scope.
Notation "x / y" := (ndiv x y) : num_scope.
Notation "- x" := (nopp x) : num_scope.

(** std::max(a,b) is [(a < b) ? b : a]; std::min(a,b) is [(b < a) ? b : a]. *)
Definition nmax {V} `{Num V} (a b : V) : V := if nltb a b then b else a.
Definition nmin {V} `{Num V} (a b : V) : V := if nltb b a then b else a.

(** Exact arithmetic. *)
Definition Rltb (x y : R) : bool := if Rlt_dec x y then true else false.
Definition Reqb (x y : R) : bool := if Req_EM_T x y then true else false.

Global Instance Num_R : Num R := {
  nadd := Rplus;
  nsub := Rminus;
  nmul := Rmult;
  ndiv := Rdiv;
  nopp := Ropp;
  nint := IZR;
  nrat := fun p q => (IZR p / IZR (Zpos q))%R;
  npow3 := fun x => (x * x * x)%R;
  npow2 := fun x => (x * x)%R;
  nsqrt := sqrt;
  nabs := Rabs;
  nltb := Rltb;
  neqb := Reqb
}.

(** IEEE-754 binary64, round to nearest even, computed by the standard library's
    executable specification.  [pow] is not specified by IEEE-754; the repeated
    products below stand in for libm's and are used by no theorem, only by examples. *)
Definition f64 : Type := spec_float.
Definition f64_add : f64 -> f64 -> f64 := SFadd 53 1024.
Definition f64_sub : f64 -> f64 -> f64 := SFsub 53 1024.
Definition f64_mul : f64 -> f64 -> f64 := SFmul 53 1024.
Definition f64_div : f64 -> f64 -> f64 := SFdiv 53 1024.
Definition f64_sqrt : f64 -> f64 := SFsqrt 53 1024.
Definition f64_int (z : Z) : f64 := binary_normalize 53 1024 z 0 false.

Definition Num_f64 : Num f64 := {|
  nadd := f64_add;
  nsub := f64_sub;
  nmul := f64_mul;
  ndiv := f64_div;
  nopp := SFopp;
  nint := f64_int;
  nrat := fun p q => f64_div (f64_int p) (f64_int (Zpos q));
  npow3 := fun x => f64_mul (f64_mul x x) x;
  npow2 := fun x => f64_mul x x;
  nsqrt := f64_sqrt;
  nabs := SFabs;
  nltb := SFltb;
  neqb := SFeqb
|}.
