(** Rounding errors: the vocabulary of C76 and C77.

    [value_of x] (SpecDouble) is the real number a finite double stands for. *)
From Coq Require Import Reals ZArith List.
Import ListNotations.
From Flocq Require Import Core BinarySingleNaN.
From Verif Require Import Outcome Num ModelDisc3D SpecGrid ModelTime SpecTime SpecField ModelDouble SpecDouble.
Local Open Scope R_scope.

(** Half the distance from 1 to the next double, and the smallest normal double. *)
Definition unit_roundoff : R := / 2 ^ 53.
Definition tiny : R := / 2 ^ 1022.

Definition finite (x : double) : Prop := is_finite x = true.

(** The relative error k roundings can add up to; it is less than (k + 1) * unit_roundoff for every
    k that occurs here (C76_growth). *)
Definition growth (k : nat) : R := (1 + unit_roundoff) ^ k - 1.

(** The sum of a list of real numbers, and of their absolute values. *)
Definition total (l : list R) : R := fold_right Rplus 0 l.
Definition total_abs (l : list R) : R := total (map Rabs l).

(** The four operations and the conversion of integers are those of IEEE-754, rounding to nearest,
    and the third power (libm's pow) is within two units in the last place. *)
Definition ieee (N : Num double) : Prop :=
  (forall x y, nadd x y = Bplus (prec_gt_0_ := prec_positive) (prec_lt_emax_ := prec_below_emax) mode_NE x y) /\
  (forall x y, nsub x y = Bminus (prec_gt_0_ := prec_positive) (prec_lt_emax_ := prec_below_emax) mode_NE x y) /\
  (forall x y, nmul x y = Bmult (prec_gt_0_ := prec_positive) (prec_lt_emax_ := prec_below_emax) mode_NE x y) /\
  (forall x y, ndiv x y = Bdiv (prec_gt_0_ := prec_positive) (prec_lt_emax_ := prec_below_emax) mode_NE x y) /\
  (forall x, nopp x = Bopp x) /\ (forall z, nint z = double_int z) /\
  (forall p q, nrat p q = Bdiv (prec_gt_0_ := prec_positive) (prec_lt_emax_ := prec_below_emax) mode_NE (double_int p) (double_int (Zpos q))) /\
  (forall x, finite (npow3 x) -> finite x /\
     Rabs (value_of (npow3 x) - value_of x ^ 3) <= 4 * unit_roundoff * (Rabs (value_of x ^ 3) + tiny)).

(** An upper bound of the sum of the absolute values of all terms of the right-hand side, for fields
    bounded by b on cells of size h; the multiples of tiny only matter when every other term underflows. *)
Definition rate_size (h m sigma eps2 b : R) : R :=
  Rabs eps2 * (147 * b / h ^ 4 + tiny) + (25 * (b ^ 3 + b) / h ^ 2) + Rabs sigma * (b + Rabs m) + 4 * tiny.

(** The right-hand side eval' agrees with eval wherever it returns normally, and it only does so for
    states that satisfy Q.  A run with eval' that ends normally is thus a run with eval in which every
    state handed to the right-hand side satisfied Q. *)
Definition restricts {V S : Type} (eval' eval : rhs_fun V S) (Q : state V -> Prop) : Prop :=
  forall sc s t r out, eval' sc s t r = Ok out -> eval sc s t r = Ok out /\ Q s.

(** Every interior value of the only array of the state is a finite double of size at most b. *)
Definition bounded3 (dom : domain double) (b : R) (s : state double) : Prop :=
  exists c u, s = [c] /\ holds_inside3 dom c u /\
    forall i j k, inside3 dom i j k -> finite (u i j k) /\ Rabs (value_of (u i j k)) <= b.
Definition bounded2 (dom : domain double) (b : R) (s : state double) : Prop :=
  exists c u, s = [c] /\ holds_inside2 dom c u /\
    forall i j, inside2 dom i j -> finite (u i j) /\ Rabs (value_of (u i j)) <= b.

(** The exact mean of the doubles on the interior. *)
Definition true_mean3 (dom : domain double) (u : Z -> Z -> Z -> double) : R :=
  sum3 (nx dom) (ny dom) (nz dom) (fun i j k => value_of (u i j k)) / (IZR (nx dom) * IZR (ny dom) * IZR (nz dom)).
Definition true_mean2 (dom : domain double) (u : Z -> Z -> double) : R :=
  sum2 (nx dom) (nx dom) (fun i j => value_of (u i j)) / (IZR (nx dom) * IZR (nx dom)).

(** Every interior value is a finite double. *)
Definition finite3 (dom : domain double) (s : state double) : Prop :=
  exists c u, s = [c] /\ holds_inside3 dom c u /\ forall i j k, inside3 dom i j k -> finite (u i j k).
Definition finite2 (dom : domain double) (s : state double) : Prop :=
  exists c u, s = [c] /\ holds_inside2 dom c u /\ forall i j, inside2 dom i j -> finite (u i j).

(** The square root is that of IEEE-754, the second power is within two units in the last place. *)
Definition ieee_norm (N : Num double) : Prop :=
  (forall x, nsqrt x = Bsqrt (prec_gt_0_ := prec_positive) (prec_lt_emax_ := prec_below_emax) mode_NE x) /\
  (forall x, finite (npow2 x) -> finite x /\
     Rabs (value_of (npow2 x) - value_of x ^ 2) <= 4 * unit_roundoff * (value_of x ^ 2 + tiny)).

(** The exact root mean square of the doubles on the interior. *)
Definition true_rms3 (dom : domain double) (u : Z -> Z -> Z -> double) : R :=
  sqrt (sum3 (nx dom) (ny dom) (nz dom) (fun i j k => value_of (u i j k) ^ 2) / (IZR (nx dom) * IZR (ny dom) * IZR (nz dom))).
Definition true_rms2 (dom : domain double) (u : Z -> Z -> double) : R :=
  sqrt (sum2 (nx dom) (nx dom) (fun i j => value_of (u i j) ^ 2) / (IZR (nx dom) * IZR (nx dom))).
