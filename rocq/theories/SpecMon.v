(** Vocabulary for the monitors, the initial conditions and the Poisson problem. *)
From Verif Require Import Outcome ZList Num Kernel ModelIndex ModelDisc3D SpecGrid SpecField ModelReduce ModelMon.
From Coq Require Import Reals String.
Local Open Scope R_scope.

(** The largest finite double and the smallest positive normal double:
    [numeric_limits<double>::max()] and [numeric_limits<double>::min()]. *)
Definition DBL_MAX : R := IZR (2 ^ 1024 - 2 ^ 971)%Z.
Definition DBL_MIN : R := / IZR (2 ^ 1022)%Z.
Definition finite_double (x : R) : Prop := - DBL_MAX <= x <= DBL_MAX.

(** Least and greatest value of a field over the interior. *)
Definition least3 (dom : domain R) (u : Z -> Z -> Z -> R) (v : R) : Prop :=
  (exists i j k, inside3 dom i j k /\ u i j k = v) /\ forall i j k, inside3 dom i j k -> v <= u i j k.
Definition greatest3 (dom : domain R) (u : Z -> Z -> Z -> R) (v : R) : Prop :=
  (exists i j k, inside3 dom i j k /\ u i j k = v) /\ forall i j k, inside3 dom i j k -> u i j k <= v.
Definition least2 (dom : domain R) (u : Z -> Z -> R) (v : R) : Prop :=
  (exists i j, inside2 dom i j /\ u i j = v) /\ forall i j, inside2 dom i j -> v <= u i j.
Definition greatest2 (dom : domain R) (u : Z -> Z -> R) (v : R) : Prop :=
  (exists i j, inside2 dom i j /\ u i j = v) /\ forall i j, inside2 dom i j -> u i j <= v.

(** The greatest element of a list. *)
Definition greatest_of (l : list R) (v : R) : Prop := In v l /\ forall x, In x l -> x <= v.

(** Difference quotient along a line of n cells: one-sided at the ends, central between. *)
Definition line_slope (n : Z) (h : R) (w : Z -> R) (i : Z) : R :=
  if (i =? 0)%Z then (w 1%Z - w 0%Z) / h
  else if (i =? n - 1)%Z then (w (n - 1)%Z - w (n - 2)%Z) / h
  else (w (i + 1)%Z - w (i - 1)%Z) / (2 * h).

(** Length of the discrete gradient in a cell. *)
Definition grad_length3 (dom : domain R) (h : R) (u : Z -> Z -> Z -> R) (i j k : Z) : R :=
  sqrt (line_slope (nx dom) h (fun a => u a j k) i ^ 2 +
        line_slope (ny dom) h (fun a => u i a k) j ^ 2 +
        line_slope (nz dom) h (fun a => u i j a) k ^ 2).
Definition grad_length2 (dom : domain R) (h : R) (u : Z -> Z -> R) (i j : Z) : R :=
  sqrt (line_slope (nx dom) h (fun a => u a j) i ^ 2 +
        line_slope (nx dom) h (fun a => u i a) j ^ 2).

(** Root mean square over the interior. *)
Definition rms3 (dom : domain R) (u : Z -> Z -> Z -> R) : R := sqrt (mean3 dom (fun i j k => u i j k ^ 2)).
Definition rms2 (dom : domain R) (u : Z -> Z -> R) : R := sqrt (mean2 dom (fun i j => u i j ^ 2)).

(** The reductions of a monitor follow the reduction contract, with the usual identities
    of the maximum, the minimum and the sum of doubles. *)
Definition sum_reducer (f : R -> list R -> R) : Prop := forall l, reduction Rplus 0 0 l (f 0 l).
Definition proper_reducers (red : reducers R) : Prop :=
  (forall i l, reduction nmin DBL_MAX i l (red_min red i l)) /\
  (forall i l, reduction nmax (- DBL_MAX) i l (red_max red i l)) /\
  sum_reducer (red_sum red).

(** The exact solution of the Poisson problem. *)
Definition poisson_exact (x y z : R) : R := sin x * cos y * cos z.

(** The grid spacing and the exact solution in the centre of a cell. *)
Definition spacing (dom : domain R) : R := (xend dom - xbeg dom) / IZR (nx dom).
Definition poisson_at (dom : domain R) (i j k : Z) : R :=
  poisson_exact (xbeg dom + spacing dom * (IZR i + / 2)) (ybeg dom + spacing dom * (IZR j + / 2))
                (zbeg dom + spacing dom * (IZR k + / 2)).

(** A field with x and y halos filled periodically and z halos from the exact solution. *)
Definition poisson_extend (dom : domain R) (u : Z -> Z -> Z -> R) (i j k : Z) : R :=
  if ((0 <=? k) && (k <? nz dom))%Z then u (i mod nx dom)%Z (j mod ny dom)%Z k else poisson_at dom i j k.

(** The first n arrays of a state hold the fields w 0, w 1, ... on the interior. *)
Definition residual_holds3 (dom : domain R) (n : nat) (s : list (list R)) (w : nat -> Z -> Z -> Z -> R) : Prop :=
  forall e, (e < n)%nat -> exists a, nth_error s e = Some a /\ holds_inside3 dom a (w e).
Definition residual_holds2 (dom : domain R) (n : nat) (s : list (list R)) (w : nat -> Z -> Z -> R) : Prop :=
  forall e, (e < n)%nat -> exists a, nth_error s e = Some a /\ holds_inside2 dom a (w e).

(** A dense vector with one entry per interior cell, the last direction fastest. *)
Definition vec_holds3 {V} (dom : domain V) (x : list V) (u : Z -> Z -> Z -> V) : Prop :=
  zlen x = (nx dom * ny dom * nz dom)%Z /\
  forall i j k, inside3 dom i j k -> zget x ((i * ny dom + j) * nz dom + k)%Z = Some (u i j k).
Definition vec_holds2 {V} (dom : domain V) (x : list V) (u : Z -> Z -> V) : Prop :=
  zlen x = (nx dom * nx dom)%Z /\
  forall i j, inside2 dom i j -> zget x (i * nx dom + j)%Z = Some (u i j).
