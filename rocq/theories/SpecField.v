(** Fields in exact arithmetic: sums over the interior, difference operators, energy.
    Independent of the model of the code. *)
From Coq Require Import ZArith Reals List.
From Verif Require Import ZList ModelDisc3D SpecGrid.
Import ListNotations.
Local Open Scope R_scope.

(** Sum of a list, and sums over index boxes [0,n), [0,n) x [0,m), ... *)
Definition Rsum (l : list R) : R := fold_right Rplus 0 l.
Definition sum1 (n : Z) (f : Z -> R) : R := Rsum (map f (zrange 0 n)).
Definition sum2 (n m : Z) (f : Z -> Z -> R) : R := sum1 n (fun i => sum1 m (fun j => f i j)).
Definition sum3 (n m l : Z) (f : Z -> Z -> Z -> R) : R := sum1 n (fun i => sum2 m l (fun j k => f i j k)).

(** Sums and means over the interior of a domain. *)
Definition total3 (dom : domain R) (f : Z -> Z -> Z -> R) : R := sum3 (nx dom) (ny dom) (nz dom) f.
Definition total2 (dom : domain R) (f : Z -> Z -> R) : R := sum2 (nx dom) (nx dom) f.
Definition mean3 (dom : domain R) (f : Z -> Z -> Z -> R) : R :=
  total3 dom f / (IZR (nx dom) * IZR (ny dom) * IZR (nz dom)).
Definition mean2 (dom : domain R) (f : Z -> Z -> R) : R :=
  total2 dom f / (IZR (nx dom) * IZR (nx dom)).

(** Second differences and the discrete Laplacian with spacing h. *)
Definition dxx3 (h : R) (f : Z -> Z -> Z -> R) (i j k : Z) : R :=
  (f (i + 1)%Z j k - 2 * f i j k + f (i - 1)%Z j k) / h ^ 2.
Definition dyy3 (h : R) (f : Z -> Z -> Z -> R) (i j k : Z) : R :=
  (f i (j + 1)%Z k - 2 * f i j k + f i (j - 1)%Z k) / h ^ 2.
Definition dzz3 (h : R) (f : Z -> Z -> Z -> R) (i j k : Z) : R :=
  (f i j (k + 1)%Z - 2 * f i j k + f i j (k - 1)%Z) / h ^ 2.
Definition Lap3 (h : R) (f : Z -> Z -> Z -> R) (i j k : Z) : R :=
  dxx3 h f i j k + dyy3 h f i j k + dzz3 h f i j k.

Definition dxx2 (h : R) (f : Z -> Z -> R) (i j : Z) : R :=
  (f (i + 1)%Z j - 2 * f i j + f (i - 1)%Z j) / h ^ 2.
Definition dyy2 (h : R) (f : Z -> Z -> R) (i j : Z) : R :=
  (f i (j + 1)%Z - 2 * f i j + f i (j - 1)%Z) / h ^ 2.
Definition Lap2 (h : R) (f : Z -> Z -> R) (i j : Z) : R := dxx2 h f i j + dyy2 h f i j.

(** The Cahn-Hilliard right-hand side of the boundary-extended state w, written with the
    operators above: Lap (w^3 - w) - eps2 Lap (Lap w) - sigma (w - m). *)
Definition CH3 (h m sigma eps2 : R) (w : Z -> Z -> Z -> R) (i j k : Z) : R :=
  Lap3 h (fun i j k => w i j k ^ 3 - w i j k) i j k
  - eps2 * Lap3 h (Lap3 h w) i j k - sigma * (w i j k - m).
Definition CH2 (h m sigma eps2 : R) (w : Z -> Z -> R) (i j : Z) : R :=
  Lap2 h (fun i j => w i j ^ 3 - w i j) i j
  - eps2 * Lap2 h (Lap2 h w) i j - sigma * (w i j - m).

(** The discrete free energy of a periodic field on the grid: bulk energy
    (c^2 - 1)^2 / 4 plus eps2/2 times the squared forward differences. *)
Definition energy3 (dom : domain R) (h eps2 : R) (u : Z -> Z -> Z -> R) : R :=
  let w := periodic3 dom u in
  total3 dom (fun i j k =>
    (u i j k ^ 2 - 1) ^ 2 / 4
    + eps2 / 2 * (((w (i + 1)%Z j k - w i j k) / h) ^ 2 + ((w i (j + 1)%Z k - w i j k) / h) ^ 2
                  + ((w i j (k + 1)%Z - w i j k) / h) ^ 2)).
Definition energy2 (dom : domain R) (h eps2 : R) (u : Z -> Z -> R) : R :=
  let w := periodic2 dom u in
  total2 dom (fun i j =>
    (u i j ^ 2 - 1) ^ 2 / 4
    + eps2 / 2 * (((w (i + 1)%Z j - w i j) / h) ^ 2 + ((w i (j + 1)%Z - w i j) / h) ^ 2)).
