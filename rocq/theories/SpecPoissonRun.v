(** What whole runs with Poisson's equation are to compute. *)
From Coq Require Import String Reals.
From Verif Require Import ModelOptions ModelProgram Num SpecGrid SpecMon SpecField SpecProgram ModelDisc3D ModelDisc2D ModelMG ModelMGCH SpecMG.
From Coq Require Import List.
Import ListNotations.
Local Open Scope string_scope.
Local Open Scope Z_scope.

(** The options of a Cahn-Hilliard run, but with Poisson's equation: from the file [from], or from the program's own initial values. *)
Definition poisson_asked_from {V} `{N : Num V} (dim : Z) (integrator from : string) (s : settings V) (rel abs : V) : list (string * value V) :=
  map (fun p => if String.eqb (fst p) "equation_type" then ("equation_type", VString "poisson") else p) (asked_with dim integrator from s rel abs).
Definition poisson_asks_from {V} `{N : Num V} (m : members V) (dim : Z) (integrator from : string) (s : settings V) (rel abs : V) : Prop :=
  given m (poisson_asked_from dim integrator from s rel abs).
Definition poisson_asked {V} `{N : Num V} (dim : Z) (integrator : string) (s : settings V) (rel abs : V) : list (string * value V) :=
  poisson_asked_from dim integrator "none" s rel abs.
Definition poisson_asks {V} `{N : Num V} (m : members V) (dim : Z) (integrator : string) (s : settings V) (rel abs : V) : Prop :=
  given m (poisson_asked dim integrator s rel abs).

(** The settings describe a run of this size; the kernel variant does not matter. *)
Definition poisson_sound {V} (s : settings V) (fuel : nat) : Prop :=
  2 <= s_nx s /\ 2 <= s_ny s <= 2147483647 /\ 2 <= s_nz s <= 2147483647 /\
  0 < s_max_steps s <= 2147483647 /\ s_log_every s <> 0 /\ s_max_steps s <= Z.of_nat fuel.
Definition poisson_sound_from {V} (s : settings V) (i : Z) (fuel : nat) : Prop :=
  0 < s_max_steps s <= 2147483647 /\ s_log_every s <> 0 /\ 0 <= i < 2147483647 /\ Z.max 1 (s_max_steps s - i) <= Z.of_nat fuel.

(** The equation solved is u' = Lap u + 3 g, where g = sin x cos y cos z, with u periodic in x and y and
    equal to g outside the domain in z. *)
Definition poisson_rate (dom : domain R) (u : Z -> Z -> Z -> R) (i j k : Z) : R :=
  (Lap3 (spacing dom) (poisson_extend dom u) i j k + 3 * poisson_at dom i j k)%R.

(** One eighth of the square of the distance between the two planes of cells in z where the values are prescribed: a bound for
    functions that vanish there and have a Laplacian of at most 1. *)
Definition barrier_top (dom : domain R) : R := (spacing dom * spacing dom * IZR (nz dom + 1) * IZR (nz dom + 1) / 8)%R.

(** The values u reached at time t are near v, up to [tau] and to a part that decays since time t0; [size] bounds v. *)
Definition settles (dom : domain R) (v : Z -> Z -> Z -> R) (tau size t0 t : R) (u : Z -> Z -> Z -> R) : Prop :=
  forall i j k, inside3 dom i j k ->
  (Rabs (u i j k - v i j k) <= barrier_top dom * (tau + 2 * size / (spacing dom * spacing dom * IZR (nz dom)) * exp (- (t - t0) / barrier_top dom)))%R.

(** The levels of the implicit integrator: on each the same equation, with its own grid; steps of smoothings go with the square of the
    spacing. *)
Definition poisson_smoothing (cfl : R) (dom : domain R) (l : Z) : R := (cfl * spacing_at dom l ^ 2)%R.
Definition poisson_levels (q : mg_options R) (dom : domain R) (prol : (Z -> Z -> Z -> R) -> Z -> Z -> Z -> R) (first : Z -> R) (l : Z)
    : glevel R :=
  let here := coarse_dom dom l in
  let finer := coarse_dom dom (l - 1) in
  {| l_f := fun _ => onto3 here here (poisson_rate here);
     l_ext := onto3 here here (poisson_extend here);
     l_rest := onto3 finer here average8; l_prol := onto3 here finer prol;
     l_cfl := poisson_smoothing (q_cfl q) dom l; l_dt := first l |}.
