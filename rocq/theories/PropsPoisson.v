(** The Poisson test problem: C61.

    [poisson_rhs sin cos d c rhs] is one evaluation of the right-hand side; it returns the state
    with its halo cells filled and the residual.  The exact solution sin x cos y cos z of
    laplacian u = -3 u in the centre of a cell is [poisson_at]. *)
From Coq Require Import ZArith Reals List.
From Verif Require Import Outcome ZList Num SpecGrid ModelDisc3D SpecField ExampleNum ModelPoisson SpecMon PoissonFinal.
Import ListNotations.
Local Open Scope Z_scope.
Local Open Scope list_scope.

(** Whatever the state's halos and the output contain: the interior of the state is kept, its x and
    y halos are periodic, its z halos, corners included, hold the exact solution, and the result is
    the discrete Laplacian of the state so completed plus three times the exact solution. *)
Theorem C61_rhs :
  forall (dom : domain R) (d : disc3 R) (c rhs : list R) (u : Z -> Z -> Z -> R),
  valid_domain3 dom -> 1 <= nhalo dom -> nhalo dom <= nx dom /\ nhalo dom <= ny dom /\ nhalo dom <= nz dom ->
  make3 dom = Ok d -> holds_inside3 dom c u -> zlen rhs = cells3 dom ->
  exists c' rhs', poisson_rhs sin cos d c rhs = Ok (c', rhs') /\
    holds3 dom c' (poisson_extend dom u) /\
    holds_inside3 dom rhs' (fun i j k => Lap3 (spacing dom) (poisson_extend dom u) i j k + 3 * poisson_at dom i j k)%R /\
    same_halo3 dom rhs rhs'.
Proof. exact pf_C61_rhs. Qed.
Print Assumptions C61_rhs.

Example C61_rhs_ex : (valid_domain3 poisson_box /\ 1 <= nhalo poisson_box /\
   (nhalo poisson_box <= nx poisson_box /\ nhalo poisson_box <= ny poisson_box /\ nhalo poisson_box <= nz poisson_box) /\
   exists d, make3 poisson_box = Ok d) /\
  exists c rhs : list R, holds_inside3 poisson_box c (poisson_at poisson_box) /\ zlen rhs = cells3 poisson_box.
Proof. exact (conj poisson_box_ok poisson_box_arrays). Qed.

(** At the exact solution, on a domain whose x and y extents are whole numbers of periods, the
    discrete right-hand side is the solution times the truncation factor
    3 + 6 (cos h - 1) / h^2, which lies between 0 and h^2/4; and the state is completed to the
    exact solution in every halo cell. *)
Theorem C61_exact :
  forall (dom : domain R) (d : disc3 R) (c rhs : list R) (a b : Z),
  valid_domain3 dom -> 1 <= nhalo dom -> nhalo dom <= nx dom /\ nhalo dom <= ny dom /\ nhalo dom <= nz dom ->
  make3 dom = Ok d ->
  (xend dom - xbeg dom = 2 * IZR a * PI)%R -> (IZR (ny dom) * spacing dom = 2 * IZR b * PI)%R -> a <> 0 ->
  holds_inside3 dom c (poisson_at dom) -> zlen rhs = cells3 dom ->
  exists c' rhs' factor, poisson_rhs sin cos d c rhs = Ok (c', rhs') /\
    holds3 dom c' (poisson_at dom) /\
    factor = (3 + 6 * (cos (spacing dom) - 1) / (spacing dom * spacing dom))%R /\
    holds_inside3 dom rhs' (fun i j k => poisson_at dom i j k * factor)%R /\
    (0 <= factor <= spacing dom * spacing dom / 4)%R.
Proof. exact pf_C61_exact. Qed.
Print Assumptions C61_exact.

Example C61_exact_ex : (valid_domain3 poisson_box /\ 1 <= nhalo poisson_box /\
   (nhalo poisson_box <= nx poisson_box /\ nhalo poisson_box <= ny poisson_box /\ nhalo poisson_box <= nz poisson_box) /\
   exists d, make3 poisson_box = Ok d) /\
  ((xend poisson_box - xbeg poisson_box = 2 * IZR 1 * PI)%R /\
   (IZR (ny poisson_box) * spacing poisson_box = 2 * IZR 2 * PI)%R) /\
  exists c rhs : list R, holds_inside3 poisson_box c (poisson_at poisson_box) /\ zlen rhs = cells3 poisson_box.
Proof. exact (conj poisson_box_ok (conj poisson_box_periods poisson_box_arrays)). Qed.
