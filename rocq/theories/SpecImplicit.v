(** Vocabulary for runs with the implicit integrator. *)
From Coq Require Import String.
From Verif Require Import ModelLogger ModelOptions Outcome ZList Num ModelDisc3D ModelCH ModelTime ModelMon ModelVTK ModelProgram
  SpecGrid SpecField SpecMon SpecVTK SpecTime ModelMG ModelMGCH SpecMG SpecProgram.
From Coq Require Import Reals List.
Local Open Scope list_scope.
Local Open Scope Z_scope.

Section Cycles.
  Context {V : Type} `{N : Num V}.

  (** State and residual after n V-cycles from u, where r is the residual before.  A cycle's residual is the average slope of its
      last smoothing.  The first cycle's first smoothings make a step dt, all others the step of their level. *)
  Fixpoint cycled (n : nat) (ns : nat) (t : V) (f : V -> field V -> field V) (ext : field V -> field V)
      (dt cfl relax crelax : V) (coarser : list (glevel V)) (u r : field V) : field V * field V :=
    match n with
    | O => (u, r)
    | S n =>
        let pre := vcycle_pre ns t f ext dt cfl relax crelax coarser u in
        cycled n ns t f ext cfl cfl relax crelax (map settled coarser) (smooth f ext t cfl pre) (SpecMG.slope f t cfl pre)
    end.
End Cycles.

(** The options of the implicit integrator. *)
Definition mg_asks {V} (m : members V) (q : mg_options V) : Prop :=
  given m [("mg_levels", VInt (q_levels q)); ("mg_nsmooth", VInt (q_nsmooth q)); ("mg_max_cycles", VInt (q_max_cycles q));
    ("mg_rel_tol", VDouble (q_tol q)); ("mg_cfl", VDouble (q_cfl q)); ("mg_relaxation", VDouble (q_relax q));
    ("mg_coarse_relaxation", VDouble (q_coarse_relax q));
    ("mg_interpolation", VString match q_interp q with MGNearest => "nearest" | MGLinear => "linear" | MGOther => "other" end)]%string.
Definition integrator_name {V} (q : mg_options V) : string := if q_steady q then "steady"%string else "bdf1"%string.

(** Prolongations: the value of the coarse cell around a cell, or an interpolation that is exact for fields that do
    not vary in the first direction and are linear in the others. *)
Definition prolongs (i : mg_interp) (prol : (Z -> Z -> Z -> R) -> Z -> Z -> Z -> R) : Prop :=
  match i with
  | MGNearest => forall v i j k, prol v i j k = v (i / 2) (j / 2) (k / 2)
  | MGLinear => forall v a c e, (forall i j k, v i j k = a + c * (2 * IZR j + 1) + e * (2 * IZR k + 1))%R ->
      forall i j k, (prol v i j k = a + c * (IZR j + 1 / 2) + e * (IZR k + 1 / 2))%R
  | MGOther => False
  end.

Section Implicit.
  Variables (q : mg_options R) (dom : domain R) (level : (Z -> R) -> Z -> glevel R) (step : Z -> R).
  Let X : Type := Z -> Z -> Z -> R.

  (** State and residual after n V-cycles of the step from u at time t over dt: the residual is that of backward Euler, or of the
      steady equation.  [first l] is the step with which the first smoothing on level l is made, [step l] that of later ones;
      [level first l] is what the equation and the passages between the grids are on level l. *)
  Definition implicit_cycles (first : Z -> R) (t dt : R) (u : X) (n : nat) : X * X :=
    let L := level first in
    let F := implicit_rhs (q_steady q) (l_f (L 0)) dt (table_of dom u) in
    let z := cycled n (Z.to_nat (q_nsmooth q)) t F (l_ext (L 0)) (first 0) (step 0) (q_relax q) (q_coarse_relax q)
               (map (fun l => L (Z.of_nat l)) (seq 1 (Z.to_nat (q_levels q - 1)))) (table_of dom u) (F t (table_of dom u)) in
    (cells_of dom (fst z), cells_of dom (snd z)).

  (** A step from u to u', which leaves the residual v: cycles until the residual has fallen below the tolerance, relative to the residual
      before the first, or there have been as many as allowed; at least one, if one is allowed. *)
  Definition implicit_step (first : Z -> R) (t dt : R) (u u' v : X) : Prop :=
    let z := implicit_cycles first t dt u in
    let r n := rms3 dom (snd (z n)) in
    exists n, (n <= Z.to_nat (q_max_cycles q))%nat /\ (0 < q_max_cycles q -> (0 < n)%nat) /\ z n = (u', v) /\
      (r 0%nat <> 0%R -> (forall k, (0 < k < n)%nat -> (q_tol q < r k / r 0%nat)%R) /\
         (n = Z.to_nat (q_max_cycles q) \/ (0 < n)%nat /\ (r n / r 0%nat <= q_tol q)%R)).

  (** The steps of a run: after the first, smoothing starts with the step of the level. *)
  Inductive implicit_course : (Z -> R) -> Z -> X -> list (R * R) -> list (Z * R * R * (X * X)) -> Prop :=
  | course_end first k u : implicit_course first k u [] []
  | course_step first k u t dt u' v steps l : implicit_step first t dt u u' v ->
      implicit_course step (k + 1) u' steps l ->
      implicit_course first k u ((t, dt) :: steps) ((k + 1, (t + dt)%R, dt, (u', v)) :: l).
End Implicit.

(** A run with the implicit integrator: its steps, the states and residuals after them, the solution files, and what it asked of the
    logger (the integrator's own messages aside). *)
Definition implicit_story (pl : platform R) (q : mg_options R) (s : settings R) (dom : domain R)
    (level : ((Z -> Z -> Z -> R) -> Z -> Z -> Z -> R) -> (Z -> R) -> Z -> glevel R) (step : Z -> R) (messages : list string)
    (start : Z * R * R) (u0 : Z -> Z -> Z -> R) (w : pworld R) : Prop :=
  let '(i0, t0, dt0) := start in
  let state x := let '(i, t, dt, p) := x : Z * R * R * ((Z -> Z -> Z -> R) * (Z -> Z -> Z -> R)) in (i, t, dt, fst p) in
  exists prol steps e rated files fin,
    prolongs (q_interp q) prol /\
    marches (fun dt p => p = dt) (s_tfinal s) (s_max_steps s) i0 t0 dt0 false steps e /\
    implicit_course q dom (level prol) step (fun _ => 1 / 1000000)%R i0 u0 steps rated /\
    Forall2 (saved3 pl s dom (base_of s)) (map state rated) files /\
    w_files w = every (s_save_every s) files ++ [fin] /\
    (exists before i t dt u, map state rated = before ++ [(i, t, dt, u)] /\
       saved3 pl s dom (base_of s ++ "_final")%string (i, t, e, u) fin) /\
    (exists rows, perform_all (pl_showe pl) (pl_table pl) (pl_banner pl) new_logger (log_requests (s_log_file s) messages rows)
         = Next (w_logger w) (w_out w) /\
       length rows = length (every (s_log_every s) rated) /\
       forall n x row, nth_error (every (s_log_every s) rated) n = Some x -> nth_error rows n = Some row ->
         logged3 dom [] (firstn (S n) (every (s_log_every s) rated)) x row).

(** The levels of the Cahn-Hilliard equation. *)
Definition ch_levels (q : mg_options R) (s : settings R) (dom : domain R) (prol : (Z -> Z -> Z -> R) -> Z -> Z -> Z -> R)
    (first : Z -> R) : Z -> glevel R := ch_level3 prol (s_m s) (s_sigma s) (s_eps2 s) (q_cfl q) first dom.

(** Options with which the integrator can be made: between one and six levels, a number of cells in each direction that can be halved to the
    last of them and leaves two cells there, and at least one smoothing. *)
Definition mg_fits {V} (q : mg_options V) (nx ny nz : Z) : Prop :=
  let coarsest n := n mod 2 ^ (q_levels q - 1) = 0 /\ 2 <= n / 2 ^ (q_levels q - 1) in
  1 <= q_levels q <= 6 /\ coarsest nx /\ coarsest ny /\ coarsest nz /\ 1 <= q_nsmooth q /\ q_interp q <> MGOther.
Definition mg_sound {V} (q : mg_options V) (s : settings V) : Prop := mg_fits q (s_nx s) (s_ny s) (s_nz s).
