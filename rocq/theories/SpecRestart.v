(** Vocabulary for restarts. *)
From Coq Require Import List.
From Verif Require Import Outcome ZList Num SpecGrid ModelDisc3D ModelCH ModelTime ModelRun SpecTime SpecVTK.
From Coq Require Import String.
Import ListNotations.
Local Open Scope list_scope.

Section Spec.
  Context {V S W L : Type} `{N : Num V}.

  (** The callbacks leave the solver's own data alone. *)
  Definition leaves_solver_alone (call : L -> Z -> V -> V -> rk3_world V S W -> res (rk3_world V S W)) : Prop :=
    forall l i t dt y y', call l i t dt y = Ok y' ->
      k_int y' = k_int y /\ k_sc y' = k_sc y /\ k_u y' = k_u y /\ k_du y' = k_du y.

  (** The same options with another limit on the number of steps. *)
  Definition with_limit (o : time_options V) (n : Z) : time_options V :=
    {| t_t0 := t_t0 o; t_tfinal := t_tfinal o; t_dt_initial := t_dt_initial o; t_use_cfl := t_use_cfl o;
       t_max_steps := n; t_initial_step := t_initial_step o; t_rel_tol := t_rel_tol o; t_abs_tol := t_abs_tol o |}.

  (** No residual tolerance is set. *)
  Definition no_tolerance (o : time_options V) : Prop :=
    neqb (t_rel_tol o) (nint 0) = true /\ neqb (t_abs_tol o) (nint 0) = true.

  (** The arrays of a run on a grid with the given number of cells: one vector per state. *)
  Definition allocated (cells : Z) (x : rk3_world V (scratch V) W) : Prop :=
    (forall k, In k [r_k1 (k_int x); r_k2 (k_int x); r_k3 (k_int x); r_stage (k_int x)] -> shaped 1 cells k) /\
    scratch_fits cells (k_sc x) /\ shaped 1 cells (k_u x) /\ shaped 1 cells (k_du x).

  (** The callbacks succeed whenever the solver's arrays have the grid's size. *)
  Definition callbacks_succeed (cells : Z)
      (call : L -> Z -> V -> V -> rk3_world V (scratch V) W -> res (rk3_world V (scratch V) W)) : Prop :=
    forall l i t dt y, allocated cells y -> exists y', call l i t dt y = Ok y'.

  (** Every interior value of the solution prints exactly. *)
  Definition solution_prints3 (show : V -> String.string) (read : String.string -> res V) (dom : domain V)
      (x : rk3_world V S W) : Prop :=
    forall c i j k v, k_u x = [c] -> inside3 dom i j k -> zget c (slot3 dom i j k) = Some v -> prints show read v.
  Definition solution_prints2 (show : V -> String.string) (read : String.string -> res V) (dom : domain V)
      (x : rk3_world V S W) : Prop :=
    forall c i j v, k_u x = [c] -> inside2 dom i j -> zget c (slot2 dom i j) = Some v -> prints show read v.

  (** Two steps, of two runs on grids with the cells of dom: same start time, same step size, same
      iteration number and time reached, and the same value in every interior cell. *)
  Definition same_step3 (dom : domain V) (a b : step_record (V:=V) (X:=rk3_world V S W) (L:=L)) : Prop :=
    s_time a = s_time b /\ s_dt a = s_dt b /\
    g_iter (s_after a) = g_iter (s_after b) /\ g_time (s_after a) = g_time (s_after b) /\
    exists ca cb u, k_u (g_world (s_after a)) = [ca] /\ k_u (g_world (s_after b)) = [cb] /\
      holds_inside3 dom ca u /\ holds_inside3 dom cb u.
  Definition same_step2 (dom : domain V) (a b : step_record (V:=V) (X:=rk3_world V S W) (L:=L)) : Prop :=
    s_time a = s_time b /\ s_dt a = s_dt b /\
    g_iter (s_after a) = g_iter (s_after b) /\ g_time (s_after a) = g_time (s_after b) /\
    exists ca cb u, k_u (g_world (s_after a)) = [ca] /\ k_u (g_world (s_after b)) = [cb] /\
      holds_inside2 dom ca u /\ holds_inside2 dom cb u.
End Spec.

(** The boundary types and the names the options give them. *)
Definition bc_named (name : String.string) (b : bctype) : Prop :=
  (name = "periodic"%string /\ b = Periodic) \/ (name = "neumann"%string /\ b = Neumann) \/
  (name = "dirichlet"%string /\ b = Dirichlet).
