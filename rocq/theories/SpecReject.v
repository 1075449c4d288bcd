(** Vocabulary for what the program accepts. *)
From Coq Require Import String.
From Verif Require Import ModelOptions SpecProgram.
From Coq Require Import ZArith List.
Import ListNotations.
Local Open Scope string_scope.
Local Open Scope list_scope.
Local Open Scope Z_scope.

(** The boundary types, equations and integrators there are. *)
Definition boundaries : list string := ["periodic"; "neumann"; "dirichlet"].
Definition equation_names : list string := ["cahn-hilliard"; "poisson"].
Definition integrator_names : list string :=
  ["rk3ssp"; "ode23"; "bdf1"; "steady"; "petsc_ode23"; "petsc_jfnk_bdf"; "petsc_jacobian_bdf"].

(** The options that select what is solved, on which grid and how. *)
Record request : Type := {
  q_dimension : Z; q_equation : string; q_integrator : string; q_variant : Z;
  q_bc_x : string; q_bc_y : string; q_bc_z : string; q_nx : Z; q_ny : Z; q_nz : Z }.
Definition requests {V} (m : members V) (q : request) (restart : string) : Prop :=
  given m [("dimension", VInt (q_dimension q)); ("equation_type", VString (q_equation q)); ("time_integrator", VString (q_integrator q));
    ("kernel_variant", VInt (q_variant q)); ("bc_x", VString (q_bc_x q)); ("bc_y", VString (q_bc_y q)); ("bc_z", VString (q_bc_z q));
    ("domain_resolution_x", VInt (q_nx q)); ("domain_resolution_y", VInt (q_ny q)); ("domain_resolution_z", VInt (q_nz q));
    ("initial_condition_file", VString restart)].

(** What the program does not know: a boundary type, a number of dimensions, an equation, a kernel
    of the Cahn-Hilliard equations in 3D. *)
Definition unknown (q : request) : Prop :=
  ~ In (q_bc_x q) boundaries \/ ~ In (q_bc_y q) boundaries \/ ~ In (q_bc_z q) boundaries \/
  ~ (q_dimension q = 2 \/ q_dimension q = 3) \/ ~ In (q_equation q) equation_names \/
  q_equation q = "cahn-hilliard" /\ q_dimension q = 3 /\ ~ (0 <= q_variant q <= 2).
(** What it knows and cannot do, and integrators it does not know. *)
Definition unsupported (q : request) : Prop :=
  q_equation q = "poisson" /\ q_dimension q = 2 \/ ~ In (q_integrator q) integrator_names.

(** An options object as its constructor leaves it: strings without a default are empty
    (program_options/program_options.hpp, program_options_parser.cpp:85-228). *)
Definition unset {V} (table : list (opt V)) (opts : members V) : Prop :=
  forall o, In o table -> o_default o = None -> opts (o_name o) = VString "".
