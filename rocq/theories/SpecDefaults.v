(** The documented default of every program option. *)
From Coq Require Import ZArith String List.
Import ListNotations.
From Verif Require Import ModelOptions.
Local Open Scope string_scope.
Local Open Scope Z_scope.

(** [lit m e] is the number m 10^e; [eps100] and [max100] are 100 times the machine epsilon and a hundredth of the
    greatest double. *)
Definition documented {V} (lit : Z -> Z -> V) (eps100 max100 : V) : list (string * value V) := [
  ("initial_condition_file", VString "none"); ("log_file", VString "maDGiCart"); ("equation_type", VString "cahn-hilliard");
  ("bc_x", VString "periodic"); ("bc_y", VString "periodic"); ("bc_z", VString "periodic");
  ("time_integrator", VString "rk3ssp"); ("mg_interpolation", VString "nearest");
  ("log_frequency", VInt 20); ("save_every", VInt 0); ("kernel_variant", VInt 1); ("dimension", VInt 2);
  ("domain_resolution_x", VInt 128); ("domain_resolution_y", VInt 128); ("domain_resolution_z", VInt 128);
  ("mg_max_cycles", VInt 100); ("mg_verbosity", VInt 2); ("mg_nsmooth", VInt 1); ("mg_levels", VInt 1);
  ("max_time_steps", VUnsigned 10000); ("use_cfl_time_step", VBool false); ("use_adaptive_time_step", VBool false);
  ("m", VDouble (lit 0 0)); ("eps2", VDouble (lit 2419753086419753 (-20))); ("sigma", VDouble (lit 2914488109293305 (-13)));
  ("domain_x_begin", VDouble (lit 0 0)); ("domain_y_begin", VDouble (lit 0 0)); ("domain_z_begin", VDouble (lit 0 0));
  ("domain_x_end", VDouble (lit 1 0)); ("time_step_size", VDouble (lit 1 (-6))); ("initial_time", VDouble (lit 0 0));
  ("final_time", VDouble (lit 1 0)); ("cfl", VDouble (lit 1 0)); ("min_time_step_size", VDouble eps100);
  ("max_time_step_size", VDouble max100); ("time_rel_err_tol", VDouble (lit 1 (-2)));
  ("converged_rel_tol", VDouble (lit 0 0)); ("converged_abs_tol", VDouble (lit 0 0));
  ("mg_rel_tol", VDouble (lit 1 (-2))); ("mg_relaxation", VDouble (lit 1 0)); ("mg_coarse_relaxation", VDouble (lit 1 0));
  ("mg_cfl", VDouble (lit 1 0))].

(** Options without a default, which are what they were when the program starts: empty. *)
Definition undefaulted : list string := ["config_file"; "solution_output_file"; "petsc_options"].
