(** Setting PETSc up (/repo/time_stepping/petsc_environment.cpp,
    /repo/time_stepping/petsc_time_integrator.cpp:255-611 and 639-655): the calls the program makes to
    PETSc, in order, on the host.  What PETSc does with them is in SpecPetscSetup.v. *)
From Coq Require Import String Ascii ZArith NArith Bool List.
From Verif Require Import ModelLogger Outcome Num ModelInt32 ModelObs ModelTime.
Import ListNotations.
Local Open Scope string_scope.
Local Open Scope list_scope.
Local Open Scope Z_scope.

(** std::isspace in the classic locale. *)
Definition is_space (c : ascii) : bool :=
  let n := N_of_ascii c in ((n =? 32) || ((9 <=? n) && (n <=? 13)))%N.

(** [std::istream_iterator<std::string>] over the string (petsc_environment.cpp:36-38): the word at the
    front and those after it. *)
Definition add_word (w : string) (ws : list string) : list string := match w with EmptyString => ws | _ => w :: ws end.
Fixpoint scan_words (s : string) : string * list string :=
  match s with
  | EmptyString => (EmptyString, [])
  | String c r => let '(w, ws) := scan_words r in if is_space c then (EmptyString, add_word w ws) else (String c w, ws)
  end.
Definition words (s : string) : list string := let '(w, ws) := scan_words s in add_word w ws.

(** The calls to PETSc and the log.  Destroying the objects used for the colouring is one call; the
    timers, the viewer output and the printf of addresses are left out. *)
Inductive setup_call (V : Type) : Type :=
| Say (l : level) (s : string)
| PetscInitialize (args : list string)
| TSCreateNonlinear
| TSSetRHSFunction
| TSSetRHSJacobian
| SNESSetJacobianColoured
| FDColoringDestroy
| TSSetType (t : string)
| TSRKSetType (t : string)
| PetscOptionsSetValue (name : string) (value : option string)
| SolversSetFromOptions
| SolverMonitorsSet
| TSSetTimeStep (dt : V)
| TSSetTime (t : V)
| TSSetStepNumber (n : Z)
| TSAdaptSetType (t : string)
| TSAdaptSetStepLimits (lo hi : V)
| TSSetTolerances (a r : V)
| TSSetMaxSteps (n : Z)
| TSSetMaxTime (t : V)
| TSSetExactFinalTimeMatchStep
| TSSetPostStep
| TSSetPreStep
| TSMonitorSet
| TSSetFromOptions.
Arguments Say {V}. Arguments PetscInitialize {V}. Arguments TSCreateNonlinear {V}. Arguments TSSetRHSFunction {V}.
Arguments TSSetRHSJacobian {V}. Arguments SNESSetJacobianColoured {V}. Arguments FDColoringDestroy {V}. Arguments TSSetType {V}.
Arguments TSRKSetType {V}. Arguments PetscOptionsSetValue {V}. Arguments SolversSetFromOptions {V}. Arguments SolverMonitorsSet {V}.
Arguments TSSetTimeStep {V}. Arguments TSSetTime {V}. Arguments TSSetStepNumber {V}. Arguments TSAdaptSetType {V}.
Arguments TSAdaptSetStepLimits {V}. Arguments TSSetTolerances {V}. Arguments TSSetMaxSteps {V}. Arguments TSSetMaxTime {V}.
Arguments TSSetExactFinalTimeMatchStep {V}. Arguments TSSetPostStep {V}. Arguments TSSetPreStep {V}. Arguments TSMonitorSet {V}.
Arguments TSSetFromOptions {V}.

(** The names under which the integrators are registered and the type each is constructed with
    (petsc_time_integrator.cpp:639-655). *)
Definition petsc_integrators : registry string :=
  [("petsc_ode23", "ode23"); ("petsc_jfnk_bdf", "jfnk_bdf"); ("petsc_jacobian_bdf", "jacobian_bdf")].

Section Setup.
  Context {V : Type} `{N : Num V}.
  (** numeric_limits<PetscReal>::max() *)
  Variable real_max : V.

  (** The constructor of [PetscEnvironment] (petsc_environment.cpp:34-64), run by that of the
      integrator (petsc_time_integrator.cpp:209-219). *)
  Definition petsc_args (petsc_options : string) : list string := "maDG" :: words petsc_options.
  Definition full_command (args : list string) : string := fold_left (fun s a => (s ++ a ++ " ")%string) args "".
  Definition environment_calls (petsc_options : string) : list (setup_call V) :=
    let args := petsc_args petsc_options in
    [Say LInfo ("Initializing Petsc with command line options: " ++ full_command args);
     PetscInitialize args;
     Say LInfo "Petsc initialization complete."].

  (** [initializePetscJacobian] (lines 255-427), the options set in lines 394-414. *)
  Definition jacobian_options : list (string * option string) :=
    [("-snes_type", Some "newtonls"); ("-ksp_type", Some "gmres"); ("-pc_type", Some "gamg");
     ("-ts_monitor", None); ("-ksp_monitor", None); ("-ts_adapt_monitor", None); ("-snes_monitor", None);
     ("-snes_converged_reason", None); ("-ksp_converged_reason", None); ("-ts_converged_reason", None)].
  Definition set_options (l : list (string * option string)) : list (setup_call V) :=
    map (fun p => PetscOptionsSetValue (fst p) (snd p)) l.
  Definition jacobian_calls : list (setup_call V) :=
    TSSetRHSJacobian :: set_options jacobian_options ++ [SolversSetFromOptions; SolverMonitorsSet].

  (** [initializePetscJFNK] (lines 430-521), the options set in lines 498-515. *)
  Definition jfnk_options : list (string * option string) :=
    [("-snes_mf_operator", None); ("-snes_type", Some "newtonls"); ("-ksp_type", Some "fgmres"); ("-pc_type", Some "asm");
     ("-ksp_gmres_restart", Some "100"); ("-sub_pc_factor_levels", Some "0");
     ("-snes_lag_jacobian", Some "10000"); ("-snes_lag_jacobian_persists", Some "true"); ("-snes_force_iteration", Some "true");
     ("-ts_monitor", None); ("-ksp_monitor", None); ("-ts_adapt_monitor", None); ("-snes_monitor", None);
     ("-snes_converged_reason", None); ("-ksp_converged_reason", None); ("-ts_converged_reason", None)].
  Definition jfnk_calls : list (setup_call V) :=
    [SNESSetJacobianColoured; FDColoringDestroy] ++ set_options jfnk_options ++ [SolversSetFromOptions].

  (** What depends on the type (lines 551-568). *)
  Definition type_calls (ts_type : string) : list (setup_call V) :=
    if String.eqb ts_type "ode23" then
      [Say LInfo "Initializing petsc with ode23 integrator"; TSSetType "rk"; TSRKSetType "3bs"]
    else if String.eqb ts_type "jfnk_bdf" then
      Say LInfo "Initializing petsc with JFNK BDF integrator" :: jfnk_calls ++ [TSSetType "bdf"]
    else if String.eqb ts_type "jacobian_bdf" then
      Say LInfo "Initializing petsc with explicit Jacobian BDF integrator" :: jacobian_calls
    else [Say LWarning ("Petsc TS type " ++ ts_type ++ " not recognized.")].

  (** The fields of TimeIntegratorOptions only this integrator uses
      (time_integrator_options.hpp:22-25). *)
  Record adaptive_options : Type := { ao_adaptive : bool; ao_rel_tol : V; ao_min : V; ao_max : V }.

  (** [initializePetsc] (lines 524-611).  [step_option] is [Options::get().time_step_size()]. *)
  Definition initialize_petsc (ts_type : string) (o : time_options V) (ao : adaptive_options) (step_option : V)
    : list (setup_call V) :=
    [TSCreateNonlinear; TSSetRHSFunction] ++ type_calls ts_type ++
    [TSSetTimeStep (t_dt_initial o); TSSetTime (t_t0 o); TSSetStepNumber (t_initial_step o)] ++
    (if ao_adaptive ao
     then [TSAdaptSetType "basic"; TSAdaptSetStepLimits (ao_min ao) (ao_max ao); TSSetTolerances (ao_rel_tol ao) (ao_rel_tol ao)]
     else [TSAdaptSetType "none"; TSSetTimeStep step_option]) ++
    [TSSetMaxSteps (if t_max_steps o =? 0 then int_max else t_max_steps o);
     TSSetMaxTime (if nonzero (t_tfinal o) then t_tfinal o else real_max);
     TSSetExactFinalTimeMatchStep; TSSetPostStep; TSSetPreStep; TSMonitorSet; TSSetFromOptions].

  (** All calls before TSSolve: construction and [initializePetsc]. *)
  Definition petsc_setup (petsc_options ts_type : string) (o : time_options V) (ao : adaptive_options) (step_option : V)
    : list (setup_call V) := environment_calls petsc_options ++ initialize_petsc ts_type o ao step_option.
End Setup.
Arguments adaptive_options V : clear implicits.
