(** What PETSc's manual says about the calls of ModelPetscSetup.v, as far as C78 is about it.

    - Options are kept in one database.  PetscInitialize puts the arguments in; PetscOptionsSetValue
      replaces an earlier value of the same name.
    - An argument is the name of an option if it starts with a minus sign and a letter; the argument
      after it is its value unless it is a name, too.
    - XXXSetFromOptions reads the database as it is then, and what it finds replaces what was set by calls.
    - The context given to SNESSetJacobian is kept as a pointer; no reference is taken. *)
From Coq Require Import String Ascii ZArith NArith Bool List.
From Verif Require Import Num ModelPetscSetup.
Import ListNotations.
Local Open Scope string_scope.
Local Open Scope list_scope.
Local Open Scope Z_scope.

(** White space: the space, the tab, the line feed, the vertical tab, the form feed and the carriage return. *)
Definition white (c : ascii) : bool := existsb (Ascii.eqb c) [" "; "009"; "010"; "011"; "012"; "013"]%char.

(** A text made of the words ws, in order, separated by white space. *)
Fixpoint blank (s : string) : Prop := match s with EmptyString => True | String c r => white c = true /\ blank r end.
Fixpoint solid (s : string) : Prop := match s with EmptyString => True | String c r => white c = false /\ solid r end.
Definition starts_blank (s : string) : Prop := match s with EmptyString => True | String c _ => white c = true end.
Inductive spells : list string -> string -> Prop :=
| spells_end g : blank g -> spells [] g
| spells_word g w ws rest : blank g -> w <> "" -> solid w -> starts_blank rest -> spells ws rest -> spells (w :: ws) (g ++ w ++ rest)%string.

(** The options in a list of arguments. *)
Definition is_letter (c : ascii) : bool :=
  let n := N_of_ascii c in (((65 <=? n) && (n <=? 90)) || ((97 <=? n) && (n <=? 122)))%N.
Definition is_name (a : string) : bool :=
  match a with String "-" (String c _) => is_letter c | _ => false end.
Fixpoint options_in (args : list string) : list (string * option string) :=
  match args with
  | [] => []
  | a :: rest =>
      if is_name a then
        match rest with
        | v :: _ => (a, if is_name v then None else Some v) :: options_in rest
        | [] => [(a, None)]
        end
      else options_in rest
  end.

(** The value in force: that of the last entry with the name.  None: no such option; Some None: an
    option without a value. *)
Fixpoint in_force (name : string) (db : list (string * option string)) : option (option string) :=
  match db with
  | [] => None
  | (n, v) :: rest =>
      match in_force name rest with
      | Some w => Some w
      | None => if String.eqb n name then Some v else None
      end
  end.

(** Where the Jacobian comes from: nowhere, the program's function, differences with a colouring
    (true: its context still exists). *)
Inductive jacobian_source : Type := NoJacobian | ProgramFunction | Coloured (alive : bool).

(** The time stepper and its solvers. *)
Record stepper (V : Type) : Type := {
  p_database : list (string * option string);
  p_solvers : list (string * option string);
  p_type : option string; p_rk : option string; p_jacobian : jacobian_source;
  p_rhs : bool; p_monitor : bool; p_post : bool; p_match : bool;
  p_dt : option V; p_time : option V; p_step : Z;
  p_adapt : option string; p_limits : option (V * V); p_tol : option (V * V);
  p_max_steps : option Z; p_max_time : option V }.
Arguments p_database {V}. Arguments p_solvers {V}. Arguments p_type {V}. Arguments p_rk {V}. Arguments p_jacobian {V}.
Arguments p_rhs {V}. Arguments p_monitor {V}. Arguments p_post {V}. Arguments p_match {V}. Arguments p_dt {V}.
Arguments p_time {V}. Arguments p_step {V}. Arguments p_adapt {V}. Arguments p_limits {V}. Arguments p_tol {V}.
Arguments p_max_steps {V}. Arguments p_max_time {V}.

Definition no_stepper {V} : stepper V := {|
  p_database := []; p_solvers := []; p_type := None; p_rk := None; p_jacobian := NoJacobian; p_rhs := false;
  p_monitor := false; p_post := false; p_match := false; p_dt := None; p_time := None; p_step := 0; p_adapt := None;
  p_limits := None; p_tol := None; p_max_steps := None; p_max_time := None |}.

Section Interpretation.
  Context {V : Type}.
  (** PETSc's reading of numbers. *)
  Variables (number : string -> V) (integer : string -> Z).

  Definition chosen {A} (f : string -> A) (name : string) (db : list (string * option string)) (old : option A) : option A :=
    match in_force name db with Some (Some v) => Some (f v) | _ => old end.

  (** TSSetFromOptions, for these names. *)
  Definition from_options (s : stepper V) : stepper V :=
    let db := p_database s in {|
    p_database := db; p_solvers := db; p_type := chosen (fun v => v) "-ts_type" db (p_type s);
    p_rk := chosen (fun v => v) "-ts_rk_type" db (p_rk s); p_jacobian := p_jacobian s; p_rhs := p_rhs s;
    p_monitor := p_monitor s; p_post := p_post s; p_match := p_match s; p_dt := chosen number "-ts_dt" db (p_dt s);
    p_time := chosen number "-ts_init_time" db (p_time s); p_step := p_step s;
    p_adapt := chosen (fun v => v) "-ts_adapt_type" db (p_adapt s); p_limits := p_limits s; p_tol := p_tol s;
    p_max_steps := chosen integer "-ts_max_steps" db (p_max_steps s); p_max_time := chosen number "-ts_max_time" db (p_max_time s) |}.

  Definition change (db so : list (string * option string)) ty rk jac rhs mon post mat dt t n ad lim tol ms mt : stepper V := {|
    p_database := db; p_solvers := so; p_type := ty; p_rk := rk; p_jacobian := jac; p_rhs := rhs; p_monitor := mon;
    p_post := post; p_match := mat; p_dt := dt; p_time := t; p_step := n; p_adapt := ad; p_limits := lim; p_tol := tol;
    p_max_steps := ms; p_max_time := mt |}.

  Definition after_call (s : stepper V) (c : setup_call V) : stepper V :=
    let '(Build_stepper _ db so ty rk jac rhs mon post mat dt t n ad lim tol ms mt) := s in
    match c with
    | Say _ _ | TSSetPreStep | SolverMonitorsSet | TSCreateNonlinear => s
    | PetscInitialize args => change (db ++ options_in (tl args)) so ty rk jac rhs mon post mat dt t n ad lim tol ms mt
    | PetscOptionsSetValue a v => change (db ++ [(a, v)]) so ty rk jac rhs mon post mat dt t n ad lim tol ms mt
    | SolversSetFromOptions => change db db ty rk jac rhs mon post mat dt t n ad lim tol ms mt
    | TSSetType x => change db so (Some x) rk jac rhs mon post mat dt t n ad lim tol ms mt
    | TSRKSetType x => change db so ty (Some x) jac rhs mon post mat dt t n ad lim tol ms mt
    | TSSetRHSJacobian => change db so ty rk ProgramFunction rhs mon post mat dt t n ad lim tol ms mt
    | SNESSetJacobianColoured => change db so ty rk (Coloured true) rhs mon post mat dt t n ad lim tol ms mt
    | FDColoringDestroy => change db so ty rk (match jac with Coloured _ => Coloured false | j => j end) rhs mon post mat dt t n ad lim tol ms mt
    | TSSetRHSFunction => change db so ty rk jac true mon post mat dt t n ad lim tol ms mt
    | TSMonitorSet => change db so ty rk jac rhs true post mat dt t n ad lim tol ms mt
    | TSSetPostStep => change db so ty rk jac rhs mon true mat dt t n ad lim tol ms mt
    | TSSetExactFinalTimeMatchStep => change db so ty rk jac rhs mon post true dt t n ad lim tol ms mt
    | TSSetTimeStep x => change db so ty rk jac rhs mon post mat (Some x) t n ad lim tol ms mt
    | TSSetTime x => change db so ty rk jac rhs mon post mat dt (Some x) n ad lim tol ms mt
    | TSSetStepNumber x => change db so ty rk jac rhs mon post mat dt t x ad lim tol ms mt
    | TSAdaptSetType x => change db so ty rk jac rhs mon post mat dt t n (Some x) lim tol ms mt
    | TSAdaptSetStepLimits a b => change db so ty rk jac rhs mon post mat dt t n ad (Some (a, b)) tol ms mt
    | TSSetTolerances a r => change db so ty rk jac rhs mon post mat dt t n ad lim (Some (a, r)) ms mt
    | TSSetMaxSteps x => change db so ty rk jac rhs mon post mat dt t n ad lim tol (Some x) mt
    | TSSetMaxTime x => change db so ty rk jac rhs mon post mat dt t n ad lim tol ms (Some x)
    | TSSetFromOptions => from_options s
    end.

  (** The stepper after a list of calls. *)
  Definition stepper_after (l : list (setup_call V)) : stepper V := fold_left after_call l no_stepper.
End Interpretation.

(** The names of options that TSSetFromOptions above looks at. *)
Definition stepper_options : list string :=
  ["-ts_type"; "-ts_rk_type"; "-ts_dt"; "-ts_init_time"; "-ts_adapt_type"; "-ts_max_steps"; "-ts_max_time"].

(** The text logged. *)
Fixpoint said {V} (l : list (setup_call V)) : list string :=
  match l with [] => [] | Say _ s :: r => s :: said r | _ :: r => said r end.

(** The solver options each integrator sets itself. *)
Definition imposed (integrator : string) : list (string * option string) :=
  let shown := map (fun n => (n, None)) ["-ts_monitor"; "-ksp_monitor"; "-ts_adapt_monitor"; "-snes_monitor";
                                         "-snes_converged_reason"; "-ksp_converged_reason"; "-ts_converged_reason"] in
  if String.eqb integrator "petsc_jfnk_bdf" then
    [("-snes_mf_operator", None); ("-snes_type", Some "newtonls"); ("-ksp_type", Some "fgmres"); ("-pc_type", Some "asm");
     ("-ksp_gmres_restart", Some "100"); ("-sub_pc_factor_levels", Some "0"); ("-snes_lag_jacobian", Some "10000");
     ("-snes_lag_jacobian_persists", Some "true"); ("-snes_force_iteration", Some "true")] ++ shown
  else if String.eqb integrator "petsc_jacobian_bdf" then
    [("-snes_type", Some "newtonls"); ("-ksp_type", Some "gmres"); ("-pc_type", Some "gamg")] ++ shown
  else [].
