(** Setting up the PETSc time steppers: C78.

    [petsc_setup real_max po type o ao step] is the list of calls the program makes before TSSolve, for the
    petsc_options string po; [stepper_after] is the state they leave PETSc in (SpecPetscSetup). *)
From Verif Require Import ModelLogger ModelOptions Outcome Num ExampleNum ModelInt32 ModelObs ModelTime ModelVTK ModelMain
  ModelPetscSetup SpecPetscSetup PetscSetupFinal.
From Coq Require Import String Ascii ZArith QArith List.
Import ListNotations.
Local Open Scope string_scope.
Local Open Scope list_scope.
Local Open Scope Z_scope.

(** C78: the arguments PETSc is initialised with are the name maDG and the words of the petsc_options
    string: those a text spells, separated by any amount of white space, in order.  Every text spells exactly one list of
    words.  PETSc is initialised once, before any other call to it, and the log shows these arguments. *)
Theorem C78_words :
  forall (V : Type) (N : Num V) (real_max : V) (po ts_type : string) (o : time_options V) (ao : adaptive_options V) (step : V),
  exists ws rest,
    spells ws po /\ (forall ws', spells ws' po -> ws' = ws) /\
    petsc_setup real_max po ts_type o ao step =
      [Say LInfo ("Initializing Petsc with command line options: " ++ String.concat "" (map (fun a => (a ++ " ")%string) ("maDG" :: ws)));
       PetscInitialize ("maDG" :: ws); Say LInfo "Petsc initialization complete."] ++ rest /\
    (forall args, ~ In (PetscInitialize args) rest).
Proof. exact pf_C78_words. Qed.
Print Assumptions C78_words.

Example C78_words_example : spells ["-ts_type"; "bdf"; "-snes_monitor"] "  -ts_type  bdf -snes_monitor".
Proof.
  apply (spells_word "  " "-ts_type" ["bdf"; "-snes_monitor"] "  bdf -snes_monitor"); cbn; try (repeat split; discriminate || reflexivity).
  apply (spells_word "  " "bdf" ["-snes_monitor"] " -snes_monitor"); cbn; try (repeat split; discriminate || reflexivity).
  apply (spells_word " " "-snes_monitor" [] ""); cbn; try (repeat split; discriminate || reflexivity).
  apply spells_end. exact I.
Qed.

(** C78: for each registered name of a PETSc integrator and a petsc_options string that sets none of the options
    -ts_type, -ts_rk_type, -ts_dt, -ts_init_time, -ts_adapt_type, -ts_max_steps and -ts_max_time, the time stepper starts at the
    initial time and step number of the program, ends at the final time and step limit (0 stands for the largest
    double or int), hits the final time exactly, and calls the program's right-hand side, monitor and
    post-step function.  With adaptive stepping the first step has the initial size and the step controller has the
    limits and the tolerance asked for; otherwise every step has the time_step_size option.  petsc_ode23 is PETSc's third order Bogacki-Shampine
    method; petsc_jfnk_bdf is BDF with a coloured difference Jacobian; petsc_jacobian_bdf uses the program's Jacobian. *)
Theorem C78_settings :
  forall (V : Type) (N : Num V) (real_max : V) (number : string -> V) (integer : string -> Z) (name ts_type po : string)
    (ws : list string) (o : time_options V) (ao : adaptive_options V) (step : V),
  In (name, ts_type) petsc_integrators -> spells ws po ->
  (forall n, In n stepper_options -> in_force n (options_in ws) = None) ->
  let s := stepper_after number integer (petsc_setup real_max po ts_type o ao step) in
  p_time s = Some (t_t0 o) /\ p_step s = t_initial_step o /\
  p_max_steps s = Some (if t_max_steps o =? 0 then 2147483647 else t_max_steps o) /\
  p_max_time s = Some (if neqb (t_tfinal o) (nint 0) then real_max else t_tfinal o) /\
  p_match s = true /\ p_rhs s = true /\ p_monitor s = true /\ p_post s = true /\
  (ao_adaptive ao = true -> p_dt s = Some (t_dt_initial o) /\ p_adapt s = Some "basic" /\
     p_limits s = Some (ao_min ao, ao_max ao) /\ p_tol s = Some (ao_rel_tol ao, ao_rel_tol ao)) /\
  (ao_adaptive ao = false -> p_dt s = Some step /\ p_adapt s = Some "none") /\
  (name = "petsc_ode23" -> p_type s = Some "rk" /\ p_rk s = Some "3bs" /\ p_jacobian s = NoJacobian) /\
  (name = "petsc_jfnk_bdf" -> p_type s = Some "bdf" /\ exists alive, p_jacobian s = Coloured alive) /\
  (name = "petsc_jacobian_bdf" -> p_jacobian s = ProgramFunction).
Proof. exact pf_C78_settings. Qed.
Print Assumptions C78_settings.

Example C78_settings_example : In ("petsc_jfnk_bdf", "jfnk_bdf") petsc_integrators /\ spells ["-pc_type"; "lu"] " -pc_type lu" /\
  (forall n, In n stepper_options -> in_force n (options_in ["-pc_type"; "lu"]) = None).
Proof.
  split; [cbn; auto|]. split.
  - apply (spells_word " " "-pc_type" ["lu"] " lu"); cbn; try (repeat split; discriminate || reflexivity).
    apply (spells_word " " "lu" [] ""); cbn; try (repeat split; discriminate || reflexivity). apply spells_end. exact I.
  - intros n H. unfold stepper_options in H. repeat (destruct H as [<-|H]; [reflexivity|]). destruct H.
Qed.

(** C78: of these seven options, those the user gives a value in petsc_options replace what the program set. *)
Theorem C78_user :
  forall (V : Type) (N : Num V) (real_max : V) (number : string -> V) (integer : string -> Z) (name ts_type po : string)
    (ws : list string) (o : time_options V) (ao : adaptive_options V) (step : V) (v : string),
  In (name, ts_type) petsc_integrators -> spells ws po ->
  let s := stepper_after number integer (petsc_setup real_max po ts_type o ao step) in
  (in_force "-ts_type" (options_in ws) = Some (Some v) -> p_type s = Some v) /\
  (in_force "-ts_rk_type" (options_in ws) = Some (Some v) -> p_rk s = Some v) /\
  (in_force "-ts_dt" (options_in ws) = Some (Some v) -> p_dt s = Some (number v)) /\
  (in_force "-ts_init_time" (options_in ws) = Some (Some v) -> p_time s = Some (number v)) /\
  (in_force "-ts_adapt_type" (options_in ws) = Some (Some v) -> p_adapt s = Some v) /\
  (in_force "-ts_max_steps" (options_in ws) = Some (Some v) -> p_max_steps s = Some (integer v)) /\
  (in_force "-ts_max_time" (options_in ws) = Some (Some v) -> p_max_time s = Some (number v)).
Proof. exact pf_C78_user. Qed.
Print Assumptions C78_user.

Example C78_user_example : options_in ["-ts_dt"; "1e-4"; "-ts_type"; "cn"; "-ts_dt"; "-1.5"; "-ksp_monitor"] =
    [("-ts_dt", Some "1e-4"); ("-ts_type", Some "cn"); ("-ts_dt", Some "-1.5"); ("-ksp_monitor", None)] /\
  in_force "-ts_dt" (options_in ["-ts_dt"; "1e-4"; "-ts_type"; "cn"; "-ts_dt"; "-1.5"; "-ksp_monitor"]) = Some (Some "-1.5").
Proof. split; reflexivity. Qed.

(** C78: the solvers see the user's options, except that the implicit integrators impose their own values: [imposed]
    lists them.  A user cannot choose, for instance, the preconditioner. *)
Theorem C78_solver_options :
  forall (V : Type) (N : Num V) (real_max : V) (number : string -> V) (integer : string -> Z) (name ts_type po : string)
    (ws : list string) (o : time_options V) (ao : adaptive_options V) (step : V) (n : string),
  In (name, ts_type) petsc_integrators -> spells ws po ->
  let s := stepper_after number integer (petsc_setup real_max po ts_type o ao step) in
  (forall v, In (n, v) (imposed name) -> in_force n (p_solvers s) = Some v) /\
  (~ In n (map fst (imposed name)) -> in_force n (p_solvers s) = in_force n (options_in ws)).
Proof. exact pf_C78_solver_options. Qed.
Print Assumptions C78_solver_options.

Example C78_solver_options_example :
  In ("-pc_type", Some "asm") (imposed "petsc_jfnk_bdf") /\ ~ In "-snes_rtol" (map fst (imposed "petsc_jfnk_bdf")).
Proof. cbn. split; [tauto|]. intros H. repeat (destruct H as [H|H]; [discriminate H|]). exact H. Qed.

(** C78, finding: a run restarted from a file continues with the time step size in the file only if the step is
    adaptive.  With a fixed step the PETSc integrators take the time_step_size option, whatever the file says. *)
Theorem C78_restart_step_refuted :
  (forall (V : Type) (N : Num V) (real_max : V) (number : string -> V) (integer : string -> Z) (read : string -> res V)
     (name ts_type po : string) (ws : list string) (o o' : time_options V) (doc : list xml) (ao : adaptive_options V) (step : V),
   In (name, ts_type) petsc_integrators -> spells ws po -> in_force "-ts_dt" (options_in ws) = None ->
   time_options_for read o (Some doc) = Ok o' -> ao_adaptive ao = false ->
   p_dt (stepper_after number integer (petsc_setup real_max po ts_type o' ao step)) = Some step) /\
  (exists (read : string -> res Q) (o o' : time_options Q) (doc : list xml) (ao : adaptive_options Q),
   time_options_for read o (Some doc) = Ok o' /\ ao_adaptive ao = false /\ t_dt_initial o' <> t_dt_initial o /\
   p_dt (stepper_after (fun _ => 0%Q) (fun _ => 0) (petsc_setup (N:=Num_Q) 1%Q "" "ode23" o' ao (t_dt_initial o))) = Some (t_dt_initial o)).
Proof. exact pf_C78_restart_step_refuted. Qed.
Print Assumptions C78_restart_step_refuted.

(** C78, finding: petsc_jacobian_bdf does not select BDF.  Unless the user gives -ts_type, no type of time stepper is
    set at all. *)
Theorem C78_type_refuted :
  forall (V : Type) (N : Num V) (real_max : V) (number : string -> V) (integer : string -> Z) (ts_type po : string)
    (ws : list string) (o : time_options V) (ao : adaptive_options V) (step : V),
  In ("petsc_jacobian_bdf", ts_type) petsc_integrators -> spells ws po -> in_force "-ts_type" (options_in ws) = None ->
  p_type (stepper_after number integer (petsc_setup real_max po ts_type o ao step)) = None.
Proof. exact pf_C78_type_refuted. Qed.
Print Assumptions C78_type_refuted.

Example C78_type_refuted_example : In ("petsc_jacobian_bdf", "jacobian_bdf") petsc_integrators /\ spells [] " " /\
  in_force "-ts_type" (options_in []) = None.
Proof. cbn. split; [tauto|]. split; [|reflexivity]. apply spells_end. cbn. auto. Qed.

(** C78, finding: petsc_jfnk_bdf destroys the colouring after giving it to the nonlinear solver as the context of its
    Jacobian function, and nothing replaces it: the first Jacobian evaluation uses a freed object. *)
Theorem C78_coloring_refuted :
  forall (V : Type) (N : Num V) (real_max : V) (number : string -> V) (integer : string -> Z) (ts_type po : string)
    (o : time_options V) (ao : adaptive_options V) (step : V),
  In ("petsc_jfnk_bdf", ts_type) petsc_integrators ->
  p_jacobian (stepper_after number integer (petsc_setup real_max po ts_type o ao step)) = Coloured false.
Proof. exact pf_C78_coloring_refuted. Qed.
Print Assumptions C78_coloring_refuted.
