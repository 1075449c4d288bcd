(** The whole program (/repo/maDGiCart_main.cpp, /repo/initialization/puppeteer.cpp): from the
    command line to the log and the solution files, for the Cahn-Hilliard equations and the two
    explicit integrators rk3ssp and ode23. *)
From Coq Require Import String.
From Verif Require Import ModelLogger ModelOptions Outcome ZList Num ModelInt32 ModelDisc3D ModelDisc2D ModelCH ModelObs
  ModelTime ModelRun ModelMon ModelVTK ModelMain.
From Coq Require Import List.
Local Open Scope string_scope.
Local Open Scope list_scope.
Local Open Scope Z_scope.

(** What the program takes from the platform: conversions between numbers and text (the validators of
    the options and the solution reader use the same lexical_cast), the constants of
    numeric_limits, the log's formatting, the reductions of the parallel loops, std::pow, the
    random numbers, and the uninitialised memory of a domain description. *)
Record platform (V : Type) : Type := {
  pl_read : string -> res V; pl_showg : V -> string; pl_lit : Z -> Z -> V; pl_eps100 : V; pl_max100 : V;
  pl_show : V -> string; pl_show6 : V -> string;
  pl_showe : V -> string; pl_table : list string -> string; pl_banner : string;
  pl_red : reducers V; pl_rmax : V -> list V -> V; pl_hi : V; pl_lo : V; pl_pow : V -> V -> V;
  pl_draw : nat -> V; pl_raw : domain V }.
Arguments pl_read {V}. Arguments pl_showg {V}. Arguments pl_lit {V}. Arguments pl_eps100 {V}. Arguments pl_max100 {V}.
Arguments pl_show {V}. Arguments pl_show6 {V}. Arguments pl_showe {V}. Arguments pl_table {V}. Arguments pl_banner {V}.
Arguments pl_red {V}. Arguments pl_rmax {V}. Arguments pl_hi {V}. Arguments pl_lo {V}. Arguments pl_pow {V}.
Arguments pl_draw {V}. Arguments pl_raw {V}.

(** The conversion of unsigned int to int_t in [max_time_steps(int_t)]
    (time_integrator_options.hpp:54 and 104): modulo 2^32. *)
Definition int_of_unsigned (n : Z) : Z := if n <=? int_max then n else n - 4294967296.

Section Program.
  Context {V : Type} `{N : Num V}.
  Variable pl : platform V.
  Local Open Scope res_scope.

  (** The getters of [Options] (program_options.hpp:22-84): a member holds a value of its type. *)
  Definition get_string (m : members V) (n : string) : res string := match m n with VString s => Ok s | _ => UB end.
  Definition get_double (m : members V) (n : string) : res V := match m n with VDouble v => Ok v | _ => UB end.
  Definition get_int (m : members V) (n : string) : res Z := match m n with VInt v => Ok v | _ => UB end.
  Definition get_unsigned (m : members V) (n : string) : res Z := match m n with VUnsigned v => Ok v | _ => UB end.
  Definition get_bool (m : members V) (n : string) : res bool := match m n with VBool b => Ok b | _ => UB end.

  (** [domain_y_end], [domain_z_end] (program_options.hpp:42-50): the quotient of the two
      resolutions is one of ints. *)
  Definition far_end (m : members V) (res_name beg_name : string) : res V :=
    n <- get_int m res_name ;; nx <- get_int m "domain_resolution_x" ;;
    q <- idiv n nx ;;
    xe <- get_double m "domain_x_end" ;; xb <- get_double m "domain_x_begin" ;; b <- get_double m beg_name ;;
    Ok (nadd (nmul (nint q) (nsub xe xb)) b).

  (** The options the factories read (puppeteer.cpp:112-135, 147-208).  With a restart file
      ([fresh] = false) those of the grid are not read. *)
  Definition config_of (m : members V) (fresh : bool) : res (config V) :=
    dim <- get_int m "dimension" ;;
    nx <- get_int m "domain_resolution_x" ;; ny <- get_int m "domain_resolution_y" ;; nz <- get_int m "domain_resolution_z" ;;
    xb <- get_double m "domain_x_begin" ;; xe <- get_double m "domain_x_end" ;;
    yb <- get_double m "domain_y_begin" ;;
    ye <- (if fresh then far_end m "domain_resolution_y" "domain_y_begin" else Ok yb) ;;
    zb <- get_double m "domain_z_begin" ;;
    ze <- (if fresh then far_end m "domain_resolution_z" "domain_z_begin" else Ok zb) ;;
    bx <- get_string m "bc_x" ;; by_ <- get_string m "bc_y" ;; bz <- get_string m "bc_z" ;;
    eq <- get_string m "equation_type" ;; ti <- get_string m "time_integrator" ;;
    Ok {| c_dimension := dim; c_nx := nx; c_ny := ny; c_nz := nz; c_xbeg := xb; c_xend := xe; c_ybeg := yb; c_yend := ye;
          c_zbeg := zb; c_zend := ze; c_bc_x := bx; c_bc_y := by_; c_bc_z := bz; c_equation := eq; c_integrator := ti |}.

  (** [getTimeOptionsUsingGlobalOptions] (time_integrator_options.hpp:97-112), the fields the
      loop uses; initial_step_ is 0 (line 20). *)
  Definition time_options_of (m : members V) : res (time_options V) :=
    t0 <- get_double m "initial_time" ;; tf <- get_double m "final_time" ;; dt <- get_double m "time_step_size" ;;
    cfl <- get_bool m "use_cfl_time_step" ;; n <- get_unsigned m "max_time_steps" ;;
    rt <- get_double m "converged_rel_tol" ;; at_ <- get_double m "converged_abs_tol" ;;
    Ok {| t_t0 := t0; t_tfinal := tf; t_dt_initial := dt; t_use_cfl := cfl; t_max_steps := int_of_unsigned n;
          t_initial_step := 0; t_rel_tol := rt; t_abs_tol := at_ |}.

  (** [CahnHilliardParameters] (cahn_hilliard_parameters.hpp:14-16). *)
  Definition params_of (m : members V) : res (ch_params V) :=
    a <- get_double m "m" ;; s <- get_double m "sigma" ;; e <- get_double m "eps2" ;;
    Ok {| ch_m := a; ch_sigma := s; ch_eps2 := e |}.

  (** The registered integrators (rk3ssp.cpp:77-82, ode23.cpp:167-172, bdf_multigrid.cpp:433-443,
      petsc_time_integrator.cpp:639-656). *)
  Inductive integrator : Type := Rk3ssp | Ode23Integrator | Elsewhere.
  Definition integrators : registry integrator := [
    ("rk3ssp", Rk3ssp); ("ode23", Ode23Integrator); ("bdf1", Elsewhere); ("steady", Elsewhere);
    ("petsc_ode23", Elsewhere); ("petsc_jfnk_bdf", Elsewhere); ("petsc_jacobian_bdf", Elsewhere)].

  (** The constructor of [Puppeteer] from line 52 to 55: [construct] of ModelMain.v with the check of the
      kernel variant made where the equations are built (cahn_hilliard_3d_fd.cpp:7-16). *)
  Definition check_variant (m : members V) (e : equations V) : res Z :=
    v <- get_int m "kernel_variant" ;;
    match e with
    | CahnHilliard3 _ => if (0 <=? v) && (v <=? 2) then Ok v else Fatal
    | _ => Ok v
    end.
  Definition build (m : members V) (file : option (list xml))
    : res (equations V * initial * Z * ch_params V * time_options V * integrator) :=
    from <- match file with
            | None => Ok None
            | Some doc => '(dom, _) <- read_domain (pl_read pl) doc (pl_raw pl) ;; Ok (Some dom)
            end ;;
    cfg <- config_of m (match file with Some _ => false | None => true end) ;;
    g <- geom_factory cfg from ;;
    e <- rhs_factory cfg g ;;
    v <- check_variant m e ;;
    p <- params_of m ;;
    i <- initial_factory cfg (match file with Some _ => true | None => false end) ;;
    o <- time_options_of m ;;
    o' <- time_options_for (pl_read pl) o file ;;
    f <- integrator_factory integrators cfg ;;
    Ok (e, i, v, p, o', f).

  (** What the callbacks change: the logger and what it delivered, the variables of the residual
      calculator, the files written. *)
  Record pworld : Type := {
    w_logger : logger V; w_out : list delivery; w_stats : res_stats V; w_files : list (string * list xml) }.

  (** What the callbacks need of the grid. *)
  Record scene : Type := {
    sn_idx : list Z; sn_monitor : list V -> res (list (string * V));
    sn_write : file_status V -> list V -> res (list xml); sn_name : string -> Z -> res string }.
  Definition scene3 (max_steps : Z) (d : disc3 V) : scene := {|
    sn_idx := d3_interior d; sn_monitor := solution_monitor3 (pl_red pl) (pl_hi pl) (pl_lo pl) d;
    sn_write := fun st c => write3 (pl_show pl) (pl_show6 pl) st d c;
    sn_name := fun base iter => w <- iter_width3 max_steps ;; Ok (vts_name3 base w iter) |}.
  Definition scene2 (max_steps : Z) (d : disc2 V) : scene := {|
    sn_idx := d2_interior d; sn_monitor := solution_monitor2 (pl_red pl) (pl_hi pl) (pl_lo pl) d;
    sn_write := fun st c => write2 (pl_show pl) (pl_show6 pl) st d c;
    sn_name := fun base iter => w <- iter_width2 max_steps ;; Ok (vts_name2 base w iter) |}.

  Definition with_logger (w : pworld) (g : logger V) (out : list delivery) : pworld :=
    {| w_logger := g; w_out := w_out w ++ out; w_stats := w_stats w; w_files := w_files w |}.

  (** [write_solution_to_vtk] (vtk_solution_writer.cpp:16-191); the timer's messages are left out. *)
  Definition write_file (sn : scene) (base : string) (iter : Z) (time dt : V) (u : state V) (w : pworld) : res pworld :=
    name <- sn_name sn base iter ;;
    c <- of_opt (nth_error u 0) ;;
    doc <- sn_write sn {| fs_iter := iter; fs_time := time; fs_dt := dt |} c ;;
    Ok {| w_logger := w_logger w; w_out := w_out w; w_stats := w_stats w; w_files := w_files w ++ [(name, doc)] |}.

  (** The callbacks (puppeteer.cpp:212-261) on the integrator's solution and residual states; the
      equation's name is c (cahn_hilliard_base.hpp:19).  [getIterationStatus] (time_integrator.hpp:25-34)
      has three entries; [extra] is what an integrator adds to them (ode23.hpp:22-32).  The solution files
      take iter, time and dt from it by name. *)
  Definition driver_callback (sn : scene) (base : string) (l : driver_call) (iter : Z) (time dt : V)
      (extra : list (string * V)) (u du : state V) (w : pworld) : res pworld :=
    let lg := w_logger w in
    match l with
    | SetResidual =>
        '(st, m) <- residual_calculator (red_sum (pl_red pl)) ["c"] 1 (sn_idx sn) (w_stats w) du ;;
        Ok {| w_logger := set_monitors lg (l_time lg) m (l_solution lg); w_out := w_out w; w_stats := st; w_files := w_files w |}
    | SetSolution =>
        c <- of_opt (nth_error u 0) ;;
        m <- sn_monitor sn c ;;
        Ok (with_logger w (set_monitors lg (l_time lg) (l_residual lg) m) [])
    | SetTime =>
        Ok (with_logger w (set_monitors lg ([("iter", nint iter); ("time", time); ("dt", dt)] ++ extra) (l_residual lg) (l_solution lg)) [])
    | UpdateLog =>
        '(lg', out) <- update_log (pl_showe pl) (pl_table pl) lg ;;
        Ok (with_logger w lg' out)
    | WriteSolution => write_file sn base iter time dt u w
    end.

  Definition rk3_callback (sn : scene) (base : string) (l : driver_call) (iter : Z) (time dt : V)
      (x : rk3_world V (scratch V) pworld) : res (rk3_world V (scratch V) pworld) :=
    w <- driver_callback sn base l iter time dt [] (k_u x) (k_du x) (k_rest x) ;;
    Ok {| k_int := k_int x; k_sc := k_sc x; k_u := k_u x; k_du := k_du x; k_rest := w |}.
  Definition ode23_callback (sn : scene) (base : string) (l : driver_call) (iter : Z) (time dt : V)
      (x : ode23_world V (scratch V) pworld) : res (ode23_world V (scratch V) pworld) :=
    w <- driver_callback sn base l iter time dt [("time_err", o_err (e_int x))] (e_u x) (e_du x) (e_rest x) ;;
    Ok {| e_int := e_int x; e_pid := e_pid x; e_sc := e_sc x; e_u := e_u x; e_du := e_du x; e_rest := w |}.

  (** The messages of [computeNextTimestep] when a tolerance ends the run (time_integrator.cpp:101-121). *)
  Definition exit_messages (o : time_options V) (m : list (string * V)) : list string :=
    (if rel_converged o m then ["Exiting due to converged_rel_tol criterion."%string] else []) ++
    (match abs_converged o m with Ok true => ["Exiting due to converged_abs_tol criterion."%string] | _ => [] end).
  (** [Logger::InfoMessage] *)
  Definition info (messages : list string) (w : pworld) : res pworld :=
    match perform_all (pl_showe pl) (pl_table pl) (pl_banner pl) (w_logger w) (map (Message LInfo) messages) with
    | Next g out => Ok (with_logger w g out)
    | Aborted _ => Fatal
    | Undefined => UB
    end.
  (** [computeNextDT] (time_integrator.cpp:67-70, ode23.cpp:128-132) together with these messages: they are sent here, just before the
      tests in [compute_next] rather than in them; nothing in between can be seen from outside. *)
  Definition rk3_choose (o : time_options V) (x : rk3_world V (scratch V) pworld) (dt : V) : res (rk3_world V (scratch V) pworld * V) :=
    '(x, dt) <- rk3_next_dt x dt ;;
    w <- info (exit_messages o (l_residual (w_logger (k_rest x)))) (k_rest x) ;;
    Ok ({| k_int := k_int x; k_sc := k_sc x; k_u := k_u x; k_du := k_du x; k_rest := w |}, dt).
  Definition ode23_choose (o : time_options V) (x : ode23_world V (scratch V) pworld) (dt : V) : res (ode23_world V (scratch V) pworld * V) :=
    '(x, dt) <- ode23_next_dt (pl_pow pl) x dt ;;
    w <- info (exit_messages o (l_residual (w_logger (e_rest x)))) (e_rest x) ;;
    Ok ({| e_int := e_int x; e_pid := e_pid x; e_sc := e_sc x; e_u := e_u x; e_du := e_du x; e_rest := w |}, dt).

  (** The arrays of the equations (cahn_hilliard_3d_fd.cpp:10-13, cahn_hilliard_2d_fd.cpp:9-12) and of
      the integrators (time_integrator.cpp:8-9, rk3ssp.cpp, ode23.cpp:3-14); [a] is an array just created. *)
  Definition new_scratch (a : list V) : scratch V := {| sc_lap := a; sc_arg := a; sc_bih := a; sc_lin := a |}.
  Definition new_rk3 (a : list V) : rk3 V := {| r_k1 := [a]; r_k2 := [a]; r_k3 := [a]; r_stage := [a] |}.
  Definition new_ode23 (a : list V) : ode23 V :=
    {| o_k1 := [a]; o_k2 := [a]; o_k3 := [a]; o_k4 := [a]; o_stage := [a]; o_first := true; o_err := nint 1 |}.

  (** The initial values: cahn_hilliard_initial_conditions.cpp:15-48 or
      initial_conditions_from_file.cpp:8-12.  Simplification: the message with the mean of the random numbers
      (cahn_hilliard_initial_conditions.cpp:43) and those of the reader (vtk_solution_reader.cpp:190-208)
      are not sent to the logger. *)
  Definition initial_values3 (i : initial) (file : option (list xml)) (p : ch_params V) (d : disc3 V) (c : list V) : res (list V) :=
    match i, file with
    | RandomField, _ => random_initial (pl_draw pl) (ch_m p) (d3_interior d) c
    | FromFile, Some doc =>
        t <- set_solution (pl_read pl) doc (pl_raw pl) (Target3 d c) ;;
        match t with Target3 _ c' => Ok c' | Target2 _ _ => Throw end
    | _, _ => Throw
    end.
  Definition initial_values2 (i : initial) (file : option (list xml)) (p : ch_params V) (d : disc2 V) (c : list V) : res (list V) :=
    match i, file with
    | RandomField, _ => random_initial (pl_draw pl) (ch_m p) (d2_interior d) c
    | FromFile, Some doc =>
        t <- set_solution (pl_read pl) doc (pl_raw pl) (Target2 d c) ;;
        match t with Target2 _ c' => Ok c' | Target3 _ _ => Throw end
    | _, _ => Throw
    end.

  Definition lift {A B} (r : res A) (k : A -> option (res B)) : option (res B) :=
    match r with Ok a => k a | UB => Some UB | Fatal => Some Fatal | Throw => Some Throw end.
  Definition after {A B} (r : option (res A)) (k : A -> res B) : option (res B) :=
    match r with Some a => Some (rbind a k) | None => None end.

  (** The rest of [Puppeteer::run] (puppeteer.cpp:72-87) once the grid is known: [a] is a new
      array, [set] the initial conditions, [rhs] the equations.  The profiler's report is
      left out.  [None]: more steps than [fuel]. *)
  Definition run_rk3 (fuel : nat) (sn : scene) (a : list V) (rhs : rhs_fun V (scratch V)) (set : list V -> res (list V))
      (o : time_options V) (base : string) (obs : observable driver_call) (w : pworld) : option (res pworld) :=
    lift (set a) (fun c =>
    after (solve (rk3_do rhs) (rk3_choose o) (fun x => l_residual (w_logger (k_rest x))) (rk3_callback sn base) fuel o obs
      {| k_int := new_rk3 a; k_sc := new_scratch a; k_u := [c]; k_du := [a]; k_rest := w |})
      (fun '(_, gf) => write_file sn (base ++ "_final")%string (g_iter gf) (g_time gf) (g_dt gf)
                         (k_u (g_world gf)) (k_rest (g_world gf)))).
  Definition run_ode23 (fuel : nat) (sn : scene) (a : list V) (rhs : rhs_fun V (scratch V)) (set : list V -> res (list V))
      (errtol minstep maxstep : V)
      (o : time_options V) (base : string) (obs : observable driver_call) (w : pworld) : option (res pworld) :=
    lift (set a) (fun c =>
    after (solve (ode23_do (pl_rmax pl) rhs) (ode23_choose o) (fun x => l_residual (w_logger (e_rest x)))
      (ode23_callback sn base) fuel o obs
      {| e_int := new_ode23 a; e_pid := new_pid errtol minstep maxstep; e_sc := new_scratch a; e_u := [c];
         e_du := [a]; e_rest := w |})
      (fun '(_, gf) => write_file sn (base ++ "_final")%string (g_iter gf) (g_time gf) (g_dt gf)
                         (e_u (g_world gf)) (e_rest (g_world gf)))).
  Definition run_with (m : members V) (fuel : nat) (sn : scene) (a : list V) (rhs : rhs_fun V (scratch V))
      (set : list V -> res (list V)) (o : time_options V) (f : integrator) (base : string)
      (obs : observable driver_call) (w : pworld) (other : option (res pworld)) : option (res pworld) :=
    match f with
    | Rk3ssp => run_rk3 fuel sn a rhs set o base obs w
    | Ode23Integrator =>
        lift (get_double m "time_rel_err_tol") (fun errtol =>
        lift (get_double m "min_time_step_size") (fun minstep =>
        lift (get_double m "max_time_step_size") (fun maxstep =>
        run_ode23 fuel sn a rhs set errtol minstep maxstep o base obs w)))
    | Elsewhere => other
    end.

  (** How the program ends: in the option parser, or after its run. *)
  Inductive ending : Type := Quit (code : Z) | Finished (w : pworld).

  (** The base of the file names (puppeteer.cpp:42-47). *)
  Definition output_base (solution_output_file log_file : string) : string :=
    if String.eqb solution_output_file "" then log_file else solution_output_file.

  (** The logger after [initLogFile] and the messages of the constructor (puppeteer.cpp:33-40): the
      configuration and the name of the restart file, if there is one. *)
  Definition start_messages (template restart_file : string) : list string :=
    template :: if String.eqb restart_file "none" then [] else ["Using initial conditions file " ++ restart_file]%string.
  Definition start_log (log_file : string) (messages : list string) : res pworld :=
    match perform_all (pl_showe pl) (pl_table pl) (pl_banner pl) new_logger
            (InitFile log_file LTrace :: map (Message LInfo) messages) with
    | Next g out => Ok {| w_logger := g; w_out := out; w_stats := res_stats0; w_files := [] |}
    | Aborted _ => Fatal
    | Undefined => UB
    end.

  (** [main] (maDGiCart_main.cpp:5-14): the constructor of [Puppeteer] (puppeteer.cpp:27-66) and
      [Puppeteer::run].  [fs] holds the text files, [vts] the elements of the solution files (none if it
      does not exist).  Poisson's equation and the integrators [Elsewhere] are left to [other]. *)
  Definition madgicart (fuel : nat) (fs : string -> option string) (vts : string -> list xml)
      (other : members V -> option (res pworld)) (args : list string) (opts : members V) : option (res ending) :=
    lift (parse_options (pl_read pl) (pl_lit pl) (pl_eps100 pl) (pl_max100 pl) fs args opts) (fun r =>
    match r with
    | Exited code => Some (Ok (Quit code))
    | Running m vm =>
        lift (get_string m "log_file") (fun log_file =>
        lift (get_string m "initial_condition_file") (fun restart_file =>
        lift (start_log log_file (start_messages (config_template (pl_showg pl) (pl_lit pl) (pl_eps100 pl) (pl_max100 pl) vm) restart_file)) (fun w =>
        let file := if String.eqb restart_file "none" then None else Some (vts restart_file) in
        lift (get_string m "solution_output_file") (fun out_file =>
        let base := output_base out_file log_file in
        lift (build m file) (fun '(e, i, v, p, o, f) =>
        lift (get_int m "log_frequency") (fun log_frequency =>
        lift (get_int m "save_every") (fun save_every =>
        lift (get_unsigned m "max_time_steps") (fun max_steps =>
        let obs := driver_observers log_frequency save_every in
        after
          match e with
          | CahnHilliard3 d =>
              run_with m fuel (scene3 max_steps d) (create_real_array3 d)
                (ch_rhs3 d v p) (initial_values3 i file p d) o f base obs w (other m)
          | CahnHilliard2 d =>
              run_with m fuel (scene2 max_steps d) (create_real_array2 d)
                (ch_rhs2 d p) (initial_values2 i file p d) o f base obs w (other m)
          | Poisson3 _ => other m
          end
          (fun w => Ok (Finished w))))))))))
    end).
End Program.
Arguments pworld V : clear implicits.
Arguments scene V : clear implicits.
Arguments ending V : clear implicits.
