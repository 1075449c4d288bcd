(** The whole program with the implicit integrator
    (/repo/time_stepping/bdf_multigrid.cpp, registered as bdf1 and steady on lines 433-442), and with Poisson's equation
    (/repo/governing_equations/poisson/poisson_3d_fd.cpp). *)
From Coq Require Import String.
From Verif Require Import ModelLogger ModelOptions Outcome ZList Num ModelDisc3D ModelDisc2D ModelCH ModelTime ModelRun ModelObs ModelMon
  ModelVTK ModelMain ModelProgram ModelMG ModelMGCH ModelPoisson.
From Coq Require Import List.
Import ListNotations.
Local Open Scope string_scope.
Local Open Scope list_scope.
Local Open Scope Z_scope.
Local Open Scope res_scope.

Section Implicit.
  Context {V : Type} `{N : Num V} (pl : platform V).

  (** The comparisons of mg_interpolation with strings (discretization_3d_cart.cpp:201, 225, 283). *)
  Definition interp_of (s : string) : mg_interp :=
    if String.eqb s "nearest" then MGNearest else if String.eqb s "linear" then MGLinear else MGOther.

  (** The options read by the integrator and its parts (program_options.hpp:60-68): bdf_multigrid.cpp:8-25, 102-103, 218, 335-338,
      ode23_smoother.cpp, discretization_3d_cart.cpp:201-284.  mg_verbosity only governs messages, which are left out. *)
  Definition mg_options_of (m : members V) : res (mg_options V) :=
    levels <- get_int m "mg_levels" ;;
    nsmooth <- get_int m "mg_nsmooth" ;;
    max_cycles <- get_int m "mg_max_cycles" ;;
    tol <- get_double m "mg_rel_tol" ;;
    cfl <- get_double m "mg_cfl" ;;
    relax <- get_double m "mg_relaxation" ;;
    coarse_relax <- get_double m "mg_coarse_relaxation" ;;
    interp <- get_string m "mg_interpolation" ;;
    name <- get_string m "time_integrator" ;;
    Ok {| q_levels := levels; q_nsmooth := nsmooth; q_max_cycles := max_cycles; q_tol := tol; q_cfl := cfl; q_relax := relax;
          q_coarse_relax := coarse_relax; q_interp := interp_of interp; q_steady := String.eqb name "steady" |}.

  (** The integrator with its state, and what the callbacks change. *)
  Record bdf_world : Type := { i_mg : mg_world V (scratch V); i_rest : pworld V }.

  (** The solver's state and residual: those of the finest level. *)
  Definition bdf_state (b : mg_world V (scratch V)) : state V := match b_levels b with v :: _ => v_u v | [] => [] end.
  Definition bdf_residual (b : mg_world V (scratch V)) : state V := match b_levels b with v :: _ => v_du v | [] => [] end.

  (** [BDFMultigrid::doTimeStep] (bdf_multigrid.cpp:58-68).  The messages of [doTimeStepCycle] (lines 85-101, 157-165, 172-186,
      189-196) are left out: they are about the cycles and the time they took, and change nothing else. *)
  Definition bdf_do (g : mg_config V (scratch V)) (x : bdf_world) (time dt : V) : res bdf_world :=
    b <- bdf_step g (i_mg x) time dt ;;
    Ok {| i_mg := b; i_rest := i_rest x |}.
  (** The integrator does not choose step sizes: [TimeIntegrator::computeNextDT] (time_integrator.cpp:67-70), with the messages of
      [computeNextTimestep] as in [rk3_choose]. *)
  Definition bdf_choose (o : time_options V) (x : bdf_world) (dt : V) : res (bdf_world * V) :=
    w <- info pl (exit_messages o (l_residual (w_logger (i_rest x)))) (i_rest x) ;;
    Ok ({| i_mg := i_mg x; i_rest := w |}, dt).
  Definition bdf_callback (sn : scene V) (base : string) (l : driver_call) (iter : Z) (time dt : V) (x : bdf_world) : res bdf_world :=
    w <- driver_callback pl sn base l iter time dt [] (bdf_state (i_mg x)) (bdf_residual (i_mg x)) (i_rest x) ;;
    Ok {| i_mg := i_mg x; i_rest := w |}.

  (** The initial values, written into the solver's state (time_integrator.cpp: [initial_cond.set(rhs, *current_solution_state_)]). *)
  Definition put_initial (b : mg_world V (scratch V)) (set : list V -> res (list V)) : res (mg_world V (scratch V)) :=
    match b_levels b with
    | v :: vs =>
        a <- of_opt (nth_error (v_u v) 0) ;;
        c <- set a ;;
        Ok {| b_levels := {| v_sc := v_sc v; v_u := [c]; v_du := v_du v; v_sm := v_sm v; v_c := v_c v |} :: vs;
              b_res0 := b_res0 b; b_ncycles := b_ncycles b; b_rate := b_rate b |}
    | [] => UB
    end.

  (** The constructor of the integrator, which may end the program (bdf_multigrid.cpp:8-25), and then [Puppeteer::run] (puppeteer.cpp:72-87) as in
      [run_rk3]. *)
  Definition run_bdf (m : members V) (fuel : nat) (sn : scene V) (d : disc3 V) (v : Z) (p : ch_params V)
      (set : list V -> res (list V)) (o : time_options V) (base : string) (obs : observable driver_call) (w : pworld V)
    : option (res (pworld V)) :=
    let a := create_real_array3 d in
    lift (mg_options_of m) (fun q =>
    lift (bdf_new q d v p (new_scratch a) (pl_rmax pl) (red_sum (pl_red pl) (nint 0)) (pl_pow pl) [a] [a]) (fun '(g, b) =>
    lift (put_initial b set) (fun b =>
    after (solve (bdf_do g) (bdf_choose o) (fun x => l_residual (w_logger (i_rest x))) (bdf_callback sn base) fuel o obs
      {| i_mg := b; i_rest := w |})
      (fun '(_, gf) => write_file sn (base ++ "_final")%string (g_iter gf) (g_time gf) (g_dt gf)
                         (bdf_state (i_mg (g_world gf))) (i_rest (g_world gf)))))).

  (** The same for the 2D Cahn-Hilliard equation, which does not say how its smoothing steps scale with the spacing: the constructor of the
      first smoother calls [TimeIntegrableRHS::cflScale] (bdf_multigrid.cpp:17, ode23_smoother.cpp:14, bdf_multigrid.hpp:39,
      time_integrable_rhs.hpp:68-71), whose body is a fatal message. *)
  Definition run_bdf_flat (m : members V) : option (res (pworld V)) :=
    lift (mg_options_of m) (fun q =>
    lift (get_mg_cycle (q_levels q) (q_nsmooth q)) (fun _ => Some Fatal)).

  (** [Poisson3DFD::evalRHSImpl(flow, time, rhs)] on states: the values are vector 0 of the state and of the right-hand side
      (poisson_3d_fd.cpp:7-20); the time is not used.  The equations have no arrays of their own: the storage [sc] is passed through. *)
  Definition poisson_eval (nsin ncos : V -> V) (d : disc3 V) : rhs_fun V (scratch V) :=
    fun sc s _ r =>
      c <- of_opt (nth_error s 0) ;;
      rhs <- of_opt (nth_error r 0) ;;
      '(c', rhs') <- poisson_rhs nsin ncos d c rhs ;;
      Ok (sc, upd s 0 c', upd r 0 rhs').

  (** [Poisson3DFD::cflScale] (poisson_3d_fd.hpp:37-41). *)
  Definition poisson_scale3 (d : disc3 V) : V :=
    let dom := d3_domain d in
    let dx := ndiv (nsub (xend dom) (xbeg dom)) (nint (nx dom)) in
    nmul dx dx.

  (** The coarse levels of the multigrid integrator as in [new_coarse_levels] (bdf_multigrid.cpp:234-252): the equation is cloned
      (poisson_3d_fd.cpp:80-84), and its states have one array each (poisson_3d_fd.hpp:21-25).  The storage is never used. *)
  Definition new_poisson_level (df dc : disc3 V) : level V (scratch V) :=
    {| v_sc := new_scratch (create_real_array3 dc); v_u := new_state3 dc; v_du := new_state3 dc; v_sm := new_smoother dc;
       v_c := Some {| c_pre := new_state3 dc; c_respre := new_state3 dc; c_restr := new_state3 dc;
                      c_delta := new_state3 dc; c_src := new_state3 dc; c_fine := new_state3 df |} |}.
  Fixpoint new_poisson_levels (df : disc3 V) (ds : list (disc3 V)) : list (level V (scratch V)) :=
    match ds with
    | [] => []
    | dc :: ds => new_poisson_level df dc :: new_poisson_levels dc ds
    end.

  (** What the integrator uses, as in [mg_ch3]. *)
  Definition mg_poisson (nsin ncos : V -> V) (q : mg_options V) (cycle : list Z)
      (rmax : V -> list V -> V) (rsum : list V -> V) (pw : V -> V -> V) (ds : list (disc3 V)) : mg_config V (scratch V) :=
    let across k (h : disc3 V -> disc3 V -> list V -> list V -> res (list V * list V)) a b :=
      match nth_error ds (k - 1), nth_error ds k with
      | Some df, Some dc => transfer1 (h df dc) a b
      | _, _ => UB
      end in
    {| g_eval := fun k => match nth_error ds k with Some d => poisson_eval nsin ncos d | None => fun _ _ _ _ => UB end;
       g_restrict := fun k => across k (fun df dc => restrict3 df dc);
       g_prolong := fun k => across k (fun df dc => prolong3 (q_interp q) dc df);
       g_cfl := fun k => match nth_error ds k with Some d => nmul (q_cfl q) (poisson_scale3 d) | None => nint 0 end;
       g_steady := q_steady q; g_relax := q_relax q; g_coarse_relax := q_coarse_relax q;
       g_cycle := cycle; g_max_cycles := q_max_cycles q; g_tol := q_tol q;
       g_interior := match ds with d :: _ => d3_interior d | [] => [] end;
       g_reduce_max := rmax; g_reduce_sum := rsum; g_pow := pw |}.

  (** [BDFMultigrid::BDFMultigrid] (bdf_multigrid.cpp:8-25), as in [bdf_new]. *)
  Definition bdf_new_poisson (nsin ncos : V -> V) (q : mg_options V) (d : disc3 V) (sc : scratch V)
      (rmax : V -> list V -> V) (rsum : list V -> V) (pw : V -> V -> V) (u du : state V)
    : res (mg_config V (scratch V) * mg_world V (scratch V)) :=
    cycle <- get_mg_cycle (q_levels q) (q_nsmooth q) ;;
    ds <- make_grids (Z.to_nat (q_levels q - 1)) d ;;
    Ok (mg_poisson nsin ncos q cycle rmax rsum pw ds,
        {| b_levels := {| v_sc := sc; v_u := u; v_du := du; v_sm := new_smoother d; v_c := None |} :: new_poisson_levels d (tl ds);
           b_res0 := new_state3 d; b_ncycles := 0; b_rate := nint 0 |}).

  (** [Puppeteer::run] (puppeteer.cpp:72-87) as in [run_bdf]. *)
  Definition run_bdf_poisson (nsin ncos : V -> V) (m : members V) (fuel : nat) (sn : scene V) (d : disc3 V)
      (set : list V -> res (list V)) (o : time_options V) (base : string) (obs : observable driver_call) (w : pworld V)
    : option (res (pworld V)) :=
    let a := create_real_array3 d in
    lift (mg_options_of m) (fun q =>
    lift (bdf_new_poisson nsin ncos q d (new_scratch a) (pl_rmax pl) (red_sum (pl_red pl) (nint 0)) (pl_pow pl) [a] [a]) (fun '(g, b) =>
    lift (put_initial b set) (fun b =>
    after (solve (bdf_do g) (bdf_choose o) (fun x => l_residual (w_logger (i_rest x))) (bdf_callback sn base) fuel o obs
      {| i_mg := b; i_rest := w |})
      (fun '(_, gf) => write_file sn (base ++ "_final")%string (g_iter gf) (g_time gf) (g_dt gf)
                         (bdf_state (i_mg (g_world gf))) (i_rest (g_world gf)))))).

  (** The initial values of Poisson's equation: zeros (puppeteer.cpp:189-191, constant_initial_conditions.cpp:6-14) or those of a
      solution file (initial_conditions_from_file.cpp:8-12). *)
  Definition poisson_values (i : initial) (file : option (list xml)) (p : ch_params V) (d : disc3 V) (c : list V) : res (list V) :=
    match i with
    | ZeroField => constant_initial (nint 0) (d3_interior d) c
    | _ => initial_values3 pl i file p d c
    end.

  (** [main] as in [madgicart], with the integrators bdf1 and steady, and with Poisson's equation; [nsin] and [ncos] are the sine and cosine of libm.  The observers are those of the
      Cahn-Hilliard runs (puppeteer.cpp:212-261; poisson_3d_fd.hpp:14-16).  The constructor of the parameters is not called for
      Poisson's equation, but the options it reads always have values.
      PETSc's integrators are left to [other]. *)
  Definition madgicart_all (nsin ncos : V -> V) (fuel : nat) (fs : string -> option string) (vts : string -> list xml)
      (other : members V -> option (res (pworld V))) (args : list string) (opts : members V) : option (res (ending V)) :=
    lift (parse_options (pl_read pl) (pl_lit pl) (pl_eps100 pl) (pl_max100 pl) fs args opts) (fun r =>
    match r with
    | Exited code => Some (Ok (Quit code))
    | Running m vm =>
        lift (get_string m "log_file") (fun log_file =>
        lift (get_string m "initial_condition_file") (fun restart_file =>
        lift (start_log pl log_file (start_messages (config_template (pl_showg pl) (pl_lit pl) (pl_eps100 pl) (pl_max100 pl) vm) restart_file)) (fun w =>
        let file := if String.eqb restart_file "none" then None else Some (vts restart_file) in
        lift (get_string m "solution_output_file") (fun out_file =>
        let base := output_base out_file log_file in
        lift (build pl m file) (fun '(e, i, v, p, o, f) =>
        lift (get_int m "log_frequency") (fun log_frequency =>
        lift (get_int m "save_every") (fun save_every =>
        lift (get_unsigned m "max_time_steps") (fun max_steps =>
        lift (get_string m "time_integrator") (fun name =>
        let obs := driver_observers log_frequency save_every in
        after
          match e with
          | CahnHilliard3 d =>
              if (String.eqb name "bdf1" || String.eqb name "steady")%bool
              then run_bdf m fuel (scene3 pl max_steps d) d v p (initial_values3 pl i file p d) o base obs w
              else run_with pl m fuel (scene3 pl max_steps d) (create_real_array3 d)
                     (ch_rhs3 d v p) (initial_values3 pl i file p d) o f base obs w (other m)
          | CahnHilliard2 d =>
              if (String.eqb name "bdf1" || String.eqb name "steady")%bool
              then run_bdf_flat m
              else run_with pl m fuel (scene2 pl max_steps d) (create_real_array2 d)
                     (ch_rhs2 d p) (initial_values2 pl i file p d) o f base obs w (other m)
          | Poisson3 d =>
              if (String.eqb name "bdf1" || String.eqb name "steady")%bool
              then run_bdf_poisson nsin ncos m fuel (scene3 pl max_steps d) d (poisson_values i file p d) o base obs w
              else run_with pl m fuel (scene3 pl max_steps d) (create_real_array3 d)
                     (poisson_eval nsin ncos d) (poisson_values i file p d) o f base obs w (other m)
          end
          (fun w => Ok (Finished w)))))))))))
    end).
End Implicit.
Arguments bdf_world V : clear implicits.
