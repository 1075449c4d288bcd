(** Restarting a run from a solution file (C68), what the driver builds (C69), and interrupting a
    run with the step limit (C70).

    [solve ... o obs x] is the time loop of a run; its result lists the steps it made.  [s_after r]
    is the integrator after step r.  [write3 show show6 (status_of a) d c] is the solution file
    written at that moment.  [resume3] is what the program does with a restart file before
    its time loop starts: grid, time options and initial values from the file, everything
    else from the options. *)
From Coq Require Import ZArith QArith Reals String List.
From Verif Require Import Outcome ZList Num SpecGrid ModelDisc3D ModelDisc2D ModelCH ModelObs ModelTime ModelRun
  ModelVTK SpecVTK ModelMain SpecTime SpecRestart ExampleNum VTKFinal RestartFinal.
Import ListNotations.
Local Open Scope string_scope.
Local Open Scope list_scope.
Local Open Scope Z_scope.

(** C68, any arithmetic, 3D: take any run of the RK3 integrator on the Cahn-Hilliard equations without
    residual tolerances, any of its steps r that is followed by another and after which a step of
    the same size does not reach the final time, and the file written after r.  Read the file
    into fresh arrays of any contents, on a grid with the same cells, spacing and boundary
    types, and start a run with the same final time and step limit: whatever the observers of the two runs do, it makes
    exactly the steps the first run made after r, with the same times, step sizes, numbers and the
    same value in every interior cell; and if its callbacks succeed and its notification counters
    have room for that many steps, it does end normally.  The values, the time and the step size must survive printing. *)
Theorem C68_resume_3d :
  forall (V : Type) (N : Num V) (W L : Type) (show show6 : V -> String.string) (read : String.string -> res V)
    (monitor monitor' : rk3_world V (scratch V) W -> list (String.string * V))
    (call call' : L -> Z -> V -> V -> rk3_world V (scratch V) W -> res (rk3_world V (scratch V) W))
    (fuel fuel' : nat) (o : time_options V) (obs obs' : observable L)
    (dom dom' raw : domain V) (d d' : disc3 V) (variant : Z) (p : ch_params V)
    (x y : rk3_world V (scratch V) W) (cy : list V) rs1 r r' rs2 gf,
  leaves_solver_alone call -> leaves_solver_alone call' ->
  valid_domain3 dom -> 2 <= nhalo dom -> nhalo dom <= nx dom /\ nhalo dom <= ny dom /\ nhalo dom <= nz dom ->
  make3 dom = Ok d -> 0 <= variant <= 2 -> allocated (cells3 dom) x -> no_tolerance o -> 0 <= t_initial_step o ->
  solve (rk3_do (ch_rhs3 d variant p)) rk3_next_dt monitor call fuel o obs x = Some (Ok (rs1 ++ r :: r' :: rs2, gf)) ->
  let a := s_after r in
  ngeb (nadd (g_time a) (g_dt a)) (t_tfinal o) = false ->
  nx dom <= 2147483647 -> ny dom <= 2147483647 -> nz dom <= 2147483647 ->
  vertices_print3 show read dom (d3_dx d) -> solution_prints3 show read dom (g_world a) ->
  prints show6 read (g_time a) -> prints show6 read (g_dt a) ->
  nx dom' = nx dom -> ny dom' = ny dom -> nz dom' = nz dom -> nhalo dom' = nhalo dom ->
  xbc dom' = xbc dom -> ybc dom' = ybc dom -> zbc dom' = zbc dom -> make3 dom' = Ok d' -> d3_dx d' = d3_dx d ->
  allocated (cells3 dom) y -> k_u y = [cy] ->
  exists c doc o' cy',
    k_u (g_world a) = [c] /\ write3 show show6 (status_of a) d c = Ok doc /\
    time_options_for read o (Some doc) = Ok o' /\
    set_solution read doc raw (Target3 d' cy) = Ok (Target3 d' cy') /\
    (forall rs' gf',
     solve (rk3_do (ch_rhs3 d' variant p)) rk3_next_dt monitor' call' fuel' o' obs'
       {| k_int := k_int y; k_sc := k_sc y; k_u := [cy']; k_du := k_du y; k_rest := k_rest y |} = Some (Ok (rs', gf')) ->
     Forall2 (same_step3 dom) (r' :: rs2) rs') /\
    (callbacks_succeed (cells3 dom) call' -> (List.length (r' :: rs2) <= fuel')%nat ->
     obs_ready obs' (Z.of_nat (List.length (r' :: rs2))) ->
     exists rs' gf',
     solve (rk3_do (ch_rhs3 d' variant p)) rk3_next_dt monitor' call' fuel' o' obs'
       {| k_int := k_int y; k_sc := k_sc y; k_u := [cy']; k_du := k_du y; k_rest := k_rest y |} = Some (Ok (rs', gf'))).
Proof. exact pf_C68_resume_3d. Qed.
Print Assumptions C68_resume_3d.

(** C68, any arithmetic, 2D. *)
Theorem C68_resume_2d :
  forall (V : Type) (N : Num V) (W L : Type) (show show6 : V -> String.string) (read : String.string -> res V) (zero : V)
    (monitor monitor' : rk3_world V (scratch V) W -> list (String.string * V))
    (call call' : L -> Z -> V -> V -> rk3_world V (scratch V) W -> res (rk3_world V (scratch V) W))
    (fuel fuel' : nat) (o : time_options V) (obs obs' : observable L)
    (dom dom' raw : domain V) (d d' : disc2 V) (p : ch_params V)
    (x y : rk3_world V (scratch V) W) (cy : list V) rs1 r r' rs2 gf,
  read "0.0"%string = Ok zero ->
  leaves_solver_alone call -> leaves_solver_alone call' ->
  valid_domain2 dom -> 2 <= nhalo dom -> nhalo dom <= nx dom ->
  make2 dom = Ok d -> allocated (cells2 dom) x -> no_tolerance o -> 0 <= t_initial_step o ->
  solve (rk3_do (ch_rhs2 d p)) rk3_next_dt monitor call fuel o obs x = Some (Ok (rs1 ++ r :: r' :: rs2, gf)) ->
  let a := s_after r in
  ngeb (nadd (g_time a) (g_dt a)) (t_tfinal o) = false ->
  nx dom <= 2147483647 ->
  vertices_print2 show read dom (d2_dx d) -> solution_prints2 show read dom (g_world a) ->
  prints show6 read (g_time a) -> prints show6 read (g_dt a) ->
  nx dom' = nx dom -> nhalo dom' = nhalo dom -> make2 dom' = Ok d' -> d2_dx d' = d2_dx d ->
  allocated (cells2 dom) y -> k_u y = [cy] ->
  exists c doc o' cy',
    k_u (g_world a) = [c] /\ write2 show show6 (status_of a) d c = Ok doc /\
    time_options_for read o (Some doc) = Ok o' /\
    set_solution read doc raw (Target2 d' cy) = Ok (Target2 d' cy') /\
    (forall rs' gf',
     solve (rk3_do (ch_rhs2 d' p)) rk3_next_dt monitor' call' fuel' o' obs'
       {| k_int := k_int y; k_sc := k_sc y; k_u := [cy']; k_du := k_du y; k_rest := k_rest y |} = Some (Ok (rs', gf')) ->
     Forall2 (same_step2 dom) (r' :: rs2) rs') /\
    (callbacks_succeed (cells2 dom) call' -> (List.length (r' :: rs2) <= fuel')%nat ->
     obs_ready obs' (Z.of_nat (List.length (r' :: rs2))) ->
     exists rs' gf',
     solve (rk3_do (ch_rhs2 d' p)) rk3_next_dt monitor' call' fuel' o' obs'
       {| k_int := k_int y; k_sc := k_sc y; k_u := [cy']; k_du := k_du y; k_rest := k_rest y |} = Some (Ok (rs', gf'))).
Proof. exact pf_C68_resume_2d. Qed.
Print Assumptions C68_resume_2d.

(** C68, exact arithmetic, 3D: the whole restart.  The program is given the same options as before, a
    restart file and a configuration whose dimension is 3, whose equations are Cahn-Hilliard and
    whose boundary names are those of the first run; its grid comes from the file. *)
Theorem C68_continuity_3d :
  forall (W L F : Type) (show show6 : R -> string) (read : string -> res R)
    (monitor monitor' : rk3_world R (scratch R) W -> list (string * R))
    (call call' : L -> Z -> R -> R -> rk3_world R (scratch R) W -> res (rk3_world R (scratch R) W))
    (fuel fuel' : nat) (o : time_options R) (obs obs' : observable L) (reg : registry F) (f : F) (cfg : config R)
    (dom raw : domain R) (d : disc3 R) (variant : Z) (p : ch_params R)
    (x y : rk3_world R (scratch R) W) rs1 r r' rs2 gf,
  leaves_solver_alone call -> leaves_solver_alone call' ->
  valid_domain3 dom -> (xbeg dom < xend dom)%R -> nhalo dom = 2 -> 2 <= nx dom /\ 2 <= ny dom /\ 2 <= nz dom ->
  make3 dom = Ok d -> 0 <= variant <= 2 -> allocated (cells3 dom) x ->
  t_rel_tol o = 0%R -> t_abs_tol o = 0%R -> 0 <= t_initial_step o ->
  solve (rk3_do (ch_rhs3 d variant p)) rk3_next_dt monitor call fuel o obs x = Some (Ok (rs1 ++ r :: r' :: rs2, gf)) ->
  let a := s_after r in
  (g_time a + g_dt a < t_tfinal o)%R ->
  nx dom <= 2147483647 -> ny dom <= 2147483647 -> nz dom <= 2147483647 ->
  vertices_print3 show read dom (d3_dx d) -> solution_prints3 show read dom (g_world a) ->
  prints show6 read (g_time a) -> prints show6 read (g_dt a) ->
  c_dimension cfg = 3 -> c_equation cfg = "cahn-hilliard" -> reg_lookup reg (c_integrator cfg) = Ok f ->
  parse_bc (c_bc_x cfg) = Ok (xbc dom) -> parse_bc (c_bc_y cfg) = Ok (ybc dom) -> parse_bc (c_bc_z cfg) = Ok (zbc dom) ->
  allocated (cells3 dom) y ->
  exists c doc d' o' y',
    k_u (g_world a) = [c] /\ write3 show show6 (status_of a) d c = Ok doc /\
    resume3 read reg cfg o doc raw y = Ok (d', o', y') /\
    (forall rs' gf',
     solve (rk3_do (ch_rhs3 d' variant p)) rk3_next_dt monitor' call' fuel' o' obs' y' = Some (Ok (rs', gf')) ->
     Forall2 (same_step3 dom) (r' :: rs2) rs') /\
    (callbacks_succeed (cells3 dom) call' -> (List.length (r' :: rs2) <= fuel')%nat ->
     obs_ready obs' (Z.of_nat (List.length (r' :: rs2))) ->
     exists rs' gf',
     solve (rk3_do (ch_rhs3 d' variant p)) rk3_next_dt monitor' call' fuel' o' obs' y' = Some (Ok (rs', gf'))).
Proof. exact pf_C68_continuity_3d. Qed.
Print Assumptions C68_continuity_3d.

(** C68, exact arithmetic, 2D. *)
Theorem C68_continuity_2d :
  forall (W L F : Type) (show show6 : R -> string) (read : string -> res R)
    (monitor monitor' : rk3_world R (scratch R) W -> list (string * R))
    (call call' : L -> Z -> R -> R -> rk3_world R (scratch R) W -> res (rk3_world R (scratch R) W))
    (fuel fuel' : nat) (o : time_options R) (obs obs' : observable L) (reg : registry F) (f : F) (cfg : config R)
    (dom raw : domain R) (d : disc2 R) (p : ch_params R) (bx by_ bz : bctype)
    (x y : rk3_world R (scratch R) W) rs1 r r' rs2 gf,
  read "0.0"%string = Ok 0%R ->
  leaves_solver_alone call -> leaves_solver_alone call' ->
  valid_domain2 dom -> (xbeg dom < xend dom)%R -> nhalo dom = 2 -> 2 <= nx dom ->
  make2 dom = Ok d -> allocated (cells2 dom) x ->
  t_rel_tol o = 0%R -> t_abs_tol o = 0%R -> 0 <= t_initial_step o ->
  solve (rk3_do (ch_rhs2 d p)) rk3_next_dt monitor call fuel o obs x = Some (Ok (rs1 ++ r :: r' :: rs2, gf)) ->
  let a := s_after r in
  (g_time a + g_dt a < t_tfinal o)%R ->
  nx dom <= 2147483647 ->
  vertices_print2 show read dom (d2_dx d) -> solution_prints2 show read dom (g_world a) ->
  prints show6 read (g_time a) -> prints show6 read (g_dt a) ->
  c_dimension cfg = 2 -> c_equation cfg = "cahn-hilliard" -> reg_lookup reg (c_integrator cfg) = Ok f ->
  parse_bc (c_bc_x cfg) = Ok bx -> parse_bc (c_bc_y cfg) = Ok by_ -> parse_bc (c_bc_z cfg) = Ok bz ->
  allocated (cells2 dom) y ->
  exists c doc d' o' y',
    k_u (g_world a) = [c] /\ write2 show show6 (status_of a) d c = Ok doc /\
    resume2 read reg cfg o doc raw y = Ok (d', o', y') /\
    (forall rs' gf',
     solve (rk3_do (ch_rhs2 d' p)) rk3_next_dt monitor' call' fuel' o' obs' y' = Some (Ok (rs', gf')) ->
     Forall2 (same_step2 dom) (r' :: rs2) rs') /\
    (callbacks_succeed (cells2 dom) call' -> (List.length (r' :: rs2) <= fuel')%nat ->
     obs_ready obs' (Z.of_nat (List.length (r' :: rs2))) ->
     exists rs' gf',
     solve (rk3_do (ch_rhs2 d' p)) rk3_next_dt monitor' call' fuel' o' obs' y' = Some (Ok (rs', gf'))).
Proof. exact pf_C68_continuity_2d. Qed.
Print Assumptions C68_continuity_2d.

Example C68_2d_ex : (* uniform field 1/2, sigma = 1, m = 0: the two steps after the restart *)
  ex_both2 (map (fun _ => 1 # 2)%Q (zrange 0 (cells2 ex_dom68))) 3 =
  let steps := [(5 # 4, 1 # 4, 2%Z, repeat (Some (89401 # 294912)) 4);
                (3 # 2, 1 # 4, 3%Z, repeat (Some (26730899 # 113246208)) 4)]%Q in
  Some (steps, steps).
Proof. vm_compute. reflexivity. Qed.

Example C68_hypotheses_ex : exists r r' rs2 gf,
  ex_first2 ex_c68 3 = Some (Ok ([] ++ r :: r' :: rs2, gf)) /\
  ngeb (N:=Num_Q) (nadd (Num:=Num_Q) (g_time (s_after r)) (g_dt (s_after r))) (t_tfinal (ex_opts68 3)) = false /\
  prints ex_show ex_read (g_time (s_after r)) /\ prints ex_show ex_read (g_dt (s_after r)) /\
  solution_prints2 ex_show ex_read ex_dom68 (g_world (s_after r)) /\
  allocated (cells2 ex_dom68) (ex_world (cells2 ex_dom68) ex_c68).
Proof. exact ex_hypotheses68. Qed.

(** C68 fails for the adaptive integrator: a run whose fifth step is longer than its fourth; the restart from the
    file written after the fourth starts at the same time but with the fourth step's size (the
    file holds the size of the step just made, and the controller starts with no history). *)
Theorem C68_adaptive_refuted :
  exists (dom : domain Q) (d : disc2 Q) (p : ch_params Q) (rmax : Q -> list Q -> Q) (pow : Q -> Q -> Q)
    (show : Q -> string) (read : string -> res Q) (raw : domain Q) (o o' : time_options Q)
    (x y : ode23_world Q (scratch Q) unit) (c cy cy' : list Q) (doc : list xml)
    (call : unit -> Z -> Q -> Q -> ode23_world Q (scratch Q) unit -> res (ode23_world Q (scratch Q) unit))
    rs1 r r' rs2 gf q rs' gf',
  let run := solve (N:=Num_Q) (ode23_do (N:=Num_Q) rmax (ch_rhs2 (N:=Num_Q) d p)) (ode23_next_dt (N:=Num_Q) pow)
               (fun _ => []) call 9 in
  make2 (N:=Num_Q) dom = Ok d /\ no_tolerance (N:=Num_Q) o /\
  run o new_observable x = Some (Ok (rs1 ++ r :: r' :: rs2, gf)) /\
  ngeb (N:=Num_Q) (nadd (Num:=Num_Q) (g_time (s_after r)) (g_dt (s_after r))) (t_tfinal o) = false /\
  e_u (g_world (s_after r)) = [c] /\ write2 show show (status_of (s_after r)) d c = Ok doc /\
  time_options_for read o (Some doc) = Ok o' /\
  set_solution (N:=Num_Q) read doc raw (Target2 d cy) = Ok (Target2 d cy') /\
  o_first (e_int y) = true /\
  run o' new_observable {| e_int := e_int y; e_pid := e_pid y; e_sc := e_sc y; e_u := [cy']; e_du := e_du y; e_rest := e_rest y |}
    = Some (Ok (q :: rs', gf')) /\
  s_time q = s_time r' /\ s_dt r' <> s_dt q.
Proof. exact pf_C68_adaptive_refuted. Qed.
Print Assumptions C68_adaptive_refuted.

(** C69: without a restart file and on a grid with at least one cell per direction, the program starts
    exactly when the three boundary names, the dimension and equations, and the integrator are known;
    Poisson's equation needs dimension 3.  It then has the grid of the options with two halo cells and
    the named boundary types, the equations asked for on that grid, and the matching
    initial values; the time options are those given.  In every other case it
    ends with an error: never undefined behaviour. *)
Theorem C69_construction :
  forall (V : Type) (N : Num V) (F : Type) (read : string -> res V) (reg : registry F) (cfg : config V)
    (o : time_options V) (raw : domain V),
  1 <= c_nx cfg -> 1 <= c_ny cfg -> 1 <= c_nz cfg ->
  let grid bx by_ bz := {| nx := c_nx cfg; ny := c_ny cfg; nz := c_nz cfg;
      xbeg := c_xbeg cfg; xend := c_xend cfg; ybeg := c_ybeg cfg; yend := c_yend cfg; zbeg := c_zbeg cfg; zend := c_zend cfg;
      xbc := bx; ybc := by_; zbc := bz; nhalo := 2 |} in
  (forall bx by_ bz f, bc_named (c_bc_x cfg) bx -> bc_named (c_bc_y cfg) by_ -> bc_named (c_bc_z cfg) bz ->
     reg_lookup reg (c_integrator cfg) = Ok f ->
     (c_dimension cfg = 2 -> c_equation cfg = "cahn-hilliard" ->
        exists d, make2 (grid bx by_ bz) = Ok d /\
          construct read reg cfg o None raw = Ok (Geom2 d, CahnHilliard2 d, RandomField, o, f)) /\
     (c_dimension cfg = 3 -> c_equation cfg = "cahn-hilliard" ->
        exists d, make3 (grid bx by_ bz) = Ok d /\
          construct read reg cfg o None raw = Ok (Geom3 d, CahnHilliard3 d, RandomField, o, f)) /\
     (c_dimension cfg = 3 -> c_equation cfg = "poisson" ->
        exists d, make3 (grid bx by_ bz) = Ok d /\
          construct read reg cfg o None raw = Ok (Geom3 d, Poisson3 d, ZeroField, o, f))) /\
  (forall r, construct read reg cfg o None raw = Ok r ->
     (exists bx by_ bz f, bc_named (c_bc_x cfg) bx /\ bc_named (c_bc_y cfg) by_ /\ bc_named (c_bc_z cfg) bz /\
        reg_lookup reg (c_integrator cfg) = Ok f) /\
     (c_dimension cfg = 2 /\ c_equation cfg = "cahn-hilliard" \/
      c_dimension cfg = 3 /\ (c_equation cfg = "cahn-hilliard" \/ c_equation cfg = "poisson"))) /\
  construct read reg cfg o None raw <> UB.
Proof. exact pf_C69_construction. Qed.
Print Assumptions C69_construction.

Example C69_ex :
  let cfg dim eq bc := {| c_dimension := dim; c_nx := 2; c_ny := 2; c_nz := 2; c_xbeg := 0%Q; c_xend := 1%Q; c_ybeg := 0%Q; c_yend := 0%Q;
     c_zbeg := 0%Q; c_zend := 0%Q; c_bc_x := "periodic"; c_bc_y := bc; c_bc_z := "neumann";
     c_equation := eq; c_integrator := "rk3ssp" |} in
  let outcome cfg := match construct (N:=Num_Q) (fun _ => Throw) [("ode23", 1); ("rk3ssp", 2)] cfg (ex_opts68 3) None ex_raw with
    | Ok (_, CahnHilliard3 d, RandomField, _, f) => Some (xbc (d3_domain d), ybc (d3_domain d), zbc (d3_domain d), nhalo (d3_domain d), f)
    | Ok (_, Poisson3 d, ZeroField, _, f) => Some (Periodic, Periodic, Periodic, -1, f)
    | Throw => Some (Periodic, Periodic, Periodic, -2, 0)
    | _ => None end in
  outcome (cfg 3 "cahn-hilliard" "dirichlet") = Some (Periodic, Dirichlet, Neumann, 2, 2) /\
  outcome (cfg 3 "poisson" "periodic") = Some (Periodic, Periodic, Periodic, -1, 2) /\
  outcome (cfg 2 "poisson" "periodic") = Some (Periodic, Periodic, Periodic, -2, 0) /\
  outcome (cfg 3 "heat" "periodic") = None /\ outcome (cfg 3 "poisson" "open") = None.
Proof. vm_compute. repeat split. Qed.

(** C69: with a restart file the resolution and extent options have no effect at all. *)
Theorem C69_file_grid :
  forall (V : Type) (N : Num V) (F : Type) (read : string -> res V) (reg : registry F) (cfg cfg' : config V)
    (o : time_options V) (raw : domain V) (doc : list xml),
  c_dimension cfg' = c_dimension cfg -> c_bc_x cfg' = c_bc_x cfg -> c_bc_y cfg' = c_bc_y cfg -> c_bc_z cfg' = c_bc_z cfg ->
  c_equation cfg' = c_equation cfg -> c_integrator cfg' = c_integrator cfg ->
  construct read reg cfg' o (Some doc) raw = construct read reg cfg o (Some doc) raw.
Proof. exact pf_C69_file_grid. Qed.
Print Assumptions C69_file_grid.

(** C69: a file written by a run in one dimension does not start a run in the other, whatever the
    configuration says. *)
Theorem C69_dimension :
  forall (V : Type) (N : Num V) (W F : Type) (show show6 : V -> string) (read : string -> res V) (zero : V) (reg : registry F)
    (cfg : config V) (o : time_options V) (raw dom : domain V) (st : file_status V) (c : list V) (doc : list xml)
    (x : rk3_world V (scratch V) W),
  (forall (d : disc3 V) (u : Z -> Z -> Z -> V),
     valid_domain3 dom -> make3 dom = Ok d -> holds_inside3 dom c u ->
     nx dom <= 2147483647 -> ny dom <= 2147483647 -> nz dom <= 2147483647 ->
     vertices_print3 show read dom (d3_dx d) -> (forall i j k, inside3 dom i j k -> prints show read (u i j k)) ->
     write3 show show6 st d c = Ok doc ->
     forall r, resume2 read reg cfg o doc raw x <> Ok r) /\
  (forall (d : disc2 V) (u : Z -> Z -> V),
     read "0.0"%string = Ok zero -> valid_domain2 dom -> make2 dom = Ok d -> holds_inside2 dom c u ->
     nx dom <= 2147483647 -> vertices_print2 show read dom (d2_dx d) ->
     (forall i j, inside2 dom i j -> prints show read (u i j)) ->
     write2 show show6 st d c = Ok doc ->
     forall r, resume3 read reg cfg o doc raw x <> Ok r).
Proof. exact pf_C69_dimension. Qed.
Print Assumptions C69_dimension.

(** C70, any integrator and arithmetic: take any run and any of its steps r that another follows.
    The same run with the number of r as step limit makes the same steps up to r, with the same
    callbacks, and ends at the number and time reached with r. *)
Theorem C70_limit :
  forall (V : Type) (N : Num V) (X L : Type) (do_step : X -> V -> V -> res X) (next_dt : X -> V -> res (X * V))
    (monitor : X -> list (string * V)) (call : L -> Z -> V -> V -> X -> res X) (fuel : nat)
    (o : time_options V) (obs : observable L) (x : X) rs1 r r' rs2 gf,
  0 <= t_initial_step o ->
  solve do_step next_dt monitor call fuel o obs x = Some (Ok (rs1 ++ r :: r' :: rs2, gf)) ->
  exists gf',
  solve do_step next_dt monitor call fuel (with_limit o (g_iter (s_after r))) obs x = Some (Ok (rs1 ++ [r], gf')) /\
  g_iter gf' = g_iter (s_after r) /\ g_time gf' = g_time (s_after r) /\ g_obs gf' = g_obs (s_after r).
Proof. exact pf_C70_limit. Qed.
Print Assumptions C70_limit.

(** C70: a limit that is at or above the number of every step of a run, and not above the run's own limit,
    changes nothing. *)
Theorem C70_limit_unused :
  forall (V : Type) (N : Num V) (X L : Type) (do_step : X -> V -> V -> res X) (next_dt : X -> V -> res (X * V))
    (monitor : X -> list (string * V)) (call : L -> Z -> V -> V -> X -> res X) (fuel : nat)
    (o : time_options V) (obs : observable L) (x : X) (n : Z) rs gf,
  0 <= t_initial_step o -> 0 < n -> t_max_steps o = 0 \/ n <= t_max_steps o ->
  solve do_step next_dt monitor call fuel o obs x = Some (Ok (rs, gf)) ->
  (forall r, In r rs -> g_iter (s_after r) <= n) ->
  solve do_step next_dt monitor call fuel (with_limit o n) obs x = Some (Ok (rs, gf)).
Proof. exact pf_C70_limit_unused. Qed.
Print Assumptions C70_limit_unused.

(** C70, fixed step: if a step of the same size does not reach the final time, the run with that limit ends in
    exactly the state after r, so its final file is the file of step r. *)
Theorem C70_final_state :
  forall (V : Type) (N : Num V) (S W L : Type) (do_step : rk3_world V S W -> V -> V -> res (rk3_world V S W))
    (monitor : rk3_world V S W -> list (string * V))
    (call : L -> Z -> V -> V -> rk3_world V S W -> res (rk3_world V S W)) (fuel : nat)
    (o : time_options V) (obs : observable L) (x : rk3_world V S W) rs1 r r' rs2 gf,
  0 <= t_initial_step o ->
  solve do_step rk3_next_dt monitor call fuel o obs x = Some (Ok (rs1 ++ r :: r' :: rs2, gf)) ->
  ngeb (nadd (g_time (s_after r)) (g_dt (s_after r))) (t_tfinal o) = false ->
  solve do_step rk3_next_dt monitor call fuel (with_limit o (g_iter (s_after r))) obs x = Some (Ok (rs1 ++ [r], s_after r)).
Proof. exact pf_C70_final_state. Qed.
Print Assumptions C70_final_state.

(** C70, exact arithmetic, 3D: interrupting a run.  Take a run of the fixed-step integrator and one of its steps r.
    The program with the number of r as step limit makes the steps up to r and writes its final file; the
    program started from that file with the original limit makes exactly the remaining steps of the
    uninterrupted run. *)
Theorem C70_interrupted_3d :
  forall (W L F : Type) (show show6 : R -> string) (read : string -> res R)
    (monitor monitor' : rk3_world R (scratch R) W -> list (string * R))
    (call call' : L -> Z -> R -> R -> rk3_world R (scratch R) W -> res (rk3_world R (scratch R) W))
    (fuel fuel' : nat) (o : time_options R) (obs obs' : observable L) (reg : registry F) (f : F) (cfg : config R)
    (dom raw : domain R) (d : disc3 R) (variant : Z) (p : ch_params R)
    (x y : rk3_world R (scratch R) W) rs1 r r' rs2 gf,
  leaves_solver_alone call -> leaves_solver_alone call' ->
  valid_domain3 dom -> (xbeg dom < xend dom)%R -> nhalo dom = 2 -> 2 <= nx dom /\ 2 <= ny dom /\ 2 <= nz dom ->
  make3 dom = Ok d -> 0 <= variant <= 2 -> allocated (cells3 dom) x ->
  t_rel_tol o = 0%R -> t_abs_tol o = 0%R -> 0 <= t_initial_step o ->
  solve (rk3_do (ch_rhs3 d variant p)) rk3_next_dt monitor call fuel o obs x = Some (Ok (rs1 ++ r :: r' :: rs2, gf)) ->
  let a := s_after r in
  (g_time a + g_dt a < t_tfinal o)%R ->
  nx dom <= 2147483647 -> ny dom <= 2147483647 -> nz dom <= 2147483647 ->
  vertices_print3 show read dom (d3_dx d) -> solution_prints3 show read dom (g_world a) ->
  prints show6 read (g_time a) -> prints show6 read (g_dt a) ->
  c_dimension cfg = 3 -> c_equation cfg = "cahn-hilliard" -> reg_lookup reg (c_integrator cfg) = Ok f ->
  parse_bc (c_bc_x cfg) = Ok (xbc dom) -> parse_bc (c_bc_y cfg) = Ok (ybc dom) -> parse_bc (c_bc_z cfg) = Ok (zbc dom) ->
  allocated (cells3 dom) y ->
  exists doc d' o' y',
    run_program (rk3_do (ch_rhs3 d variant p)) rk3_next_dt monitor call (file_of3 show show6 d) fuel
      (with_limit o (g_iter a)) obs x = Some (Ok (rs1 ++ [r], doc)) /\
    resume3 read reg cfg o doc raw y = Ok (d', o', y') /\
    (forall rs' gf',
     solve (rk3_do (ch_rhs3 d' variant p)) rk3_next_dt monitor' call' fuel' o' obs' y' = Some (Ok (rs', gf')) ->
     Forall2 (same_step3 dom) (r' :: rs2) rs') /\
    (callbacks_succeed (cells3 dom) call' -> (List.length (r' :: rs2) <= fuel')%nat ->
     obs_ready obs' (Z.of_nat (List.length (r' :: rs2))) ->
     exists rs' gf',
     solve (rk3_do (ch_rhs3 d' variant p)) rk3_next_dt monitor' call' fuel' o' obs' y' = Some (Ok (rs', gf'))).
Proof. exact pf_C70_interrupted_3d. Qed.
Print Assumptions C70_interrupted_3d.

(** C70, exact arithmetic, 2D. *)
Theorem C70_interrupted_2d :
  forall (W L F : Type) (show show6 : R -> string) (read : string -> res R)
    (monitor monitor' : rk3_world R (scratch R) W -> list (string * R))
    (call call' : L -> Z -> R -> R -> rk3_world R (scratch R) W -> res (rk3_world R (scratch R) W))
    (fuel fuel' : nat) (o : time_options R) (obs obs' : observable L) (reg : registry F) (f : F) (cfg : config R)
    (dom raw : domain R) (d : disc2 R) (p : ch_params R) (bx by_ bz : bctype)
    (x y : rk3_world R (scratch R) W) rs1 r r' rs2 gf,
  read "0.0"%string = Ok 0%R ->
  leaves_solver_alone call -> leaves_solver_alone call' ->
  valid_domain2 dom -> (xbeg dom < xend dom)%R -> nhalo dom = 2 -> 2 <= nx dom ->
  make2 dom = Ok d -> allocated (cells2 dom) x ->
  t_rel_tol o = 0%R -> t_abs_tol o = 0%R -> 0 <= t_initial_step o ->
  solve (rk3_do (ch_rhs2 d p)) rk3_next_dt monitor call fuel o obs x = Some (Ok (rs1 ++ r :: r' :: rs2, gf)) ->
  let a := s_after r in
  (g_time a + g_dt a < t_tfinal o)%R ->
  nx dom <= 2147483647 ->
  vertices_print2 show read dom (d2_dx d) -> solution_prints2 show read dom (g_world a) ->
  prints show6 read (g_time a) -> prints show6 read (g_dt a) ->
  c_dimension cfg = 2 -> c_equation cfg = "cahn-hilliard" -> reg_lookup reg (c_integrator cfg) = Ok f ->
  parse_bc (c_bc_x cfg) = Ok bx -> parse_bc (c_bc_y cfg) = Ok by_ -> parse_bc (c_bc_z cfg) = Ok bz ->
  allocated (cells2 dom) y ->
  exists doc d' o' y',
    run_program (rk3_do (ch_rhs2 d p)) rk3_next_dt monitor call (file_of2 show show6 d) fuel
      (with_limit o (g_iter a)) obs x = Some (Ok (rs1 ++ [r], doc)) /\
    resume2 read reg cfg o doc raw y = Ok (d', o', y') /\
    (forall rs' gf',
     solve (rk3_do (ch_rhs2 d' p)) rk3_next_dt monitor' call' fuel' o' obs' y' = Some (Ok (rs', gf')) ->
     Forall2 (same_step2 dom) (r' :: rs2) rs') /\
    (callbacks_succeed (cells2 dom) call' -> (List.length (r' :: rs2) <= fuel')%nat ->
     obs_ready obs' (Z.of_nat (List.length (r' :: rs2))) ->
     exists rs' gf',
     solve (rk3_do (ch_rhs2 d' p)) rk3_next_dt monitor' call' fuel' o' obs' y' = Some (Ok (rs', gf'))).
Proof. exact pf_C70_interrupted_2d. Qed.
Print Assumptions C70_interrupted_2d.

Example C70_ex :
  ex_legs (with_limit (ex_opts68 3) 1) (ex_opts68 3) =
  Some ([1 # 4], [(5 # 4, 1 # 4, 2%Z, repeat (Some (89401 # 294912)) 4);
                  (3 # 2, 1 # 4, 3%Z, repeat (Some (26730899 # 113246208)) 4)])%Q.
Proof. vm_compute. reflexivity. Qed.

(** C70: continuing to a later final time is different.  A run that reached its final time with a shortened
    last step leaves that size in its final file; the program restarted from it with a later final
    time takes every step with the shortened size, not with the step size of its options. *)
Theorem C70_later_final_time_refuted :
  exists (F : Type) (reg : registry F) (cfg : config Q) (show : Q -> string) (read : string -> res Q)
    (d d' : disc2 Q) (p : ch_params Q) (raw : domain Q) (o o2 o' : time_options Q)
    (call : unit -> Z -> Q -> Q -> rk3_world Q (scratch Q) unit -> res (rk3_world Q (scratch Q) unit))
    (x y y' : rk3_world Q (scratch Q) unit) (doc : list xml) rs rs' gf' (h : Q),
  o2 = {| t_t0 := t_t0 o; t_tfinal := t_tfinal o2; t_dt_initial := t_dt_initial o; t_use_cfl := t_use_cfl o;
          t_max_steps := t_max_steps o; t_initial_step := t_initial_step o; t_rel_tol := t_rel_tol o;
          t_abs_tol := t_abs_tol o |} /\
  run_program (N:=Num_Q) (rk3_do (N:=Num_Q) (ch_rhs2 (N:=Num_Q) d p)) rk3_next_dt (fun _ => []) call
    (file_of2 show show d) 9 o new_observable x = Some (Ok (rs, doc)) /\
  resume2 (N:=Num_Q) read reg cfg o2 doc raw y = Ok (d', o', y') /\
  solve (N:=Num_Q) (rk3_do (N:=Num_Q) (ch_rhs2 (N:=Num_Q) d' p)) rk3_next_dt (fun _ => []) call 9 o' new_observable y' =
    Some (Ok (rs', gf')) /\
  2 <= zlen rs' /\ (h < t_dt_initial o2)%Q /\ (forall r, In r rs' -> s_dt r == h)%Q /\ (g_time gf' == t_tfinal o2)%Q.
Proof. exact pf_C70_later_final_time_refuted. Qed.
Print Assumptions C70_later_final_time_refuted.
