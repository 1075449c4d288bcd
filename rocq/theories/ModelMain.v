(** The driver (/repo/initialization/puppeteer.cpp): how options and a restart file become a
    grid, equations, initial values and time options. *)
From Coq Require Import String.
From Verif Require Import Outcome ZList Num ModelDisc3D ModelDisc2D ModelObs ModelTime ModelRun ModelVTK.
Local Open Scope string_scope.
Local Open Scope Z_scope.

(** [parseBC] (puppeteer.cpp:90-104). *)
Definition parse_bc (name : string) : res bctype :=
  if String.eqb name "periodic" then Ok Periodic
  else if String.eqb name "neumann" then Ok Neumann
  else if String.eqb name "dirichlet" then Ok Dirichlet
  else Fatal.

Section Main.
  Context {V : Type} `{N : Num V}.
  Local Open Scope res_scope.

  (** The options the factories read (puppeteer.cpp:112-135, 147-198). *)
  Record config : Type := {
    c_dimension : Z; c_nx : Z; c_ny : Z; c_nz : Z;
    c_xbeg : V; c_xend : V; c_ybeg : V; c_yend : V; c_zbeg : V; c_zend : V;
    c_bc_x : string; c_bc_y : string; c_bc_z : string;
    c_equation : string; c_integrator : string
  }.

  (** The domain of [geomFactory] (puppeteer.cpp:110-133): from the file if there is one. *)
  Definition geom_domain (cfg : config) (file : option (domain V)) : res (domain V) :=
    let base := match file with
                | Some f => f
                | None => {| nx := c_nx cfg; ny := c_ny cfg; nz := c_nz cfg;
                             xbeg := c_xbeg cfg; xend := c_xend cfg; ybeg := c_ybeg cfg; yend := c_yend cfg;
                             zbeg := c_zbeg cfg; zend := c_zend cfg;
                             xbc := Periodic; ybc := Periodic; zbc := Periodic; nhalo := 0 |}
                end in
    bx <- parse_bc (c_bc_x cfg) ;;
    by_ <- parse_bc (c_bc_y cfg) ;;
    bz <- parse_bc (c_bc_z cfg) ;;
    Ok {| nx := nx base; ny := ny base; nz := nz base;
          xbeg := xbeg base; xend := xend base; ybeg := ybeg base; yend := yend base;
          zbeg := zbeg base; zend := zend base;
          xbc := bx; ybc := by_; zbc := bz; nhalo := 2 |}.

  Inductive geometry : Type := Geom2 (d : disc2 V) | Geom3 (d : disc3 V).

  (** [geomFactory] (puppeteer.cpp:107-144). *)
  Definition geom_factory (cfg : config) (file : option (domain V)) : res geometry :=
    dom <- geom_domain cfg file ;;
    if c_dimension cfg =? 2 then (d <- make2 dom ;; Ok (Geom2 d))
    else if c_dimension cfg =? 3 then (d <- make3 dom ;; Ok (Geom3 d))
    else Fatal.

  (** Which right-hand side object is built, on which grid. *)
  Inductive equations : Type := CahnHilliard2 (d : disc2 V) | CahnHilliard3 (d : disc3 V) | Poisson3 (d : disc3 V).

  (** [rhsFactory] (puppeteer.cpp:147-176); [dynamic_cast] to a reference of the wrong type
      throws [std::bad_cast]. *)
  Definition rhs_factory (cfg : config) (g : geometry) : res equations :=
    if String.eqb (c_equation cfg) "cahn-hilliard" then
      if c_dimension cfg =? 2 then match g with Geom2 d => Ok (CahnHilliard2 d) | Geom3 _ => Throw end
      else if c_dimension cfg =? 3 then match g with Geom3 d => Ok (CahnHilliard3 d) | Geom2 _ => Throw end
      else Fatal
    else if String.eqb (c_equation cfg) "poisson" then
      match g with Geom3 d => Ok (Poisson3 d) | Geom2 _ => Throw end
    else Fatal.

  (** Where the initial values come from. *)
  Inductive initial : Type := FromFile | RandomField | ZeroField.

  (** [initialConditionsFactory] (puppeteer.cpp:179-198). *)
  Definition initial_factory (cfg : config) (has_file : bool) : res initial :=
    if has_file then Ok FromFile
    else if String.eqb (c_equation cfg) "cahn-hilliard" then Ok RandomField
    else if String.eqb (c_equation cfg) "poisson" then Ok ZeroField
    else Fatal.

  (** What a restart file changes in the time options (vtk_solution_reader.cpp:176-213),
      without the messages about it. *)
  Definition resumed (o : time_options V) (r : restart V) : time_options V :=
    {| t_t0 := rs_t0 r; t_tfinal := t_tfinal o; t_dt_initial := rs_dt r; t_use_cfl := t_use_cfl o;
       t_max_steps := t_max_steps o; t_initial_step := rs_step r;
       t_rel_tol := t_rel_tol o; t_abs_tol := t_abs_tol o |}.

  Variable read : string -> res V.

  (** [timeIntegratorFactory] (puppeteer.cpp:201-209): the options; and the constructor looked
      up in the registry under the name given. *)
  Definition time_options_for (o : time_options V) (file : option (list xml)) : res (time_options V) :=
    match file with
    | None => Ok o
    | Some doc =>
        r <- set_initial_time_step read doc
               {| rs_t0 := t_t0 o; rs_step := t_initial_step o; rs_dt := t_dt_initial o |} ;;
        Ok (resumed o r)
    end.

  Definition integrator_factory {F} (reg : registry F) (cfg : config) : res F := reg_lookup reg (c_integrator cfg).

  (** The constructor of [Puppeteer] (puppeteer.cpp:49-56), without the observers.  [raw] is
      the uninitialised memory of the domain description. *)
  Definition construct {F} (reg : registry F) (cfg : config) (o : time_options V)
      (file : option (list xml)) (raw : domain V) : res (geometry * equations * initial * time_options V * F) :=
    from <- match file with
            | None => Ok None
            | Some doc => '(dom, _) <- read_domain read doc raw ;; Ok (Some dom)
            end ;;
    g <- geom_factory cfg from ;;
    e <- rhs_factory cfg g ;;
    i <- initial_factory cfg (match file with Some _ => true | None => false end) ;;
    o' <- time_options_for o file ;;
    f <- integrator_factory reg cfg ;;
    Ok (g, e, i, o', f).

  (** A restart of a Cahn-Hilliard run in 3D up to the time loop: the constructor, then
      [InitialConditionsFromFile::set] (initial_conditions_from_file.cpp:8-12) on the
      solution state.  [x] holds the arrays just allocated. *)
  Definition resume3 {F S W} (reg : registry F) (cfg : config) (o : time_options V) (doc : list xml) (raw : domain V)
      (x : rk3_world V S W) : res (disc3 V * time_options V * rk3_world V S W) :=
    '(_, e, _, o', _) <- construct reg cfg o (Some doc) raw ;;
    match e with
    | CahnHilliard3 d =>
        c <- of_opt (nth_error (k_u x) 0) ;;
        t <- set_solution read doc raw (Target3 d c) ;;
        match t with
        | Target3 _ c' =>
            Ok (d, o', {| k_int := k_int x; k_sc := k_sc x; k_u := upd (k_u x) 0 c'; k_du := k_du x;
                          k_rest := k_rest x |})
        | Target2 _ _ => Throw
        end
    | _ => Throw
    end.

  Definition resume2 {F S W} (reg : registry F) (cfg : config) (o : time_options V) (doc : list xml) (raw : domain V)
      (x : rk3_world V S W) : res (disc2 V * time_options V * rk3_world V S W) :=
    '(_, e, _, o', _) <- construct reg cfg o (Some doc) raw ;;
    match e with
    | CahnHilliard2 d =>
        c <- of_opt (nth_error (k_u x) 0) ;;
        t <- set_solution read doc raw (Target2 d c) ;;
        match t with
        | Target2 _ c' =>
            Ok (d, o', {| k_int := k_int x; k_sc := k_sc x; k_u := upd (k_u x) 0 c'; k_du := k_du x;
                          k_rest := k_rest x |})
        | Target3 _ _ => Throw
        end
    | _ => Throw
    end.

  (** [getIterationStatus] of the integrator, as [write_solution_to_vtk] receives it
      (puppeteer.cpp:79-83, 253-258, time_integrator.hpp:25-34). *)
  Definition status_of {X L} (g : integ (V:=V) (X:=X) (L:=L)) : file_status V :=
    {| fs_iter := g_iter g; fs_time := g_time g; fs_dt := g_dt g |}.

  (** [write_solution_to_vtk] called with the integrator's status and current solution
      (puppeteer.cpp:79-83 and 253-258, file_io/vtk_solution_writer.cpp:17-32). *)
  Definition file_of3 {S W L} (show show6 : V -> string) (d : disc3 V)
      (g : integ (V:=V) (X:=rk3_world V S W) (L:=L)) : res (list xml) :=
    c <- of_opt (nth_error (k_u (g_world g)) 0) ;; write3 show show6 (status_of g) d c.
  Definition file_of2 {S W L} (show show6 : V -> string) (d : disc2 V)
      (g : integ (V:=V) (X:=rk3_world V S W) (L:=L)) : res (list xml) :=
    c <- of_opt (nth_error (k_u (g_world g)) 0) ;; write2 show show6 (status_of g) d c.

  (** [Puppeteer::run] (puppeteer.cpp:72-87): the time loop, then the final file.  The profiler's
      report and the log message are left out.  Result: the steps made and the final file. *)
  Definition run_program {X L} (do_step : X -> V -> V -> res X) (next_dt : X -> V -> res (X * V))
      (monitor : X -> list (string * V)) (call : L -> Z -> V -> V -> X -> res X)
      (write : integ (V:=V) (X:=X) (L:=L) -> res (list xml))
      (fuel : nat) (o : time_options V) (obs : observable L) (x : X)
    : option (res (list (step_record (V:=V) (X:=X) (L:=L)) * list xml)) :=
    match solve do_step next_dt monitor call fuel o obs x with
    | Some (Ok (rs, gf)) => Some (doc <- write gf ;; Ok (rs, doc))
    | Some UB => Some UB | Some Fatal => Some Fatal | Some Throw => Some Throw
    | None => None
    end.
End Main.
Arguments config V : clear implicits.
Arguments geometry V : clear implicits.
Arguments equations V : clear implicits.
