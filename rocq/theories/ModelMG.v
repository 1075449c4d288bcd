(** The implicit integrator: backward Euler (or a steady solve) by full-approximation
    multigrid (/repo/time_stepping/bdf_multigrid.cpp, .hpp, ode23_smoother.cpp, .hpp).

    All states of one level are created by the same right-hand side object
    (bdf_multigrid.cpp:200, 243-251, ode23_smoother.cpp:8-12), so every element-wise loop is
    written over the size of its output ([for_vecs]), whichever of the equal sizes the code
    names.  Timing, verbosity output and log messages are left out. *)
From Verif Require Import Outcome ZList Num Kernel ModelTime ModelDisc3D.

Section MG.
  Context {V : Type} `{N : Num V} {S : Type}.
  Local Open Scope num_scope.
  Local Open Scope prog_scope.
  Local Open Scope res_scope.

  (** ** The smoother *)

  (** The members of [ODE23Smoother] (ode23_smoother.hpp); the controller is never used
      (computeNextDT, ode23_smoother.cpp:117-122). *)
  Record smoother : Type := {
    m_k1 : state V; m_k2 : state V; m_k3 : state V; m_k4 : state V; m_stage : state V;
    m_dt : V; m_err : V
  }.

  (** [ODE23Smoother::doSmooth] (ode23_smoother.cpp:18-114).  [cfl] is the value of
      computeNextDT, mg_cfl times the level's cflScale (lines 14, 120).  Returns the
      smoother, the right-hand side's storage, the state and [dstate_dt]. *)
  Definition do_smooth (reduce_max : V -> list V -> V) (cfl : V) (eval : rhs_fun V S) (o : smoother) (sc : S)
      (u du : state V) (time : V) : res (smoother * S * state V * state V) :=
    let n := List.length u in
    let dt := m_dt o in
    '(sc, u, k1) <- eval sc u time (m_k1 o) ;;
    stage <- for_vecs n (stage1_body dt (nrat 1 2)) (m_stage o) [u; k1] ;;
    '(sc, stage, k2) <- eval sc stage (time + nrat 1 2 * dt) (m_k2 o) ;;
    stage <- for_vecs n (stage2_body dt (nint 0) (nrat 3 4)) stage [u; k1; k2] ;;
    '(sc, stage, k3) <- eval sc stage (time + nrat 3 4 * dt) (m_k3 o) ;;
    du <- for_vecs n (residual_body (nrat 2 9) (nrat 1 3) (nrat 4 9)) du [k1; k2; k3] ;;
    u <- for_vecs n (update_body dt) u [du] ;;
    '(sc, u, k4) <- eval sc u (time + nint 1 * dt) (m_k4 o) ;;
    err <- fold_left (error_step reduce_max dt k1 k2 k3 k4 du) (seq 0 n) (Ok (nint 0)) ;;
    Ok ({| m_k1 := k1; m_k2 := k2; m_k3 := k3; m_k4 := k4; m_stage := stage;
           m_dt := cfl; m_err := err |}, sc, u, du).

  (** ** Levels *)

  (** The members of [CoarsenedLevelRHS] other than its state and [dstate_dt_]
      (bdf_multigrid.hpp:75-82). *)
  Record coarse_data : Type := {
    c_pre : state V;      (* state_presmooth_ *)
    c_respre : state V;   (* residual_presmooth_ *)
    c_restr : state V;    (* restricted_fine_grid_residual_ *)
    c_delta : state V;    (* update_delta_ *)
    c_src : state V;      (* mg_source_, never null after the constructor *)
    c_fine : state V      (* fine_grid_delta_ *)
  }.

  (** One level: an entry of mg_rhs_ and of mg_smoothers_ (bdf_multigrid.cpp:15-24).  [v_sc]
      is the storage of the level's spatial right-hand side.  On level 0 the state and its
      derivative are the arguments of doTimeStep and there is no coarse data. *)
  Record level : Type := {
    v_sc : S; v_u : state V; v_du : state V; v_sm : smoother; v_c : option coarse_data
  }.

  (** What the integrator is built from: the spatial right-hand side of each level (clones of
      one equation, bdf_multigrid.cpp:241), the transfers between level k-1 and level k, the
      options and the library functions. *)
  Record mg_config : Type := {
    g_eval : nat -> rhs_fun V S;
    g_restrict : nat -> state V -> state V -> res (state V);   (* fine, coarse -> coarse *)
    g_prolong : nat -> state V -> state V -> res (state V);    (* coarse, fine -> fine *)
    g_cfl : nat -> V;
    g_steady : bool;                           (* time_integrator = "steady" *)
    g_relax : V; g_coarse_relax : V;           (* mg_relaxation, mg_coarse_relaxation *)
    g_cycle : list Z;                          (* mg_cycle_definition_ *)
    g_max_cycles : Z; g_tol : V;               (* mg_max_cycles, mg_rel_tol *)
    g_interior : list Z;                       (* interior indices of level 0 *)
    g_reduce_max : V -> list V -> V;           (* parallel maximum *)
    g_reduce_sum : list V -> V;                (* parallel sum started at 0 *)
    g_pow : V -> V -> V                        (* std::pow *)
  }.

  (** bdf_multigrid.cpp:226-228: arrays res_n, sol0, sol. *)
  Definition bdf_body (dt : V) (i : Z) : prog V :=
    load r <- 0%nat.[i]; load s0 <- 1%nat.[i]; load s <- 2%nat.[i];
    store 0%nat.[i] <- r - (nint 1 / dt) * (s - s0); Done.

  (** [FineGridRHS::evalRHSImpl] (bdf_multigrid.cpp:213-231). *)
  Definition fine_eval (g : mg_config) (dt : V) (old : state V) : rhs_fun V S :=
    fun sc s t r =>
      '(sc, s, r) <- g_eval g 0 sc s t r ;;
      if g_steady g then Ok (sc, s, r)
      else (r <- for_vecs (List.length s) (bdf_body dt) r [old; s] ;; Ok (sc, s, r)).

  (** bdf_multigrid.cpp:263: arrays parent_residual, multigrid_source. *)
  Definition add_body (i : Z) : prog V :=
    load r <- 0%nat.[i]; load m <- 1%nat.[i]; store 0%nat.[i] <- r + m; Done.

  (** [CoarsenedLevelRHS::evalRHSImpl] (bdf_multigrid.cpp:254-266) on level l. *)
  Definition coarse_eval (g : mg_config) (l : nat) (src : state V) : rhs_fun V S :=
    fun sc s t r =>
      '(sc, s, r) <- g_eval g l sc s t r ;;
      r <- for_vecs (List.length s) add_body r [src] ;;
      Ok (sc, s, r).

  (** The virtual call evalRHSImpl on an entry of mg_rhs_. *)
  Definition level_eval (g : mg_config) (dt : V) (old : state V) (l : nat) (c : option coarse_data)
    : rhs_fun V S :=
    match c with
    | None => fine_eval g dt old
    | Some c => coarse_eval g l (c_src c)
    end.

  (** bdf_multigrid.cpp:293: arrays coarse_src, fine_res, coarse_res. *)
  Definition source_body (i : Z) : prog V :=
    load f <- 1%nat.[i]; load c <- 2%nat.[i]; store 0%nat.[i] <- - c + f; Done.

  (** [setCoarseStatesFromFine] (bdf_multigrid.cpp:268-299) of level l, which is [v]. *)
  Definition set_coarse (g : mg_config) (l : nat) (fine_state fine_res : state V) (time : V) (v : level)
    : res level :=
    c <- of_opt (v_c v) ;;
    s <- g_restrict g l fine_state (v_u v) ;;
    restr <- g_restrict g l fine_res (c_restr c) ;;
    pre <- for_vecs (List.length s) copy_body (c_pre c) [s] ;;
    '(sc, s, du) <- g_eval g l (v_sc v) s time (v_du v) ;;
    src <- for_vecs (List.length du) source_body (c_src c) [restr; du] ;;
    '(sc, pre, respre) <- coarse_eval g l src sc pre time (c_respre c) ;;
    Ok {| v_sc := sc; v_u := s; v_du := du; v_sm := v_sm v;
          v_c := Some {| c_pre := pre; c_respre := respre; c_restr := restr; c_delta := c_delta c;
                         c_src := src; c_fine := c_fine c |} |}.

  (** bdf_multigrid.cpp:325: arrays delta, coarse0, coarse. *)
  Definition delta_body (i : Z) : prog V :=
    load a <- 1%nat.[i]; load b <- 2%nat.[i]; store 0%nat.[i] <- b - a; Done.

  (** [getUpdateDeltaOnFine] into fine_grid_delta_ (bdf_multigrid.cpp:316-329, called on line 140)
      of level l, which is [v]. *)
  Definition update_delta (g : mg_config) (l : nat) (v : level) : res level :=
    c <- of_opt (v_c v) ;;
    delta <- for_vecs (List.length (v_u v)) delta_body (c_delta c) [c_pre c; v_u v] ;;
    fine <- g_prolong g l delta (c_fine c) ;;
    Ok {| v_sc := v_sc v; v_u := v_u v; v_du := v_du v; v_sm := v_sm v;
          v_c := Some {| c_pre := c_pre c; c_respre := c_respre c; c_restr := c_restr c; c_delta := delta;
                         c_src := c_src c; c_fine := fine |} |}.

  (** [applyRelaxedDelta] (bdf_multigrid.cpp:302-314): [soln[i] += r * update[i]], the loop of
      [update_body]. *)
  Definition apply_delta (r : V) (delta : state V) (v : level) : res level :=
    u <- for_vecs (List.length (v_u v)) (update_body r) (v_u v) [delta] ;;
    Ok {| v_sc := v_sc v; v_u := u; v_du := v_du v; v_sm := v_sm v; v_c := v_c v |}.

  (** ** Cycles *)

  (** A smoothing on level l (bdf_multigrid.cpp:112-123). *)
  Definition smooth_level (g : mg_config) (time dt : V) (old : state V) (l : nat) (v : level) : res level :=
    '(sm, sc, u, du) <- do_smooth (g_reduce_max g) (g_cfl g l) (level_eval g dt old l (v_c v))
                          (v_sm v) (v_sc v) (v_u v) (v_du v) time ;;
    Ok {| v_sc := sc; v_u := u; v_du := du; v_sm := sm; v_c := v_c v |}.

  (** One entry of the cycle definition (bdf_multigrid.cpp:110-153) on level l.  An index
      beyond the levels, or a null pointer from the dynamic_cast of level 0, is undefined
      behaviour.  Other values are ignored. *)
  Definition mg_stage (g : mg_config) (time dt : V) (old : state V) (st : nat * list level) (z : Z)
    : res (nat * list level) :=
    let '(l, vs) := st in
    if (z =? 0)%Z then
      v <- of_opt (nth_error vs l) ;;
      v <- smooth_level g time dt old l v ;;
      Ok (l, upd vs l v)
    else if (z =? 1)%Z then
      f <- of_opt (nth_error vs l) ;;
      c <- of_opt (nth_error vs (1 + l)) ;;
      c <- set_coarse g (1 + l) (v_u f) (m_k4 (v_sm f)) time c ;;
      Ok ((1 + l)%nat, upd vs (1 + l) c)
    else if (z =? -1)%Z then
      v <- of_opt (nth_error vs l) ;;
      v <- update_delta g l v ;;
      c <- of_opt (v_c v) ;;
      f <- of_opt (nth_error vs (l - 1)) ;;
      f <- apply_delta (if (l - 1 =? 0)%nat then g_relax g else g_coarse_relax g) (c_fine c) f ;;
      Ok ((l - 1)%nat, upd (upd vs l v) (l - 1) f)
    else Ok (l, vs).

  Definition mg_stages (g : mg_config) (time dt : V) (old : state V) (zs : list Z) (st : res (nat * list level))
    : res (nat * list level) :=
    fold_left (fun st z => (st <- st ;; mg_stage g time dt old st z)) zs st.

  (** [reduce_residual] (bdf_multigrid.cpp:39-54) for one equation. *)
  Definition rms_cell (a : list V) (i : Z) : res V := (v <- of_opt (zget a i) ;; Ok (npow2 v)).
  Definition rms (g : mg_config) (a : list V) : res V :=
    l <- collect (rms_cell a) (g_interior g) ;;
    Ok (nsqrt (g_reduce_sum g l / nint (zlen (g_interior g)))).
  Fixpoint reduce_residual (g : mg_config) (s : state V) : res (list V) :=
    match s with
    | [] => Ok []
    | a :: s' => r <- rms g a ;; rs <- reduce_residual g s' ;; Ok (r :: rs)
    end.

  (** [resN[0]] for the state of level 0. *)
  Definition residual0 (g : mg_config) (vs : list level) : res V :=
    v <- of_opt (nth_error vs 0) ;;
    rs <- reduce_residual g (v_du v) ;;
    of_opt (nth_error rs 0).

  (** x <= y on doubles. *)
  Definition nleb (x y : V) : bool := nltb x y || neqb x y.

  (** The loop over cycles (bdf_multigrid.cpp:106-196), [n] iterations left, [icycle] done;
      returns the levels, n_cycles_to_converge_ and convergence_rate_. *)
  Fixpoint mg_loop (g : mg_config) (time dt : V) (old : state V) (res0 resN : V) (n : nat) (icycle : Z)
      (vs : list level) : res (list level * Z * V) :=
    match n with
    | O => Ok (vs, 0%Z, g_pow g (resN / res0) (nint 1 / nint (g_max_cycles g)))
    | Datatypes.S n =>
        '(_, vs) <- mg_stages g time dt old (g_cycle g) (Ok (0%nat, vs)) ;;
        resN <- residual0 g vs ;;
        let convergence := resN / res0 in
        if nleb convergence (g_tol g)
        then Ok (vs, (icycle + 1)%Z, g_pow g convergence (nint 1 / nint (icycle + 1)))
        else mg_loop g time dt old res0 resN n (icycle + 1) vs
    end.

  (** [doTimeStepCycle] (bdf_multigrid.cpp:70-196): level 0's right-hand side is evaluated into
      dstate_dt, then the cycles run.  dstate_dt keeps the weighted average of the last
      smoothing on level 0; it is not re-evaluated. *)
  Definition time_step_cycle (g : mg_config) (time dt : V) (old : state V) (vs : list level)
    : res (list level * Z * V) :=
    v <- of_opt (nth_error vs 0) ;;
    '(sc, u, du) <- level_eval g dt old 0 (v_c v) (v_sc v) (v_u v) time (v_du v) ;;
    let vs := upd vs 0 {| v_sc := sc; v_u := u; v_du := du; v_sm := v_sm v; v_c := v_c v |} in
    res0 <- residual0 g vs ;;
    mg_loop g time dt old res0 res0 (Z.to_nat (g_max_cycles g)) 0 vs.

  (** The members of [BDFMultigrid] that last between steps (bdf_multigrid.hpp:98-115) with the
      state of the solver as the state of level 0; [b_res0] is FineGridRHS::res0_. *)
  Record mg_world : Type := {
    b_levels : list level; b_res0 : state V; b_ncycles : Z; b_rate : V
  }.

  (** [doTimeStep] (bdf_multigrid.cpp:58-68).  The fresh sol_old_ starts with zeros
      (createSolutionState) and is overwritten by copySolution (lines 28-37); setSolOld
      evaluates the right-hand side once into res0_ (lines 205-210). *)
  Definition bdf_step (g : mg_config) (b : mg_world) (time dt : V) : res mg_world :=
    v <- of_opt (nth_error (b_levels b) 0) ;;
    old <- for_vecs (List.length (v_u v)) copy_body (map (map (fun _ => nint 0)) (v_u v)) [v_u v] ;;
    '(sc, old, res0) <- g_eval g 0 (v_sc v) old time (b_res0 b) ;;
    let vs := upd (b_levels b) 0 {| v_sc := sc; v_u := v_u v; v_du := v_du v; v_sm := v_sm v; v_c := v_c v |} in
    '(vs, n, rate) <- time_step_cycle g time dt old vs ;;
    Ok {| b_levels := vs; b_res0 := res0; b_ncycles := n; b_rate := rate |}.

  (** The grid transfers of a [SolutionState] (discretization_3d_cart.cpp:160-168, 190-199):
      both states must be ScalarSolutionState3D, with one array; otherwise the dynamic_cast
      of a reference throws. *)
  Definition transfer1 (f : list V -> list V -> res (list V * list V)) (from to : state V) : res (state V) :=
    match from, to with
    | [a], [b] => ('(_, b) <- f a b ;; Ok [b])
    | _, _ => Throw
    end.
End MG.

Arguments smoother V : clear implicits.
Arguments coarse_data V : clear implicits.
Arguments level V S : clear implicits.
Arguments mg_config V S : clear implicits.
Arguments mg_world V S : clear implicits.

(** [getMGCycle] (bdf_multigrid.cpp:332-431).  Line 338 builds a vector of nsmooth zeros; a
    negative count converts to a huge size_t and std::vector throws.  The six cases of the
    switch are written out as in the code. *)
Definition get_mg_cycle (nlevels nsmooth : Z) : res (list Z) :=
  if nsmooth <? 0 then Throw
  else
    let smoothing := repeat 0 (Z.to_nat nsmooth) in
    match nlevels with
    | 1 => Ok (smoothing ++ smoothing)
    | 2 => Ok (smoothing ++ [1] ++ smoothing ++ smoothing ++ [-1] ++ smoothing)
    | 3 => Ok (smoothing ++ [1] ++ smoothing ++ [1] ++ smoothing ++ smoothing
               ++ [-1] ++ smoothing ++ [-1] ++ smoothing)
    | 4 => Ok (smoothing ++ [1] ++ smoothing ++ [1] ++ smoothing ++ [1] ++ smoothing ++ smoothing
               ++ [-1] ++ smoothing ++ [-1] ++ smoothing ++ [-1] ++ smoothing)
    | 5 => Ok (smoothing ++ [1] ++ smoothing ++ [1] ++ smoothing ++ [1] ++ smoothing ++ [1]
               ++ smoothing ++ smoothing
               ++ [-1] ++ smoothing ++ [-1] ++ smoothing ++ [-1] ++ smoothing ++ [-1] ++ smoothing)
    | 6 => Ok (smoothing ++ [1] ++ smoothing ++ [1] ++ smoothing ++ [1] ++ smoothing ++ [1] ++ smoothing ++ [1]
               ++ smoothing ++ smoothing
               ++ [-1] ++ smoothing ++ [-1] ++ smoothing ++ [-1] ++ smoothing ++ [-1] ++ smoothing
               ++ [-1] ++ smoothing)
    | _ => Fatal
    end.
