(** Time stepping: the solve loop, the RK3SSP and ODE23 steps and the step-size controller
    (/repo/time_stepping). *)
From Verif Require Import Outcome ZList Num Kernel ModelObs.
From Coq Require Import String.

Section TimeStep.
  Context {V : Type} `{N : Num V}.
  Local Open Scope num_scope.
  Local Open Scope prog_scope.
  Local Open Scope res_scope.

  (** A [SolutionState]: one array per equation ([ArraySet], data_structures/array_set.hpp). *)
  Definition state : Type := list (list V).

  (** [getVec(ivec)] of every state a loop reads; a missing vector is undefined behaviour
      (array_set.hpp:35-48: the range assertions are compiled out). *)
  Fixpoint get_vecs (ins : list state) (ivec : nat) : res (list (list V)) :=
    match ins with
    | [] => Ok []
    | s :: ins' =>
        a <- of_opt (nth_error s ivec) ;;
        l <- get_vecs ins' ivec ;;
        Ok (a :: l)
    end.

  (** [for (ivec = 0; ivec < nvecs; ++ivec) { maDGForAll(i, 0, out.size(), body(i)) }] where
      the loop body works on [out.getVec(ivec)] as array 0 and on the vectors read as
      arrays 1, 2, ... *)
  Definition vec_step (body : Z -> prog V) (ins : list state) (out : res state) (ivec : nat)
    : res state :=
    o <- out ;;
    dst <- of_opt (nth_error o ivec) ;;
    src <- get_vecs ins ivec ;;
    m <- forall_loop 0 (zlen dst) body (dst :: src) ;;
    dst' <- of_opt (nth_error m 0) ;;
    Ok (upd o ivec dst').

  Definition for_vecs (nvecs : nat) (body : Z -> prog V) (out : state) (ins : list state) : res state :=
    fold_left (vec_step body ins) (seq 0 nvecs) (Ok out).

  (** The right-hand side object: [evalRHSImpl(state, time, rhs)]
      (governing_equations/time_integrable_rhs.hpp:21).  [S] is its own storage (scratch
      arrays).  It may change the state it is given (halo cells) and reads the previous
      contents of the output. *)
  Definition rhs_fun (S : Type) : Type := S -> state -> V -> state -> res (S * state * state).

  (** rk3ssp.cpp:28-30: arrays stage_sol, sol0, k1. *)
  Definition stage1_body (dt a21 : V) (i : Z) : prog V :=
    load s <- 1%nat.[i]; load k1 <- 2%nat.[i];
    store 0%nat.[i] <- s + dt * a21 * k1; Done.

  (** rk3ssp.cpp:44-46: arrays stage_sol, sol0, k1, k2. *)
  Definition stage2_body (dt a31 a32 : V) (i : Z) : prog V :=
    load s <- 1%nat.[i]; load k1 <- 2%nat.[i]; load k2 <- 3%nat.[i];
    store 0%nat.[i] <- s + dt * (a31 * k1 + a32 * k2); Done.

  (** rk3ssp.cpp:61-63: arrays residual, k1, k2, k3. *)
  Definition residual_body (b1 b2 b3 : V) (i : Z) : prog V :=
    load k1 <- 1%nat.[i]; load k2 <- 2%nat.[i]; load k3 <- 3%nat.[i];
    store 0%nat.[i] <- b1 * k1 + b2 * k2 + b3 * k3; Done.

  (** rk3ssp.cpp:70-72: arrays sol, res; [sol[i] += dt * res[i]]. *)
  Definition update_body (dt : V) (i : Z) : prog V :=
    load s <- 0%nat.[i]; load r <- 1%nat.[i];
    store 0%nat.[i] <- s + dt * r; Done.

  (** The members of [RK3SSP] (rk3ssp.hpp:20-23). *)
  Record rk3 : Type := { r_k1 : state; r_k2 : state; r_k3 : state; r_stage : state }.

  (** [RK3SSP::doTimeStep] (rk3ssp.cpp:15-74) with the tableau of rk3ssp.hpp:26-35.
      Returns the integrator, the right-hand side's storage, the state and [dstate_dt]. *)
  Definition rk3_step {S} (eval : rhs_fun S) (o : rk3) (sc : S) (u du : state) (time dt : V)
    : res (rk3 * S * state * state) :=
    let n := List.length u in
    '(sc, u, k1) <- eval sc u time (r_k1 o) ;;
    stage <- for_vecs n (stage1_body dt (nint 1)) (r_stage o) [u; k1] ;;
    '(sc, stage, k2) <- eval sc stage (time + nint 1 * dt) (r_k2 o) ;;
    stage <- for_vecs n (stage2_body dt (nrat 1 4) (nrat 1 4)) stage [u; k1; k2] ;;
    '(sc, stage, k3) <- eval sc stage (time + nrat 1 2 * dt) (r_k3 o) ;;
    du <- for_vecs n (residual_body (nrat 1 6) (nrat 1 6) (nrat 2 3)) du [k1; k2; k3] ;;
    u <- for_vecs n (update_body dt) u [du] ;;
    Ok ({| r_k1 := k1; r_k2 := k2; r_k3 := k3; r_stage := stage |}, sc, u, du).

  (** ode23.cpp:32-34: arrays k1, k4. *)
  Definition copy_body (i : Z) : prog V :=
    load k <- 1%nat.[i]; store 0%nat.[i] <- k; Done.

  (** The members of [ODE23] (ode23.hpp:35-42), without the controller. *)
  Record ode23 : Type := {
    o_k1 : state; o_k2 : state; o_k3 : state; o_k4 : state; o_stage : state;
    o_first : bool; o_err : V
  }.

  (** The contribution of one cell to the error maximum (ode23.cpp:117-121). *)
  Definition error_cell (k1 k2 k3 k4 r : list V) (i : Z) : res V :=
    r <- of_opt (zget r i) ;; k1 <- of_opt (zget k1 i) ;; k2 <- of_opt (zget k2 i) ;;
    k3 <- of_opt (zget k3 i) ;; k4 <- of_opt (zget k4 i) ;;
    Ok (nabs (r - (nrat 7 24 * k1 + nrat 1 4 * k2 + nrat 1 3 * k3 + nrat 1 8 * k4))).

  Fixpoint collect {A} (f : Z -> res A) (l : list Z) : res (list A) :=
    match l with
    | [] => Ok []
    | i :: l' => x <- f i ;; xs <- collect f l' ;; Ok (x :: xs)
    end.

  (** One vector of the error computation (ode23.cpp:104-123).  [reduce_max init l] is the
      value the parallel maximum started at init gives for the contributions l. *)
  Definition error_vec (reduce_max : V -> list V -> V) (dt : V) (err : V)
      (k1 k2 k3 k4 r : list V) : res V :=
    l <- collect (error_cell k1 k2 k3 k4 r) (zrange 0 (zlen r)) ;;
    Ok (nmax err (dt * reduce_max err l)).

  Definition error_step (reduce_max : V -> list V -> V) (dt : V) (k1 k2 k3 k4 du : state)
      (err : res V) (ivec : nat) : res V :=
    e <- err ;;
    a <- of_opt (nth_error k1 ivec) ;; b <- of_opt (nth_error k2 ivec) ;;
    c <- of_opt (nth_error k3 ivec) ;; d <- of_opt (nth_error k4 ivec) ;;
    r <- of_opt (nth_error du ivec) ;;
    error_vec reduce_max dt e a b c d r.

  (** [ODE23::doTimeStep] (ode23.cpp:17-125) with the tableau of ode23.hpp:45-66. *)
  Definition ode23_step {S} (reduce_max : V -> list V -> V) (eval : rhs_fun S) (o : ode23) (sc : S)
      (u du : state) (time dt : V) : res (ode23 * S * state * state) :=
    let n := List.length u in
    '(sc, u, k1) <- (if o_first o then eval sc u time (o_k1 o)
                     else (k1 <- for_vecs n copy_body (o_k1 o) [o_k4 o] ;; Ok (sc, u, k1))) ;;
    stage <- for_vecs n (stage1_body dt (nrat 1 2)) (o_stage o) [u; k1] ;;
    '(sc, stage, k2) <- eval sc stage (time + nrat 1 2 * dt) (o_k2 o) ;;
    stage <- for_vecs n (stage2_body dt (nint 0) (nrat 3 4)) stage [u; k1; k2] ;;
    '(sc, stage, k3) <- eval sc stage (time + nrat 3 4 * dt) (o_k3 o) ;;
    du <- for_vecs n (residual_body (nrat 2 9) (nrat 1 3) (nrat 4 9)) du [k1; k2; k3] ;;
    u <- for_vecs n (update_body dt) u [du] ;;
    '(sc, u, k4) <- eval sc u (time + nint 1 * dt) (o_k4 o) ;;
    err <- fold_left (error_step reduce_max dt k1 k2 k3 k4 du) (seq 0 n) (Ok (nint 0)) ;;
    Ok ({| o_k1 := k1; o_k2 := k2; o_k3 := k3; o_k4 := k4; o_stage := stage;
           o_first := false; o_err := err |}, sc, u, du).

  (** [ODE23::PIDController] (ode23.hpp:72-96): options and histories (oldest first). *)
  Record pid : Type := {
    p_errtol : V; p_minstep : V; p_maxstep : V;
    p_steps : list V; p_errs : list V
  }.

  Definition new_pid (errtol minstep maxstep : V) : pid :=
    {| p_errtol := errtol; p_minstep := minstep; p_maxstep := maxstep; p_steps := []; p_errs := [] |}.

  (** [PIDController::adaptStep] (ode23.cpp:135-164).  [pow] is [std::pow].
      [err_history[k]] and [step_history[k]] of the three-element deques. *)
  Definition adapt_step (pow : V -> V -> V) (p : pid) (error_estimate current_step : V) : res (pid * V) :=
    let err_n := nmax error_estimate (nrat 1 4503599627370496) in
    if negb (Nat.eqb (List.length (p_errs p)) 3) then
      Ok ({| p_errtol := p_errtol p; p_minstep := p_minstep p; p_maxstep := p_maxstep p;
             p_steps := p_steps p ++ [current_step]; p_errs := p_errs p ++ [err_n] |}, current_step)
    else
      match tl (p_errs p) ++ [err_n], tl (p_steps p) ++ [current_step] with
      | [e0; e1; e2] as errs, [s0; s1; s2] as steps =>
          let kI := nrat 1 4 in let kP := nrat 7 50 in let kD := nrat 1 10 in
          let order := nint 2 in
          let wn := s2 / s1 in
          let alpha := (kI + kP + kD * (nint 2 * wn) / (nint 1 + wn)) / order in
          let beta := (kP + nint 2 * wn * kD) / order in
          let gamma := kD * (nint 2 * wn * wn) / (nint 1 + wn) / order in
          let step := nint 1 * current_step * pow (p_errtol p / e2) alpha * pow (e1 / p_errtol p) beta
                      * pow (p_errtol p / e0) gamma in
          let step := nmax (nmin step (current_step * nrat 11 10)) (current_step * nrat 1 100) in
          let step := nmax (nmin step (p_maxstep p)) (p_minstep p) in
          Ok ({| p_errtol := p_errtol p; p_minstep := p_minstep p; p_maxstep := p_maxstep p;
                 p_steps := steps; p_errs := errs |}, step)
      | _, _ => UB
      end.
End TimeStep.

Arguments state V : clear implicits.
Arguments rhs_fun V S : clear implicits.
Arguments rk3 V : clear implicits.
Arguments ode23 V : clear implicits.
Arguments pid V : clear implicits.

Section Solve.
  Context {V : Type} `{N : Num V}.
  Local Open Scope num_scope.
  Local Open Scope res_scope.

  (** The options the loop reads (time_integrator_options.hpp:15-27). *)
  Record time_options : Type := {
    t_t0 : V; t_tfinal : V; t_dt_initial : V; t_use_cfl : bool;
    t_max_steps : Z; t_initial_step : Z; t_rel_tol : V; t_abs_tol : V
  }.

  (** [x >= y] and [if (x)] on doubles. *)
  Definition ngeb (x y : V) : bool := nltb y x || neqb x y.
  Definition nonzero (x : V) : bool := negb (neqb x (nint 0)).

  (** Everything outside the loop: [X] is the world (integrator arrays, logger, files).
      [do_step] is the virtual [doTimeStep], [next_dt] the virtual [computeNextDT],
      [monitor] is [Logger::getResidualMonitor], and [call l] runs the callback l, which
      may look at the integrator's iteration number, time and step size. *)
  Context {X L : Type}.
  Variable do_step : X -> V -> V -> res X.
  Variable next_dt : X -> V -> res (X * V).
  Variable monitor : X -> list (string * V).
  Variable call : L -> Z -> V -> V -> X -> res X.

  (** The integrator: world, observers, [iter_], [time_], [dt_] (time_integrator.hpp:51-55). *)
  Record integ : Type := {
    g_world : X; g_obs : observable L; g_iter : Z; g_time : V; g_dt : V
  }.

  Fixpoint run_calls (ls : list L) (iter : Z) (time dt : V) (x : X) : res X :=
    match ls with
    | [] => Ok x
    | l :: ls' => x <- call l iter time dt x ;; run_calls ls' iter time dt x
    end.

  (** [notifyObservers] with its callbacks run. *)
  Definition notify (g : integ) (e : event) : res (integ * list L) :=
    '(ls, o) <- notify_observers (g_obs g) e ;;
    x <- run_calls ls (g_iter g) (g_time g) (g_dt g) (g_world g) ;;
    Ok ({| g_world := x; g_obs := o; g_iter := g_iter g; g_time := g_time g; g_dt := g_dt g |}, ls).

  (** One pass of the loop up to the [last_step] test (time_integrator.cpp:30-36).
      Incrementing the largest int is undefined. *)
  Definition advance (g : integ) : res (integ * list L) :=
    x <- do_step (g_world g) (g_time g) (g_dt g) ;;
    if (INT_MAX <=? g_iter g)%Z then UB else
    let g1 := {| g_world := x; g_obs := g_obs g; g_iter := g_iter g + 1;
                 g_time := g_time g + g_dt g; g_dt := g_dt g |} in
    '(g2, l1) <- notify g1 TimeStepComplete ;;
    '(g3, l2) <- notify g2 SolutionUpdate ;;
    Ok (g3, (l1 ++ l2)%list).

  (** The value of the first entry named rel_res (time_integrator.cpp:101-113). *)
  Fixpoint find_rel (m : list (string * V)) : option V :=
    match m with
    | [] => None
    | (k, v) :: m' => if String.eqb k "rel_res" then Some v else find_rel m'
    end.

  Definition rel_converged (o : time_options) (m : list (string * V)) : bool :=
    nonzero (t_rel_tol o) &&
    match find_rel m with Some v => nltb v (t_rel_tol o) | None => false end.

  (** time_integrator.cpp:115-121; [front()] of an empty vector is undefined. *)
  Definition abs_converged (o : time_options) (m : list (string * V)) : res bool :=
    if nonzero (t_abs_tol o) then
      match m with [] => UB | (_, v) :: _ => Ok (nltb v (t_abs_tol o)) end
    else Ok false.

  (** [computeNextTimestep] (time_integrator.cpp:73-124): world, step, last, stop.  Its messages are
      added in ModelProgram. *)
  Definition compute_next (o : time_options) (g : integ) : res (X * V * bool * bool) :=
    '(x, dt) <- next_dt (g_world g) (g_dt g) ;;
    if t_use_cfl o then Fatal else
    let last := ngeb (g_time g + dt) (t_tfinal o) in
    let dt := if last then t_tfinal o - g_time g else dt in
    let limit := negb (t_max_steps o =? 0)%Z && (t_max_steps o <=? g_iter g)%Z in
    let rel := rel_converged o (monitor x) in
    ab <- abs_converged o (monitor x) ;;
    Ok (x, dt, last, limit || rel || ab).

  (** What one step did: where it started, its size, the callbacks run and the integrator
      after them (before the next step size is chosen). *)
  Record step_record : Type := { s_time : V; s_dt : V; s_calls : list L; s_after : integ }.

  (** The loop (time_integrator.cpp:28-44).  [None]: more passes than [fuel]. *)
  Fixpoint solve_loop (fuel : nat) (o : time_options) (g : integ) (last : bool)
    : option (res (list step_record * integ)) :=
    match fuel with
    | O => None
    | S fuel' =>
        match advance g with
        | Ok (g1, ls) =>
            let r := {| s_time := g_time g; s_dt := g_dt g; s_calls := ls; s_after := g1 |} in
            if last then Some (Ok ([r], g1)) else
            match compute_next o g1 with
            | Ok (x, dt, last', stop) =>
                let g2 := {| g_world := x; g_obs := g_obs g1; g_iter := g_iter g1;
                             g_time := g_time g1; g_dt := dt |} in
                if stop then Some (Ok ([r], g2)) else
                match solve_loop fuel' o g2 last' with
                | Some (Ok (rs, gf)) => Some (Ok (r :: rs, gf))
                | other => other
                end
            | UB => Some UB | Fatal => Some Fatal | Throw => Some Throw
            end
        | UB => Some UB | Fatal => Some Fatal | Throw => Some Throw
        end
    end.

  (** [TimeIntegrator::solve] (time_integrator.cpp:14-45) and [initialTimestep] (48-64).
      [x] is the world after the initial conditions were set; the check on the number of
      vectors is left to the caller. *)
  Definition solve (fuel : nat) (o : time_options) (obs : observable L) (x : X)
    : option (res (list step_record * integ)) :=
    if t_use_cfl o then Some Fatal else
    solve_loop fuel o {| g_world := x; g_obs := obs; g_iter := t_initial_step o;
                         g_time := t_t0 o; g_dt := t_dt_initial o |} false.
End Solve.

Arguments time_options V : clear implicits.

(** The observers the program attaches (initialization/puppeteer.cpp:49-65, 212-261):
    residual monitor, solution monitor, time monitor, log line, solution file. *)
Inductive driver_call : Type := SetResidual | SetSolution | SetTime | UpdateLog | WriteSolution.

Definition driver_observers (log_frequency save_every : Z) : observable driver_call :=
  let o := new_observable in
  let o := register_observer o TimeStepComplete SetResidual in
  let o := register_observer o TimeStepComplete SetSolution in
  let o := if (save_every =? 0)%Z then o else register_observer o SolutionUpdate WriteSolution in
  let o := register_observer o TimeStepComplete SetTime in
  let o := register_observer o TimeStepComplete UpdateLog in
  let o := set_notify_frequency o TimeStepComplete log_frequency in
  set_notify_frequency o SolutionUpdate save_every.
