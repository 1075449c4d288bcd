(** Monitors and initial conditions (/repo/governing_equations): the residual calculator,
    the Cahn-Hilliard solution monitors, random and constant initial conditions. *)
From Verif Require Import Outcome ZList Num Kernel ModelIndex ModelDisc3D ModelDisc2D ModelCH ModelTime.
From Coq Require Import String.

Section Mon.
  Context {V : Type} `{N : Num V}.
  Local Open Scope num_scope.
  Local Open Scope prog_scope.
  Local Open Scope res_scope.

  (** The file-level variables abs_res, max_res, rel_res (residual_calculator.cpp:6-10),
      which live as long as the process. *)
  Record res_stats : Type := { rs_abs : V; rs_max : V; rs_rel : V }.
  Definition res_stats0 : res_stats := {| rs_abs := nint 0; rs_max := nint 0; rs_rel := nint 0 |}.

  (** The contribution of one interior cell to the sum of squares
      (residual_calculator.cpp:27-29). *)
  Definition square_cell (idx : list Z) (a : list V) (ii : Z) : res V :=
    q <- of_opt (zget idx ii) ;; v <- of_opt (zget a q) ;; Ok (npow2 v).

  (** One equation's entry (residual_calculator.cpp:24-30).  [reduce_sum init l] is the
      value the parallel sum gives for the contributions l. *)
  Definition residual_norm (reduce_sum : V -> list V -> V) (idx : list Z) (a : list V) : res V :=
    l <- collect (square_cell idx a) (zrange 0 (zlen idx)) ;;
    Ok (nsqrt (reduce_sum (nint 0) l / nint (zlen idx))).

  (** The loop over the equations (residual_calculator.cpp:22-31); writing past the end of
      the vector of pairs is undefined behaviour. *)
  Definition norm_step (reduce_sum : V -> list V -> V) (idx : list Z) (residuals : state V)
      (acc : res (list (string * V))) (ieqn : nat) : res (list (string * V)) :=
    pairs <- acc ;;
    a <- of_opt (nth_error residuals ieqn) ;;
    v <- residual_norm reduce_sum idx a ;;
    p <- of_opt (nth_error pairs ieqn) ;;
    Ok (upd pairs ieqn (fst p, v)).

  (** [residual_calculator] (residual_calculator.cpp:12-46).  [names] is
      [rhs.equationNames()], [neq] is [rhs.nEquations()]. *)
  Definition residual_calculator (reduce_sum : V -> list V -> V) (names : list string) (neq : nat)
      (idx : list Z) (st : res_stats) (residuals : state V) : res (res_stats * list (string * V)) :=
    pairs <- fold_left (norm_step reduce_sum idx residuals) (seq 0 neq)
               (Ok (map (fun n => (append "res_" n, nint 1)) names)) ;;
    p0 <- of_opt (nth_error pairs 0) ;;
    let abs_res := snd p0 in
    let max_res := nmax (rs_max st) abs_res in
    let st' := if neqb max_res (nint 0)
               then {| rs_abs := nint 1; rs_max := max_res; rs_rel := nint 1 |}
               else {| rs_abs := abs_res; rs_max := max_res; rs_rel := abs_res / max_res |} in
    Ok (st', pairs ++ [("abs_res"%string, rs_abs st'); ("rel_res"%string, rs_rel st')]).

  (** Successive calls in one process. *)
  Fixpoint residual_history (reduce_sum : V -> list V -> V) (names : list string) (neq : nat)
      (idx : list Z) (st : res_stats) (hist : list (state V))
      : res (res_stats * list (list (string * V))) :=
    match hist with
    | [] => Ok (st, [])
    | r :: hist' =>
        '(st1, m) <- residual_calculator reduce_sum names neq idx st r ;;
        '(st2, ms) <- residual_history reduce_sum names neq idx st1 hist' ;;
        Ok (st2, m :: ms)
    end.

  (** One component of the gradient in a cell
      (cahn_hilliard_solution_monitor.cpp:35-53 and 93-121): [n] is the bound the index is
      compared with, [fwd] and [bwd] are the reads of the neighbouring cells. *)
  Definition slope (n : Z) (dx v : V) (i : Z) (fwd bwd : res V) : res V :=
    if (i =? 0)%Z then f <- fwd ;; Ok ((f - v) / dx)
    else if (i =? n - 1)%Z then b <- bwd ;; Ok ((v - b) / dx)
    else f <- fwd ;; b <- bwd ;; Ok ((f - b) / (nint 2 * dx)).

  (** The value and the gradient contribution of an interior cell, 2D
      (cahn_hilliard_solution_monitor.cpp:26-57). *)
  Definition monitor_cell2 (d : disc2 V) (f : list V) (ii : Z) : res (V * V) :=
    q <- of_opt (zget (d2_interior d) ii) ;;
    let '(i, j) := getIJ2 d q in
    let at2 i j := of_opt (zget f (ix2 d i j)) in
    let dx := d2_dx d in let ni := d2_ni d in
    v <- at2 i j ;;
    gx <- slope ni dx v i (at2 (i + 1)%Z j) (at2 (i - 1)%Z j) ;;
    gy <- slope ni dx v j (at2 i (j + 1)%Z) (at2 i (j - 1)%Z) ;;
    Ok (v, nsqrt (npow2 gx + npow2 gy) * dx * dx).

  (** The same in 3D (cahn_hilliard_solution_monitor.cpp:81-126); j and k are compared with
      ni - 1, as in the code, and the weight is dx * dx. *)
  Definition monitor_cell3 (d : disc3 V) (f : list V) (ii : Z) : res (V * V) :=
    q <- of_opt (zget (d3_interior d) ii) ;;
    let '(i, j, k) := getIJK3 d q in
    let at3 i j k := of_opt (zget f (ix3 d i j k)) in
    let dx := d3_dx d in let ni := d3_ni d in
    v <- at3 i j k ;;
    gx <- slope ni dx v i (at3 (i + 1)%Z j k) (at3 (i - 1)%Z j k) ;;
    gy <- slope ni dx v j (at3 i (j + 1)%Z k) (at3 i (j - 1)%Z k) ;;
    gz <- slope ni dx v k (at3 i j (k + 1)%Z) (at3 i j (k - 1)%Z) ;;
    Ok (v, nsqrt (npow2 gx + npow2 gy + npow2 gz) * dx * dx).

  (** The reductions a monitor uses: min, max and sum; each takes the initial value and
      the contributions. *)
  Record reducers : Type := {
    red_min : V -> list V -> V; red_max : V -> list V -> V; red_sum : V -> list V -> V }.

  (** The returned names and values.  [hi] is [numeric_limits::max()] and [lo] is
      [numeric_limits::min()], the initial values of the reductions
      (cahn_hilliard_solution_monitor.cpp:16-18, 59-60, 70-72, 129-130). *)
  Definition monitor_values (red : reducers) (hi lo : V) (l : list (V * V)) : list (string * V) :=
    [("min_c"%string, red_min red hi (map fst l));
     ("max_c"%string, red_max red lo (map fst l));
     ("grad_c_mag"%string, red_sum red (nint 0) (map snd l))].

  (** [cahn_hilliard_solution_monitor], 2D (lines 10-61) and 3D (lines 64-131). *)
  Definition solution_monitor2 (red : reducers) (hi lo : V) (d : disc2 V) (f : list V)
    : res (list (string * V)) :=
    l <- collect (monitor_cell2 d f) (zrange 0 (zlen (d2_interior d))) ;;
    Ok (monitor_values red hi lo l).

  Definition solution_monitor3 (red : reducers) (hi lo : V) (d : disc3 V) (f : list V)
    : res (list (string * V)) :=
    l <- collect (monitor_cell3 d f) (zrange 0 (zlen (d3_interior d))) ;;
    Ok (monitor_values red hi lo l).

  (** The first loop of [CahnHilliardInitialConditions::set]
      (cahn_hilliard_initial_conditions.cpp:33-41): the n-th call of [dist(gen)] returns
      [draw n]; [sum] and [tmp] are the compensated sum's variables. *)
  Fixpoint random_fill (draw : nat -> V) (m : V) (n : nat) (idx : list Z) (c : list V) (sum tmp : V)
    : res (list V * V) :=
    match idx with
    | [] => Ok (c, sum)
    | q :: idx' =>
        c <- of_opt (zset c q (m + draw n)) ;;
        v <- of_opt (zget c q) ;;
        let y := v - tmp in
        let t := sum + y in
        random_fill draw m (S n) idx' c t ((t - sum) - y)
    end.

  (** The second loop (lines 45-47). *)
  Fixpoint shift_fill (s : V) (idx : list Z) (c : list V) : res (list V) :=
    match idx with
    | [] => Ok c
    | q :: idx' =>
        v <- of_opt (zget c q) ;;
        c <- of_opt (zset c q (v - s)) ;;
        shift_fill s idx' c
    end.

  (** [CahnHilliardInitialConditions::set] (lines 15-48) on the array of the state; the message with the mean
      (line 43) is left out. *)
  Definition random_initial (draw : nat -> V) (m : V) (idx : list Z) (c : list V) : res (list V) :=
    '(c, sum) <- random_fill draw m 0 idx c (nint 0) (nint 0) ;;
    let mean := sum / nint (zlen idx) in
    shift_fill (mean - m) idx c.

  (** [ConstantInitialConditions::set] (constant_initial_conditions.cpp:6-14). *)
  Definition constant_body (value : V) (idx : list Z) (ii : Z) : prog V :=
    at_flat idx ii (fun q => store 0%nat.[q] <- value; Done).
  Definition constant_initial (value : V) (idx : list Z) (c : list V) : res (list V) :=
    one (forall_loop 0 (zlen idx) (constant_body value idx) [c]).

  (** [copyPetscVecToSolutionState] (time_stepping/petsc_time_integrator.cpp:15-31): arrays
      0 = the state's array, 1 = the solver's vector. *)
  Definition from_vec_body (idx : list Z) (ii : Z) : prog V :=
    at_flat idx ii (fun q => load v <- 1%nat.[ii]; store 0%nat.[q] <- v; Done).
  Definition copy_from_vec (idx : list Z) (s x : list V) : res (list V * list V) :=
    two (forall_loop 0 (zlen idx) (from_vec_body idx) [s; x]).

  (** [copySolutionStateToPetscVec] (petsc_time_integrator.cpp:33-50): arrays 0 = the
      solver's vector, 1 = the state's array. *)
  Definition to_vec_body (idx : list Z) (ii : Z) : prog V :=
    at_flat idx ii (fun q => load v <- 1%nat.[q]; store 0%nat.[ii] <- v; Done).
  Definition copy_to_vec (idx : list Z) (s x : list V) : res (list V) :=
    '(x, s) <- two (forall_loop 0 (zlen idx) (to_vec_body idx) [x; s]) ;; Ok x.

  (** [copyPetscVecToSolutionState] and [copySolutionStateToPetscVec] use the first array
      of a state. *)
  Definition copy_from_vec_state (idx : list Z) (s : state V) (x : list V) : res (state V) :=
    a <- of_opt (nth_error s 0) ;;
    '(a, x) <- copy_from_vec idx a x ;;
    Ok (upd s 0 a).
  Definition copy_to_vec_state (idx : list Z) (s : state V) (x : list V) : res (list V) :=
    a <- of_opt (nth_error s 0) ;; copy_to_vec idx a x.

  (** [PetscRHSFunction] (petsc_time_integrator.cpp:53-69): the integrator's solution
      and residual states, the solver's input and output vectors. *)
  Definition petsc_rhs {S} (eval : rhs_fun V S) (idx : list Z) (sc : S) (sol resid : state V)
      (time : V) (x rhs : list V) : res (S * state V * state V * list V) :=
    sol <- copy_from_vec_state idx sol x ;;
    '(sc, sol, resid) <- eval sc sol time resid ;;
    rhs <- copy_to_vec_state idx resid rhs ;;
    Ok (sc, sol, resid, rhs).

  (** [PetscTimeIntegrator::solve] (petsc_time_integrator.cpp:235-252) after the initial
      conditions have been set.  [ts_solve] stands for TSSolve, which may call
      [petsc_rhs] any number of times: it takes the integrator's states and the vector
      (created with [dofsPerEquation] zeros) and returns them. *)
  Definition petsc_solve {S} (idx : list Z) (ndofs : Z)
      (ts_solve : S -> state V -> state V -> list V -> res (S * state V * state V * list V))
      (sc : S) (sol resid : state V) : res (S * state V * state V) :=
    x <- copy_to_vec_state idx sol (new_array (nint 0) ndofs) ;;
    '(sc, sol, resid, x) <- ts_solve sc sol resid x ;;
    sol <- copy_from_vec_state idx sol x ;;
    Ok (sc, sol, resid).
End Mon.
Arguments res_stats V : clear implicits.
Arguments reducers V : clear implicits.
