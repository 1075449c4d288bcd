(** The callbacks the program gives to the PETSc time steppers
    (/repo/time_stepping/petsc_time_integrator.cpp). *)
From Verif Require Import Outcome ZList Num Kernel ModelIndex ModelCSR ModelObs ModelTime ModelMon ModelDisc3D ModelCH ModelJac ModelDisc2D ModelRun.
From Coq Require Import String List.

(** What TSSolve does, seen from the program: it calls the functions registered with it, in
    any order, any number of times, with any arguments, looks at what they return and at
    the end leaves a vector in [petscsoln].  Vectors are lists of [dofsPerEquation] numbers.
    - [TsRhs t x out k]: the right-hand side function with time t, input x and an output
      vector that contains [out]; k gets the output vector.
    - [TsJac t x vals k]: the Jacobian function with time t and input x, while the value
      array of the matrix (which PETSc owns and may have changed) contains [vals]; k gets
      the value array.
    - [TsPre k]: the pre-step function.
    - [TsPost k]: the post-step function; k gets whether it called [TSSetConvergedReason].
    - [TsMon step time dt v k]: the monitor with the solution vector v; step, time and dt
      are what [TSGetStepNumber], [TSGetTime] and [TSGetTimeStep] return during the call. *)
Inductive ts_prog (V : Type) : Type :=
| TsDone (x : list V)
| TsRhs (t : V) (x out : list V) (k : list V -> ts_prog V)
| TsJac (t : V) (x vals : list V) (k : list V -> ts_prog V)
| TsPre (k : ts_prog V)
| TsPost (k : bool -> ts_prog V)
| TsMon (step : Z) (time dt : V) (v : list V) (k : ts_prog V).
Arguments TsDone {V}.
Arguments TsRhs {V}.
Arguments TsJac {V}.
Arguments TsPre {V}.
Arguments TsPost {V}.
Arguments TsMon {V}.

Section Petsc.
  Context {V : Type} `{N : Num V}.
  Local Open Scope num_scope.
  Local Open Scope res_scope.

  (** The lookup of an entry of the residual monitor by name
      (petsc_time_integrator.cpp:108-117 and 131-140): [FatalMessage] when it is missing. *)
  Fixpoint find_stat (name : string) (mon : list (string * V)) : res V :=
    match mon with
    | [] => Fatal
    | (n, v) :: mon' => if String.eqb n name then Ok v else find_stat name mon'
    end.

  (** One of the two tests of [PetscTSPostStep] (lines 107-126 and 130-149): a tolerance of
      zero switches it off; [a <= b] is [a < b || a == b], also for NaNs. *)
  Definition tolerance_met (name : string) (tol : V) (mon : list (string * V)) : res bool :=
    if neqb tol (nint 0) then Ok false
    else r <- find_stat name mon ;; Ok (nltb r tol || neqb r tol).

  (** [PetscTSPostStep] (petsc_time_integrator.cpp:103-156): whether it calls
      [TSSetConvergedReason]. *)
  Definition petsc_post_step (abs_tol rel_tol : V) (mon : list (string * V)) : res bool :=
    a <- tolerance_met "abs_res" abs_tol mon ;;
    b <- tolerance_met "rel_res" rel_tol mon ;;
    Ok (a || b).

  (** What the integrator object holds: the storage of the right-hand side, the solution
      and residual states, the matrix [csr_jacobian_] and the storage of the observers and
      of the logger. *)
  Record pworld (S O : Type) : Type := {
    pw_sc : S; pw_sol : state V; pw_res : state V; pw_jac : csr V; pw_obs : O }.

  (** The collaborators: [evalRHSImpl], [evalJacobian] and [interiorIndices] of the
      right-hand side object; the callbacks of an event, which read the integrator's step,
      time, step size and (const) states and change the storage of observers and logger;
      [Logger::getResidualMonitor]; the two tolerances. *)
  Record pdeps (S O : Type) : Type := {
    pd_eval : rhs_fun V S;
    pd_jac : state V -> V -> csr V -> res (csr V);
    pd_idx : list Z;
    pd_notify : event -> Z -> V -> V -> state V -> state V -> O -> res O;
    pd_monitor : O -> list (string * V);
    pd_abs_tol : V; pd_rel_tol : V }.

  Arguments pw_sc {S O}. Arguments pw_sol {S O}. Arguments pw_res {S O}. Arguments pw_jac {S O}. Arguments pw_obs {S O}.
  Arguments pd_eval {S O}. Arguments pd_jac {S O}. Arguments pd_idx {S O}. Arguments pd_notify {S O}.
  Arguments pd_monitor {S O}. Arguments pd_abs_tol {S O}. Arguments pd_rel_tol {S O}.

  Section Run.
    Context {S O : Type} (D : pdeps S O).

    (** [PetscRHSFunction] (petsc_time_integrator.cpp:53-69), see [petsc_rhs]. *)
    Definition call_rhs (w : pworld S O) (t : V) (x out : list V) : res (pworld S O * list V) :=
      '(sc, sol, resid, out) <- petsc_rhs (pd_eval D) (pd_idx D) (pw_sc w) (pw_sol w) (pw_res w) t x out ;;
      Ok ({| pw_sc := sc; pw_sol := sol; pw_res := resid; pw_jac := pw_jac w; pw_obs := pw_obs w |}, out).

    (** [PetscRHSJacobian] (petsc_time_integrator.cpp:72-92): the vector is copied into the
        interior of the solution state and [evalJacobian] is called; the halo cells are not
        filled.  The matrix shares its arrays with PETSc (lines 330-342 and 441-455), so its
        values on entry are whatever PETSc left there.  The assembly calls move nothing. *)
    Definition call_jac (w : pworld S O) (t : V) (x vals : list V) : res (pworld S O * list V) :=
      sol <- copy_from_vec_state (pd_idx D) (pw_sol w) x ;;
      J <- pd_jac D sol t (set_values_kept_ref (pw_jac w) vals) ;;
      Ok ({| pw_sc := pw_sc w; pw_sol := sol; pw_res := pw_res w; pw_jac := J; pw_obs := pw_obs w |}, m_vals J).

    (** [PetscTSMonitor] (petsc_time_integrator.cpp:159-168): the vector it is given is not
        used; the observers look at the integrator's own states (time_integrator.hpp:24-25)
        and at the time stepper's clock (petsc_time_integrator.cpp:613-635). *)
    Definition call_mon (w : pworld S O) (step : Z) (time dt : V) (v : list V) : res (pworld S O) :=
      o <- pd_notify D TimeStepComplete step time dt (pw_sol w) (pw_res w) (pw_obs w) ;;
      o <- pd_notify D SolutionUpdate step time dt (pw_sol w) (pw_res w) o ;;
      Ok {| pw_sc := pw_sc w; pw_sol := pw_sol w; pw_res := pw_res w; pw_jac := pw_jac w; pw_obs := o |}.

    (** TSSolve running against the program's callbacks.  [PetscTSPreStep]
        (petsc_time_integrator.cpp:94-101) does nothing. *)
    Fixpoint run_ts (p : ts_prog V) (w : pworld S O) : res (pworld S O * list V) :=
      match p with
      | TsDone x => Ok (w, x)
      | TsRhs t x out k => '(w, y) <- call_rhs w t x out ;; run_ts (k y) w
      | TsJac t x vals k => '(w, y) <- call_jac w t x vals ;; run_ts (k y) w
      | TsPre k => run_ts k w
      | TsPost k =>
          b <- petsc_post_step (pd_abs_tol D) (pd_rel_tol D) (pd_monitor D (pw_obs w)) ;; run_ts (k b) w
      | TsMon step time dt v k => w <- call_mon w step time dt v ;; run_ts k w
      end.

    (** [PetscTimeIntegrator::solve] (petsc_time_integrator.cpp:235-252) after the initial
        conditions have been set and [initializePetsc] has run; [ts x] is what TSSolve does
        when started with the vector x.  Returns the integrator's storage. *)
    Definition petsc_run (ndofs : Z) (ts : list V -> ts_prog V) (w : pworld S O) : res (pworld S O) :=
      x <- copy_to_vec_state (pd_idx D) (pw_sol w) (new_array (nint 0) ndofs) ;;
      '(w, x) <- run_ts (ts x) w ;;
      sol <- copy_from_vec_state (pd_idx D) (pw_sol w) x ;;
      Ok {| pw_sc := pw_sc w; pw_sol := sol; pw_res := pw_res w; pw_jac := pw_jac w; pw_obs := pw_obs w |}.
  End Run.

  (** [CahnHilliard3DFD::evalJacobian] on a state (cahn_hilliard_3d_fd.cpp:370-494), see
      [eval_jacobian]. *)
  Definition ch_jac3 (d : disc3 V) (p : ch_params V) (s : state V) (t : V) (A : csr V) : res (csr V) :=
    c <- of_opt (nth_error s 0) ;; eval_jacobian d p c A.

  (** [CahnHilliard2DFD::evalJacobian] (cahn_hilliard_2d_fd.cpp:88-91): [FatalMessage]. *)
  Definition ch_jac2 (s : state V) (t : V) (A : csr V) : res (csr V) := Fatal.

  (** The collaborators of a three- and of a two-dimensional Cahn-Hilliard run. *)
  Definition deps3 {O} (d : disc3 V) (variant : Z) (p : ch_params V)
      (notify : event -> Z -> V -> V -> state V -> state V -> O -> res O) (mon : O -> list (string * V)) (abs_tol rel_tol : V)
      : pdeps (scratch V) O :=
    {| pd_eval := ch_rhs3 d variant p; pd_jac := ch_jac3 d p; pd_idx := d3_interior d; pd_notify := notify;
       pd_monitor := mon; pd_abs_tol := abs_tol; pd_rel_tol := rel_tol |}.

  Definition deps2 {O} (d : disc2 V) (p : ch_params V)
      (notify : event -> Z -> V -> V -> state V -> state V -> O -> res O) (mon : O -> list (string * V)) (abs_tol rel_tol : V)
      : pdeps (scratch V) O :=
    {| pd_eval := ch_rhs2 d p; pd_jac := ch_jac2; pd_idx := d2_interior d; pd_notify := notify;
       pd_monitor := mon; pd_abs_tol := abs_tol; pd_rel_tol := rel_tol |}.
End Petsc.
Arguments pw_sc {V S O}.
Arguments pw_sol {V S O}.
Arguments pw_res {V S O}.
Arguments pw_jac {V S O}.
Arguments pw_obs {V S O}.
Arguments pd_eval {V S O}.
Arguments pd_jac {V S O}.
Arguments pd_idx {V S O}.
Arguments pd_notify {V S O}.
Arguments pd_monitor {V S O}.
Arguments pd_abs_tol {V S O}.
Arguments pd_rel_tol {V S O}.
