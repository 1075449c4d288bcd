(** The integrators as the solve loop uses them, and the Cahn-Hilliard right-hand sides as
    they use it. *)
From Verif Require Import Outcome ZList Num ModelDisc3D ModelDisc2D ModelCH ModelTime.

Section Run.
  Context {V : Type} `{N : Num V}.
  Local Open Scope res_scope.

  (** [CahnHilliard3DFD::evalRHSImpl(flow, time, rhs)] on states: the concentration is vector 0
      of the state and of the right-hand side (cahn_hilliard_3d_fd.cpp:20-34,
      cahn_hilliard_state.hpp:42-78); the time is not used. *)
  Definition ch_rhs3 (d : disc3 V) (variant : Z) (p : ch_params V) : rhs_fun V (scratch V) :=
    fun sc s _ r =>
      c <- of_opt (nth_error s 0) ;;
      rhs <- of_opt (nth_error r 0) ;;
      '(sc', c', rhs') <- eval_rhs3 d variant p sc c rhs ;;
      Ok (sc', upd s 0 c', upd r 0 rhs').

  (** [CahnHilliard2DFD::evalRHSImpl] (cahn_hilliard_2d_fd.cpp:29-79). *)
  Definition ch_rhs2 (d : disc2 V) (p : ch_params V) : rhs_fun V (scratch V) :=
    fun sc s _ r =>
      c <- of_opt (nth_error s 0) ;;
      rhs <- of_opt (nth_error r 0) ;;
      '(sc', c', rhs') <- eval_rhs2 d p sc c rhs ;;
      Ok (sc', upd s 0 c', upd r 0 rhs').

  (** The world of a run with RK3SSP: its arrays, the right-hand side's storage, the solution
      and residual states (time_integrator.hpp:56-60) and everything else (W). *)
  Record rk3_world (S W : Type) : Type := {
    k_int : rk3 V; k_sc : S; k_u : state V; k_du : state V; k_rest : W
  }.
  Arguments k_int {S W}. Arguments k_sc {S W}. Arguments k_u {S W}. Arguments k_du {S W}. Arguments k_rest {S W}.

  Definition rk3_do {S W} (eval : rhs_fun V S) (x : rk3_world S W) (t dt : V) : res (rk3_world S W) :=
    '(o, sc, u, du) <- rk3_step eval (k_int x) (k_sc x) (k_u x) (k_du x) t dt ;;
    Ok {| k_int := o; k_sc := sc; k_u := u; k_du := du; k_rest := k_rest x |}.

  (** [TimeIntegrator::computeNextDT] (time_integrator.cpp:67-70). *)
  Definition rk3_next_dt {S W} (x : rk3_world S W) (d : V) : res (rk3_world S W * V) := Ok (x, d).

  (** The same with ODE23 and its controller. *)
  Record ode23_world (S W : Type) : Type := {
    e_int : ode23 V; e_pid : pid V; e_sc : S; e_u : state V; e_du : state V; e_rest : W
  }.
  Arguments e_int {S W}. Arguments e_pid {S W}. Arguments e_sc {S W}. Arguments e_u {S W}. Arguments e_du {S W}.
  Arguments e_rest {S W}.

  Definition ode23_do {S W} (reduce_max : V -> list V -> V) (eval : rhs_fun V S) (x : ode23_world S W) (t dt : V)
    : res (ode23_world S W) :=
    '(o, sc, u, du) <- ode23_step reduce_max eval (e_int x) (e_sc x) (e_u x) (e_du x) t dt ;;
    Ok {| e_int := o; e_pid := e_pid x; e_sc := sc; e_u := u; e_du := du; e_rest := e_rest x |}.

  (** [ODE23::computeNextDT] (ode23.cpp:128-132). *)
  Definition ode23_next_dt {S W} (pow : V -> V -> V) (x : ode23_world S W) (d : V) : res (ode23_world S W * V) :=
    '(p, s) <- adapt_step pow (e_pid x) (o_err (e_int x)) d ;;
    Ok ({| e_int := e_int x; e_pid := p; e_sc := e_sc x; e_u := e_u x; e_du := e_du x; e_rest := e_rest x |}, s).
End Run.
Arguments k_int {V S W}. Arguments k_sc {V S W}. Arguments k_u {V S W}. Arguments k_du {V S W}. Arguments k_rest {V S W}.
Arguments e_int {V S W}. Arguments e_pid {V S W}. Arguments e_sc {V S W}. Arguments e_u {V S W}. Arguments e_du {V S W}.
Arguments e_rest {V S W}.
Arguments rk3_world V S W : clear implicits.
Arguments ode23_world V S W : clear implicits.
