(** The multigrid integrator as it is constructed for the 3D Cahn-Hilliard equation
    (/repo/time_stepping/bdf_multigrid.cpp:8-25, 198-252, ode23_smoother.cpp:6-15). *)
From Verif Require Import Outcome ZList Num Kernel ModelDisc3D ModelCH ModelTime ModelRun ModelMG.

Section MGCH.
  Context {V : Type} `{N : Num V}.
  Local Open Scope num_scope.
  Local Open Scope res_scope.

  (** The options the integrator reads (program_options.hpp:60-68, 119-127): mg_levels, mg_nsmooth,
      mg_max_cycles, mg_rel_tol, mg_cfl, mg_relaxation, mg_coarse_relaxation,
      mg_interpolation, and whether time_integrator is "steady". *)
  Record mg_options : Type := {
    q_levels : Z; q_nsmooth : Z; q_max_cycles : Z; q_tol : V; q_cfl : V; q_relax : V; q_coarse_relax : V;
    q_interp : mg_interp; q_steady : bool
  }.

  (** The discretizations of the levels: the given one and [n] coarsenings, each of the one
      before (bdf_multigrid.cpp:19-24, 240). *)
  Fixpoint make_grids (n : nat) (d : disc3 V) : res (list (disc3 V)) :=
    match n with
    | O => Ok [d]
    | S n => dc <- coarsen3 d ;; ds <- make_grids n dc ;; Ok (d :: ds)
    end.

  (** [CahnHilliard3DFD::createSolutionState]: one array (cahn_hilliard_state.hpp:42-58). *)
  Definition new_state3 (d : disc3 V) : state V := [create_real_array3 d].

  (** [CahnHilliard3DFD::cflScale] (cahn_hilliard_3d_fd.hpp:39-43). *)
  Definition cfl_scale3 (d : disc3 V) : V :=
    let dom := d3_domain d in
    let dx := (xend dom - xbeg dom) / nint (nx dom) in
    dx * dx * dx * dx.

  (** The constructor of [ODE23Smoother] (ode23_smoother.cpp:6-15); dt_ starts at 1e-6
      (ode23_smoother.hpp:18). *)
  Definition new_smoother (d : disc3 V) : smoother V :=
    {| m_k1 := new_state3 d; m_k2 := new_state3 d; m_k3 := new_state3 d; m_k4 := new_state3 d;
       m_stage := new_state3 d; m_dt := nrat 1 1000000; m_err := nint 1 |}.

  (** The constructor of [CoarsenedLevelRHS] (bdf_multigrid.cpp:234-252) on grid [dc] below
      grid [df]: the equation is cloned with the same parameters
      (cahn_hilliard_3d_fd.cpp:497-500), which allocates its scratch arrays. *)
  Definition new_coarse_level (variant : Z) (df dc : disc3 V) : res (level V (scratch V)) :=
    sc <- make_ch3 dc variant ;;
    Ok {| v_sc := sc; v_u := new_state3 dc; v_du := new_state3 dc; v_sm := new_smoother dc;
          v_c := Some {| c_pre := new_state3 dc; c_respre := new_state3 dc; c_restr := new_state3 dc;
                         c_delta := new_state3 dc; c_src := new_state3 dc; c_fine := new_state3 df |} |}.
  Fixpoint new_coarse_levels (variant : Z) (df : disc3 V) (ds : list (disc3 V)) : res (list (level V (scratch V))) :=
    match ds with
    | [] => Ok []
    | dc :: ds => v <- new_coarse_level variant df dc ;; vs <- new_coarse_levels variant dc ds ;; Ok (v :: vs)
    end.

  (** What the integrator uses on the grids [ds] with the given cycle definition. *)
  Definition mg_ch3 (q : mg_options) (variant : Z) (p : ch_params V) (cycle : list Z)
      (rmax : V -> list V -> V) (rsum : list V -> V) (pw : V -> V -> V) (ds : list (disc3 V))
    : mg_config V (scratch V) :=
    let on k (h : disc3 V -> rhs_fun V (scratch V)) : rhs_fun V (scratch V) :=
      match nth_error ds k with Some d => h d | None => fun _ _ _ _ => UB end in
    let across k (h : disc3 V -> disc3 V -> list V -> list V -> res (list V * list V)) a b :=
      match nth_error ds (k - 1), nth_error ds k with
      | Some df, Some dc => transfer1 (h df dc) a b
      | _, _ => UB
      end in
    {| g_eval := fun k => on k (fun d => ch_rhs3 d variant p);
       g_restrict := fun k => across k (fun df dc => restrict3 df dc);
       g_prolong := fun k => across k (fun df dc => prolong3 (q_interp q) dc df);
       g_cfl := fun k => match nth_error ds k with Some d => q_cfl q * cfl_scale3 d | None => nint 0 end;
       g_steady := q_steady q; g_relax := q_relax q; g_coarse_relax := q_coarse_relax q;
       g_cycle := cycle; g_max_cycles := q_max_cycles q; g_tol := q_tol q;
       g_interior := match ds with d :: _ => d3_interior d | [] => [] end;
       g_reduce_max := rmax; g_reduce_sum := rsum; g_pow := pw |}.

  (** [BDFMultigrid::BDFMultigrid] (bdf_multigrid.cpp:8-25) for the equation with storage [sc] on
      [d]; [u] and [du] are the solver's state and residual. *)
  Definition bdf_new (q : mg_options) (d : disc3 V) (variant : Z) (p : ch_params V) (sc : scratch V)
      (rmax : V -> list V -> V) (rsum : list V -> V) (pw : V -> V -> V) (u du : state V)
    : res (mg_config V (scratch V) * mg_world V (scratch V)) :=
    cycle <- get_mg_cycle (q_levels q) (q_nsmooth q) ;;
    ds <- make_grids (Z.to_nat (q_levels q - 1)) d ;;
    vs <- new_coarse_levels variant d (tl ds) ;;
    Ok (mg_ch3 q variant p cycle rmax rsum pw ds,
        {| b_levels := {| v_sc := sc; v_u := u; v_du := du; v_sm := new_smoother d; v_c := None |} :: vs;
           b_res0 := new_state3 d; b_ncycles := 0%Z; b_rate := nint 0 |}).
End MGCH.
Arguments mg_options V : clear implicits.
