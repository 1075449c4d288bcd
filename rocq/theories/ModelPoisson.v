(** The Poisson test problem (/repo/governing_equations/poisson/poisson_3d_fd.cpp).
    [sin] and [cos] are parameters: libm does not specify them for doubles. *)
From Verif Require Import Outcome ZList Num Kernel ModelIndex ModelDisc3D ModelCH.

Section Poisson.
  Context {V : Type} `{N : Num V}.
  Variables (nsin ncos : V -> V).
  Local Open Scope num_scope.
  Local Open Scope prog_scope.
  Local Open Scope res_scope.

  (** One assignment of applyDirichletBoundaryConditions (poisson_3d_fd.cpp:64-67 and
      70-73): arrays 0 = state, 1 = x, 2 = y, 3 = z. *)
  Definition dirichlet_cell (d : disc3 V) (i j k : Z) : prog V :=
    load x <- 1%nat.[ix3 d i j k]; load y <- 2%nat.[ix3 d i j k]; load z <- 3%nat.[ix3 d i j k];
    store 0%nat.[ix3 d i j k] <- nsin x * ncos y * ncos z; Done.

  Definition dirichlet_body (d : disc3 V) (i : Z) : prog V :=
    pfor (- d3_nhalo d) (d3_nj d + d3_nhalo d) (fun j =>
      pseq
        (pfor (- d3_nhalo d) 0 (fun k => dirichlet_cell d i j k))
        (pfor (d3_nk d) (d3_nk d + d3_nhalo d) (fun k => dirichlet_cell d i j k))).

  (** applyDirichletBoundaryConditions (poisson_3d_fd.cpp:46-77) *)
  Definition apply_dirichlet (d : disc3 V) (c : list V) : res (list V) :=
    '(c, _, _, _) <- four (forall_loop (- d3_nhalo d) (d3_ni d + d3_nhalo d) (dirichlet_body d)
                             [c; d3_x d; d3_y d; d3_z d]) ;;
    Ok c.

  (** addSourceTerm (poisson_3d_fd.cpp:22-44): arrays 0 = rhs, 1 = x, 2 = y, 3 = z. *)
  Definition source_body (d : disc3 V) (ii : Z) : prog V :=
    at_interior3 d ii (fun i j k =>
      load x <- 1%nat.[ix3 d i j k]; load y <- 2%nat.[ix3 d i j k]; load z <- 3%nat.[ix3 d i j k];
      load r <- 0%nat.[ix3 d i j k];
      store 0%nat.[ix3 d i j k] <- r + nint 3 * nsin x * ncos y * ncos z; Done).

  Definition add_source (d : disc3 V) (rhs : list V) : res (list V) :=
    '(rhs, _, _, _) <- four (forall_loop 0 (zlen (d3_interior d)) (source_body d)
                               [rhs; d3_x d; d3_y d; d3_z d]) ;;
    Ok rhs.

  (** evalRHSImpl (poisson_3d_fd.cpp:7-20): the state's halos are overwritten too. *)
  Definition poisson_rhs (d : disc3 V) (c rhs : list V) : res (list V * list V) :=
    c <- apply_periodic3 d c ;;
    c <- apply_dirichlet d c ;;
    '(c, rhs) <- laplacian3 d c rhs ;;
    rhs <- add_source d rhs ;;
    Ok (c, rhs).
End Poisson.
