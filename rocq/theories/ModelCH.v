(** The Cahn-Hilliard right-hand sides:
    /repo/governing_equations/cahn_hilliard/cahn_hilliard_{2d,3d}_fd.{hpp,cpp}. *)
From Verif Require Import Outcome ZList Num Kernel ModelIndex ModelDisc3D ModelDisc2D.

Section ModelCH.
  Context {V : Type} `{N : Num V}.
  Local Open Scope num_scope.
  Local Open Scope Z_scope.
  Local Open Scope prog_scope.

  (** CahnHilliardParameters, cahn_hilliard_parameters.hpp:5-20 (the initial-value range is
      modelled with the initial conditions) *)
  Record ch_params := { ch_m : V; ch_sigma : V; ch_eps2 : V }.

  (** The four scratch arrays of an equation object, cahn_hilliard_3d_fd.hpp:56-59 and
      cahn_hilliard_2d_fd.hpp; they live as long as the object and are never cleared. *)
  Record scratch := { sc_lap : list V; sc_arg : list V; sc_bih : list V; sc_lin : list V }.

  (** Results of kernels on three and four arrays. *)
  Definition three (m : res (mem V)) : res (list V * list V * list V) :=
    match m with
    | Ok [a; b; c] => Ok (a, b, c)
    | Ok _ => UB
    | UB => UB | Fatal => Fatal | Throw => Throw
    end.

  Definition four (m : res (mem V)) : res (list V * list V * list V * list V) :=
    match m with
    | Ok [a; b; c; d] => Ok (a, b, c, d)
    | Ok _ => UB
    | UB => UB | Fatal => Fatal | Throw => Throw
    end.

  (** del2f[i] = pow(c[i], 3.0) - c[i], cahn_hilliard_3d_fd.cpp:54, 121 and
      cahn_hilliard_2d_fd.cpp:31.  Arrays: 0 = c, 1 = del2f. *)
  Definition cube_body (i : Z) : prog V :=
    load v <- 0%nat.[i]; store 1%nat.[i] <- (npow3 v - v)%num; Done.

  Definition cube_loop (c arg : list V) : res (list V * list V) :=
    two (forall_loop 0 (zlen c) cube_body [c; arg]).

  (** const int i = idx[ii]: kernels that use the flat index, cahn_hilliard_3d_fd.cpp:75, 97 *)
  Definition at_flat (idx : list Z) (ii : Z) (body : Z -> prog V) : prog V :=
    match zget idx ii with
    | None => Bad
    | Some q => body q
    end.

  (** term[i] = sigma * (c[i] - m), cahn_hilliard_3d_fd.cpp:74-77 and
      cahn_hilliard_2d_fd.cpp:51-54.  Arrays: 0 = c, 1 = term. *)
  Definition linear_body (p : ch_params) (idx : list Z) (ii : Z) : prog V :=
    at_flat idx ii (fun i =>
      load v <- 0%nat.[i]; store 1%nat.[i] <- (ch_sigma p * (v - ch_m p))%num; Done).

  Definition linear_loop (p : ch_params) (idx : list Z) (c term : list V) : res (list V * list V) :=
    two (forall_loop 0 (zlen idx) (linear_body p idx) [c; term]).

  (** r[i] = 0, cahn_hilliard_3d_fd.cpp:84 and cahn_hilliard_2d_fd.cpp:62 *)
  Definition zero_body (i : Z) : prog V := store 0%nat.[i] <- nint 0; Done.

  Definition zero_loop (r : list V) : res (list V) :=
    one (forall_loop 0 (zlen r) zero_body [r]).

  (** rhs[i] = -eps2 * del4[i] + del2[i] - sigterm[i], cahn_hilliard_3d_fd.cpp:96-99 and
      cahn_hilliard_2d_fd.cpp:74-77.  Arrays: 0 = rhs, 1 = del4, 2 = del2, 3 = sigterm. *)
  Definition combine_body (p : ch_params) (idx : list Z) (ii : Z) : prog V :=
    at_flat idx ii (fun i =>
      load a <- 1%nat.[i]; load b <- 2%nat.[i]; load c <- 3%nat.[i];
      store 0%nat.[i] <- (- ch_eps2 p * a + b - c)%num; Done).

  Definition combine_loop (p : ch_params) (idx : list Z) (rhs del4 del2 sig : list V) :=
    four (forall_loop 0 (zlen idx) (combine_body p idx) [rhs; del4; del2; sig]).

  Local Open Scope res_scope.

  (** CahnHilliard3DFD::evalRHSBasic, cahn_hilliard_3d_fd.cpp:37-101.  State after the call:
      the scratch arrays, the (halo-filled) state and the right-hand side. *)
  Definition eval_rhs_basic3 (d : disc3 V) (p : ch_params) (s : scratch) (c rhs : list V)
      : res (scratch * list V * list V) :=
    c1 <- apply_periodic3 d c ;;
    c2 <- apply_neumann3 d c1 ;;
    ' (_, arg) <- cube_loop c2 (sc_arg s) ;;
    ' (_, lap) <- laplacian3 d arg (sc_lap s) ;;
    ' (_, bih) <- biharmonic3 d c2 (sc_bih s) ;;
    ' (_, lin) <- linear_loop p (d3_interior d) c2 (sc_lin s) ;;
    r0 <- zero_loop rhs ;;
    ' (r, _, _, _) <- combine_loop p (d3_interior d) r0 bih lap lin ;;
    Ok ({| sc_lap := lap; sc_arg := arg; sc_bih := bih; sc_lin := lin |}, c2, r).

  Local Close Scope res_scope.

  (** The body shared by the two fused kernels: biharmonic of array [fa], added to the
      Laplacian value [del2] and stored to array [ra], cahn_hilliard_3d_fd.cpp:146-158 and
      205-217. *)
  Definition fused_tail (d : disc3 V) (p : ch_params) (fa ra : nat) (i j k : Z) (del2 : V) : prog V :=
    let dx2 := (d3_dx d * d3_dx d)%num in
    let dx4 := (dx2 * dx2)%num in
    load o <- fa.[ix3 d i j k];
    load e1 <- fa.[ix3 d (i + 1) j k]; load n1 <- fa.[ix3 d i (j + 1) k];
    load t1 <- fa.[ix3 d i j (k + 1)]; load w1 <- fa.[ix3 d (i - 1) j k];
    load s1 <- fa.[ix3 d i (j - 1) k]; load b1 <- fa.[ix3 d i j (k - 1)];
    load e2 <- fa.[ix3 d (i + 2) j k]; load n2 <- fa.[ix3 d i (j + 2) k];
    load t2 <- fa.[ix3 d i j (k + 2)]; load w2 <- fa.[ix3 d (i - 2) j k];
    load s2 <- fa.[ix3 d i (j - 2) k]; load b2 <- fa.[ix3 d i j (k - 2)];
    load ws <- fa.[ix3 d (i - 1) (j - 1) k]; load wn <- fa.[ix3 d (i - 1) (j + 1) k];
    load es <- fa.[ix3 d (i + 1) (j - 1) k]; load en <- fa.[ix3 d (i + 1) (j + 1) k];
    load wb <- fa.[ix3 d (i - 1) j (k - 1)]; load eb <- fa.[ix3 d (i + 1) j (k - 1)];
    load sb <- fa.[ix3 d i (j - 1) (k - 1)]; load nb <- fa.[ix3 d i (j + 1) (k - 1)];
    load wt <- fa.[ix3 d (i - 1) j (k + 1)]; load et <- fa.[ix3 d (i + 1) j (k + 1)];
    load st <- fa.[ix3 d i (j - 1) (k + 1)]; load nt <- fa.[ix3 d i (j + 1) (k + 1)];
    let del4f :=
      ((nint 42 * o - nint 12 * (e1 + n1 + t1 + w1 + s1 + b1)
        + e2 + n2 + t2 + w2 + s2 + b2
        + nint 2 * (ws + wn + es + en + wb + eb + sb + nb + wt + et + st + nt)) / dx4)%num in
    let linear_term := (ch_sigma p * (o - ch_m p))%num in
    store ra.[ix3 d i j k] <- (- ch_eps2 p * del4f + del2 - linear_term)%num;
    Done.

  (** cahn_hilliard_3d_fd.cpp:136-159.  Arrays: 0 = laplacian_arg, 1 = f, 2 = rhs. *)
  Definition fused_body3 (d : disc3 V) (p : ch_params) (ii : Z) : prog V :=
    let dx2 := (d3_dx d * d3_dx d)%num in
    at_interior3 d ii (fun i j k =>
      load a <- 0%nat.[ix3 d (i - 1) j k]; load b <- 0%nat.[ix3 d (i + 1) j k];
      load c <- 0%nat.[ix3 d i (j - 1) k]; load e <- 0%nat.[ix3 d i (j + 1) k];
      load f <- 0%nat.[ix3 d i j (k - 1)]; load g <- 0%nat.[ix3 d i j (k + 1)];
      load o <- 0%nat.[ix3 d i j k];
      fused_tail d p 1%nat 2%nat i j k ((a + b + c + e + f + g - nint 6 * o) / dx2)%num).

  Local Open Scope res_scope.

  (** CahnHilliard3DFD::evalRHSFused, cahn_hilliard_3d_fd.cpp:103-162 *)
  Definition eval_rhs_fused3 (d : disc3 V) (p : ch_params) (s : scratch) (c rhs : list V)
      : res (scratch * list V * list V) :=
    c1 <- apply_periodic3 d c ;;
    c2 <- apply_neumann3 d c1 ;;
    ' (_, arg) <- cube_loop c2 (sc_arg s) ;;
    ' (_, _, r) <- three (forall_loop 0 (zlen (d3_interior d)) (fused_body3 d p) [arg; c2; rhs]) ;;
    Ok ({| sc_lap := sc_lap s; sc_arg := arg; sc_bih := sc_bih s; sc_lin := sc_lin s |}, c2, r).

  Local Close Scope res_scope.

  (** cahn_hilliard_3d_fd.cpp:187-218.  Arrays: 0 = f, 1 = rhs.  The code evaluates f(i-1,j,k)
      twice per neighbour; one load stands for both. *)
  Definition fully_fused_body3 (d : disc3 V) (p : ch_params) (ii : Z) : prog V :=
    let dx2 := (d3_dx d * d3_dx d)%num in
    at_interior3 d ii (fun i j k =>
      load a <- 0%nat.[ix3 d (i - 1) j k]; load b <- 0%nat.[ix3 d (i + 1) j k];
      load c <- 0%nat.[ix3 d i (j - 1) k]; load e <- 0%nat.[ix3 d i (j + 1) k];
      load f <- 0%nat.[ix3 d i j (k - 1)]; load g <- 0%nat.[ix3 d i j (k + 1)];
      load o <- 0%nat.[ix3 d i j k];
      let la (v : V) := (npow3 v - v)%num in
      fused_tail d p 0%nat 1%nat i j k
        ((la a + la b + la c + la e + la f + la g - nint 6 * la o) / dx2)%num).

  Local Open Scope res_scope.

  (** CahnHilliard3DFD::evalRHSFullyFused, cahn_hilliard_3d_fd.cpp:165-219 *)
  Definition eval_rhs_fully_fused3 (d : disc3 V) (p : ch_params) (s : scratch) (c rhs : list V)
      : res (scratch * list V * list V) :=
    c1 <- apply_periodic3 d c ;;
    c2 <- apply_neumann3 d c1 ;;
    ' (_, r) <- two (forall_loop 0 (zlen (d3_interior d)) (fully_fused_body3 d p) [c2; rhs]) ;;
    Ok (s, c2, r).

  (** CahnHilliard3DFD::evalRHSImpl, cahn_hilliard_3d_fd.cpp:19-34; the constructor (line 15)
      aborts for any other variant, and the switch would do nothing. *)
  Definition eval_rhs3 (d : disc3 V) (variant : Z) (p : ch_params) (s : scratch) (c rhs : list V)
      : res (scratch * list V * list V) :=
    if variant =? 0 then eval_rhs_basic3 d p s c rhs
    else if variant =? 1 then eval_rhs_fused3 d p s c rhs
    else if variant =? 2 then eval_rhs_fully_fused3 d p s c rhs
    else Ok (s, c, rhs).

  (** CahnHilliard3DFD::CahnHilliard3DFD, cahn_hilliard_3d_fd.cpp:7-16 *)
  Definition make_ch3 (d : disc3 V) (variant : Z) : res scratch :=
    if (0 <=? variant) && (variant <=? 2) then
      Ok {| sc_lap := create_real_array3 d; sc_arg := create_real_array3 d;
            sc_bih := create_real_array3 d; sc_lin := create_real_array3 d |}
    else Fatal.

  (** CahnHilliard2DFD::CahnHilliard2DFD, cahn_hilliard_2d_fd.cpp:6-13 *)
  Definition make_ch2 (d : disc2 V) : scratch :=
    {| sc_lap := create_real_array2 d; sc_arg := create_real_array2 d;
       sc_bih := create_real_array2 d; sc_lin := create_real_array2 d |}.

  (** CahnHilliard2DFD::evalRHSImpl, cahn_hilliard_2d_fd.cpp:16-79 *)
  Definition eval_rhs2 (d : disc2 V) (p : ch_params) (s : scratch) (c rhs : list V)
      : res (scratch * list V * list V) :=
    c2 <- apply_periodic2 d c ;;
    ' (_, arg) <- cube_loop c2 (sc_arg s) ;;
    ' (_, lap) <- laplacian2 d arg (sc_lap s) ;;
    ' (_, bih) <- biharmonic2 d c2 (sc_bih s) ;;
    ' (_, lin) <- linear_loop p (d2_interior d) c2 (sc_lin s) ;;
    r0 <- zero_loop rhs ;;
    ' (r, _, _, _) <- combine_loop p (d2_interior d) r0 bih lap lin ;;
    Ok ({| sc_lap := lap; sc_arg := arg; sc_bih := bih; sc_lin := lin |}, c2, r).

End ModelCH.

Arguments ch_params V : clear implicits.
Arguments scratch V : clear implicits.

(** The four storage arrays of a right-hand side object have n cells (what its constructor
    establishes, cahn_hilliard_3d_fd.cpp:7-16). *)
Definition scratch_fits {V} (n : Z) (s : scratch V) : Prop :=
  zlen (sc_lap s) = n /\ zlen (sc_arg s) = n /\ zlen (sc_bih s) = n /\ zlen (sc_lin s) = n.
