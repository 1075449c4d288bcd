(** Discretization3DCart: /repo/spatial_discretization/discretization_3d_cart.{hpp,cpp}. *)
From Verif Require Import Outcome ZList Num Kernel ModelIndex.

(** BCType, /repo/spatial_discretization/spatial_discretization.hpp:7 *)
Inductive bctype := Periodic | Neumann | Dirichlet.

Definition bctype_eqb (a b : bctype) : bool :=
  match a, b with
  | Periodic, Periodic | Neumann, Neumann | Dirichlet, Dirichlet => true
  | _, _ => false
  end.

(** CartesianDomainDefinition, /repo/spatial_discretization/spatial_discretization.hpp:9-23 *)
Record domain {V : Type} := {
  nx : Z; ny : Z; nz : Z;
  xbeg : V; xend : V; ybeg : V; yend : V; zbeg : V; zend : V;
  xbc : bctype; ybc : bctype; zbc : bctype;
  nhalo : Z
}.
Arguments domain V : clear implicits.

Section Disc3D.
  Context {V : Type} `{N : Num V}.
  Local Open Scope num_scope.
  Local Open Scope Z_scope.
  Local Open Scope prog_scope.

  (** Discretization3DCart's data members, discretization_3d_cart.hpp:57-85.  The six
      face index arrays xmin_indices_ ... zmax_indices_ are allocated but never filled
      or read by the code and are left out. *)
  Record disc3 := {
    d3_domain : domain V;
    d3_ni : Z; d3_nj : Z; d3_nk : Z; d3_nhalo : Z;
    d3_ninhalo : Z; d3_njnhalo : Z; d3_nknhalo : Z;
    d3_dx : V;
    d3_interior : list Z;
    d3_donor : list Z;
    d3_receiver : list Z;
    d3_x : list V; d3_y : list V; d3_z : list V;
    d3_xv : list V; d3_yv : list V; d3_zv : list V
  }.

  (** discretization_3d_cart.cpp:34-46: the values stored to interior_indices_, in order. *)
  Definition interior_list3 (ni nj nk nhalo njnhalo nknhalo : Z) : list Z :=
    flat_map (fun i =>
      flat_map (fun j =>
        map (fun k => get1DindexFrom3D i j k nhalo njnhalo nknhalo) (zrange 0 nk))
      (zrange 0 nj))
    (zrange 0 ni).

  (** discretization_3d_cart.cpp:102-110 and 112-130 *)
  Definition wrap1 (n i : Z) : Z :=
    if i <? 0 then i + n else if i >=? n then i - n else i.

  (** discretization_3d_cart.cpp:92-97 *)
  Definition is_halo_cell (ni nj nk i j k : Z) : bool :=
    (i <? 0) || (i >=? ni) || (j <? 0) || (j >=? nj) || (k <? 0) || (k >=? nk).

  (** discretization_3d_cart.cpp:84-139: (receiver, donor) pairs in the order they are stored. *)
  Definition periodic_pairs3 (ni nj nk nhalo njnhalo nknhalo : Z) : list (Z * Z) :=
    flat_map (fun i =>
      flat_map (fun j =>
        flat_map (fun k =>
          if is_halo_cell ni nj nk i j k
          then [(get1DindexFrom3D i j k nhalo njnhalo nknhalo,
                 get1DindexFrom3D (wrap1 ni i) (wrap1 nj j) (wrap1 nk k) nhalo njnhalo nknhalo)]
          else [])
        (zrange (- nhalo) (nk + nhalo)))
      (zrange (- nhalo) (nj + nhalo)))
    (zrange (- nhalo) (ni + nhalo)).

  (** discretization_3d_cart.cpp:48-62.  Arrays: 0 = xv, 1 = yv, 2 = zv, all with
      ni+1, nj+1, nk+1 interior entries (lines 30-32). *)
  Definition vertex_progs3 (ni nj nk nhalo : Z) (x0 y0 z0 dx : V) : list (prog V) :=
    flat_map (fun i =>
      flat_map (fun j =>
        map (fun k =>
          let q := get1DindexFrom3D i j k nhalo (nj + 1 + 2 * nhalo) (nk + 1 + 2 * nhalo) in
          store 0%nat.[q] <- (x0 + dx * nint i)%num;
          store 1%nat.[q] <- (y0 + dx * nint j)%num;
          store 2%nat.[q] <- (z0 + dx * nint k)%num;
          Done)
        (zrange (- nhalo) (nk + nhalo + 1)))
      (zrange (- nhalo) (nj + nhalo + 1)))
    (zrange (- nhalo) (ni + nhalo + 1)).

  (** discretization_3d_cart.cpp:65-82.  Arrays: 0,1,2 = xv,yv,zv; 3,4,5 = x,y,z. *)
  Definition centre_progs3 (ni nj nk nhalo : Z) : list (prog V) :=
    flat_map (fun i =>
      flat_map (fun j =>
        map (fun k =>
          let vq i j k := get1DindexFrom3D i j k nhalo (nj + 1 + 2 * nhalo) (nk + 1 + 2 * nhalo) in
          let q := get1DindexFrom3D i j k nhalo (nj + 2 * nhalo) (nk + 2 * nhalo) in
          load x0 <- 0%nat.[vq i j k]; load x1 <- 0%nat.[vq (i + 1) j k];
          store 3%nat.[q] <- (nrat 1 2 * (x0 + x1))%num;
          load y0 <- 1%nat.[vq i j k]; load y1 <- 1%nat.[vq i (j + 1) k];
          store 4%nat.[q] <- (nrat 1 2 * (y0 + y1))%num;
          load z0 <- 2%nat.[vq i j k]; load z1 <- 2%nat.[vq i j (k + 1)];
          store 5%nat.[q] <- (nrat 1 2 * (z0 + z1))%num;
          Done)
        (zrange (- nhalo) (nk + nhalo)))
      (zrange (- nhalo) (nj + nhalo)))
    (zrange (- nhalo) (ni + nhalo)).

  Local Open Scope res_scope.

  (** Discretization3DCart::Discretization3DCart, discretization_3d_cart.cpp:8-140 *)
  Definition make3 (dom : domain V) : res disc3 :=
    let ni := nx dom in
    let nj := ny dom in
    let nk := nz dom in
    let nh := nhalo dom in
    let ninh := ni + 2 * nh in
    let njnh := nj + 2 * nh in
    let nknh := nk + 2 * nh in
    let dx := ((xend dom - xbeg dom) / nint ni)%num in
    let nhalocells := ninh * njnh * nknh - ni * nj * nk in
    let zero := nint 0 in
    let cells := new_array zero (storage3D ni nj nk nh) in
    let verts := new_array zero (storage3D (ni + 1) (nj + 1) (nk + 1) nh) in
    interior <- fill_from (new_array 0%Z (ni * nj * nk)) 0 (interior_list3 ni nj nk nh njnh nknh) ;;
    v <- exec_all (vertex_progs3 ni nj nk nh (xbeg dom) (ybeg dom) (zbeg dom) dx) [verts; verts; verts] ;;
    c <- exec_all (centre_progs3 ni nj nk nh) (v ++ [cells; cells; cells]) ;;
    let pairs := periodic_pairs3 ni nj nk nh njnh nknh in
    receiver <- fill_from (new_array 0%Z nhalocells) 0 (map fst pairs) ;;
    donor <- fill_from (new_array 0%Z nhalocells) 0 (map snd pairs) ;;
    match c with
    | [xv; yv; zv; x; y; z] =>
        Ok {| d3_domain := dom; d3_ni := ni; d3_nj := nj; d3_nk := nk; d3_nhalo := nh;
              d3_ninhalo := ninh; d3_njnhalo := njnh; d3_nknhalo := nknh; d3_dx := dx;
              d3_interior := interior; d3_donor := donor; d3_receiver := receiver;
              d3_x := x; d3_y := y; d3_z := z; d3_xv := xv; d3_yv := yv; d3_zv := zv |}
    | _ => UB
    end.

  Local Close Scope res_scope.

  (** ManagedArray3DAccessor::operator(), managed_array_3d.hpp:35,52-55: the slot of cell
      (i,j,k) in an array created by createRealArray. *)
  Definition ix3 (d : disc3) (i j k : Z) : Z :=
    get1DindexFrom3D i j k (d3_nhalo d) (d3_njnhalo d) (d3_nknhalo d).

  Definition getIJK3 (d : disc3) (q : Z) : Z * Z * Z :=
    getIJK q (d3_nhalo d) (d3_njnhalo d) (d3_nknhalo d).

  (** Loads [idx[ii]] from an index array and decodes it: the first lines of every
      kernel over the interior list, e.g. discretization_3d_cart.cpp:306-310. *)
  Definition at_interior3 (d : disc3) (ii : Z) (body : Z -> Z -> Z -> prog V) : prog V :=
    match zget (d3_interior d) ii with
    | None => Bad
    | Some q => let '(i, j, k) := getIJK3 d q in body i j k
    end.

  (** Discretization3DCart::createRealArray, discretization_3d_cart.cpp:289-293 *)
  Definition create_real_array3 (d : disc3) : list V :=
    new_array (nint 0) (storage3D (d3_ni d) (d3_nj d) (d3_nk d) (d3_nhalo d)).

  (** Discretization3DCart::laplacian, body of the loop, discretization_3d_cart.cpp:304-315.
      Arrays: 0 = state, 1 = del2state. *)
  Definition laplacian_body3 (d : disc3) (ii : Z) : prog V :=
    let dx2 := (d3_dx d * d3_dx d)%num in
    at_interior3 d ii (fun i j k =>
      load a <- 0%nat.[ix3 d (i - 1) j k]; load b <- 0%nat.[ix3 d (i + 1) j k];
      load c <- 0%nat.[ix3 d i (j - 1) k]; load e <- 0%nat.[ix3 d i (j + 1) k];
      load f <- 0%nat.[ix3 d i j (k - 1)]; load g <- 0%nat.[ix3 d i j (k + 1)];
      load o <- 0%nat.[ix3 d i j k];
      store 1%nat.[ix3 d i j k] <- ((a + b + c + e + f + g - nint 6 * o) / dx2)%num;
      Done).

  (** Result of a kernel on two arrays. *)
  Definition two (m : res (mem V)) : res (list V * list V) :=
    match m with
    | Ok [a; b] => Ok (a, b)
    | Ok _ => UB
    | UB => UB | Fatal => Fatal | Throw => Throw
    end.

  Definition one (m : res (mem V)) : res (list V) :=
    match m with
    | Ok [a] => Ok a
    | Ok _ => UB
    | UB => UB | Fatal => Fatal | Throw => Throw
    end.

  (** Discretization3DCart::laplacian, discretization_3d_cart.cpp:296-316; returns both
      arrays after the call. *)
  Definition laplacian3 (d : disc3) (state del2 : list V) : res (list V * list V) :=
    two (forall_loop 0 (zlen (d3_interior d)) (laplacian_body3 d) [state; del2]).

  (** Discretization3DCart::biharmonic, body of the loop, discretization_3d_cart.cpp:333-350.
      Arrays: 0 = f, 1 = del4f.  The additions are left-associative as in C++. *)
  Definition biharmonic_body3 (d : disc3) (ii : Z) : prog V :=
    let dx4 := (d3_dx d * d3_dx d * d3_dx d * d3_dx d)%num in
    at_interior3 d ii (fun i j k =>
      load o <- 0%nat.[ix3 d i j k];
      load e1 <- 0%nat.[ix3 d (i + 1) j k]; load n1 <- 0%nat.[ix3 d i (j + 1) k];
      load t1 <- 0%nat.[ix3 d i j (k + 1)]; load w1 <- 0%nat.[ix3 d (i - 1) j k];
      load s1 <- 0%nat.[ix3 d i (j - 1) k]; load b1 <- 0%nat.[ix3 d i j (k - 1)];
      load e2 <- 0%nat.[ix3 d (i + 2) j k]; load n2 <- 0%nat.[ix3 d i (j + 2) k];
      load t2 <- 0%nat.[ix3 d i j (k + 2)]; load w2 <- 0%nat.[ix3 d (i - 2) j k];
      load s2 <- 0%nat.[ix3 d i (j - 2) k]; load b2 <- 0%nat.[ix3 d i j (k - 2)];
      load ws <- 0%nat.[ix3 d (i - 1) (j - 1) k]; load wn <- 0%nat.[ix3 d (i - 1) (j + 1) k];
      load es <- 0%nat.[ix3 d (i + 1) (j - 1) k]; load en <- 0%nat.[ix3 d (i + 1) (j + 1) k];
      load wb <- 0%nat.[ix3 d (i - 1) j (k - 1)]; load eb <- 0%nat.[ix3 d (i + 1) j (k - 1)];
      load sb <- 0%nat.[ix3 d i (j - 1) (k - 1)]; load nb <- 0%nat.[ix3 d i (j + 1) (k - 1)];
      load wt <- 0%nat.[ix3 d (i - 1) j (k + 1)]; load et <- 0%nat.[ix3 d (i + 1) j (k + 1)];
      load st <- 0%nat.[ix3 d i (j - 1) (k + 1)]; load nt <- 0%nat.[ix3 d i (j + 1) (k + 1)];
      store 1%nat.[ix3 d i j k] <-
        ((nint 42 * o - nint 12 * (e1 + n1 + t1 + w1 + s1 + b1)
          + e2 + n2 + t2 + w2 + s2 + b2
          + nint 2 * (ws + wn + es + en + wb + eb + sb + nb + wt + et + st + nt)) / dx4)%num;
      Done).

  (** Discretization3DCart::biharmonic, discretization_3d_cart.cpp:319-351.  The assert on
      line 327 is compiled out of release builds; the model has the release behaviour. *)
  Definition biharmonic3 (d : disc3) (f del4f : list V) : res (list V * list V) :=
    two (forall_loop 0 (zlen (d3_interior d)) (biharmonic_body3 d) [f; del4f]).

  (** applyPeriodicBoundaryConditions, body of the loop, discretization_3d_cart.cpp:362.
      Array 0 = state. *)
  Definition periodic_body3 (d : disc3) (n : Z) : prog V :=
    match zget (d3_donor d) n, zget (d3_receiver d) n with
    | Some dq, Some rq => load v <- 0%nat.[dq]; store 0%nat.[rq] <- v; Done
    | _, _ => Bad
    end.

  (** Discretization3DCart::applyPeriodicBoundaryConditions, discretization_3d_cart.cpp:354-363 *)
  Definition apply_periodic3 (d : disc3) (state : list V) : res (list V) :=
    one (forall_loop 0 (zlen (d3_donor d)) (periodic_body3 d) [state]).

  (** state(i,j,k) = state(i',j',k') *)
  Definition copy_cell3 (d : disc3) (i j k i' j' k' : Z) : prog V :=
    load v <- 0%nat.[ix3 d i' j' k']; store 0%nat.[ix3 d i j k] <- v; Done.

  (** applyNeumannBCX, discretization_3d_cart.cpp:391-400 *)
  Definition neumann_x_body3 (d : disc3) (j : Z) : prog V :=
    pfor (- d3_nhalo d) (d3_nk d + d3_nhalo d) (fun k =>
      pseq
        (pfor (- d3_nhalo d) 0 (fun i => copy_cell3 d i j k 0 j k))
        (pfor (d3_ni d) (d3_ni d + d3_nhalo d) (fun i => copy_cell3 d i j k (d3_ni d - 1) j k))).

  Definition neumann_x3 (d : disc3) (state : list V) : res (list V) :=
    one (forall_loop (- d3_nhalo d) (d3_nj d + d3_nhalo d) (neumann_x_body3 d) [state]).

  (** applyNeumannBCY, discretization_3d_cart.cpp:414-423 *)
  Definition neumann_y_body3 (d : disc3) (i : Z) : prog V :=
    pfor (- d3_nhalo d) (d3_nk d + d3_nhalo d) (fun k =>
      pseq
        (pfor (- d3_nhalo d) 0 (fun j => copy_cell3 d i j k i 0 k))
        (pfor (d3_nj d) (d3_nj d + d3_nhalo d) (fun j => copy_cell3 d i j k i (d3_nj d - 1) k))).

  Definition neumann_y3 (d : disc3) (state : list V) : res (list V) :=
    one (forall_loop (- d3_nhalo d) (d3_ni d + d3_nhalo d) (neumann_y_body3 d) [state]).

  (** applyNeumannBCZ, discretization_3d_cart.cpp:437-446 *)
  Definition neumann_z_body3 (d : disc3) (i : Z) : prog V :=
    pfor (- d3_nhalo d) (d3_nj d + d3_nhalo d) (fun j =>
      pseq
        (pfor (- d3_nhalo d) 0 (fun k => copy_cell3 d i j k i j 0))
        (pfor (d3_nk d) (d3_nk d + d3_nhalo d) (fun k => copy_cell3 d i j k i j (d3_nk d - 1)))).

  Definition neumann_z3 (d : disc3) (state : list V) : res (list V) :=
    one (forall_loop (- d3_nhalo d) (d3_ni d + d3_nhalo d) (neumann_z_body3 d) [state]).

  Local Open Scope res_scope.

  (** applyNeumannBoundaryConditions, discretization_3d_cart.cpp:366-378 *)
  Definition apply_neumann3 (d : disc3) (state : list V) : res (list V) :=
    s1 <- (if bctype_eqb (xbc (d3_domain d)) Neumann then neumann_x3 d state else Ok state) ;;
    s2 <- (if bctype_eqb (ybc (d3_domain d)) Neumann then neumann_y3 d s1 else Ok s1) ;;
    (if bctype_eqb (zbc (d3_domain d)) Neumann then neumann_z3 d s2 else Ok s2).

  (** createCoarsenedDiscretization, discretization_3d_cart.cpp:143-156 *)
  Definition coarsen3 (d : disc3) : res disc3 :=
    let f := d3_domain d in
    if negb (Z.rem (nx f) 2 =? 0) || negb (Z.rem (ny f) 2 =? 0) || negb (Z.rem (nz f) 2 =? 0)
    then Fatal
    else make3 {| nx := Z.quot (nx f) 2; ny := Z.quot (ny f) 2; nz := Z.quot (nz f) 2;
                  xbeg := xbeg f; xend := xend f; ybeg := ybeg f; yend := yend f;
                  zbeg := zbeg f; zend := zend f;
                  xbc := xbc f; ybc := ybc f; zbc := zbc f; nhalo := nhalo f |}.

  Local Close Scope res_scope.

  (** interpolateFineToCoarse, body of the loop, discretization_3d_cart.cpp:170-186.
      Arrays: 0 = fine, 1 = coarse.  [df] is this (the fine grid), [dc] the coarse grid.
      1./8. is the literal [nrat 1 8]. *)
  Definition restrict_body3 (df dc : disc3) (ii : Z) : prog V :=
    at_interior3 dc ii (fun i j k =>
      let fi := 2 * i in
      let fj := 2 * j in
      let fk := 2 * k in
      load a <- 0%nat.[ix3 df fi fj fk]; load b <- 0%nat.[ix3 df (fi + 1) fj fk];
      load c <- 0%nat.[ix3 df (fi + 1) (fj + 1) fk]; load e <- 0%nat.[ix3 df fi (fj + 1) fk];
      load f <- 0%nat.[ix3 df fi fj (fk + 1)]; load g <- 0%nat.[ix3 df (fi + 1) fj (fk + 1)];
      load h <- 0%nat.[ix3 df (fi + 1) (fj + 1) (fk + 1)]; load l <- 0%nat.[ix3 df fi (fj + 1) (fk + 1)];
      store 1%nat.[ix3 dc i j k] <- (nrat 1 8 * (a + b + c + e + f + g + h + l))%num;
      Done).

  Definition restrict3 (df dc : disc3) (fine coarse : list V) : res (list V * list V) :=
    two (forall_loop 0 (zlen (d3_interior dc)) (restrict_body3 df dc) [fine; coarse]).

  (** interpolateCoarseToFine with mg_interpolation "nearest", discretization_3d_cart.cpp:203-223.
      Arrays: 0 = coarse, 1 = fine.  [dc] is this, [df] the fine grid. *)
  Definition prolong_nearest_body3 (dc df : disc3) (ii : Z) : prog V :=
    at_interior3 dc ii (fun i j k =>
      let fi := 2 * i in
      let fj := 2 * j in
      let fk := 2 * k in
      load val <- 0%nat.[ix3 dc i j k];
      store 1%nat.[ix3 df fi fj fk] <- val;
      store 1%nat.[ix3 df (fi + 1) fj fk] <- val;
      store 1%nat.[ix3 df (fi + 1) (fj + 1) fk] <- val;
      store 1%nat.[ix3 df fi (fj + 1) fk] <- val;
      store 1%nat.[ix3 df fi fj (fk + 1)] <- val;
      store 1%nat.[ix3 df (fi + 1) fj (fk + 1)] <- val;
      store 1%nat.[ix3 df (fi + 1) (fj + 1) (fk + 1)] <- val;
      store 1%nat.[ix3 df fi (fj + 1) (fk + 1)] <- val;
      Done).

  (** "linear", discretization_3d_cart.cpp:231-281.  The literals are multiples of 1/64:
      0.421875 = 27/64, 0.140625 = 9/64, 0.046875 = 3/64, 0.015625 = 1/64. *)
  Definition prolong_linear_cell3 (dc df : disc3) (i j k : Z) : prog V :=
    let w27 := nrat 27 64 in
    let w9 := nrat 9 64 in
    let w3 := nrat 3 64 in
    let w1 := nrat 1 64 in
    let fi := 2 * i + 1 in
    let fj := 2 * j + 1 in
    let fk := 2 * k + 1 in
    load s_ijk <- 0%nat.[ix3 dc i j k];
    load s_i1jk <- 0%nat.[ix3 dc (i + 1) j k];
    load s_i1j1k <- 0%nat.[ix3 dc (i + 1) (j + 1) k];
    load s_ij1k <- 0%nat.[ix3 dc i (j + 1) k];
    load s_ijk1 <- 0%nat.[ix3 dc i j (k + 1)];
    load s_i1jk1 <- 0%nat.[ix3 dc (i + 1) j (k + 1)];
    load s_i1j1k1 <- 0%nat.[ix3 dc (i + 1) (j + 1) (k + 1)];
    load s_ij1k1 <- 0%nat.[ix3 dc i (j + 1) (k + 1)];
    store 1%nat.[ix3 df fi fj fk] <-
      (w9 * s_i1j1k + w3 * s_i1j1k1 + w9 * s_i1jk + w3 * s_i1jk1
       + w3 * s_ij1k + w1 * s_ij1k1 + w27 * s_ijk + w9 * s_ijk1)%num;
    store 1%nat.[ix3 df (fi + 1) fj fk] <-
      (w3 * s_i1j1k + w1 * s_i1j1k1 + w27 * s_i1jk + w9 * s_i1jk1
       + w9 * s_ij1k + w3 * s_ij1k1 + w9 * s_ijk + w3 * s_ijk1)%num;
    store 1%nat.[ix3 df (fi + 1) (fj + 1) fk] <-
      (w9 * s_i1j1k + w3 * s_i1j1k1 + w9 * s_i1jk + w3 * s_i1jk1
       + w27 * s_ij1k + w9 * s_ij1k1 + w3 * s_ijk + w1 * s_ijk1)%num;
    store 1%nat.[ix3 df fi (fj + 1) fk] <-
      (w27 * s_i1j1k + w9 * s_i1j1k1 + w3 * s_i1jk + w1 * s_i1jk1
       + w9 * s_ij1k + w3 * s_ij1k1 + w9 * s_ijk + w3 * s_ijk1)%num;
    store 1%nat.[ix3 df fi fj (fk + 1)] <-
      (w3 * s_i1j1k + w9 * s_i1j1k1 + w3 * s_i1jk + w9 * s_i1jk1
       + w1 * s_ij1k + w3 * s_ij1k1 + w9 * s_ijk + w27 * s_ijk1)%num;
    store 1%nat.[ix3 df (fi + 1) fj (fk + 1)] <-
      (w1 * s_i1j1k + w3 * s_i1j1k1 + w9 * s_i1jk + w27 * s_i1jk1
       + w3 * s_ij1k + w9 * s_ij1k1 + w3 * s_ijk + w9 * s_ijk1)%num;
    store 1%nat.[ix3 df (fi + 1) (fj + 1) (fk + 1)] <-
      (w3 * s_i1j1k + w9 * s_i1j1k1 + w3 * s_i1jk + w9 * s_i1jk1
       + w9 * s_ij1k + w27 * s_ij1k1 + w1 * s_ijk + w3 * s_ijk1)%num;
    store 1%nat.[ix3 df fi (fj + 1) (fk + 1)] <-
      (w9 * s_i1j1k + w27 * s_i1j1k1 + w1 * s_i1jk + w3 * s_i1jk1
       + w3 * s_ij1k + w9 * s_ij1k1 + w3 * s_ijk + w9 * s_ijk1)%num;
    Done.

  Definition prolong_linear_body3 (dc df : disc3) (i : Z) : prog V :=
    pfor (-1) (d3_nj dc) (fun j => pfor (-1) (d3_nk dc) (fun k => prolong_linear_cell3 dc df i j k)).

  (** The option mg_interpolation, compared as a string on lines 201 and 225. *)
  Inductive mg_interp := MGNearest | MGLinear | MGOther.

  (** interpolateCoarseToFine, discretization_3d_cart.cpp:190-286 *)
  Definition prolong3 (opt : mg_interp) (dc df : disc3) (coarse fine : list V) : res (list V * list V) :=
    match opt with
    | MGNearest => two (forall_loop 0 (zlen (d3_interior dc)) (prolong_nearest_body3 dc df) [coarse; fine])
    | MGLinear => two (forall_loop (-1) (d3_ni dc) (prolong_linear_body3 dc df) [coarse; fine])
    | MGOther => Fatal
    end.

End Disc3D.

Arguments disc3 V : clear implicits.
