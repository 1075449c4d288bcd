(** Discretization2DCart: /repo/spatial_discretization/discretization_2d_cart.{hpp,cpp}.
    The class uses nx for both directions. *)
From Verif Require Import Outcome ZList Num Kernel ModelIndex ModelDisc3D.

Section Disc2D.
  Context {V : Type} `{N : Num V}.
  Local Open Scope num_scope.
  Local Open Scope Z_scope.
  Local Open Scope prog_scope.

  (** Discretization2DCart's data members, discretization_2d_cart.hpp *)
  Record disc2 := {
    d2_domain : domain V;
    d2_ni : Z; d2_nhalo : Z; d2_ninhalo : Z;
    d2_dx : V;
    d2_interior : list Z;
    d2_boundary : list Z;
    d2_x : list V; d2_y : list V; d2_xv : list V; d2_yv : list V
  }.

  (** discretization_2d_cart.cpp:18-28 *)
  Definition interior_list2 (ni nhalo ninhalo : Z) : list Z :=
    flat_map (fun i => map (fun j => get1Dindex i j nhalo ninhalo) (zrange 0 ni)) (zrange 0 ni).

  (** discretization_2d_cart.cpp:30-64, in the order of the stores *)
  Definition boundary_list2 (ni nhalo ninhalo : Z) : list Z :=
    (* bottom rows including corners, 34-39 *)
    flat_map (fun j => map (fun i => get1Dindex i j nhalo ninhalo) (zrange (- nhalo) (ni + nhalo)))
      (zrange (- nhalo) 0) ++
    (* top rows including corners, 42-47 *)
    flat_map (fun j => map (fun i => get1Dindex i j nhalo ninhalo) (zrange (- nhalo) (ni + nhalo)))
      (zrange ni (ni + nhalo)) ++
    (* left excluding corners, 50-55 *)
    flat_map (fun i => map (fun j => get1Dindex i j nhalo ninhalo) (zrange 0 ni))
      (zrange (- nhalo) 0) ++
    (* right excluding corners, 58-63 *)
    flat_map (fun i => map (fun j => get1Dindex i j nhalo ninhalo) (zrange 0 ni))
      (zrange ni (ni + nhalo)).

  (** discretization_2d_cart.cpp:66-76.  Arrays: 0 = xv, 1 = yv. *)
  Definition vertex_progs2 (ni nhalo : Z) (x0 y0 dx : V) : list (prog V) :=
    flat_map (fun i =>
      map (fun j =>
        let q := get1Dindex i j nhalo (ni + 1 + 2 * nhalo) in
        store 0%nat.[q] <- (x0 + dx * nint i)%num;
        store 1%nat.[q] <- (y0 + dx * nint j)%num;
        Done)
      (zrange (- nhalo) (ni + nhalo + 1)))
    (zrange (- nhalo) (ni + nhalo + 1)).

  (** discretization_2d_cart.cpp:78-90.  Arrays: 0,1 = xv,yv; 2,3 = x,y. *)
  Definition centre_progs2 (ni nhalo : Z) : list (prog V) :=
    flat_map (fun i =>
      map (fun j =>
        let vq i j := get1Dindex i j nhalo (ni + 1 + 2 * nhalo) in
        let q := get1Dindex i j nhalo (ni + 2 * nhalo) in
        load x0 <- 0%nat.[vq i j]; load x1 <- 0%nat.[vq (i + 1) j];
        store 2%nat.[q] <- (nrat 1 2 * (x0 + x1))%num;
        load y0 <- 1%nat.[vq i j]; load y1 <- 1%nat.[vq i (j + 1)];
        store 3%nat.[q] <- (nrat 1 2 * (y0 + y1))%num;
        Done)
      (zrange (- nhalo) (ni + nhalo)))
    (zrange (- nhalo) (ni + nhalo)).

  Local Open Scope res_scope.

  (** Discretization2DCart::Discretization2DCart, discretization_2d_cart.cpp:5-91 *)
  Definition make2 (dom : domain V) : res disc2 :=
    let ni := nx dom in
    let nh := nhalo dom in
    let ninh := ni + 2 * nh in
    let dx := ((xend dom - xbeg dom) / nint ni)%num in
    let zero := nint 0 in
    let cells := new_array zero (storage2D ni ni nh) in
    let verts := new_array zero (storage2D (ni + 1) (ni + 1) nh) in
    interior <- fill_from (new_array 0%Z (ni * ni)) 0 (interior_list2 ni nh ninh) ;;
    boundary <- fill_from (new_array 0%Z ((ni + 2 * nh) * nh * 2 + ni * nh * 2)) 0
                  (boundary_list2 ni nh ninh) ;;
    v <- exec_all (vertex_progs2 ni nh (xbeg dom) (ybeg dom) dx) [verts; verts] ;;
    c <- exec_all (centre_progs2 ni nh) (v ++ [cells; cells]) ;;
    match c with
    | [xv; yv; x; y] =>
        Ok {| d2_domain := dom; d2_ni := ni; d2_nhalo := nh; d2_ninhalo := ninh; d2_dx := dx;
              d2_interior := interior; d2_boundary := boundary;
              d2_x := x; d2_y := y; d2_xv := xv; d2_yv := yv |}
    | _ => UB
    end.

  Local Close Scope res_scope.

  (** ManagedArray2DAccessor::operator(), managed_array_2d.hpp:25-29 *)
  Definition ix2 (d : disc2) (i j : Z) : Z := get1Dindex i j (d2_nhalo d) (d2_ninhalo d).

  Definition getIJ2 (d : disc2) (q : Z) : Z * Z := getIJ q (d2_nhalo d) (d2_ninhalo d).

  Definition at_interior2 (d : disc2) (ii : Z) (body : Z -> Z -> prog V) : prog V :=
    match zget (d2_interior d) ii with
    | None => Bad
    | Some q => let '(i, j) := getIJ2 d q in body i j
    end.

  (** Discretization2DCart::createRealArray, discretization_2d_cart.cpp:199-203 *)
  Definition create_real_array2 (d : disc2) : list V :=
    new_array (nint 0) (storage2D (d2_ni d) (d2_ni d) (d2_nhalo d)).

  (** state(i,j) = state(i',j') *)
  Definition copy_cell2 (d : disc2) (i j i' j' : Z) : prog V :=
    load v <- 0%nat.[ix2 d i' j']; store 0%nat.[ix2 d i j] <- v; Done.

  (** The four loops of applyPeriodicBoundaryConditions, discretization_2d_cart.cpp:117-124,
      127-134, 136-143, 145-152.  Array 0 = state. *)
  Definition periodic_x_body2 (d : disc2) (j : Z) : prog V :=
    pseq (pfor (- d2_nhalo d) 0 (fun i => copy_cell2 d i j (i + d2_ni d) j))
         (pfor (d2_ni d) (d2_ni d + d2_nhalo d) (fun i => copy_cell2 d i j (i - d2_ni d) j)).

  Definition periodic_y_body2 (d : disc2) (i : Z) : prog V :=
    pseq (pfor (- d2_nhalo d) 0 (fun j => copy_cell2 d i j i (j + d2_ni d)))
         (pfor (d2_ni d) (d2_ni d + d2_nhalo d) (fun j => copy_cell2 d i j i (j - d2_ni d))).

  Definition periodic_w_body2 (d : disc2) (i : Z) : prog V :=
    pseq (pfor (- d2_nhalo d) 0 (fun j => copy_cell2 d i j (i + d2_ni d) (j + d2_ni d)))
         (pfor (d2_ni d) (d2_ni d + d2_nhalo d) (fun j => copy_cell2 d i j (i + d2_ni d) (j - d2_ni d))).

  Definition periodic_e_body2 (d : disc2) (i : Z) : prog V :=
    pseq (pfor (- d2_nhalo d) 0 (fun j => copy_cell2 d i j (i - d2_ni d) (j + d2_ni d)))
         (pfor (d2_ni d) (d2_ni d + d2_nhalo d) (fun j => copy_cell2 d i j (i - d2_ni d) (j - d2_ni d))).

  Local Open Scope res_scope.

  (** Discretization2DCart::applyPeriodicBoundaryConditions, discretization_2d_cart.cpp:107-153 *)
  Definition apply_periodic2 (d : disc2) (state : list V) : res (list V) :=
    s1 <- one (forall_loop 0 (d2_ni d) (periodic_x_body2 d) [state]) ;;
    s2 <- one (forall_loop 0 (d2_ni d) (periodic_y_body2 d) [s1]) ;;
    s3 <- one (forall_loop (- d2_nhalo d) 0 (periodic_w_body2 d) [s2]) ;;
    one (forall_loop (d2_ni d) (d2_ni d + d2_nhalo d) (periodic_e_body2 d) [s3]).

  Local Close Scope res_scope.

  (** Discretization2DCart::laplacian, body of the loop, discretization_2d_cart.cpp:165-172.
      Arrays: 0 = state, 1 = del2state. *)
  Definition laplacian_body2 (d : disc2) (ii : Z) : prog V :=
    let dx2 := (d2_dx d * d2_dx d)%num in
    at_interior2 d ii (fun i j =>
      load w <- 0%nat.[ix2 d (i - 1) j]; load o <- 0%nat.[ix2 d i j]; load e <- 0%nat.[ix2 d (i + 1) j];
      load s <- 0%nat.[ix2 d i (j - 1)]; load n <- 0%nat.[ix2 d i (j + 1)];
      store 1%nat.[ix2 d i j] <-
        ((w - nint 2 * o + e) / dx2 + (s - nint 2 * o + n) / dx2)%num;
      Done).

  (** Discretization2DCart::laplacian, discretization_2d_cart.cpp:156-173 *)
  Definition laplacian2 (d : disc2) (state del2 : list V) : res (list V * list V) :=
    two (forall_loop 0 (zlen (d2_interior d)) (laplacian_body2 d) [state; del2]).

  (** Discretization2DCart::biharmonic, body of the loop, discretization_2d_cart.cpp:187-196.
      Arrays: 0 = f, 1 = del4f. *)
  Definition biharmonic_body2 (d : disc2) (ii : Z) : prog V :=
    let dx4 := (d2_dx d * d2_dx d * d2_dx d * d2_dx d)%num in
    at_interior2 d ii (fun i j =>
      load n2 <- 0%nat.[ix2 d i (j + 2)]; load wn <- 0%nat.[ix2 d (i - 1) (j + 1)];
      load n1 <- 0%nat.[ix2 d i (j + 1)]; load en <- 0%nat.[ix2 d (i + 1) (j + 1)];
      load w2 <- 0%nat.[ix2 d (i - 2) j]; load w1 <- 0%nat.[ix2 d (i - 1) j];
      load o <- 0%nat.[ix2 d i j];
      load e1 <- 0%nat.[ix2 d (i + 1) j]; load e2 <- 0%nat.[ix2 d (i + 2) j];
      load ws <- 0%nat.[ix2 d (i - 1) (j - 1)]; load s1 <- 0%nat.[ix2 d i (j - 1)];
      load es <- 0%nat.[ix2 d (i + 1) (j - 1)]; load s2 <- 0%nat.[ix2 d i (j - 2)];
      store 1%nat.[ix2 d i j] <-
        ((n2 + nint 2 * wn - nint 8 * n1 + nint 2 * en + w2 - nint 8 * w1 + nint 20 * o - nint 8 * e1 + e2
          + nint 2 * ws - nint 8 * s1 + nint 2 * es + nint 1 * s2) / dx4)%num;
      Done).

  (** Discretization2DCart::biharmonic, discretization_2d_cart.cpp:176-197; the assert on
      line 179 is compiled out of release builds. *)
  Definition biharmonic2 (d : disc2) (f del4f : list V) : res (list V * list V) :=
    two (forall_loop 0 (zlen (d2_interior d)) (biharmonic_body2 d) [f; del4f]).

End Disc2D.

Arguments disc2 V : clear implicits.
