(** Cell addressing, grid construction, boundary fills and stencil safety: C01-C10. *)
From Coq Require Import Reals Lra QArith.
From Verif Require Import Outcome ZList Num Kernel ModelIndex ModelInt32 ModelDisc3D ModelDisc2D SpecGrid
  ExampleNum GridFinal.
Open Scope Z_scope.

(** C01: the cells of a 2D array, halos included, and its slots correspond one to one, and
    slot-to-cell inverts cell-to-slot. *)
Theorem C01_addressing_2d :
  forall ni nj nh : Z, 0 <= ni -> 0 <= nj -> 0 <= nh ->
  let slot i j := get1Dindex i j nh (nj + 2 * nh) in
  let cell q := getIJ q nh (nj + 2 * nh) in
  let size := storage2D ni nj nh in
  let padded i j := - nh <= i < ni + nh /\ - nh <= j < nj + nh in
  (forall i j, padded i j -> 0 <= slot i j < size) /\
  (forall i j i' j', padded i j -> padded i' j' -> slot i j = slot i' j' -> i = i' /\ j = j') /\
  (forall q, 0 <= q < size -> exists i j, padded i j /\ slot i j = q) /\
  (forall i j, padded i j -> cell (slot i j) = (i, j)).
Proof. exact pf_C01_addressing_2d. Qed.
Print Assumptions C01_addressing_2d.

Example C01_ex :
  map (fun c => get1Dindex (fst c) (snd c) 2 7) [(-2, -2); (0, 0); (3, 4)] = [0; 16; 41] /\
  storage2D 4 3 2 = 56 /\ getIJ 41 2 7 = (3, 4).
Proof. vm_compute; auto. Qed.

(** C02: the same for 3D arrays with unequal extents. *)
Theorem C02_addressing_3d :
  forall ni nj nk nh : Z, 0 <= ni -> 0 <= nj -> 0 <= nk -> 0 <= nh ->
  let slot i j k := get1DindexFrom3D i j k nh (nj + 2 * nh) (nk + 2 * nh) in
  let cell q := getIJK q nh (nj + 2 * nh) (nk + 2 * nh) in
  let size := storage3D ni nj nk nh in
  let padded i j k := - nh <= i < ni + nh /\ - nh <= j < nj + nh /\ - nh <= k < nk + nh in
  (forall i j k, padded i j k -> 0 <= slot i j k < size) /\
  (forall i j k i' j' k', padded i j k -> padded i' j' k' -> slot i j k = slot i' j' k' ->
     i = i' /\ j = j' /\ k = k') /\
  (forall q, 0 <= q < size -> exists i j k, padded i j k /\ slot i j k = q) /\
  (forall i j k, padded i j k -> cell (slot i j k) = (i, j, k)).
Proof. exact pf_C02_addressing_3d. Qed.
Print Assumptions C02_addressing_3d.

Example C02_ex :
  get1DindexFrom3D (-2) (-2) (-2) 2 7 9 = 0 /\ get1DindexFrom3D 3 4 6 2 7 9 = 377 /\
  storage3D 4 3 5 2 = 504 /\ getIJK 377 2 7 9 = (3, 4, 6).
Proof. vm_compute; auto. Qed.

(** C03, 3D: as long as the padded cell count is a 32-bit int, no intermediate result of the
    address computation, of its inverse and of the storage size overflows (overflow is the
    outcome [UB]) and the results are the exact ones; past that size the storage size itself
    overflows. *)
Theorem C03_int32_3d :
  forall (V : Type) (dom : domain V), valid_domain3 dom ->
  (cells3 dom <= int_max ->
     storage3D32 (nx dom) (ny dom) (nz dom) (nhalo dom) = Ok (cells3 dom) /\
     forall i j k, padded3 dom i j k ->
       get1DindexFrom3D32 i j k (nhalo dom) (ny dom + 2 * nhalo dom) (nz dom + 2 * nhalo dom)
         = Ok (slot3 dom i j k) /\
       getIJK32 (slot3 dom i j k) (nhalo dom) (ny dom + 2 * nhalo dom) (nz dom + 2 * nhalo dom)
         = Ok (i, j, k)) /\
  (int_max < cells3 dom -> storage3D32 (nx dom) (ny dom) (nz dom) (nhalo dom) = UB).
Proof. exact pf_C03_int32_3d. Qed.
Print Assumptions C03_int32_3d.

Example C03_3d_ex : let dom := ex_dom 0%Q 1%Q 1286 1286 1286 2 Periodic Periodic Periodic in
  valid_domain3 dom /\ cells3 dom = 2146689000 /\ cells3 dom <= int_max /\
  get1DindexFrom3D32 1287 1287 1287 2 1290 1290 = Ok 2146688999 /\
  storage3D32 1287 1287 1287 2 = UB.
Proof. vm_compute. repeat split; discriminate. Qed.

(** C03, 2D. *)
Theorem C03_int32_2d :
  forall (V : Type) (dom : domain V), valid_domain2 dom ->
  (cells2 dom <= int_max ->
     storage2D32 (nx dom) (nx dom) (nhalo dom) = Ok (cells2 dom) /\
     forall i j, padded2 dom i j ->
       get1Dindex32 i j (nhalo dom) (nx dom + 2 * nhalo dom) = Ok (slot2 dom i j) /\
       getIJ32 (slot2 dom i j) (nhalo dom) (nx dom + 2 * nhalo dom) = Ok (i, j)) /\
  (int_max < cells2 dom -> storage2D32 (nx dom) (nx dom) (nhalo dom) = UB).
Proof. exact pf_C03_int32_2d. Qed.
Print Assumptions C03_int32_2d.

Example C03_2d_ex : let dom := ex_dom 0%Q 1%Q 46336 0 0 2 Periodic Periodic Periodic in
  valid_domain2 dom /\ cells2 dom <= int_max /\
  get1Dindex32 46337 46337 2 46340 = Ok 2147395599 /\ storage2D32 46337 46337 2 = UB.
Proof. vm_compute. repeat split; discriminate. Qed.

(** C04, 3D: the interior list names every interior cell once, in row-major order; the list
    of cells filled by the periodic exchange names every halo cell once and no other. *)
Theorem C04_lists_3d :
  forall (V : Type) (N : Num V) (dom : domain V) (d : disc3 V),
  valid_domain3 dom -> make3 dom = Ok d ->
  zlen (d3_interior d) = nx dom * ny dom * nz dom /\
  (forall i j k, inside3 dom i j k ->
     zget (d3_interior d) ((i * ny dom + j) * nz dom + k) = Some (slot3 dom i j k)) /\
  NoDup (d3_interior d) /\
  NoDup (d3_receiver d) /\
  (forall q, In q (d3_receiver d) <->
     exists i j k, padded3 dom i j k /\ ~ inside3 dom i j k /\ q = slot3 dom i j k) /\
  zlen (d3_receiver d) = cells3 dom - nx dom * ny dom * nz dom.
Proof. exact pf_C04_lists_3d. Qed.
Print Assumptions C04_lists_3d.

Example C04_3d_ex : let dom := ex_dom 0%Q 1%Q 2 1 2 1 Periodic Periodic Periodic in
  valid_domain3 dom /\
  exists d, @make3 Q Num_Q dom = Ok d /\ d3_interior d = [17; 18; 29; 30] /\ zlen (d3_receiver d) = 44.
Proof.
  split; [vm_compute; repeat split; discriminate|].
  eexists. split; [vm_compute; reflexivity|]. vm_compute. auto.
Qed.

(** C04, 2D: the interior list as above; the boundary list names every halo cell once. *)
Theorem C04_lists_2d :
  forall (V : Type) (N : Num V) (dom : domain V) (d : disc2 V),
  valid_domain2 dom -> make2 dom = Ok d ->
  zlen (d2_interior d) = nx dom * nx dom /\
  (forall i j, inside2 dom i j -> zget (d2_interior d) (i * nx dom + j) = Some (slot2 dom i j)) /\
  NoDup (d2_interior d) /\
  NoDup (d2_boundary d) /\
  (forall q, In q (d2_boundary d) <->
     exists i j, padded2 dom i j /\ ~ inside2 dom i j /\ q = slot2 dom i j) /\
  zlen (d2_boundary d) = cells2 dom - nx dom * nx dom.
Proof. exact pf_C04_lists_2d. Qed.
Print Assumptions C04_lists_2d.

Example C04_2d_ex : let dom := ex_dom 0%Q 1%Q 2 0 0 1 Periodic Periodic Periodic in
  valid_domain2 dom /\
  exists d, @make2 Q Num_Q dom = Ok d /\ d2_interior d = [5; 6; 9; 10] /\
    d2_boundary d = [0; 4; 8; 12; 3; 7; 11; 15; 1; 2; 13; 14].
Proof.
  split; [vm_compute; repeat split; discriminate|].
  eexists. split; [vm_compute; reflexivity|]. vm_compute. auto.
Qed.

(** C05, 3D, exact arithmetic: vertices are equally spaced from the begin corner with
    spacing (xend-xbeg)/nx, the last interior x vertex is xend, and every cell centre,
    halos included, is the midpoint of its two vertices in each direction.  The vertex
    arrays have one more entry per direction than the cell arrays. *)
Theorem C05_geometry_3d :
  forall (dom : domain R), valid_domain3 dom ->
  exists d, make3 dom = Ok d /\ d3_dx d = ((xend dom - xbeg dom) / IZR (nx dom))%R /\
  let dx := d3_dx d in
  let vertices := {| nx := nx dom + 1; ny := ny dom + 1; nz := nz dom + 1;
     xbeg := xbeg dom; xend := xend dom; ybeg := ybeg dom; yend := yend dom;
     zbeg := zbeg dom; zend := zend dom;
     xbc := xbc dom; ybc := ybc dom; zbc := zbc dom; nhalo := nhalo dom |} in
  let xv i := (xbeg dom + dx * IZR i)%R in
  let yv j := (ybeg dom + dx * IZR j)%R in
  let zv k := (zbeg dom + dx * IZR k)%R in
  holds3 vertices (d3_xv d) (fun i _ _ => xv i) /\
  holds3 vertices (d3_yv d) (fun _ j _ => yv j) /\
  holds3 vertices (d3_zv d) (fun _ _ k => zv k) /\
  xv (nx dom) = xend dom /\
  holds3 dom (d3_x d) (fun i _ _ => ((xv i + xv (i + 1)%Z) / 2)%R) /\
  holds3 dom (d3_y d) (fun _ j _ => ((yv j + yv (j + 1)%Z) / 2)%R) /\
  holds3 dom (d3_z d) (fun _ _ k => ((zv k + zv (k + 1)%Z) / 2)%R).
Proof. exact pf_C05_geometry_3d. Qed.
Print Assumptions C05_geometry_3d.

Example C05_3d_ex : valid_domain3 (ex_dom 0%R 1%R 4 3 5 2 Periodic Periodic Neumann).
Proof. vm_compute; repeat split; discriminate. Qed.

(** C05, 2D. *)
Theorem C05_geometry_2d :
  forall (dom : domain R), valid_domain2 dom ->
  exists d, make2 dom = Ok d /\ d2_dx d = ((xend dom - xbeg dom) / IZR (nx dom))%R /\
  let dx := d2_dx d in
  let vertices := {| nx := nx dom + 1; ny := ny dom; nz := nz dom;
     xbeg := xbeg dom; xend := xend dom; ybeg := ybeg dom; yend := yend dom;
     zbeg := zbeg dom; zend := zend dom;
     xbc := xbc dom; ybc := ybc dom; zbc := zbc dom; nhalo := nhalo dom |} in
  let xv i := (xbeg dom + dx * IZR i)%R in
  let yv j := (ybeg dom + dx * IZR j)%R in
  holds2 vertices (d2_xv d) (fun i _ => xv i) /\
  holds2 vertices (d2_yv d) (fun _ j => yv j) /\
  xv (nx dom) = xend dom /\
  holds2 dom (d2_x d) (fun i _ => ((xv i + xv (i + 1)%Z) / 2)%R) /\
  holds2 dom (d2_y d) (fun _ j => ((yv j + yv (j + 1)%Z) / 2)%R).
Proof. exact pf_C05_geometry_2d. Qed.
Print Assumptions C05_geometry_2d.

Example C05_2d_ex : let dom := ex_dom 0%Q 8%Q 4 0 0 1 Periodic Periodic Periodic in
  exists d, @make2 Q Num_Q dom = Ok d /\ d2_dx d = 2%Q /\ zget (d2_x d) (slot2 dom (-1) 3) = Some (-1)%Q /\
    zget (d2_y d) (slot2 dom (-1) 3) = Some 7%Q.
Proof. eexists. split; [vm_compute; reflexivity|]. vm_compute. auto. Qed.

(** C06: the periodic fill in 2D gives every cell of the padded grid the value of the
    interior cell it wraps onto; interior values are untouched. *)
Theorem C06_periodic_2d :
  forall (V : Type) (N : Num V) (dom : domain V) (d : disc2 V) (s : list V) (u : Z -> Z -> V),
  valid_domain2 dom -> nhalo dom <= nx dom -> make2 dom = Ok d -> holds2 dom s u ->
  exists s', apply_periodic2 d s = Ok s' /\
    holds2 dom s' (fun i j => u (i mod nx dom) (j mod nx dom)) /\
    (forall i j, inside2 dom i j -> zget s' (slot2 dom i j) = zget s (slot2 dom i j)).
Proof. exact pf_C06_periodic_2d. Qed.
Print Assumptions C06_periodic_2d.

Example C06_ex : let dom := ex_dom 0%Q 1%Q 3 0 0 2 Periodic Periodic Periodic in
  valid_domain2 dom /\ nhalo dom <= nx dom /\
  exists d, @make2 Q Num_Q dom = Ok d /\
  match @apply_periodic2 Q d (tabulate2 dom (fun i j => inject_Z (10 * i + j))) with
  | Ok s => map (fun c => zget s (slot2 dom (fst c) (snd c))) [(-2, -2); (-1, 4); (4, 0); (1, 2)]
            = [Some 11%Q; Some 21%Q; Some 10%Q; Some 12%Q]
  | _ => False
  end.
Proof.
  split; [vm_compute; split; discriminate|]. split; [vm_compute; discriminate|].
  eexists. split; [vm_compute; reflexivity|]. vm_compute. reflexivity.
Qed.

(** C07: the periodic fill in 3D, unequal extents. *)
Theorem C07_periodic_3d :
  forall (V : Type) (N : Num V) (dom : domain V) (d : disc3 V) (s : list V) (u : Z -> Z -> Z -> V),
  valid_domain3 dom -> nhalo dom <= nx dom /\ nhalo dom <= ny dom /\ nhalo dom <= nz dom ->
  make3 dom = Ok d -> holds3 dom s u ->
  exists s', apply_periodic3 d s = Ok s' /\
    holds3 dom s' (fun i j k => u (i mod nx dom) (j mod ny dom) (k mod nz dom)) /\
    (forall i j k, inside3 dom i j k -> zget s' (slot3 dom i j k) = zget s (slot3 dom i j k)).
Proof. exact pf_C07_periodic_3d. Qed.
Print Assumptions C07_periodic_3d.

Example C07_ex : let dom := ex_dom 0%Q 1%Q 3 2 4 2 Periodic Periodic Periodic in
  valid_domain3 dom /\ (nhalo dom <= nx dom /\ nhalo dom <= ny dom /\ nhalo dom <= nz dom) /\
  exists d, @make3 Q Num_Q dom = Ok d /\
  match @apply_periodic3 Q d (tabulate3 dom (fun i j k => inject_Z (100 * i + 10 * j + k))) with
  | Ok s => map (fun c => zget s (slot3 dom (fst (fst c)) (snd (fst c)) (snd c)))
              [(-2, -2, -2); (-1, 3, 5); (4, 0, 3); (1, 1, 2)]
            = [Some 102%Q; Some 211%Q; Some 103%Q; Some 112%Q]
  | _ => False
  end.
Proof.
  split; [vm_compute; repeat split; discriminate|]. split; [vm_compute; repeat split; discriminate|].
  eexists. split; [vm_compute; reflexivity|]. vm_compute. reflexivity.
Qed.

(** C07 needs halos no wider than the grid: on a grid of one cell with two halo layers (the
    width the program always uses) the fill leaves halo cells that are not wrapped values. *)
Theorem C07_thin_grid_refuted :
  exists (dom : domain Z) (N : Num Z) (d : disc3 Z) (s s' : list Z) (u : Z -> Z -> Z -> Z) (i j k : Z),
  valid_domain3 dom /\ nhalo dom = 2 /\ make3 dom = Ok d /\ holds3 dom s u /\ padded3 dom i j k /\
  apply_periodic3 d s = Ok s' /\
  zget s' (slot3 dom i j k) <> Some (u (i mod nx dom) (j mod ny dom) (k mod nz dom)).
Proof. exact pf_C07_thin_grid_refuted. Qed.
Print Assumptions C07_thin_grid_refuted.

(** C08: the fill used by the right-hand side (periodic exchange, then Neumann fills) gives
    every padded cell the interior value reached by clamping each Neumann direction and
    wrapping the others, in every combination. *)
Theorem C08_boundary_fill_3d :
  forall (V : Type) (N : Num V) (dom : domain V) (d : disc3 V) (s : list V) (u : Z -> Z -> Z -> V),
  valid_domain3 dom -> nhalo dom <= nx dom /\ nhalo dom <= ny dom /\ nhalo dom <= nz dom ->
  make3 dom = Ok d -> holds3 dom s u ->
  exists s1 s2, apply_periodic3 d s = Ok s1 /\ apply_neumann3 d s1 = Ok s2 /\
    holds3 dom s2 (extend3 dom u) /\
    (forall i j k, inside3 dom i j k -> zget s2 (slot3 dom i j k) = zget s (slot3 dom i j k)).
Proof. exact pf_C08_boundary_fill_3d. Qed.
Print Assumptions C08_boundary_fill_3d.

Example C08_ex : let dom := ex_dom 0%Q 1%Q 3 2 4 2 Neumann Periodic Neumann in
  valid_domain3 dom /\ (nhalo dom <= nx dom /\ nhalo dom <= ny dom /\ nhalo dom <= nz dom) /\
  exists d, @make3 Q Num_Q dom = Ok d /\
  match @apply_periodic3 Q d (tabulate3 dom (fun i j k => inject_Z (100 * i + 10 * j + k))) with
  | Ok s1 => match @apply_neumann3 Q d s1 with
    | Ok s => map (fun c => zget s (slot3 dom (fst (fst c)) (snd (fst c)) (snd c)))
              [(-2, -1, -2); (-1, 3, 5); (4, 0, 3); (1, 1, 2)]
            = [Some 10%Q; Some 13%Q; Some 203%Q; Some 112%Q]
    | _ => False
    end
  | _ => False
  end.
Proof.
  split; [vm_compute; repeat split; discriminate|]. split; [vm_compute; repeat split; discriminate|].
  eexists. split; [vm_compute; reflexivity|]. vm_compute. reflexivity.
Qed.

(** C09, 3D: the fill is idempotent, and fields that agree on the interior agree everywhere
    after it. *)
Theorem C09_fill_idempotent_3d :
  forall (V : Type) (N : Num V) (dom : domain V) (d : disc3 V) (s t : list V),
  valid_domain3 dom -> nhalo dom <= nx dom /\ nhalo dom <= ny dom /\ nhalo dom <= nz dom ->
  make3 dom = Ok d -> zlen s = cells3 dom -> zlen t = cells3 dom ->
  let fill a := rbind (apply_periodic3 d a) (apply_neumann3 d) in
  (exists s', fill s = Ok s' /\ fill s' = Ok s') /\
  ((forall i j k, inside3 dom i j k -> zget s (slot3 dom i j k) = zget t (slot3 dom i j k)) ->
   fill s = fill t).
Proof. exact pf_C09_fill_idempotent_3d. Qed.
Print Assumptions C09_fill_idempotent_3d.

Example C09_3d_ex : let dom := ex_dom 0%Q 1%Q 2 2 2 2 Neumann Periodic Neumann in
  let s := tabulate3 dom (fun i j k => inject_Z (100 * i + 10 * j + k)) in
  exists d s', @make3 Q Num_Q dom = Ok d /\ zlen s = cells3 dom /\
    rbind (@apply_periodic3 Q d s) (@apply_neumann3 Q d) = Ok s' /\ nth 0 s' 0%Q <> nth 0 s 0%Q.
Proof.
  eexists; eexists. split; [vm_compute; reflexivity|]. split; [vm_compute; reflexivity|].
  split; [vm_compute; reflexivity|]. vm_compute. discriminate.
Qed.

(** C09, 2D. *)
Theorem C09_fill_idempotent_2d :
  forall (V : Type) (N : Num V) (dom : domain V) (d : disc2 V) (s t : list V),
  valid_domain2 dom -> nhalo dom <= nx dom -> make2 dom = Ok d -> zlen s = cells2 dom -> zlen t = cells2 dom ->
  (exists s', apply_periodic2 d s = Ok s' /\ apply_periodic2 d s' = Ok s') /\
  ((forall i j, inside2 dom i j -> zget s (slot2 dom i j) = zget t (slot2 dom i j)) ->
   apply_periodic2 d s = apply_periodic2 d t).
Proof. exact pf_C09_fill_idempotent_2d. Qed.
Print Assumptions C09_fill_idempotent_2d.

Example C09_2d_ex : let dom := ex_dom 0%Q 1%Q 3 0 0 2 Periodic Periodic Periodic in
  let s := tabulate2 dom (fun i j => inject_Z (10 * i + j)) in
  exists d s', @make2 Q Num_Q dom = Ok d /\ zlen s = cells2 dom /\
    @apply_periodic2 Q d s = Ok s' /\ nth 0 s' 0%Q <> nth 0 s 0%Q.
Proof.
  eexists; eexists. split; [vm_compute; reflexivity|]. split; [vm_compute; reflexivity|].
  split; [vm_compute; reflexivity|]. vm_compute. discriminate.
Qed.

(** C10, 3D: with one halo layer the Laplacian, with two the biharmonic, runs without leaving
    the array, reads exactly the intended neighbours (the result is the stencil expression of
    the field the array holds), writes every interior cell and nothing else; with fewer
    layers it leaves the array. *)
Theorem C10_stencil_safety_3d :
  forall (V : Type) (N : Num V) (dom : domain V) (d : disc3 V) (s o : list V) (u : Z -> Z -> Z -> V),
  valid_domain3 dom -> make3 dom = Ok d -> holds3 dom s u -> zlen o = cells3 dom ->
  let dx := d3_dx d in
  let lap (i j k : Z) :=
    ndiv (nsub (nadd (nadd (nadd (nadd (nadd (u (i - 1) j k) (u (i + 1) j k)) (u i (j - 1) k)) (u i (j + 1) k))
                     (u i j (k - 1))) (u i j (k + 1)))
               (nmul (nint 6) (u i j k))) (nmul dx dx) in
  (1 <= nhalo dom ->
     exists o', laplacian3 d s o = Ok (s, o') /\ holds_inside3 dom o' lap /\ same_halo3 dom o o') /\
  (nhalo dom = 0 -> laplacian3 d s o = UB) /\
  (2 <= nhalo dom ->
     exists o', biharmonic3 d s o = Ok (s, o') /\ zlen o' = cells3 dom /\ same_halo3 dom o o') /\
  (nhalo dom <= 1 -> biharmonic3 d s o = UB).
Proof. exact pf_C10_stencil_safety_3d. Qed.
Print Assumptions C10_stencil_safety_3d.

Example C10_3d_ex : let dom := ex_dom 0%Q 3%Q 3 2 4 1 Periodic Periodic Periodic in
  let s := tabulate3 dom (fun i j k => inject_Z (i * i + j * j + k * k)) in
  valid_domain3 dom /\ zlen s = cells3 dom /\
  exists d o', @make3 Q Num_Q dom = Ok d /\ @laplacian3 Q Num_Q d s s = Ok (s, o') /\
    zget o' (slot3 dom 1 1 2) = Some 6%Q /\ @biharmonic3 Q Num_Q d s s = UB.
Proof.
  split; [vm_compute; repeat split; discriminate|]. split; [vm_compute; reflexivity|].
  eexists; eexists. split; [vm_compute; reflexivity|]. split; [vm_compute; reflexivity|].
  vm_compute. auto.
Qed.

(** C10, 2D. *)
Theorem C10_stencil_safety_2d :
  forall (V : Type) (N : Num V) (dom : domain V) (d : disc2 V) (s o : list V) (u : Z -> Z -> V),
  valid_domain2 dom -> make2 dom = Ok d -> holds2 dom s u -> zlen o = cells2 dom ->
  let dx := d2_dx d in
  let lap (i j : Z) :=
    nadd (ndiv (nadd (nsub (u (i - 1) j) (nmul (nint 2) (u i j))) (u (i + 1) j)) (nmul dx dx))
         (ndiv (nadd (nsub (u i (j - 1)) (nmul (nint 2) (u i j))) (u i (j + 1))) (nmul dx dx)) in
  (1 <= nhalo dom ->
     exists o', laplacian2 d s o = Ok (s, o') /\ holds_inside2 dom o' lap /\ same_halo2 dom o o') /\
  (nhalo dom = 0 -> laplacian2 d s o = UB) /\
  (2 <= nhalo dom ->
     exists o', biharmonic2 d s o = Ok (s, o') /\ zlen o' = cells2 dom /\ same_halo2 dom o o') /\
  (nhalo dom <= 1 -> biharmonic2 d s o = UB).
Proof. exact pf_C10_stencil_safety_2d. Qed.
Print Assumptions C10_stencil_safety_2d.

Example C10_2d_ex : let dom := ex_dom 0%Q 3%Q 3 0 0 2 Periodic Periodic Periodic in
  let s := tabulate2 dom (fun i j => inject_Z (i * i * i * i + j * j)) in
  valid_domain2 dom /\ zlen s = cells2 dom /\
  exists d o', @make2 Q Num_Q dom = Ok d /\ @biharmonic2 Q Num_Q d s s = Ok (s, o') /\
    zget o' (slot2 dom 1 1) = Some 24%Q.
Proof.
  split; [vm_compute; repeat split; discriminate|]. split; [vm_compute; reflexivity|].
  eexists; eexists. split; [vm_compute; reflexivity|]. split; [vm_compute; reflexivity|].
  vm_compute. auto.
Qed.
