(** Parallel loops: C13 for the field kernels.

    [schedule_independent ps m m'] (SpecGrid.v) says of the parallel loop whose iterations are
    the programs ps, started on the arrays m: the sequential run ends with m', a run under any
    interleaving of the single loads and stores of the iterations that finishes ends with m',
    no interleaving reaches an undefined access, none gets stuck, and all are finite. *)
From Coq Require Import QArith.
From Verif Require Import Outcome ZList Num Kernel ModelIndex ModelDisc3D ModelDisc2D ModelCH SpecGrid
  ExampleNum ParFinal.
Open Scope Z_scope.

(** C13, boundary fills, 3D: the periodic loop over the halo list and the three Neumann
    loops. *)
Theorem C13_fills_3d :
  forall (V : Type) (N : Num V) (dom : domain V) (d : disc3 V) (s : list V),
  valid_domain3 dom -> nhalo dom <= nx dom /\ nhalo dom <= ny dom /\ nhalo dom <= nz dom ->
  make3 dom = Ok d -> zlen s = cells3 dom ->
  (exists s', apply_periodic3 d s = Ok s' /\
     schedule_independent (map (periodic_body3 d) (zrange 0 (zlen (d3_donor d)))) [s] [s']) /\
  (exists s', neumann_x3 d s = Ok s' /\
     schedule_independent (map (neumann_x_body3 d) (zrange (- d3_nhalo d) (d3_nj d + d3_nhalo d))) [s] [s']) /\
  (exists s', neumann_y3 d s = Ok s' /\
     schedule_independent (map (neumann_y_body3 d) (zrange (- d3_nhalo d) (d3_ni d + d3_nhalo d))) [s] [s']) /\
  (exists s', neumann_z3 d s = Ok s' /\
     schedule_independent (map (neumann_z_body3 d) (zrange (- d3_nhalo d) (d3_ni d + d3_nhalo d))) [s] [s']).
Proof. exact pf_C13_fills_3d. Qed.
Print Assumptions C13_fills_3d.

Example C13_ex : let dom := ex_dom 0%Q 2%Q 2 3 2 2 Periodic Neumann Periodic in
  exists d, @make3 Q Num_Q dom = Ok d /\ zlen (d3_donor d) = 240 /\ zlen (d3_interior d) = 12.
Proof. eexists. split; [vm_compute; reflexivity|]. split; vm_compute; reflexivity. Qed.

(** C13, boundary fill, 2D: its four loops, each started on the result of the one before. *)
Theorem C13_fills_2d :
  forall (V : Type) (N : Num V) (dom : domain V) (d : disc2 V) (s : list V),
  valid_domain2 dom -> nhalo dom <= nx dom -> make2 dom = Ok d -> zlen s = cells2 dom ->
  exists s1 s2 s3 s4, apply_periodic2 d s = Ok s4 /\
      schedule_independent (map (periodic_x_body2 d) (zrange 0 (d2_ni d))) [s] [s1] /\
      schedule_independent (map (periodic_y_body2 d) (zrange 0 (d2_ni d))) [s1] [s2] /\
      schedule_independent (map (periodic_w_body2 d) (zrange (- d2_nhalo d) 0)) [s2] [s3] /\
      schedule_independent (map (periodic_e_body2 d) (zrange (d2_ni d) (d2_ni d + d2_nhalo d))) [s3] [s4].
Proof. exact pf_C13_fills_2d. Qed.
Print Assumptions C13_fills_2d.

Example C13_2d_ex : exists d, @make2 Q Num_Q (ex_dom 0%Q 2%Q 3 0 0 2 Periodic Periodic Periodic) = Ok d /\
  zlen (d2_interior d) = 9.
Proof. eexists. split; vm_compute; reflexivity. Qed.

(** C13, Laplacian and biharmonic. *)
Theorem C13_operators_3d :
  forall (V : Type) (N : Num V) (dom : domain V) (d : disc3 V) (s o : list V),
  valid_domain3 dom -> make3 dom = Ok d -> zlen s = cells3 dom -> zlen o = cells3 dom ->
  (1 <= nhalo dom -> exists o', laplacian3 d s o = Ok (s, o') /\
     schedule_independent (map (laplacian_body3 d) (zrange 0 (zlen (d3_interior d)))) [s; o] [s; o']) /\
  (2 <= nhalo dom -> exists o', biharmonic3 d s o = Ok (s, o') /\
     schedule_independent (map (biharmonic_body3 d) (zrange 0 (zlen (d3_interior d)))) [s; o] [s; o']).
Proof. exact pf_C13_operators_3d. Qed.
Print Assumptions C13_operators_3d.
Theorem C13_operators_2d :
  forall (V : Type) (N : Num V) (dom : domain V) (d : disc2 V) (s o : list V),
  valid_domain2 dom -> make2 dom = Ok d -> zlen s = cells2 dom -> zlen o = cells2 dom ->
  (1 <= nhalo dom -> exists o', laplacian2 d s o = Ok (s, o') /\
     schedule_independent (map (laplacian_body2 d) (zrange 0 (zlen (d2_interior d)))) [s; o] [s; o']) /\
  (2 <= nhalo dom -> exists o', biharmonic2 d s o = Ok (s, o') /\
     schedule_independent (map (biharmonic_body2 d) (zrange 0 (zlen (d2_interior d)))) [s; o] [s; o']).
Proof. exact pf_C13_operators_2d. Qed.
Print Assumptions C13_operators_2d.

(** C13, the loops of the Cahn-Hilliard right-hand sides on arrays of the grid's size: cube,
    zero fill, linear term and combination (variant 0 and 2D), the fused loop (variant 1) and
    the fully fused loop (variant 2). *)
Theorem C13_rhs_3d :
  forall (V : Type) (N : Num V) (dom : domain V) (d : disc3 V) (p : ch_params V) (a b c e : list V),
  valid_domain3 dom -> 2 <= nhalo dom -> make3 dom = Ok d ->
  zlen a = cells3 dom -> zlen b = cells3 dom -> zlen c = cells3 dom -> zlen e = cells3 dom ->
  let cells := zrange 0 (cells3 dom) in
  let interior := zrange 0 (zlen (d3_interior d)) in
  (exists b', schedule_independent (map cube_body cells) [a; b] [a; b']) /\
  (exists a', schedule_independent (map zero_body cells) [a] [a']) /\
  (exists b', schedule_independent (map (linear_body p (d3_interior d)) interior) [a; b] [a; b']) /\
  (exists a', schedule_independent (map (combine_body p (d3_interior d)) interior) [a; b; c; e] [a'; b; c; e]) /\
  (exists c', schedule_independent (map (fused_body3 d p) interior) [a; b; c] [a; b; c']) /\
  (exists b', schedule_independent (map (fully_fused_body3 d p) interior) [a; b] [a; b']).
Proof. exact pf_C13_rhs_3d. Qed.
Print Assumptions C13_rhs_3d.
Theorem C13_rhs_2d :
  forall (V : Type) (N : Num V) (dom : domain V) (d : disc2 V) (p : ch_params V) (a b c e : list V),
  valid_domain2 dom -> make2 dom = Ok d ->
  zlen a = cells2 dom -> zlen b = cells2 dom -> zlen c = cells2 dom -> zlen e = cells2 dom ->
  let cells := zrange 0 (cells2 dom) in
  let interior := zrange 0 (zlen (d2_interior d)) in
  (exists b', schedule_independent (map cube_body cells) [a; b] [a; b']) /\
  (exists a', schedule_independent (map zero_body cells) [a] [a']) /\
  (exists b', schedule_independent (map (linear_body p (d2_interior d)) interior) [a; b] [a; b']) /\
  (exists a', schedule_independent (map (combine_body p (d2_interior d)) interior) [a; b; c; e] [a'; b; c; e]).
Proof. exact pf_C13_rhs_2d. Qed.
Print Assumptions C13_rhs_2d.

(** C13, transfer between a grid and its coarsening. *)
Theorem C13_transfer :
  forall (V : Type) (N : Num V) (dom : domain V) (d dc : disc3 V) (f c : list V),
  valid_domain3 dom -> make3 dom = Ok d -> coarsen3 d = Ok dc ->
  zlen f = cells3 dom -> zlen c = cells3 (d3_domain dc) ->
  (exists c', restrict3 d dc f c = Ok (f, c') /\
     schedule_independent (map (restrict_body3 d dc) (zrange 0 (zlen (d3_interior dc)))) [f; c] [f; c']) /\
  (exists f', prolong3 MGNearest dc d c f = Ok (c, f') /\
     schedule_independent (map (prolong_nearest_body3 dc d) (zrange 0 (zlen (d3_interior dc)))) [c; f] [c; f']) /\
  (1 <= nhalo dom -> exists f', prolong3 MGLinear dc d c f = Ok (c, f') /\
     schedule_independent (map (prolong_linear_body3 dc d) (zrange (-1) (d3_ni dc))) [c; f] [c; f']).
Proof. exact pf_C13_transfer. Qed.
Print Assumptions C13_transfer.

Example C13_transfer_ex : exists d dc, @make3 Q Num_Q (ex_dom 0%Q 4%Q 4 2 6 1 Periodic Periodic Periodic) = Ok d /\
  @coarsen3 Q Num_Q d = Ok dc /\ zlen (d3_interior dc) = 6.
Proof. do 2 eexists. split; [vm_compute; reflexivity|]. split; vm_compute; reflexivity. Qed.
