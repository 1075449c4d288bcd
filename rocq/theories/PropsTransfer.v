(** Transfer between grids and coarsening: C27-C30. *)
From Coq Require Import Reals Lra QArith.
From Coq.Floats Require Import SpecFloat.
From Verif Require Import Outcome ZList Num Kernel ModelIndex ModelDisc3D SpecGrid SpecField
  ExampleNum Make3Proofs TransferFinal.
Open Scope Z_scope.

(** C30, any arithmetic: a grid with even extents coarsens to the grid of half the extents on
    the same box with the same boundary types and halo width; any odd extent is fatal. *)
Theorem C30_coarsening :
  forall (V : Type) (N : Num V) (dom : domain V) (d : disc3 V),
  valid_domain3 dom -> make3 dom = Ok d ->
  (nx dom mod 2 = 0 /\ ny dom mod 2 = 0 /\ nz dom mod 2 = 0 ->
     exists dc, coarsen3 d = Ok dc /\
       make3 {| nx := nx dom / 2; ny := ny dom / 2; nz := nz dom / 2;
         xbeg := xbeg dom; xend := xend dom; ybeg := ybeg dom; yend := yend dom; zbeg := zbeg dom; zend := zend dom;
         xbc := xbc dom; ybc := ybc dom; zbc := zbc dom; nhalo := nhalo dom |} = Ok dc /\
       nx (d3_domain dc) = nx dom / 2 /\ ny (d3_domain dc) = ny dom / 2 /\ nz (d3_domain dc) = nz dom / 2 /\
       nhalo (d3_domain dc) = nhalo dom) /\
  (~ (nx dom mod 2 = 0 /\ ny dom mod 2 = 0 /\ nz dom mod 2 = 0) -> coarsen3 d = Fatal).
Proof. exact pf_C30_coarsening. Qed.
Print Assumptions C30_coarsening.

Example C30_ex : exists d dc, @make3 Q Num_Q (ex_dom 0%Q 6%Q 6 4 2 2 Periodic Neumann Periodic) = Ok d /\
  @coarsen3 Q Num_Q d = Ok dc /\ d3_dx d = 1%Q /\ d3_dx dc = 2%Q.
Proof. do 2 eexists. repeat (split; [vm_compute; reflexivity|]). vm_compute; reflexivity. Qed.

(** C30, exact arithmetic: the spacing doubles, and coarse cell centres are the centres of the
    2x2x2 blocks of fine cells. *)
Theorem C30_coarsening_exact :
  forall (dom : domain R) (d dc : disc3 R),
  valid_domain3 dom -> make3 dom = Ok d -> coarsen3 d = Ok dc ->
  d3_dx dc = (2 * d3_dx d)%R /\
  forall i j k x0 x1 xc, inside3 (d3_domain dc) i j k ->
    zget (d3_x d) (slot3 dom (2 * i) j k) = Some x0 -> zget (d3_x d) (slot3 dom (2 * i + 1) j k) = Some x1 ->
    zget (d3_x dc) (slot3 (d3_domain dc) i j k) = Some xc -> xc = ((x0 + x1) / 2)%R.
Proof. exact pf_C30_coarsening_exact. Qed.
Print Assumptions C30_coarsening_exact.

(** C27, exact arithmetic: every interior coarse cell gets the mean of its eight children,
    coarse halos are left alone, the mean over the grid is preserved, and bounds on the fine
    values bound the coarse values (in particular constants are preserved). *)
Theorem C27_restriction :
  forall (dom : domain R) (d dc : disc3 R) (f c : list R) (u : Z -> Z -> Z -> R),
  valid_domain3 dom -> make3 dom = Ok d -> coarsen3 d = Ok dc ->
  holds_inside3 dom f u -> zlen c = cells3 (d3_domain dc) ->
  exists c' v, restrict3 d dc f c = Ok (f, c') /\ holds_inside3 (d3_domain dc) c' v /\
    same_halo3 (d3_domain dc) c c' /\
    (forall i j k, v i j k = (sum3 2 2 2 (fun a b e => u (2 * i + a)%Z (2 * j + b)%Z (2 * k + e)%Z) / 8)%R) /\
    mean3 (d3_domain dc) v = mean3 dom u /\
    (forall lo hi, (forall i j k, inside3 dom i j k -> lo <= u i j k <= hi)%R ->
       forall i j k, inside3 (d3_domain dc) i j k -> (lo <= v i j k <= hi)%R).
Proof. exact pf_C27_restriction. Qed.
Print Assumptions C27_restriction.

Example C27_ex : let dom := ex_dom 0%Q 4%Q 4 2 2 1 Periodic Neumann Periodic in
  exists d dc c', @make3 Q Num_Q dom = Ok d /\ @coarsen3 Q Num_Q d = Ok dc /\
  let f := tabulate3 dom (fun i j k => inject_Z (i * i + 4 * j + 10 * k)) in
  let c := tabulate3 (d3_domain dc) (fun i j k => 77%Q) in
  @restrict3 Q Num_Q d dc f c = Ok (f, c') /\ zget c' (slot3 (d3_domain dc) 1 0 0) = Some (27 # 2)%Q.
Proof. do 3 eexists. split; [vm_compute; reflexivity|]. split; [vm_compute; reflexivity|]. split; vm_compute; reflexivity. Qed.
Example C27_ex_R : exists d dc, make3 (ex_dom 0%R 4%R 4 2 2 1 Periodic Neumann Periodic) = Ok d /\ coarsen3 d = Ok dc.
Proof.
  assert (V : valid_domain3 (ex_dom 0%R 4%R 4 2 2 1 Periodic Neumann Periodic)) by (vm_compute; repeat split; discriminate).
  destruct (make3_ok _ V) as (d & M & _). exists d.
  destruct (proj1 (C30_coarsening R Num_R _ d V M) ltac:(cbn; auto)) as (dc & E & _). exists dc. auto.
Qed.

(** C28, exact arithmetic: nearest prolongation gives every child its parent's value, and
    restricting the result gives back the coarse interior. *)
Theorem C28_roundtrip :
  forall (dom : domain R) (d dc : disc3 R) (f c : list R) (u : Z -> Z -> Z -> R),
  valid_domain3 dom -> make3 dom = Ok d -> coarsen3 d = Ok dc ->
  zlen f = cells3 dom -> holds_inside3 (d3_domain dc) c u ->
  exists f', prolong3 MGNearest dc d c f = Ok (c, f') /\
    holds_inside3 dom f' (fun i j k => u (i / 2) (j / 2) (k / 2)) /\ same_halo3 dom f f' /\
    forall c2, zlen c2 = cells3 (d3_domain dc) ->
    exists c3, restrict3 d dc f' c2 = Ok (f', c3) /\ holds_inside3 (d3_domain dc) c3 u.
Proof. exact pf_C28_roundtrip. Qed.
Print Assumptions C28_roundtrip.

Example C28_ex : let dom := ex_dom 0%Q 4%Q 4 2 2 1 Periodic Neumann Periodic in
  exists d dc f' c', @make3 Q Num_Q dom = Ok d /\ @coarsen3 Q Num_Q d = Ok dc /\
  let f := tabulate3 dom (fun i j k => 0%Q) in
  let c := tabulate3 (d3_domain dc) (fun i j k => inject_Z (i + 3)) in
  @prolong3 Q Num_Q MGNearest dc d c f = Ok (c, f') /\ zget f' (slot3 dom 3 1 1) = Some 4%Q /\
  @restrict3 Q Num_Q d dc f' c = Ok (f', c').
Proof.
  do 4 eexists. split; [vm_compute; reflexivity|]. split; [vm_compute; reflexivity|]. split; [vm_compute; reflexivity|].
  split; vm_compute; reflexivity.
Qed.

(** C28 fails for doubles: the eight-term sum rounds, so even the constant field 1/10 does not
    survive prolongation followed by restriction. *)
Theorem C28_double_refuted :
  exists (dom : domain f64) (d dc : disc3 f64) (f f' c c' : list f64) (a b : f64),
  valid_domain3 dom /\ @make3 f64 Num_f64 dom = Ok d /\ @coarsen3 f64 Num_f64 d = Ok dc /\
  @prolong3 f64 Num_f64 MGNearest dc d c f = Ok (c, f') /\ @restrict3 f64 Num_f64 d dc f' c = Ok (f', c') /\
  zget c (slot3 (d3_domain dc) 0 0 0) = Some a /\ zget c' (slot3 (d3_domain dc) 0 0 0) = Some b /\ a <> b.
Proof. exact pf_C28_double_refuted. Qed.
Print Assumptions C28_double_refuted.

(** C29, exact arithmetic: with the coarse halos filled, linear prolongation writes every fine cell
    within one layer of the interior and nothing else, values between bounds of the coarse
    values stay between them (in particular constants are preserved), and functions that are
    linear in y and z are reproduced.  The centre of coarse cell j is 2j+1 and of fine cell j
    is j + 1/2, in units of the fine spacing. *)
Theorem C29_linear_prolongation :
  forall (dom : domain R) (d dc : disc3 R) (f c : list R) (u : Z -> Z -> Z -> R),
  valid_domain3 dom -> 1 <= nhalo dom -> make3 dom = Ok d -> coarsen3 d = Ok dc ->
  zlen f = cells3 dom -> holds3 (d3_domain dc) c u ->
  exists f' v, prolong3 MGLinear dc d c f = Ok (c, f') /\ zlen f' = cells3 dom /\
    (forall i j k, -1 <= i <= nx dom -> -1 <= j <= ny dom -> -1 <= k <= nz dom ->
       zget f' (slot3 dom i j k) = Some (v i j k)) /\
    (forall i j k, padded3 dom i j k -> ~ (-1 <= i <= nx dom /\ -1 <= j <= ny dom /\ -1 <= k <= nz dom) ->
       zget f' (slot3 dom i j k) = zget f (slot3 dom i j k)) /\
    (forall lo hi, (forall i j k, padded3 (d3_domain dc) i j k -> lo <= u i j k <= hi)%R ->
       forall i j k, -1 <= i <= nx dom -> -1 <= j <= ny dom -> -1 <= k <= nz dom -> (lo <= v i j k <= hi)%R) /\
    (forall a b e, (forall i j k, padded3 (d3_domain dc) i j k -> u i j k = a + b * (2 * IZR j + 1) + e * (2 * IZR k + 1))%R ->
       forall i j k, -1 <= i <= nx dom -> -1 <= j <= ny dom -> -1 <= k <= nz dom ->
       (v i j k = a + b * (IZR j + / 2) + e * (IZR k + / 2))%R).
Proof. exact pf_C29_linear_prolongation. Qed.
Print Assumptions C29_linear_prolongation.

Example C29_ex : let dom := ex_dom 0%Q 4%Q 4 2 2 1 Periodic Neumann Periodic in
  exists d dc f', @make3 Q Num_Q dom = Ok d /\ @coarsen3 Q Num_Q d = Ok dc /\
  let f := tabulate3 dom (fun i j k => 0%Q) in
  let c := tabulate3 (d3_domain dc) (fun i j k => inject_Z (2 * j + 1)) in
  @prolong3 Q Num_Q MGLinear dc d c f = Ok (c, f') /\ zget f' (slot3 dom 3 1 1) = Some (3 # 2)%Q.
Proof.
  do 3 eexists. split; [vm_compute; reflexivity|]. split; [vm_compute; reflexivity|]. split; vm_compute; reflexivity.
Qed.

(** C29: but the function x is not reproduced (two weights are swapped in the code): on coarse
    values x = 2i+1 the prolongation does not give i + 1/2 at fine cell (1,1,1). *)
Theorem C29_linear_x_refuted :
  exists (dom : domain R) (d dc : disc3 R) (f f' c : list R),
  valid_domain3 dom /\ make3 dom = Ok d /\ coarsen3 d = Ok dc /\
  holds3 (d3_domain dc) c (fun i _ _ => 2 * IZR i + 1)%R /\
  prolong3 MGLinear dc d c f = Ok (c, f') /\
  exists v, zget f' (slot3 dom 1 1 1) = Some v /\ v <> (1 + / 2)%R.
Proof. exact pf_C29_linear_x_refuted. Qed.
Print Assumptions C29_linear_x_refuted.
