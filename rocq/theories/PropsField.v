(** Discrete operators and the Cahn-Hilliard right-hand side: C11, C12, C14-C16, C18-C23. *)
From Coq Require Import Reals Lra QArith.
From Coq.Floats Require Import SpecFloat.
From Verif Require Import Outcome ZList Num Kernel ModelIndex ModelDisc3D ModelDisc2D ModelCH SpecGrid SpecField SpecPoly
  ExampleNum Make3Proofs Make2Proofs FieldFinal.
Open Scope Z_scope.

(** A domain that meets the hypotheses of the theorems below, and its grid. *)
Example ex_domain_R : domain R := ex_dom 0%R 1%R 3 2 4 2 Periodic Neumann Periodic.
Example ex_periodic_R : domain R := ex_dom 0%R 1%R 3 2 4 2 Periodic Periodic Periodic.
Example ex_grid3 : valid_domain3 ex_domain_R /\ (exists d, make3 ex_domain_R = Ok d) /\
  (nhalo ex_domain_R <= nx ex_domain_R /\ nhalo ex_domain_R <= ny ex_domain_R /\ nhalo ex_domain_R <= nz ex_domain_R) /\
  2 <= nhalo ex_domain_R /\ xbeg ex_domain_R <> xend ex_domain_R.
Proof.
  assert (V : valid_domain3 ex_domain_R) by (vm_compute; repeat split; discriminate).
  split; auto. split; [destruct (make3_ok ex_domain_R V) as (d & H & _); exists d; exact H|].
  cbn. repeat split; try lia. apply Rlt_not_eq, Rlt_0_1.
Qed.
Example ex_grid2 : valid_domain2 ex_periodic_R /\ (exists d, make2 ex_periodic_R = Ok d) /\
  nhalo ex_periodic_R <= nx ex_periodic_R /\ 2 <= nhalo ex_periodic_R.
Proof.
  assert (V : valid_domain2 ex_periodic_R) by (vm_compute; repeat split; discriminate).
  split; auto. split; [destruct (make2_ok ex_periodic_R V) as (d & H & _); exists d; exact H|].
  cbn. repeat split; lia.
Qed.

(** C11, 3D, exact arithmetic: on an array holding the samples of a polynomial at the
    grid's own cell centres, the Laplacian is exact up to total degree three and the
    biharmonic up to degree five, at every interior cell.  [plap] is the formal Laplacian;
    C11_derivatives below says it is the Laplacian. *)
Theorem C11_consistency_3d :
  forall (dom : domain R) (d : disc3 R) (p : poly) (s o : list R) (X Y Z : Z -> R),
  valid_domain3 dom -> xbeg dom <> xend dom -> make3 dom = Ok d -> zlen o = cells3 dom ->
  holds3 dom (d3_x d) (fun i _ _ => X i) -> holds3 dom (d3_y d) (fun _ j _ => Y j) ->
  holds3 dom (d3_z d) (fun _ _ k => Z k) ->
  holds3 dom s (fun i j k => peval p (X i) (Y j) (Z k)) ->
  (degree_le p 3 -> 1 <= nhalo dom ->
     exists o', laplacian3 d s o = Ok (s, o') /\
       holds_inside3 dom o' (fun i j k => peval (plap p) (X i) (Y j) (Z k))) /\
  (degree_le p 5 -> 2 <= nhalo dom ->
     exists o', biharmonic3 d s o = Ok (s, o') /\
       holds_inside3 dom o' (fun i j k => peval (plap (plap p)) (X i) (Y j) (Z k))).
Proof. exact pf_C11_consistency_3d. Qed.
Print Assumptions C11_consistency_3d.

Example C11_ex : degree_le [{| mc := 2; ma := 2; mb := 1; me := 0 |}; {| mc := -1; ma := 0; mb := 0; me := 3 |}] 3
  /\ degree_le [{| mc := 1; ma := 4; mb := 1; me := 0 |}; {| mc := 3; ma := 1; mb := 2; me := 2 |}] 5.
Proof. split; repeat constructor. Qed.
Example C11_run_ex : (* x^2 y on a grid with spacing 1 *)
  let dom := ex_dom 0%Q 3%Q 3 2 4 1 Periodic Periodic Periodic in
  exists d o', @make3 Q Num_Q dom = Ok d /\
  let s := tabulate3 dom (fun i j k => Qred ((inject_Z i + (1#2)) * (inject_Z i + (1#2)) * (inject_Z j + (1#2)))) in
  @laplacian3 Q Num_Q d s s = Ok (s, o') /\ zget o' (slot3 dom 2 1 3) = Some 3%Q.
Proof. eexists; eexists. split; [vm_compute; reflexivity|]. split; vm_compute; reflexivity. Qed.

(** C11: [pdx], [pdy], [pdz] are the partial derivatives, so [plap] is the Laplacian. *)
Theorem C11_derivatives :
  forall (p : poly) (x y z : R),
  derivable_pt_lim (fun t => peval p t y z) x (peval (pdx p) x y z) /\
  derivable_pt_lim (fun t => peval p x t z) y (peval (pdy p) x y z) /\
  derivable_pt_lim (fun t => peval p x y t) z (peval (pdz p) x y z) /\
  peval (plap p) x y z =
    (peval (pdx (pdx p)) x y z + peval (pdy (pdy p)) x y z + peval (pdz (pdz p)) x y z)%R.
Proof. exact pf_C11_derivatives. Qed.
Print Assumptions C11_derivatives.

(** C11, 2D: polynomials in x and y. *)
Theorem C11_consistency_2d :
  forall (dom : domain R) (d : disc2 R) (p : poly) (s o : list R) (X Y : Z -> R),
  valid_domain2 dom -> xbeg dom <> xend dom -> make2 dom = Ok d -> zlen o = cells2 dom ->
  Forall (fun q => me q = 0%nat) p ->
  holds2 dom (d2_x d) (fun i _ => X i) -> holds2 dom (d2_y d) (fun _ j => Y j) ->
  holds2 dom s (fun i j => peval p (X i) (Y j) 0) ->
  (degree_le p 3 -> 1 <= nhalo dom ->
     exists o', laplacian2 d s o = Ok (s, o') /\
       holds_inside2 dom o' (fun i j => peval (plap p) (X i) (Y j) 0)) /\
  (degree_le p 5 -> 2 <= nhalo dom ->
     exists o', biharmonic2 d s o = Ok (s, o') /\
       holds_inside2 dom o' (fun i j => peval (plap (plap p)) (X i) (Y j) 0)).
Proof. exact pf_C11_consistency_2d. Qed.
Print Assumptions C11_consistency_2d.

Example C11_2d_ex : let p := [{| mc := 2; ma := 2; mb := 1; me := 0 |}] in
  Forall (fun q => me q = 0%nat) p /\ degree_le p 3.
Proof. split; repeat constructor. Qed.

(** C12: the biharmonic equals the Laplacian of the Laplacian of the field held by the array
    (exact arithmetic), 3D and 2D. *)
Theorem C12_biharmonic_3d :
  forall (dom : domain R) (d : disc3 R) (s o : list R) (u : Z -> Z -> Z -> R),
  valid_domain3 dom -> 2 <= nhalo dom -> make3 dom = Ok d -> holds3 dom s u -> zlen o = cells3 dom ->
  exists o', biharmonic3 d s o = Ok (s, o') /\ holds_inside3 dom o' (Lap3 (d3_dx d) (Lap3 (d3_dx d) u)).
Proof. exact pf_C12_biharmonic_3d. Qed.
Print Assumptions C12_biharmonic_3d.
Theorem C12_biharmonic_2d :
  forall (dom : domain R) (d : disc2 R) (s o : list R) (u : Z -> Z -> R),
  valid_domain2 dom -> 2 <= nhalo dom -> make2 dom = Ok d -> holds2 dom s u -> zlen o = cells2 dom ->
  exists o', biharmonic2 d s o = Ok (s, o') /\ holds_inside2 dom o' (Lap2 (d2_dx d) (Lap2 (d2_dx d) u)).
Proof. exact pf_C12_biharmonic_2d. Qed.
Print Assumptions C12_biharmonic_2d.

(** C12 on the program's own operators: on a periodic field, filling the halos, taking the
    Laplacian, filling its halos and taking the Laplacian again gives on the interior what
    the biharmonic gives directly. *)
Theorem C12_laplacian_twice_3d :
  forall (dom : domain R) (d : disc3 R) (s a b c : list R),
  valid_domain3 dom -> 2 <= nhalo dom -> nhalo dom <= nx dom /\ nhalo dom <= ny dom /\ nhalo dom <= nz dom ->
  make3 dom = Ok d -> zlen s = cells3 dom -> zlen a = cells3 dom -> zlen b = cells3 dom -> zlen c = cells3 dom ->
  exists s1 a1 a2 b1 c1,
    apply_periodic3 d s = Ok s1 /\
    laplacian3 d s1 a = Ok (s1, a1) /\ apply_periodic3 d a1 = Ok a2 /\ laplacian3 d a2 b = Ok (a2, b1) /\
    biharmonic3 d s1 c = Ok (s1, c1) /\
    forall i j k, inside3 dom i j k -> zget b1 (slot3 dom i j k) = zget c1 (slot3 dom i j k).
Proof. exact pf_C12_laplacian_twice_3d. Qed.
Print Assumptions C12_laplacian_twice_3d.

Example C12_ex : let dom := ex_dom 0%Q 3%Q 3 2 2 2 Periodic Periodic Periodic in
  let s := tabulate3 dom (fun i j k => inject_Z (i * i + 5 * i * j + k * k * i)) in
  exists d s1 a1 a2 b1 c1, @make3 Q Num_Q dom = Ok d /\ @apply_periodic3 Q d s = Ok s1 /\
    @laplacian3 Q Num_Q d s1 s = Ok (s1, a1) /\ @apply_periodic3 Q d a1 = Ok a2 /\
    @laplacian3 Q Num_Q d a2 s = Ok (a2, b1) /\ @biharmonic3 Q Num_Q d s1 s = Ok (s1, c1) /\
    zget b1 (slot3 dom 1 1 1) = zget c1 (slot3 dom 1 1 1) /\ zget c1 (slot3 dom 1 1 1) <> Some 0%Q.
Proof.
  do 6 eexists. repeat (split; [vm_compute; reflexivity|]). vm_compute; discriminate.
Qed.

(** C14: after a periodic fill the Laplacian and the biharmonic sum to zero over the interior. *)
Theorem C14_conservation_3d :
  forall (dom : domain R) (d : disc3 R) (s a b : list R) (va vb : Z -> Z -> Z -> R) s1 a1 b1,
  valid_domain3 dom -> 2 <= nhalo dom -> nhalo dom <= nx dom /\ nhalo dom <= ny dom /\ nhalo dom <= nz dom ->
  make3 dom = Ok d -> zlen s = cells3 dom -> zlen a = cells3 dom -> zlen b = cells3 dom ->
  apply_periodic3 d s = Ok s1 -> laplacian3 d s1 a = Ok (s1, a1) -> biharmonic3 d s1 b = Ok (s1, b1) ->
  holds_inside3 dom a1 va -> holds_inside3 dom b1 vb ->
  total3 dom va = 0%R /\ total3 dom vb = 0%R.
Proof. exact pf_C14_conservation_3d. Qed.
Print Assumptions C14_conservation_3d.
Theorem C14_conservation_2d :
  forall (dom : domain R) (d : disc2 R) (s a b : list R) (va vb : Z -> Z -> R) s1 a1 b1,
  valid_domain2 dom -> 2 <= nhalo dom -> nhalo dom <= nx dom ->
  make2 dom = Ok d -> zlen s = cells2 dom -> zlen a = cells2 dom -> zlen b = cells2 dom ->
  apply_periodic2 d s = Ok s1 -> laplacian2 d s1 a = Ok (s1, a1) -> biharmonic2 d s1 b = Ok (s1, b1) ->
  holds_inside2 dom a1 va -> holds_inside2 dom b1 vb ->
  total2 dom va = 0%R /\ total2 dom vb = 0%R.
Proof. exact pf_C14_conservation_2d. Qed.
Print Assumptions C14_conservation_2d.

Example C14_ex : (* the rational counterpart: the two interior sums of a concrete field *)
  let dom := ex_dom 0%Q 3%Q 3 2 2 2 Periodic Periodic Periodic in
  let s := tabulate3 dom (fun i j k => inject_Z (i * i + 5 * i * j + k * k * i)) in
  exists d s1 a1 b1, @make3 Q Num_Q dom = Ok d /\ @apply_periodic3 Q d s = Ok s1 /\
    @laplacian3 Q Num_Q d s1 s = Ok (s1, a1) /\ @biharmonic3 Q Num_Q d s1 s = Ok (s1, b1) /\
    zget a1 (slot3 dom 0 1 1) <> Some 0%Q /\
    fold_right (fun q acc => match zget a1 q with Some v => Qred (v + acc) | None => acc end) 0%Q (d3_interior d) = 0%Q /\
    fold_right (fun q acc => match zget b1 q with Some v => Qred (v + acc) | None => acc end) 0%Q (d3_interior d) = 0%Q.
Proof.
  do 4 eexists. repeat (split; [vm_compute; reflexivity|]). split; [vm_compute; discriminate|].
  vm_compute; auto.
Qed.

(** C15: with any combination of Neumann and periodic directions the Laplacian of the filled
    state still sums to zero. *)
Theorem C15_conservation_noflux :
  forall (dom : domain R) (d : disc3 R) (s a : list R) (va : Z -> Z -> Z -> R) s1 s2 a1,
  valid_domain3 dom -> 1 <= nhalo dom -> nhalo dom <= nx dom /\ nhalo dom <= ny dom /\ nhalo dom <= nz dom ->
  make3 dom = Ok d -> zlen s = cells3 dom -> zlen a = cells3 dom ->
  apply_periodic3 d s = Ok s1 -> apply_neumann3 d s1 = Ok s2 -> laplacian3 d s2 a = Ok (s2, a1) ->
  holds_inside3 dom a1 va ->
  total3 dom va = 0%R.
Proof. exact pf_C15_conservation_noflux. Qed.
Print Assumptions C15_conservation_noflux.

Example C15_ex : valid_domain3 ex_domain_R /\ ybc ex_domain_R = Neumann.
Proof. split; [apply ex_grid3|reflexivity]. Qed.

(** C15: the biharmonic with the clamped fill does not conserve: on the 3x2x2 unit-spacing grid with
    a Neumann x direction and the field c = i^2 its interior sum is not zero. *)
Theorem C15_biharmonic_refuted :
  exists (dom : domain R) (d : disc3 R) (s s1 s2 b b1 : list R) (vb : Z -> Z -> Z -> R),
  valid_domain3 dom /\ nhalo dom = 2 /\ xbc dom = Neumann /\ make3 dom = Ok d /\
  apply_periodic3 d s = Ok s1 /\ apply_neumann3 d s1 = Ok s2 /\ biharmonic3 d s2 b = Ok (s2, b1) /\
  holds_inside3 dom b1 vb /\ total3 dom vb <> 0%R.
Proof. exact pf_C15_biharmonic_refuted. Qed.
Print Assumptions C15_biharmonic_refuted.

(** C16: the right-hand side sums to -sigma times the sum of (c - m) (periodic directions,
    exact arithmetic, all kernel variants). *)
Theorem C16_mean_3d :
  forall (dom : domain R) (d : disc3 R) (variant : Z) (p : ch_params R) (c rhs : list R) (sc : scratch R)
    (u v : Z -> Z -> Z -> R) sc' c' r,
  valid_domain3 dom -> 2 <= nhalo dom -> nhalo dom <= nx dom /\ nhalo dom <= ny dom /\ nhalo dom <= nz dom ->
  xbc dom <> Neumann /\ ybc dom <> Neumann /\ zbc dom <> Neumann ->
  make3 dom = Ok d -> make_ch3 d variant = Ok sc -> zlen rhs = cells3 dom ->
  holds3 dom c u -> eval_rhs3 d variant p sc c rhs = Ok (sc', c', r) -> holds_inside3 dom r v ->
  total3 dom v = (- ch_sigma p * total3 dom (fun i j k => u i j k - ch_m p))%R.
Proof. exact pf_C16_mean_3d. Qed.
Print Assumptions C16_mean_3d.
Theorem C16_mean_2d :
  forall (dom : domain R) (d : disc2 R) (p : ch_params R) (c rhs : list R)
    (u v : Z -> Z -> R) sc' c' r,
  valid_domain2 dom -> 2 <= nhalo dom -> nhalo dom <= nx dom ->
  make2 dom = Ok d -> zlen rhs = cells2 dom ->
  holds2 dom c u -> eval_rhs2 d p (make_ch2 d) c rhs = Ok (sc', c', r) -> holds_inside2 dom r v ->
  total2 dom v = (- ch_sigma p * total2 dom (fun i j => u i j - ch_m p))%R.
Proof. exact pf_C16_mean_2d. Qed.
Print Assumptions C16_mean_2d.

Example C16_ex : (* rational counterpart, sigma = 2, m = 1/2: the sum of the right-hand side *)
  let dom := ex_dom 0%Q 2%Q 2 2 3 2 Periodic Periodic Periodic in
  let p := {| ch_m := 1#2; ch_sigma := 2#1; ch_eps2 := 1#4 |} in
  let c := tabulate3 dom (fun i j k => inject_Z (i + j * k)) in
  exists d sc sc' c' r, @make3 Q Num_Q dom = Ok d /\ @make_ch3 Q Num_Q d 1 = Ok sc /\
    @eval_rhs3 Q Num_Q d 1 p sc c c = Ok (sc', c', r) /\
    fold_right (fun q acc => match zget r q with Some v => Qred (v + acc) | None => acc end) 0%Q (d3_interior d)
      = (-12)%Q.
Proof.
  do 5 eexists. repeat (split; [vm_compute; reflexivity|]). vm_compute; reflexivity.
Qed.

(** C18: kernel variants 1 and 2 give bit-for-bit the same state and right-hand side array,
    and variant 0 the same state and interior values whenever dx*dx*dx*dx and
    (dx*dx)*(dx*dx) round alike (any arithmetic). *)
Theorem C18_variants_agree :
  forall (V : Type) (N : Num V) (dom : domain V) (d : disc3 V) (p : ch_params V) (c rhs : list V)
    (sc0 sc1 sc2 : scratch V),
  valid_domain3 dom -> 2 <= nhalo dom -> nhalo dom <= nx dom /\ nhalo dom <= ny dom /\ nhalo dom <= nz dom ->
  make3 dom = Ok d -> make_ch3 d 0 = Ok sc0 -> make_ch3 d 1 = Ok sc1 -> make_ch3 d 2 = Ok sc2 ->
  zlen c = cells3 dom -> zlen rhs = cells3 dom ->
  exists sc0' sc1' sc2' c' r0 r1,
    eval_rhs3 d 0 p sc0 c rhs = Ok (sc0', c', r0) /\
    eval_rhs3 d 1 p sc1 c rhs = Ok (sc1', c', r1) /\
    eval_rhs3 d 2 p sc2 c rhs = Ok (sc2', c', r1) /\
    (let dx := d3_dx d in
     nmul (nmul (nmul dx dx) dx) dx = nmul (nmul dx dx) (nmul dx dx) ->
     forall i j k, inside3 dom i j k -> zget r0 (slot3 dom i j k) = zget r1 (slot3 dom i j k)).
Proof. exact pf_C18_variants_agree. Qed.
Print Assumptions C18_variants_agree.

Example C18_ex : (* doubles, dx = 1/4: the rounding hypothesis holds *)
  let dx := f64_div (f64_int 1) (f64_int 4) in
  f64_mul (f64_mul (f64_mul dx dx) dx) dx = f64_mul (f64_mul dx dx) (f64_mul dx dx).
Proof. vm_compute; reflexivity. Qed.

(** C18, exact arithmetic: all three variants agree. *)
Theorem C18_variants_agree_exact :
  forall (dom : domain R) (d : disc3 R) (p : ch_params R) (c rhs : list R) (v w : Z) (scv scw : scratch R),
  valid_domain3 dom -> 2 <= nhalo dom -> nhalo dom <= nx dom /\ nhalo dom <= ny dom /\ nhalo dom <= nz dom ->
  make3 dom = Ok d -> make_ch3 d v = Ok scv -> make_ch3 d w = Ok scw ->
  zlen c = cells3 dom -> zlen rhs = cells3 dom ->
  exists scv' scw' c' rv rw,
    eval_rhs3 d v p scv c rhs = Ok (scv', c', rv) /\ eval_rhs3 d w p scw c rhs = Ok (scw', c', rw) /\
    forall i j k, inside3 dom i j k -> zget rv (slot3 dom i j k) = zget rw (slot3 dom i j k).
Proof. exact pf_C18_variants_agree_exact. Qed.
Print Assumptions C18_variants_agree_exact.

(** C18 without the rounding hypothesis fails for doubles: there is a spacing for which the
    two products differ. *)
Theorem C18_rounding_refuted :
  exists dx : f64, f64_mul (f64_mul (f64_mul dx dx) dx) dx <> f64_mul (f64_mul dx dx) (f64_mul dx dx).
Proof. exact pf_C18_rounding_refuted. Qed.
Print Assumptions C18_rounding_refuted.

(** C19, 3D: two states that agree on interior cells give the same right-hand side on
    interior cells and the same filled state, whatever their halos, the scratch arrays (of the
    right sizes) and the old contents of the right-hand side array hold. *)
Theorem C19_ignores_stale_3d :
  forall (V : Type) (N : Num V) (dom : domain V) (d : disc3 V) (variant : Z) (p : ch_params V)
    (c1 c2 rhs1 rhs2 : list V) (sc1 sc2 : scratch V),
  valid_domain3 dom -> 2 <= nhalo dom -> nhalo dom <= nx dom /\ nhalo dom <= ny dom /\ nhalo dom <= nz dom ->
  make3 dom = Ok d -> 0 <= variant <= 2 ->
  zlen c1 = cells3 dom -> zlen c2 = cells3 dom -> zlen rhs1 = cells3 dom -> zlen rhs2 = cells3 dom ->
  (forall sc, sc = sc1 \/ sc = sc2 -> zlen (sc_lap sc) = cells3 dom /\ zlen (sc_arg sc) = cells3 dom /\
     zlen (sc_bih sc) = cells3 dom /\ zlen (sc_lin sc) = cells3 dom) ->
  (forall i j k, inside3 dom i j k -> zget c1 (slot3 dom i j k) = zget c2 (slot3 dom i j k)) ->
  exists sc1' sc2' c' r1 r2,
    eval_rhs3 d variant p sc1 c1 rhs1 = Ok (sc1', c', r1) /\
    eval_rhs3 d variant p sc2 c2 rhs2 = Ok (sc2', c', r2) /\
    forall i j k, inside3 dom i j k -> zget r1 (slot3 dom i j k) = zget r2 (slot3 dom i j k).
Proof. exact pf_C19_ignores_stale_3d. Qed.
Print Assumptions C19_ignores_stale_3d.

Example C19_ex : let dom := ex_dom 0%Q 2%Q 2 2 3 2 Periodic Neumann Periodic in
  let p := {| ch_m := 1#2; ch_sigma := 2#1; ch_eps2 := 1#4 |} in
  let c1 := tabulate3 dom (fun i j k => inject_Z (i + j * k)) in
  let c2 := tabulate3 dom (fun i j k => if is_halo_cell 2 2 3 i j k then 99%Q else inject_Z (i + j * k)) in
  exists d sc sc1 sc2 c' r1 r2, @make3 Q Num_Q dom = Ok d /\ @make_ch3 Q Num_Q d 1 = Ok sc /\ c1 <> c2 /\
    @eval_rhs3 Q Num_Q d 1 p sc c1 c1 = Ok (sc1, c', r1) /\ @eval_rhs3 Q Num_Q d 1 p sc1 c2 c2 = Ok (sc2, c', r2) /\
    zget r1 (slot3 dom 1 1 2) = zget r2 (slot3 dom 1 1 2) /\ zget r1 (slot3 dom 1 1 2) <> Some 0%Q.
Proof.
  do 7 eexists. split; [vm_compute; reflexivity|]. split; [vm_compute; reflexivity|].
  split; [vm_compute; discriminate|]. split; [vm_compute; reflexivity|]. split; [vm_compute; reflexivity|].
  split; [vm_compute; reflexivity|vm_compute; discriminate].
Qed.

(** C19, 2D. *)
Theorem C19_ignores_stale_2d :
  forall (V : Type) (N : Num V) (dom : domain V) (d : disc2 V) (p : ch_params V)
    (c1 c2 rhs1 rhs2 : list V) (sc1 sc2 : scratch V),
  valid_domain2 dom -> 2 <= nhalo dom -> nhalo dom <= nx dom ->
  make2 dom = Ok d ->
  zlen c1 = cells2 dom -> zlen c2 = cells2 dom -> zlen rhs1 = cells2 dom -> zlen rhs2 = cells2 dom ->
  (forall sc, sc = sc1 \/ sc = sc2 -> zlen (sc_lap sc) = cells2 dom /\ zlen (sc_arg sc) = cells2 dom /\
     zlen (sc_bih sc) = cells2 dom /\ zlen (sc_lin sc) = cells2 dom) ->
  (forall i j, inside2 dom i j -> zget c1 (slot2 dom i j) = zget c2 (slot2 dom i j)) ->
  exists sc1' sc2' c' r,
    eval_rhs2 d p sc1 c1 rhs1 = Ok (sc1', c', r) /\ eval_rhs2 d p sc2 c2 rhs2 = Ok (sc2', c', r).
Proof. exact pf_C19_ignores_stale_2d. Qed.
Print Assumptions C19_ignores_stale_2d.

Example C19_2d_ex : let dom := ex_dom 0%Q 2%Q 2 0 0 2 Periodic Periodic Periodic in
  let p := {| ch_m := 1#2; ch_sigma := 2#1; ch_eps2 := 1#4 |} in
  let c1 := tabulate2 dom (fun i j => inject_Z (i + j * j)) in
  exists d sc1 c' r1, @make2 Q Num_Q dom = Ok d /\
    @eval_rhs2 Q Num_Q d p (@make_ch2 Q Num_Q d) c1 c1 = Ok (sc1, c', r1) /\ zget r1 (slot2 dom 1 1) = Some (-31)%Q.
Proof.
  do 4 eexists. split; [vm_compute; reflexivity|]. split; [vm_compute; reflexivity|]. vm_compute; reflexivity.
Qed.

(** C20: periodic directions, any arithmetic: shifting the state cyclically by (a,b,e) shifts
    the right-hand side by the same amount. *)
Theorem C20_translation_3d :
  forall (V : Type) (N : Num V) (dom : domain V) (d : disc3 V) (variant : Z) (p : ch_params V)
    (c1 c2 rhs : list V) (sc : scratch V) (u : Z -> Z -> Z -> V) (a b e : Z),
  valid_domain3 dom -> 2 <= nhalo dom -> nhalo dom <= nx dom /\ nhalo dom <= ny dom /\ nhalo dom <= nz dom ->
  xbc dom <> Neumann /\ ybc dom <> Neumann /\ zbc dom <> Neumann ->
  make3 dom = Ok d -> make_ch3 d variant = Ok sc -> zlen rhs = cells3 dom ->
  holds3 dom c1 u ->
  holds3 dom c2 (fun i j k => u ((i + a) mod nx dom) ((j + b) mod ny dom) ((k + e) mod nz dom)) ->
  exists sc1 sc2 c1' c2' r1 r2,
    eval_rhs3 d variant p sc c1 rhs = Ok (sc1, c1', r1) /\
    eval_rhs3 d variant p sc c2 rhs = Ok (sc2, c2', r2) /\
    forall i j k, inside3 dom i j k ->
      zget r2 (slot3 dom i j k) =
      zget r1 (slot3 dom ((i + a) mod nx dom) ((j + b) mod ny dom) ((k + e) mod nz dom)).
Proof. exact pf_C20_translation_3d. Qed.
Print Assumptions C20_translation_3d.

Example C20_ex : let dom := ex_dom 0%Q 2%Q 2 2 3 2 Periodic Periodic Periodic in
  let p := {| ch_m := 1#2; ch_sigma := 2#1; ch_eps2 := 1#4 |} in
  let u := fun i j k => inject_Z (3 * i + j * k) in
  let c1 := tabulate3 dom u in
  let c2 := tabulate3 dom (fun i j k => u ((i + 1) mod 2) ((j + 1) mod 2) ((k + 2) mod 3)) in
  exists d sc sc1 sc2 c1' c2' r1 r2, @make3 Q Num_Q dom = Ok d /\ @make_ch3 Q Num_Q d 2 = Ok sc /\
    @eval_rhs3 Q Num_Q d 2 p sc c1 c1 = Ok (sc1, c1', r1) /\ @eval_rhs3 Q Num_Q d 2 p sc c2 c2 = Ok (sc2, c2', r2) /\
    zget r2 (slot3 dom 0 1 2) = zget r1 (slot3 dom 1 0 1) /\ zget r1 (slot3 dom 1 0 1) <> zget r1 (slot3 dom 1 1 1).
Proof.
  do 8 eexists. repeat (split; [vm_compute; reflexivity|]). vm_compute; discriminate.
Qed.

(** C20, 2D. *)
Theorem C20_translation_2d :
  forall (V : Type) (N : Num V) (dom : domain V) (d : disc2 V) (p : ch_params V)
    (c1 c2 rhs : list V) (u : Z -> Z -> V) (a b : Z),
  valid_domain2 dom -> 2 <= nhalo dom -> nhalo dom <= nx dom ->
  make2 dom = Ok d -> zlen rhs = cells2 dom ->
  holds2 dom c1 u -> holds2 dom c2 (fun i j => u ((i + a) mod nx dom) ((j + b) mod nx dom)) ->
  exists sc1 sc2 c1' c2' r1 r2,
    eval_rhs2 d p (make_ch2 d) c1 rhs = Ok (sc1, c1', r1) /\
    eval_rhs2 d p (make_ch2 d) c2 rhs = Ok (sc2, c2', r2) /\
    forall i j, inside2 dom i j ->
      zget r2 (slot2 dom i j) = zget r1 (slot2 dom ((i + a) mod nx dom) ((j + b) mod nx dom)).
Proof. exact pf_C20_translation_2d. Qed.
Print Assumptions C20_translation_2d.

(** C21, 3D: for every variant and boundary combination the right-hand side is
    Lap(c^3 - c) - eps2 Lap(Lap c) - sigma (c - m) of the boundary-extended state (exact
    arithmetic; [CH3] is defined in SpecField.v), and the state comes back extended. *)
Theorem C21_equation_3d :
  forall (dom : domain R) (d : disc3 R) (variant : Z) (p : ch_params R) (c rhs : list R) (sc : scratch R)
    (u : Z -> Z -> Z -> R),
  valid_domain3 dom -> 2 <= nhalo dom -> nhalo dom <= nx dom /\ nhalo dom <= ny dom /\ nhalo dom <= nz dom ->
  make3 dom = Ok d -> make_ch3 d variant = Ok sc -> zlen rhs = cells3 dom -> holds3 dom c u ->
  exists sc' c' r, eval_rhs3 d variant p sc c rhs = Ok (sc', c', r) /\
    holds3 dom c' (extend3 dom u) /\
    holds_inside3 dom r (CH3 (d3_dx d) (ch_m p) (ch_sigma p) (ch_eps2 p) (extend3 dom u)).
Proof. exact pf_C21_equation_3d. Qed.
Print Assumptions C21_equation_3d.

Example C21_ex : exists d sc, make3 ex_domain_R = Ok d /\ make_ch3 d 1 = Ok sc /\ make_ch3 d 3 = Fatal.
Proof.
  destruct ex_grid3 as (_ & (d & M) & _). exists d. eexists. split; [exact M|]. split; reflexivity.
Qed.

(** C21, 2D. *)
Theorem C21_equation_2d :
  forall (dom : domain R) (d : disc2 R) (p : ch_params R) (c rhs : list R) (u : Z -> Z -> R),
  valid_domain2 dom -> 2 <= nhalo dom -> nhalo dom <= nx dom ->
  make2 dom = Ok d -> zlen rhs = cells2 dom -> holds2 dom c u ->
  exists sc' c' r, eval_rhs2 d p (make_ch2 d) c rhs = Ok (sc', c', r) /\
    holds2 dom c' (periodic2 dom u) /\
    holds_inside2 dom r (CH2 (d2_dx d) (ch_m p) (ch_sigma p) (ch_eps2 p) (periodic2 dom u)).
Proof. exact pf_C21_equation_2d. Qed.
Print Assumptions C21_equation_2d.

(** C22: on a uniform state of value v the right-hand side is -sigma (v - m) everywhere, for
    every boundary combination; so the uniform state m is an equilibrium. *)
Theorem C22_uniform_3d :
  forall (dom : domain R) (d : disc3 R) (variant : Z) (p : ch_params R) (c rhs : list R) (sc : scratch R) (v : R),
  valid_domain3 dom -> 2 <= nhalo dom -> nhalo dom <= nx dom /\ nhalo dom <= ny dom /\ nhalo dom <= nz dom ->
  make3 dom = Ok d -> make_ch3 d variant = Ok sc -> zlen rhs = cells3 dom ->
  holds_inside3 dom c (fun _ _ _ => v) ->
  exists sc' c' r, eval_rhs3 d variant p sc c rhs = Ok (sc', c', r) /\
    holds_inside3 dom r (fun _ _ _ => (- ch_sigma p * (v - ch_m p))%R).
Proof. exact pf_C22_uniform_3d. Qed.
Print Assumptions C22_uniform_3d.

Example C22_ex : let dom := ex_dom 0%Q 2%Q 2 2 3 2 Periodic Neumann Periodic in
  let p := {| ch_m := 1#2; ch_sigma := 2#1; ch_eps2 := 1#4 |} in
  let c := tabulate3 dom (fun i j k => if is_halo_cell 2 2 3 i j k then 7%Q else 3%Q) in
  exists d sc sc1 c' r, @make3 Q Num_Q dom = Ok d /\ @make_ch3 Q Num_Q d 0 = Ok sc /\
    @eval_rhs3 Q Num_Q d 0 p sc c c = Ok (sc1, c', r) /\ zget r (slot3 dom 1 0 2) = Some (-5)%Q.
Proof. do 5 eexists. repeat (split; [vm_compute; reflexivity|]). vm_compute; reflexivity. Qed.

(** C22, 2D. *)
Theorem C22_uniform_2d :
  forall (dom : domain R) (d : disc2 R) (p : ch_params R) (c rhs : list R) (v : R),
  valid_domain2 dom -> 2 <= nhalo dom -> nhalo dom <= nx dom ->
  make2 dom = Ok d -> zlen rhs = cells2 dom -> holds_inside2 dom c (fun _ _ => v) ->
  exists sc' c' r, eval_rhs2 d p (make_ch2 d) c rhs = Ok (sc', c', r) /\
    holds_inside2 dom r (fun _ _ => (- ch_sigma p * (v - ch_m p))%R).
Proof. exact pf_C22_uniform_2d. Qed.
Print Assumptions C22_uniform_2d.

(** C23, 3D: with periodic directions and sigma zero the derivative of the discrete free
    energy along the right-hand side is minus the sum of the squared forward differences of
    the chemical potential mu = c^3 - c - eps2 Lap c, hence never positive. *)
Theorem C23_energy_3d :
  forall (dom : domain R) (d : disc3 R) (variant : Z) (p : ch_params R) (c rhs : list R) (sc : scratch R)
    (u v : Z -> Z -> Z -> R) sc' c' r,
  valid_domain3 dom -> 2 <= nhalo dom -> nhalo dom <= nx dom /\ nhalo dom <= ny dom /\ nhalo dom <= nz dom ->
  xbc dom <> Neumann /\ ybc dom <> Neumann /\ zbc dom <> Neumann -> xbeg dom <> xend dom ->
  ch_sigma p = 0%R ->
  make3 dom = Ok d -> make_ch3 d variant = Ok sc -> zlen rhs = cells3 dom ->
  holds3 dom c u -> eval_rhs3 d variant p sc c rhs = Ok (sc', c', r) -> holds_inside3 dom r v ->
  let h := d3_dx d in
  let w := periodic3 dom u in
  let mu (i j k : Z) := (w i j k ^ 3 - w i j k - ch_eps2 p * Lap3 h w i j k)%R in
  let D := (- total3 dom (fun i j k =>
      ((mu (i + 1)%Z j k - mu i j k) / h) ^ 2 + ((mu i (j + 1)%Z k - mu i j k) / h) ^ 2
      + ((mu i j (k + 1)%Z - mu i j k) / h) ^ 2))%R in
  derivable_pt_lim (fun t => energy3 dom h (ch_eps2 p) (fun i j k => u i j k + t * v i j k)%R) 0 D /\
  (D <= 0)%R.
Proof. exact pf_C23_energy_3d. Qed.
Print Assumptions C23_energy_3d.

Example C23_ex : valid_domain3 ex_periodic_R /\ xbeg ex_periodic_R <> xend ex_periodic_R /\
  (xbc ex_periodic_R <> Neumann /\ ybc ex_periodic_R <> Neumann /\ zbc ex_periodic_R <> Neumann) /\
  exists d, make3 ex_periodic_R = Ok d.
Proof.
  assert (V : valid_domain3 ex_periodic_R) by (vm_compute; repeat split; discriminate).
  split; auto. split; [apply Rlt_not_eq, Rlt_0_1|]. split; [cbn; repeat split; discriminate|].
  destruct (make3_ok _ V) as (d & H & _). eauto.
Qed.

(** C23, 2D. *)
Theorem C23_energy_2d :
  forall (dom : domain R) (d : disc2 R) (p : ch_params R) (c rhs : list R)
    (u v : Z -> Z -> R) sc' c' r,
  valid_domain2 dom -> 2 <= nhalo dom -> nhalo dom <= nx dom -> xbeg dom <> xend dom ->
  ch_sigma p = 0%R ->
  make2 dom = Ok d -> zlen rhs = cells2 dom ->
  holds2 dom c u -> eval_rhs2 d p (make_ch2 d) c rhs = Ok (sc', c', r) -> holds_inside2 dom r v ->
  let h := d2_dx d in
  let w := periodic2 dom u in
  let mu (i j : Z) := (w i j ^ 3 - w i j - ch_eps2 p * Lap2 h w i j)%R in
  let D := (- total2 dom (fun i j =>
      ((mu (i + 1)%Z j - mu i j) / h) ^ 2 + ((mu i (j + 1)%Z - mu i j) / h) ^ 2))%R in
  derivable_pt_lim (fun t => energy2 dom h (ch_eps2 p) (fun i j => u i j + t * v i j)%R) 0 D /\
  (D <= 0)%R.
Proof. exact pf_C23_energy_2d. Qed.
Print Assumptions C23_energy_2d.
