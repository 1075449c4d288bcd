(** The implicit integrator: C51 to C54, and C17 for it.

    [bdf_new] is the constructor of the multigrid integrator for the 3D Cahn-Hilliard
    equation, [bdf_step] one implicit (or steady) time step, [time_step_cycle] the cycles of
    one step from a given old state, [reached g b0 b] says that b arises from b0 by steps and
    by overwriting the solver's arrays.  The mathematical V-cycle is [vcycles] in SpecMG. *)
From Coq Require Import ZArith List Reals SpecFloat.
From Verif Require Import Outcome ZList Num SpecGrid ModelDisc3D ModelCH SpecField ModelTime SpecTime
  ModelMG ModelMGCH SpecMG MGFinal.
Import ListNotations.
Local Open Scope Z_scope.
Local Open Scope list_scope.

(** For one to six levels and any number of smoothings the cycle starts and ends on the finest
    level, moves by at most one level at a time, never leaves the level range, visits every
    level and smooths each level twice the number of smoothings; any other level count is
    rejected. *)
Theorem C51_cycle :
  forall nlevels nsmooth, 0 <= nsmooth ->
  (1 <= nlevels <= 6 ->
     exists cycle, get_mg_cycle nlevels nsmooth = Ok cycle /\
       (forall z, In z cycle -> z = -1 \/ z = 0 \/ z = 1) /\
       (forall l, In l (levels_visited 0 cycle) <-> 0 <= l < nlevels) /\
       last (levels_visited 0 cycle) 0 = 0 /\
       (forall l, 0 <= l < nlevels -> smoothings l 0 cycle = (2 * Z.to_nat nsmooth)%nat)) /\
  (~ 1 <= nlevels <= 6 -> get_mg_cycle nlevels nsmooth = Fatal).
Proof. exact pf_C51_cycle. Qed.
Print Assumptions C51_cycle.

Example C51_ex : get_mg_cycle 3 2 = Ok [0; 0; 1; 0; 0; 1; 0; 0; 0; 0; -1; 0; 0; -1; 0; 0] /\
  levels_visited 0 [0; 0; 1; 0; 0; 1; 0; 0; 0; 0; -1; 0; 0; -1; 0; 0] =
    [0; 0; 0; 1; 1; 1; 2; 2; 2; 2; 2; 1; 1; 1; 0; 0; 0] /\ get_mg_cycle 7 2 = Fatal.
Proof. repeat split. Qed.

(** A negative number of smoothings never gives a cycle: the allocation of the smoothing
    entries throws. *)
Theorem C51_negative_smoothings :
  forall nlevels nsmooth, nsmooth < 0 -> get_mg_cycle nlevels nsmooth = Throw.
Proof. exact pf_C51_negative_smoothings. Qed.
Print Assumptions C51_negative_smoothings.

Example C51_negative_ex : get_mg_cycle 2 (-1) = Throw.
Proof. reflexivity. Qed.

(** The integrator can be constructed exactly when the level count is 1 to 6 and every cell
    count is divisible by 2 to the number of coarse levels (the number of smoothings not being
    negative); otherwise construction is a fatal error.  It then has one entry per level. *)
Theorem C51_constructor :
  forall (V : Type) (N : Num V) (q : mg_options V) (dom : domain V) (d : disc3 V) (variant : Z) (p : ch_params V)
    (sc : scratch V) rmax rsum pw (u du : state V),
  valid_domain3 dom -> make3 dom = Ok d -> make_ch3 d variant = Ok sc -> 0 <= q_nsmooth q ->
  let ok := 1 <= q_levels q <= 6 /\ nx dom mod 2 ^ (q_levels q - 1) = 0 /\ ny dom mod 2 ^ (q_levels q - 1) = 0 /\
            nz dom mod 2 ^ (q_levels q - 1) = 0 in
  (ok -> exists g b, bdf_new q d variant p sc rmax rsum pw u du = Ok (g, b) /\
     Z.of_nat (length (b_levels b)) = q_levels q /\ solution b = u) /\
  (~ ok -> bdf_new q d variant p sc rmax rsum pw u du = Fatal).
Proof. exact pf_C51_constructor. Qed.
Print Assumptions C51_constructor.

Example C51_constructor_ex : exists d sc g b, make3 mg_dom = Ok d /\ make_ch3 d 1 = Ok sc /\
  bdf_new mg_opts d 1 mg_par sc (fun i _ => i) (fun _ => 0%R) (fun x _ => x) (new_state3 d) (new_state3 d) = Ok (g, b) /\
  length (b_levels b) = 2%nat.
Proof. exact mg_example_built. Qed.

(** One implicit or steady step on any equation whose right-hand side objects and grid
    transfers implement functions of the cell values (which they do for the Cahn-Hilliard
    equation, see the example): the state becomes that of between 0 and max_cycles exact copies
    of the recursive full-approximation V-cycle for the equation u' = f(u) - (u - old)/dt (or
    u' = f(u) for steady runs), in any arithmetic, so for doubles bit for bit. *)
Theorem C52_step_is_vcycles :
  forall (V : Type) (N : Num V) (S : Type) (g : mg_config V S) (ok : nat -> S -> Prop) (nv : nat) (size : nat -> Z)
    (P Q : nat -> Z -> Prop) (ext : nat -> field V -> field V) (f : nat -> V -> field V -> field V)
    (rest prol : nat -> field V -> field V) (nlevels nsmooth : Z) (b : mg_world V S) (w : field V) (time dt : V),
  (* the objects of every level implement these functions *)
  (forall k u, same_on nv (size k) (P k) (ext k u) u) -> (forall k i, P k i -> Q k i) ->
  (forall k, Z.of_nat k < nlevels -> computes_ext (g_eval g k) (ok k) nv (size k) (P k) (Q k) (ext k) (f k)) ->
  (forall k, Z.of_nat (1 + k) < nlevels ->
     transfers (g_restrict g (1 + k)) nv (size k) (P k) (size (1 + k)%nat) (P (1 + k)%nat) (rest (1 + k)%nat) /\
     transfers (g_prolong g (1 + k)) nv (size (1 + k)%nat) (Q (1 + k)%nat) (size k) (P k) (prol (1 + k)%nat)) ->
  get_mg_cycle nlevels nsmooth = Ok (g_cycle g) -> 1 <= nsmooth -> 1 <= nlevels <= 6 ->
  (forall i, In i (g_interior g) -> 0 <= i < size 0%nat) -> (0 < nv)%nat ->
  (* the levels' arrays have the sizes their constructors give them *)
  Z.of_nat (length (b_levels b)) = nlevels ->
  (forall k v, nth_error (b_levels b) k = Some v -> level_fits (ok k) nv size k v) -> shaped nv (size 0%nat) (b_res0 b) ->
  state_holds nv (size 0%nat) (P 0%nat) (solution b) w ->
  exists b' k dt0 dts, bdf_step g b time dt = Ok b' /\ (k <= Z.to_nat (g_max_cycles g))%nat /\
    (b_ncycles b' = 0 /\ k = Z.to_nat (g_max_cycles g) \/ b_ncycles b' = Z.of_nat k /\ (0 < k)%nat) /\
    state_holds nv (size 0%nat) (P 0%nat) (solution b')
      (vcycles k (Z.to_nat nsmooth) time (implicit_rhs (g_steady g) (f 0%nat) dt w) (ext 0%nat) dt0 (g_cfl g 0) (g_relax g)
         (g_coarse_relax g)
         (map (fun k => {| l_f := f k; l_ext := ext k; l_rest := rest k; l_prol := prol k; l_cfl := g_cfl g k; l_dt := dts k |})
            (seq 1 (Z.to_nat (nlevels - 1)))) w).
Proof. exact pf_C52_step_is_vcycles. Qed.
Print Assumptions C52_step_is_vcycles.

Example C52_step_is_vcycles_ex :
  forall (V : Type) (N : Num V) (q : mg_options V) (dom : domain V) (d : disc3 V) (variant : Z) (p : ch_params V)
    (sc : scratch V) rmax rsum pw (u du : state V) (g : mg_config V (scratch V)) (b0 : mg_world V (scratch V)),
  valid_domain3 dom -> 2 <= nhalo dom -> thick_at (q_levels q - 1) dom ->
  make3 dom = Ok d -> make_ch3 d variant = Ok sc -> 1 <= q_nsmooth q -> q_interp q <> MGOther ->
  shaped 1 (cells3 dom) u -> shaped 1 (cells3 dom) du ->
  bdf_new q d variant p sc rmax rsum pw u du = Ok (g, b0) ->
  exists (ok : nat -> scratch V -> Prop) (size : nat -> Z) (P Q : nat -> Z -> Prop) (ext : nat -> field V -> field V)
    (f : nat -> V -> field V -> field V) (rest prol : nat -> field V -> field V),
  (forall k u, same_on 1 (size k) (P k) (ext k u) u) /\ (forall k i, P k i -> Q k i) /\
  (forall k, Z.of_nat k < q_levels q -> computes_ext (g_eval g k) (ok k) 1 (size k) (P k) (Q k) (ext k) (f k)) /\
  (forall k, Z.of_nat (1 + k) < q_levels q ->
     transfers (g_restrict g (1 + k)) 1 (size k) (P k) (size (1 + k)%nat) (P (1 + k)%nat) (rest (1 + k)%nat) /\
     transfers (g_prolong g (1 + k)) 1 (size (1 + k)%nat) (Q (1 + k)%nat) (size k) (P k) (prol (1 + k)%nat)) /\
  get_mg_cycle (q_levels q) (q_nsmooth q) = Ok (g_cycle g) /\ 1 <= q_levels q <= 6 /\
  (forall i, In i (g_interior g) -> 0 <= i < size 0%nat) /\
  (forall b, reached g b0 b -> Z.of_nat (length (b_levels b)) = q_levels q /\
     (forall k v, nth_error (b_levels b) k = Some v -> level_fits (ok k) 1 size k v) /\ shaped 1 (size 0%nat) (b_res0 b)) /\
  (forall z, P 0%nat z <-> exists i j k, inside3 dom i j k /\ z = slot3 dom i j k).
Proof. exact mg_example_instance. Qed.

(** C52 (exact arithmetic), 3D Cahn-Hilliard, any boundary types, any history before: if the
    solver's state w solves the implicit equation for the old state wo, that is
    CH(w) = (w - wo)/dt, or CH(w) = 0 in a steady run, then the cycles of a step, however many
    are made, leave it unchanged on the interior. *)
Theorem C52_cycles_keep_solution :
  forall (q : mg_options R) (dom : domain R) (d : disc3 R) (variant : Z) (p : ch_params R) (sc : scratch R)
    rmax rsum pw (u du : state R) (g : mg_config R (scratch R)) (b0 b : mg_world R (scratch R))
    (old : state R) (w wo : Z -> Z -> Z -> R) (time dt : R),
  valid_domain3 dom -> 2 <= nhalo dom -> thick_at (q_levels q - 1) dom ->
  make3 dom = Ok d -> make_ch3 d variant = Ok sc -> 1 <= q_nsmooth q -> q_interp q <> MGOther ->
  shaped 1 (cells3 dom) u -> shaped 1 (cells3 dom) du ->
  bdf_new q d variant p sc rmax rsum pw u du = Ok (g, b0) -> reached g b0 b ->
  state_inside3 dom (solution b) w -> state_inside3 dom old wo ->
  (forall i j k, inside3 dom i j k ->
     CH3 (d3_dx d) (ch_m p) (ch_sigma p) (ch_eps2 p) (extend3 dom w) i j k =
     if q_steady q then 0%R else ((1 / dt) * (w i j k - wo i j k))%R) ->
  exists vs' ncycles rate, time_step_cycle g time dt old (b_levels b) = Ok (vs', ncycles, rate) /\
    state_inside3 dom (solution_of vs') w.
Proof. exact pf_C52_cycles_keep_solution. Qed.
Print Assumptions C52_cycles_keep_solution.

(** The uniform state 1/2 solves the implicit equation for the old state 1/2 + dt 3/4. *)
Example C52_cycles_keep_solution_ex : exists d sc g b0 b, valid_domain3 mg_dom /\ 2 <= nhalo mg_dom /\
  thick_at (q_levels mg_opts - 1) mg_dom /\ make3 mg_dom = Ok d /\ make_ch3 d 1 = Ok sc /\
  shaped 1 (cells3 mg_dom) (new_state3 d) /\
  bdf_new mg_opts d 1 mg_par sc (fun i _ => i) (fun _ => 0%R) (fun x _ => x) (new_state3 d) (new_state3 d) = Ok (g, b0) /\
  reached g b0 b /\ state_inside3 mg_dom (solution b) (fun _ _ _ => 1 / 2)%R /\
  state_inside3 mg_dom (const3 d (1 / 2 + 2 * (3 / 4))) (fun _ _ _ => 1 / 2 + 2 * (3 / 4))%R /\
  (forall i j k, CH3 (d3_dx d) (ch_m mg_par) (ch_sigma mg_par) (ch_eps2 mg_par) (extend3 mg_dom (fun _ _ _ => 1 / 2)%R) i j k =
     ((1 / 2) * (1 / 2 - (1 / 2 + 2 * (3 / 4))))%R).
Proof. exact mg_example_solution. Qed.

(** C52 for whole steps: a state with CH(w) = 0 is unchanged by implicit and steady steps of
    any size. *)
Theorem C52_step_keeps_steady_state :
  forall (q : mg_options R) (dom : domain R) (d : disc3 R) (variant : Z) (p : ch_params R) (sc : scratch R)
    rmax rsum pw (u du : state R) (g : mg_config R (scratch R)) (b0 b : mg_world R (scratch R))
    (w : Z -> Z -> Z -> R) (time dt : R),
  valid_domain3 dom -> 2 <= nhalo dom -> thick_at (q_levels q - 1) dom ->
  make3 dom = Ok d -> make_ch3 d variant = Ok sc -> 1 <= q_nsmooth q -> q_interp q <> MGOther ->
  shaped 1 (cells3 dom) u -> shaped 1 (cells3 dom) du ->
  bdf_new q d variant p sc rmax rsum pw u du = Ok (g, b0) -> reached g b0 b ->
  state_inside3 dom (solution b) w ->
  (forall i j k, inside3 dom i j k ->
     CH3 (d3_dx d) (ch_m p) (ch_sigma p) (ch_eps2 p) (extend3 dom w) i j k = 0%R) ->
  exists b', bdf_step g b time dt = Ok b' /\ state_inside3 dom (solution b') w.
Proof. exact pf_C52_step_keeps_steady_state. Qed.
Print Assumptions C52_step_keeps_steady_state.

(** The uniform state m is steady. *)
Example C52_step_keeps_steady_state_ex : exists d sc g b0 b, valid_domain3 mg_dom /\ 2 <= nhalo mg_dom /\
  thick_at (q_levels mg_opts - 1) mg_dom /\ make3 mg_dom = Ok d /\ make_ch3 d 1 = Ok sc /\
  shaped 1 (cells3 mg_dom) (new_state3 d) /\
  bdf_new mg_opts d 1 mg_par sc (fun i _ => i) (fun _ => 0%R) (fun x _ => x) (new_state3 d) (new_state3 d) = Ok (g, b0) /\
  reached g b0 b /\ state_inside3 mg_dom (solution b) (fun _ _ _ => 1 / 4)%R /\
  (forall i j k, CH3 (d3_dx d) (ch_m mg_par) (ch_sigma mg_par) (ch_eps2 mg_par) (extend3 mg_dom (fun _ _ _ => 1 / 4)%R) i j k = 0%R).
Proof. exact mg_example_steady. Qed.

(** C52 (exact arithmetic), what a step computes in three dimensions: at most max-cycles
    full-approximation cycles for the implicit equation, where level l solves the Cahn-Hilliard
    equation on the domain with its cell counts halved l times, restriction averages eight cells,
    prolongation copies cells (or reproduces states linear in y and z), and every smoothing step on
    level l has the size CFL * h_l^4, except that the first ones of a new solver have the size
    1e-6. *)
Theorem C52_step_3d :
  forall (q : mg_options R) (dom : domain R) (d : disc3 R) (variant : Z) (p : ch_params R) (sc : scratch R)
    rmax rsum pw (u du : state R) (g : mg_config R (scratch R)) (b0 b : mg_world R (scratch R))
    (w : Z -> Z -> Z -> R) (time dt : R),
  valid_domain3 dom -> 2 <= nhalo dom -> thick_at (q_levels q - 1) dom ->
  make3 dom = Ok d -> make_ch3 d variant = Ok sc -> 1 <= q_nsmooth q -> q_interp q <> MGOther ->
  shaped 1 (cells3 dom) u -> shaped 1 (cells3 dom) du ->
  bdf_new q d variant p sc rmax rsum pw u du = Ok (g, b0) -> reached g b0 b ->
  state_inside3 dom (solution b) w ->
  exists (b' : mg_world R (scratch R)) (n : nat) (first : Z -> R) (prol : (Z -> Z -> Z -> R) -> Z -> Z -> Z -> R),
    let L := ch_level3 prol (ch_m p) (ch_sigma p) (ch_eps2 p) (q_cfl q) first dom in
    bdf_step g b time dt = Ok b' /\ (n <= Z.to_nat (q_max_cycles q))%nat /\
    state_inside3 dom (solution b') (cells_of dom
      (vcycles n (Z.to_nat (q_nsmooth q)) time
        (implicit_rhs (q_steady q) (l_f (L 0)) dt (table_of dom w)) (l_ext (L 0))
        (first 0) (smoothing_step (q_cfl q) dom 0) (q_relax q) (q_coarse_relax q)
        (map (fun l => L (Z.of_nat l)) (seq 1 (Z.to_nat (q_levels q - 1)))) (table_of dom w))) /\
    (forall l, 0 <= l < q_levels q -> first l = (1 / 1000000)%R \/ first l = smoothing_step (q_cfl q) dom l) /\
    (b = b0 -> forall l, 0 <= l < q_levels q -> first l = (1 / 1000000)%R) /\
    (forall b1 t1 dt1, reached g b0 b1 -> bdf_step g b1 t1 dt1 = Ok b -> 1 <= q_max_cycles q ->
       forall l, 0 <= l < q_levels q -> first l = smoothing_step (q_cfl q) dom l) /\
    (q_interp q = MGNearest -> forall v i j k, prol v i j k = v (i / 2) (j / 2) (k / 2)) /\
    (q_interp q = MGLinear -> forall v a c e,
       (forall i j k, v i j k = a + c * (2 * IZR j + 1) + e * (2 * IZR k + 1))%R ->
       forall i j k, (prol v i j k = a + c * (IZR j + 1 / 2) + e * (IZR k + 1 / 2))%R).
Proof. exact pf_C52_step_3d. Qed.
Print Assumptions C52_step_3d.

(** Two levels, starting from the uniform state 1/4. *)
Example C52_step_3d_ex : exists d sc g b0 b, valid_domain3 mg_dom /\ 2 <= nhalo mg_dom /\
  thick_at (q_levels mg_opts - 1) mg_dom /\ make3 mg_dom = Ok d /\ make_ch3 d 1 = Ok sc /\
  shaped 1 (cells3 mg_dom) (new_state3 d) /\
  bdf_new mg_opts d 1 mg_par sc (fun i _ => i) (fun _ => 0%R) (fun x _ => x) (new_state3 d) (new_state3 d) = Ok (g, b0) /\
  reached g b0 b /\ state_inside3 mg_dom (solution b) (fun _ _ _ => 1 / 4)%R /\
  1 <= q_nsmooth mg_opts /\ q_interp mg_opts <> MGOther /\ 1 <= q_max_cycles mg_opts /\
  smoothing_step (q_cfl mg_opts) mg_dom 1 = (16 * smoothing_step (q_cfl mg_opts) mg_dom 0)%R.
Proof.
  destruct mg_example_steady as (d & sc & g & b0 & b & A1 & A2 & A3 & A4 & A5 & A6 & A7 & A8 & A9 & _).
  exists d, sc, g, b0, b. do 9 (split; [assumption|]). split; [cbn; lia|]. split; [cbn; discriminate|]. split; [cbn; lia|].
  unfold smoothing_step, spacing_at. cbn. field.
Qed.

(** C53 (exact arithmetic): setting up level l from a fine state w and a fine residual r gives
    level l the cell averages of w, and the right-hand side of level l, evaluated there at any
    time, is the cell averages of r, whatever happened before. *)
Theorem C53_coarse_equation :
  forall (q : mg_options R) (dom : domain R) (d : disc3 R) (variant : Z) (p : ch_params R) (sc : scratch R)
    rmax rsum pw (u du : state R) (g : mg_config R (scratch R)) (b0 b : mg_world R (scratch R))
    (l : nat) (v : level R (scratch R)) (fine_state fine_res : state R) (w r : Z -> Z -> Z -> R) (time : R),
  valid_domain3 dom -> 2 <= nhalo dom -> thick_at (q_levels q - 1) dom ->
  make3 dom = Ok d -> make_ch3 d variant = Ok sc -> 1 <= q_nsmooth q -> q_interp q <> MGOther ->
  shaped 1 (cells3 dom) u -> shaped 1 (cells3 dom) du ->
  bdf_new q d variant p sc rmax rsum pw u du = Ok (g, b0) -> reached g b0 b ->
  (1 <= l)%nat -> nth_error (b_levels b) l = Some v ->
  state_inside3 (coarse_dom dom (Z.of_nat l - 1)) fine_state w ->
  state_inside3 (coarse_dom dom (Z.of_nat l - 1)) fine_res r ->
  exists v', set_coarse g l fine_state fine_res time v = Ok v' /\
    state_inside3 (coarse_dom dom (Z.of_nat l)) (v_u v') (average8 w) /\
    forall dt old t r0, shaped 1 (cells3 (coarse_dom dom (Z.of_nat l))) r0 ->
    exists sc' u' r', level_eval g dt old l (v_c v') (v_sc v') (v_u v') t r0 = Ok (sc', u', r') /\
      state_inside3 (coarse_dom dom (Z.of_nat l)) r' (average8 r).
Proof. exact pf_C53_coarse_equation. Qed.
Print Assumptions C53_coarse_equation.

Example C53_ex : exists d sc g b0 b v s, valid_domain3 mg_dom /\ 2 <= nhalo mg_dom /\
  thick_at (q_levels mg_opts - 1) mg_dom /\ make3 mg_dom = Ok d /\ make_ch3 d 1 = Ok sc /\
  shaped 1 (cells3 mg_dom) (new_state3 d) /\
  bdf_new mg_opts d 1 mg_par sc (fun i _ => i) (fun _ => 0%R) (fun x _ => x) (new_state3 d) (new_state3 d) = Ok (g, b0) /\
  reached g b0 b /\ nth_error (b_levels b) 1 = Some v /\
  state_inside3 (coarse_dom mg_dom (Z.of_nat 1 - 1)) s (fun i j k => IZR (i * i + j - k)).
Proof. exact mg_example_coarse. Qed.

(** C17 for the implicit integrator (exact arithmetic): with periodic boundaries every step
    from every reached world completes and keeps the mean, whether or not the cycles converged,
    provided sigma = 0 or the mean is m. *)
Theorem C17_implicit_3d :
  forall (q : mg_options R) (dom : domain R) (d : disc3 R) (variant : Z) (p : ch_params R) (sc : scratch R)
    rmax rsum pw (u du : state R) (g : mg_config R (scratch R)) (b0 b : mg_world R (scratch R))
    (w : Z -> Z -> Z -> R) (time dt : R),
  valid_domain3 dom -> 2 <= nhalo dom -> thick_at (q_levels q - 1) dom ->
  xbc dom <> Neumann /\ ybc dom <> Neumann /\ zbc dom <> Neumann ->
  make3 dom = Ok d -> make_ch3 d variant = Ok sc -> 1 <= q_nsmooth q -> q_interp q <> MGOther ->
  shaped 1 (cells3 dom) u -> shaped 1 (cells3 dom) du ->
  bdf_new q d variant p sc rmax rsum pw u du = Ok (g, b0) -> reached g b0 b ->
  state_inside3 dom (solution b) w -> (ch_sigma p = 0%R \/ mean3 dom w = ch_m p) ->
  exists b' w', bdf_step g b time dt = Ok b' /\ state_inside3 dom (solution b') w' /\ mean3 dom w' = mean3 dom w.
Proof. exact pf_C17_implicit_3d. Qed.
Print Assumptions C17_implicit_3d.

Example C17_implicit_3d_ex : exists d sc g b0 b, valid_domain3 mg_dom /\ 2 <= nhalo mg_dom /\
  thick_at (q_levels mg_opts - 1) mg_dom /\ (xbc mg_dom <> Neumann /\ ybc mg_dom <> Neumann /\ zbc mg_dom <> Neumann) /\
  make3 mg_dom = Ok d /\ make_ch3 d 1 = Ok sc /\
  shaped 1 (cells3 mg_dom) (new_state3 d) /\
  bdf_new mg_opts d 1 mg_par sc (fun i _ => i) (fun _ => 0%R) (fun x _ => x) (new_state3 d) (new_state3 d) = Ok (g, b0) /\
  reached g b0 b /\ state_inside3 mg_dom (solution b) (fun i j k => 1 / 4 + IZR (2 * i - 7))%R /\
  mean3 mg_dom (fun i j k => 1 / 4 + IZR (2 * i - 7))%R = ch_m mg_par.
Proof. exact mg_example_mean. Qed.

(** C54: a step evaluates the residual of the implicit equation once, giving the initial
    residual res0, and then makes passes through the cycle, each followed by a residual.  It
    reports 0 exactly when max_cycles passes were made and none of the ratios to res0 reached
    the tolerance; it reports n > 0 when the n-th pass was the first to reach it, and then
    n <= max_cycles and no more passes were made.  In any arithmetic. *)
Theorem C54_report :
  forall (V : Type) (N : Num V) (S : Type) (g : mg_config V S) (b b' : mg_world V S) (time dt : V),
  bdf_step g b time dt = Ok b' ->
  exists old v sc sc' u du res0 rs,
    nth_error (b_levels b) 0 = Some v /\
    level_eval g dt old 0 (v_c v) sc (v_u v) time (v_du v) = Ok (sc', u, du) /\
    let vs0 := {| v_sc := sc'; v_u := u; v_du := du; v_sm := v_sm v; v_c := v_c v |} :: tl (b_levels b) in
    residual_is g vs0 res0 /\ passes (one_pass g time dt old) (residual_is g) vs0 rs (b_levels b') /\
    let reaches := fun r => nltb (ndiv r res0) (g_tol g) || neqb (ndiv r res0) (g_tol g) in
    (b_ncycles b' = 0 /\ Z.of_nat (length rs) = Z.max 0 (g_max_cycles g) /\ Forall (fun r => reaches r = false) rs \/
     b_ncycles b' = Z.of_nat (length rs) /\ 1 <= b_ncycles b' <= g_max_cycles g /\
     exists rs' r, rs = rs' ++ [r] /\ Forall (fun r => reaches r = false) rs' /\ reaches r = true).
Proof. exact pf_C54_report. Qed.
Print Assumptions C54_report.

Example C54_report_ex : exists d sc g b0 b', make3 mg_dom = Ok d /\ make_ch3 d 1 = Ok sc /\
  bdf_new mg_opts d 1 mg_par sc (fun i _ => i) (fun _ => 0%R) (fun x _ => x) (new_state3 d) (new_state3 d) = Ok (g, b0) /\
  bdf_step g b0 0%R 1%R = Ok b'.
Proof. exact mg_example_step. Qed.

(** C54, doubles: when the residual of the implicit equation is (positive) zero at the start of
    the cycles, every cycle is made and the step reports failure, whatever the tolerance. *)
Theorem C54_zero_residual :
  forall (S : Type) (g : mg_config f64 S) (time dt : f64) (old : state f64) (v : level f64 S) vs sc u du a vs' n rate,
  level_eval (N:=Num_f64) g dt old 0 (v_c v) (v_sc v) (v_u v) time (v_du v) = Ok (sc, u, a :: du) ->
  rms_of (N:=Num_f64) g a (S754_zero false) -> g_tol g <> S754_infinity false ->
  time_step_cycle (N:=Num_f64) g time dt old (v :: vs) = Ok (vs', n, rate) ->
  n = 0.
Proof. exact pf_C54_zero_residual. Qed.
Print Assumptions C54_zero_residual.

(** One cell, one level, the equation u' = 0 from any state. *)
Example C54_zero_residual_ex :
  let g := mg_tiny in let v := mg_tiny_level in
  level_eval (N:=Num_f64) g (f64_int 1) [[f64_int 2]] 0 (v_c v) (v_sc v) (v_u v) (f64_int 0) (v_du v) =
    Ok (tt, [[f64_int 2]], [[S754_zero false]]) /\
  rms_of (N:=Num_f64) g [S754_zero false] (S754_zero false) /\ g_tol g <> S754_infinity false /\
  exists vs' rate, time_step_cycle (N:=Num_f64) g (f64_int 0) (f64_int 1) [[f64_int 2]] [v] = Ok (vs', 0, rate).
Proof. exact mg_tiny_ex. Qed.
