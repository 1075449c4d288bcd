(** Runs of the whole program with Poisson's equation and the implicit integrator (time_integrator bdf1 or steady): C87.

    [madgicart_all pl sin cos fuel ...] is the whole program.  [poisson_asks m 3 (integrator_name q) s rel abs] and [mg_asks m q] say that the
    parsed options are the settings s, the tolerances rel and abs and the multigrid options q, for Poisson's equation in 3D.  [implicit_story] (SpecImplicit) describes
    the steps, the solution files and the log of such a run; [poisson_levels] (SpecPoissonRun) the equation on the grids of the cycle. *)
From Coq Require Import String Reals.
From Verif Require Import ModelLogger ModelOptions Outcome ZList Num ModelDisc3D ModelDisc2D ModelCH ModelTime ModelVTK ModelProgram ModelMG ModelMGCH ModelImplicit
  SpecGrid SpecField SpecTime SpecRestart SpecMon SpecMG SpecProgram SpecImplicit SpecPoissonRun MGFinal ProgramFinal PoissonRunFinal PoissonImplicitFinal.
From Coq Require Import ZArith List.
Local Open Scope string_scope.
Local Open Scope list_scope.
Local Open Scope Z_scope.

(** C87: a run with Poisson's equation and the implicit integrator ends normally.  It starts from zero; each step leads from the cell values before to those after some number
    of V-cycles, at least one if one is allowed, which stop as soon as the residual has fallen to the given fraction of the residual before the first cycle.  On every level the equation is
    u' = Lap u + 3 g with the boundary values of that level's grid; the first smoothings of the run are made with a step of one millionth, all later ones with mg_cfl times the square of the
    spacing of their level.  The files and the rows of the log are those of these states. *)
Theorem C87_run :
  forall (pl : platform R) (fuel : nat) (fs : string -> option string) (vts : string -> list xml)
    (other : members R -> option (res (pworld R))) (args : list string) (opts m : members R) (vm : vmap R) (s : settings R)
    (q : mg_options R) (bx by_ bz : bctype),
  parse_options (pl_read pl) (pl_lit pl) (pl_eps100 pl) (pl_max100 pl) fs args opts = Ok (Running m vm) ->
  poisson_asks m 3 (integrator_name q) s 0%R 0%R -> mg_asks m q ->
  poisson_sound s fuel -> mg_sound q s -> reduces pl -> bc_named (s_bc_x s) bx -> bc_named (s_bc_y s) by_ -> bc_named (s_bc_z s) bz ->
  let dom := grid_of s bx by_ bz in
  exists w, madgicart_all pl sin cos fuel fs vts other args opts = Some (Ok (Finished w)) /\
    implicit_story pl q s dom (poisson_levels q dom) (poisson_smoothing (q_cfl q) dom)
      [config_template (pl_showg pl) (pl_lit pl) (pl_eps100 pl) (pl_max100 pl) vm] (0, s_t0 s, s_dt s) (fun _ _ _ => 0%R) w.
Proof. exact pf_C87_run. Qed.
Print Assumptions C87_run.

Example C87_run_ex :
  (exists m vm, pi_parsed (pi_args "bdf1" "2") = Ok (Running m vm) /\ poisson_asks m 3 "bdf1" pi_settings 0%R 0%R /\ mg_asks m (pi_options 2 false)) /\
  (poisson_sound pi_settings 100 /\ bc_named "periodic" Periodic /\ reduces pi_platform) /\
  mg_sound (pi_options 2 false) pi_settings /\ mg_sound (pi_options 1 true) pi_settings.
Proof. exact (conj pi_bdf1 (conj pi_sound pi_mg_sound)). Qed.

(** C87: what the integrator cannot be made with ends the program before the first step, in any arithmetic: with a fatal message if the number of levels is not one to six or the cells in some direction
    cannot be halved that often, with an uncaught exception if the number of smoothings is negative. *)
Theorem C87_refused :
  forall (V : Type) (N : Num V) (pl : platform V) (nsin ncos : V -> V) (fs : string -> option string) (vts : string -> list xml)
    (other : members V -> option (res (pworld V))) (args : list string) (opts m : members V) (vm : vmap V) (s : settings V) (rel abs : V)
    (q : mg_options V) (bx by_ bz : bctype),
  parse_options (pl_read pl) (pl_lit pl) (pl_eps100 pl) (pl_max100 pl) fs args opts = Ok (Running m vm) ->
  poisson_asks m 3 (integrator_name q) s rel abs -> mg_asks m q ->
  poisson_sound s (Z.to_nat (s_max_steps s)) -> bc_named (s_bc_x s) bx -> bc_named (s_bc_y s) by_ -> bc_named (s_bc_z s) bz ->
  (q_nsmooth q < 0 -> forall fuel, madgicart_all pl nsin ncos fuel fs vts other args opts = Some Throw) /\
  (0 <= q_nsmooth q ->
   ~ (1 <= q_levels q <= 6 /\ s_nx s mod 2 ^ (q_levels q - 1) = 0 /\ s_ny s mod 2 ^ (q_levels q - 1) = 0 /\ s_nz s mod 2 ^ (q_levels q - 1) = 0) ->
   forall fuel, madgicart_all pl nsin ncos fuel fs vts other args opts = Some Fatal).
Proof. exact pf_C87_refused. Qed.
Print Assumptions C87_refused.

Example C87_refused_ex :
  (exists m vm, pi_parsed (pi_args "steady" "3") = Ok (Running m vm) /\ poisson_asks m 3 "steady" pi_settings 0%R 0%R /\ mg_asks m (pi_options 3 true)) /\
  (poisson_sound pi_settings 100 /\ bc_named "periodic" Periodic /\ reduces pi_platform) /\ 6 mod 2 ^ (3 - 1) <> 0.
Proof. exact (conj pi_deep (conj pi_sound pi_odd)). Qed.

(** C87: values that solve the discrete equations are left alone by implicit and steady steps of any size, with any number of levels. *)
Theorem C87_keeps :
  forall (q : mg_options R) (dom : domain R) (d : disc3 R) rmax rsum pw (u du : state R) (g : mg_config R (scratch R)) (b0 b : mg_world R (scratch R))
    (w : Z -> Z -> Z -> R) (time dt : R),
  valid_domain3 dom -> 2 <= nhalo dom -> thick_at (q_levels q - 1) dom ->
  make3 dom = Ok d -> 1 <= q_nsmooth q -> q_interp q <> MGOther ->
  shaped 1 (cells3 dom) u -> shaped 1 (cells3 dom) du ->
  bdf_new_poisson sin cos q d (new_scratch (create_real_array3 d)) rmax rsum pw u du = Ok (g, b0) -> SpecMG.reached g b0 b ->
  state_inside3 dom (solution b) w ->
  (forall i j k, inside3 dom i j k -> poisson_rate dom w i j k = 0%R) ->
  exists b', bdf_step g b time dt = Ok b' /\ state_inside3 dom (solution b') w.
Proof. exact pf_C87_keeps. Qed.
Print Assumptions C87_keeps.

Example C87_keeps_ex : exists d g b0 b w, valid_domain3 mg_dom /\ 2 <= nhalo mg_dom /\
  thick_at (q_levels mg_opts - 1) mg_dom /\ make3 mg_dom = Ok d /\ shaped 1 (cells3 mg_dom) (new_state3 d) /\
  bdf_new_poisson sin cos mg_opts d (new_scratch (create_real_array3 d)) (fun i _ => i) (fun _ => 0%R) (fun x _ => x) (new_state3 d) (new_state3 d) = Ok (g, b0) /\
  SpecMG.reached g b0 b /\ state_inside3 mg_dom (solution b) w /\
  (forall i j k, inside3 mg_dom i j k -> poisson_rate mg_dom w i j k = 0%R).
Proof. exact pi_keeps. Qed.

(** C87, one level: the steady integrator approaches the solution of the discrete equations.  With mg_cfl at most 1/6 (and the first smoothing step, one millionth, at most a sixth of the squared
    spacing), a file saved after i steps is as near to v as after a time of mg_cfl times the squared spacing for each of 2 mg_nsmooth i - 1 smoothings. *)
Theorem C87_settles :
  forall (pl : platform R) (fuel : nat) (fs : string -> option string) (vts : string -> list xml)
    (other : members R -> option (res (pworld R))) (args : list string) (opts m : members R) (vm : vmap R) (s : settings R)
    (q : mg_options R) (bx by_ bz : bctype) (v : Z -> Z -> Z -> R) (tau size : R),
  parse_options (pl_read pl) (pl_lit pl) (pl_eps100 pl) (pl_max100 pl) fs args opts = Ok (Running m vm) ->
  poisson_asks m 3 "steady" s 0%R 0%R -> mg_asks m q -> q_steady q = true ->
  poisson_sound s fuel -> mg_sound q s -> reduces pl -> bc_named (s_bc_x s) bx -> bc_named (s_bc_y s) by_ -> bc_named (s_bc_z s) bz ->
  q_levels q = 1 -> 0 < q_max_cycles q ->
  let dom := grid_of s bx by_ bz in
  spacing dom <> 0%R -> (0 <= q_cfl q <= 1 / 6)%R -> (1 / 1000000 <= spacing dom * spacing dom / 6)%R ->
  (forall i j k, inside3 dom i j k -> Rabs (poisson_rate dom v i j k) <= tau)%R -> (0 <= tau)%R ->
  (forall i j k, inside3 dom i j k -> Rabs (v i j k) <= size)%R -> (0 <= size)%R ->
  exists w, madgicart_all pl sin cos fuel fs vts other args opts = Some (Ok (Finished w)) /\
    Forall (fun f => exists i t dt u, 0 < i /\ is_file3 pl dom i t dt u (snd f) /\
      settles dom v tau size 0 (q_cfl q * (spacing dom * spacing dom) * IZR (2 * q_nsmooth q * i - 1)) u) (w_files w).
Proof. exact pf_C87_settles. Qed.
Print Assumptions C87_settles.

Example C87_settles_ex :
  (exists m vm, pi_parsed (pi_args "steady" "1") = Ok (Running m vm) /\ poisson_asks m 3 "steady" pi_settings 0%R 0%R /\ mg_asks m (pi_options 1 true)) /\
  ((poisson_sound pi_settings 100 /\ bc_named "periodic" Periodic /\ reduces pi_platform) /\
  mg_sound (pi_options 2 false) pi_settings /\ mg_sound (pi_options 1 true) pi_settings) /\
  let h := spacing (grid_of pi_settings Periodic Periodic Periodic) in
  h <> 0%R /\ (0 <= q_cfl (pi_options 1 true) <= 1 / 6)%R /\ (1 / 1000000 <= h * h / 6)%R /\
  (s_xend pi_settings - s_xbeg pi_settings = 2 * IZR 1 * PI)%R /\ (IZR (s_ny pi_settings) * h = 2 * IZR 2 * PI)%R.
Proof. exact (conj pi_steady (conj (conj pi_sound pi_mg_sound) pi_small)). Qed.

(** C87: those discrete equations have a solution, the only one, and every other field is as near to it as its residual is small; the steady integrator with one level approaches it. *)
Theorem C87_steady :
  forall (pl : platform R) (fuel : nat) (fs : string -> option string) (vts : string -> list xml)
    (other : members R -> option (res (pworld R))) (args : list string) (opts m : members R) (vm : vmap R) (s : settings R)
    (q : mg_options R) (bx by_ bz : bctype),
  parse_options (pl_read pl) (pl_lit pl) (pl_eps100 pl) (pl_max100 pl) fs args opts = Ok (Running m vm) ->
  poisson_asks m 3 "steady" s 0%R 0%R -> mg_asks m q -> q_steady q = true ->
  poisson_sound s fuel -> mg_sound q s -> reduces pl -> bc_named (s_bc_x s) bx -> bc_named (s_bc_y s) by_ -> bc_named (s_bc_z s) bz ->
  q_levels q = 1 -> 0 < q_max_cycles q ->
  let dom := grid_of s bx by_ bz in
  spacing dom <> 0%R -> (0 <= q_cfl q <= 1 / 6)%R -> (1 / 1000000 <= spacing dom * spacing dom / 6)%R ->
  exists v,
    (forall i j k, inside3 dom i j k -> poisson_rate dom v i j k = 0%R) /\
    (forall w tau, (0 <= tau)%R -> (forall i j k, inside3 dom i j k -> Rabs (poisson_rate dom w i j k) <= tau)%R ->
       forall i j k, inside3 dom i j k -> (Rabs (w i j k - v i j k) <= tau * barrier_top dom)%R) /\
    exists w, madgicart_all pl sin cos fuel fs vts other args opts = Some (Ok (Finished w)) /\
      Forall (fun f => exists i t dt u, 0 < i /\ is_file3 pl dom i t dt u (snd f) /\
        settles dom v 0 (1 + 3 * barrier_top dom) 0 (q_cfl q * (spacing dom * spacing dom) * IZR (2 * q_nsmooth q * i - 1)) u) (w_files w).
Proof. exact pf_C87_steady. Qed.
Print Assumptions C87_steady.

Example C87_steady_ex :
  (exists m vm, pi_parsed (pi_args "steady" "1") = Ok (Running m vm) /\ poisson_asks m 3 "steady" pi_settings 0%R 0%R /\ mg_asks m (pi_options 1 true)) /\
  ((poisson_sound pi_settings 100 /\ bc_named "periodic" Periodic /\ reduces pi_platform) /\
  mg_sound (pi_options 2 false) pi_settings /\ mg_sound (pi_options 1 true) pi_settings) /\
  let h := spacing (grid_of pi_settings Periodic Periodic Periodic) in
  h <> 0%R /\ (0 <= q_cfl (pi_options 1 true) <= 1 / 6)%R /\ (1 / 1000000 <= h * h / 6)%R /\
  (s_xend pi_settings - s_xbeg pi_settings = 2 * IZR 1 * PI)%R /\ (IZR (s_ny pi_settings) * h = 2 * IZR 2 * PI)%R.
Proof. exact (conj pi_steady (conj (conj pi_sound pi_mg_sound) pi_small)). Qed.

(** C87: if moreover the domain is as long as some circles in x and in y, the steady integrator with one level approaches the exact solution sin x cos y cos z of Poisson's equation, up to an
    error of the second order in the spacing h: the values in the file saved after step n differ from it by at most L^2 h^2/32 plus a part that decays exponentially with the number of smoothings,
    but the more slowly the more cells there are in z. *)
Theorem C87_exact :
  forall (pl : platform R) (fuel : nat) (fs : string -> option string) (vts : string -> list xml)
    (other : members R -> option (res (pworld R))) (args : list string) (opts m : members R) (vm : vmap R) (s : settings R)
    (q : mg_options R) (bx by_ bz : bctype) (a b : Z),
  parse_options (pl_read pl) (pl_lit pl) (pl_eps100 pl) (pl_max100 pl) fs args opts = Ok (Running m vm) ->
  poisson_asks m 3 "steady" s 0%R 0%R -> mg_asks m q -> q_steady q = true ->
  poisson_sound s fuel -> mg_sound q s -> reduces pl -> bc_named (s_bc_x s) bx -> bc_named (s_bc_y s) by_ -> bc_named (s_bc_z s) bz ->
  q_levels q = 1 -> 0 < q_max_cycles q ->
  let dom := grid_of s bx by_ bz in let h := spacing dom in
  a <> 0 -> (s_xend s - s_xbeg s = 2 * IZR a * PI)%R -> (IZR (s_ny s) * h = 2 * IZR b * PI)%R ->
  (0 <= q_cfl q <= 1 / 6)%R -> (1 / 1000000 <= h * h / 6)%R ->
  exists w, madgicart_all pl sin cos fuel fs vts other args opts = Some (Ok (Finished w)) /\
    Forall (fun f => exists n t dt u, 0 < n /\ is_file3 pl dom n t dt u (snd f) /\
      forall i j k, inside3 dom i j k ->
        let c := (IZR (s_nz s) + 1)%R in
        let x := (s_xbeg s + h * (IZR i + / 2))%R in let y := (s_ybeg s + h * (IZR j + / 2))%R in let z := (s_zbeg s + h * (IZR k + / 2))%R in
        (Rabs (u i j k - sin x * cos y * cos z) <=
           (c * h) * (c * h) * (h * h) / 32 + c * c / (4 * IZR (s_nz s)) * exp (- (8 * q_cfl q * IZR (2 * q_nsmooth q * n - 1)) / (c * c)))%R) (w_files w).
Proof. exact pf_C87_exact. Qed.
Print Assumptions C87_exact.

Example C87_exact_ex :
  (exists m vm, pi_parsed (pi_args "steady" "1") = Ok (Running m vm) /\ poisson_asks m 3 "steady" pi_settings 0%R 0%R /\ mg_asks m (pi_options 1 true)) /\
  ((poisson_sound pi_settings 100 /\ bc_named "periodic" Periodic /\ reduces pi_platform) /\
  mg_sound (pi_options 2 false) pi_settings /\ mg_sound (pi_options 1 true) pi_settings) /\
  let h := spacing (grid_of pi_settings Periodic Periodic Periodic) in
  h <> 0%R /\ (0 <= q_cfl (pi_options 1 true) <= 1 / 6)%R /\ (1 / 1000000 <= h * h / 6)%R /\
  (s_xend pi_settings - s_xbeg pi_settings = 2 * IZR 1 * PI)%R /\ (IZR (s_ny pi_settings) * h = 2 * IZR 2 * PI)%R.
Proof. exact (conj pi_steady (conj (conj pi_sound pi_mg_sound) pi_small)). Qed.
