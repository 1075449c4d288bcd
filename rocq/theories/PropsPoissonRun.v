(** Runs of the whole program with Poisson's equation (equation_type poisson): C85 and C86.

    [madgicart_all pl sin cos fuel ...] is the whole program.  [poisson_asks m 3 "rk3ssp" s rel abs] says that the parsed options are the
    settings s and the tolerances rel and abs, for Poisson's equation in 3D with the integrator named.  [story3_with] (SpecProgram) describes the steps,
    the solution files and the log of a run from the initial values given, with a step from u to [next dt u] and the increment [rate dt u] per unit of time. *)
From Coq Require Import String Reals.
From Verif Require Import ModelLogger ModelOptions Outcome ZList Num ModelDisc3D ModelDisc2D ModelTime ModelVTK ModelProgram ModelImplicit
  SpecGrid SpecField SpecRestart SpecMon SpecProgram SpecPoissonRun ProgramFinal PoissonRunFinal.
From Coq Require Import ZArith List.
Local Open Scope string_scope.
Local Open Scope list_scope.
Local Open Scope Z_scope.

(** C85: a run with Poisson's equation and the explicit method of fixed step size ends normally.  It starts from zeros, its steps are those of the third-order strong-stability-preserving
    method for u' = Lap u + 3 g with the source g = sin x cos y cos z in the cell centres, periodic in x and y and equal to g in the cells outside the domain in z, whatever the boundary
    conditions named in the options; and its files and its log are those of these fields, up to the step limit, the final time or the tolerances, as for Cahn-Hilliard runs (C72, C79). *)
Theorem C85_run_rk3 :
  forall (pl : platform R) (fuel : nat) (fs : string -> option string) (vts : string -> list xml)
    (other : members R -> option (res (pworld R))) (args : list string) (opts m : members R) (vm : vmap R) (s : settings R) (rel abs : R)
    (bx by_ bz : bctype),
  parse_options (pl_read pl) (pl_lit pl) (pl_eps100 pl) (pl_max100 pl) fs args opts = Ok (Running m vm) ->
  poisson_asks m 3 "rk3ssp" s rel abs ->
  poisson_sound s fuel -> bc_named (s_bc_x s) bx -> bc_named (s_bc_y s) by_ -> bc_named (s_bc_z s) bz ->
  let dom := grid_of s bx by_ bz in
  exists w, madgicart_all pl sin cos fuel fs vts other args opts = Some (Ok (Finished w)) /\
    story3_with pl s rel abs dom [] [config_template (pl_showg pl) (pl_lit pl) (pl_eps100 pl) (pl_max100 pl) vm] (0, s_t0 s, s_dt s) (fun dt p => p = dt)
      (ssp3_3 (poisson_rate dom)) (ssp3_rate3 (poisson_rate dom)) (fun _ _ _ => 0%R) w.
Proof. exact pf_C85_run_rk3. Qed.
Print Assumptions C85_run_rk3.

Example C85_run_rk3_ex : (exists m vm, pr_parsed (pr_args "3" "rk3ssp") = Ok (Running m vm) /\ poisson_asks m 3 "rk3ssp" pr_settings 0%R 0%R) /\
  poisson_sound pr_settings 100 /\ bc_named "periodic" Periodic.
Proof. exact (conj pr_rk3 pr_sound). Qed.

(** C85: the same with the adaptive method: the steps are those of Bogacki and Shampine, and a step of size dt may be followed by one of the same size or by one within the limits. *)
Theorem C85_run_ode23 :
  forall (pl : platform R) (fuel : nat) (fs : string -> option string) (vts : string -> list xml)
    (other : members R -> option (res (pworld R))) (args : list string) (opts m : members R) (vm : vmap R) (s : settings R) (rel abs : R)
    (bx by_ bz : bctype) (tol lo hi : R),
  parse_options (pl_read pl) (pl_lit pl) (pl_eps100 pl) (pl_max100 pl) fs args opts = Ok (Running m vm) ->
  poisson_asks m 3 "ode23" s rel abs ->
  given m [("time_rel_err_tol", VDouble tol); ("min_time_step_size", VDouble lo); ("max_time_step_size", VDouble hi)] ->
  poisson_sound s fuel -> bc_named (s_bc_x s) bx -> bc_named (s_bc_y s) by_ -> bc_named (s_bc_z s) bz ->
  let dom := grid_of s bx by_ bz in
  exists w, madgicart_all pl sin cos fuel fs vts other args opts = Some (Ok (Finished w)) /\
    story3_with pl s rel abs dom ["time_err"%string] [config_template (pl_showg pl) (pl_lit pl) (pl_eps100 pl) (pl_max100 pl) vm] (0, s_t0 s, s_dt s) (within lo hi)
      (bs_step3 (poisson_rate dom)) (bs_rate3 (poisson_rate dom)) (fun _ _ _ => 0%R) w.
Proof. exact pf_C85_run_ode23. Qed.
Print Assumptions C85_run_ode23.

Example C85_run_ode23_ex : exists m vm tol lo hi, pr_parsed (pr_args "3" "ode23") = Ok (Running m vm) /\ poisson_asks m 3 "ode23" pr_settings 0%R 0%R /\
  given m [("time_rel_err_tol", VDouble tol); ("min_time_step_size", VDouble lo); ("max_time_step_size", VDouble hi)].
Proof. exact pr_ode23. Qed.

(** C85: with two dimensions there is no Poisson equation: the program ends with an exception before the first step, in any arithmetic and with any integrator. *)
Theorem C85_flat :
  forall (V : Type) (N : Num V) (pl : platform V) (nsin ncos : V -> V) (fuel : nat) (fs : string -> option string) (vts : string -> list xml)
    (other : members V -> option (res (pworld V))) (args : list string) (opts m : members V) (vm : vmap V) (s : settings V) (rel abs : V)
    (ti : string) (bx by_ bz : bctype),
  parse_options (pl_read pl) (pl_lit pl) (pl_eps100 pl) (pl_max100 pl) fs args opts = Ok (Running m vm) ->
  poisson_asks m 2 ti s rel abs ->
  poisson_sound s fuel -> bc_named (s_bc_x s) bx -> bc_named (s_bc_y s) by_ -> bc_named (s_bc_z s) bz ->
  madgicart_all pl nsin ncos fuel fs vts other args opts = Some Throw.
Proof. exact pf_C85_flat. Qed.
Print Assumptions C85_flat.

Example C85_flat_ex : (exists m vm, pr_parsed (pr_args "2" "rk3ssp") = Ok (Running m vm) /\ poisson_asks m 2 "rk3ssp" pr_settings 0%R 0%R) /\
  poisson_sound pr_settings 100 /\ bc_named "periodic" Periodic.
Proof. exact (conj pr_flat pr_sound). Qed.

(** C86: with a step size of at most a sixth of the square of the spacing, the run approaches every field v that the equation leaves in place up to tau: in every solution file, the values at
    time t differ from v by at most L^2/8 times tau plus a part that decays like exp (-8 (t - t0) / L^2), where L is the distance between the planes with prescribed values. *)
Theorem C86_settles :
  forall (pl : platform R) (fuel : nat) (fs : string -> option string) (vts : string -> list xml)
    (other : members R -> option (res (pworld R))) (args : list string) (opts m : members R) (vm : vmap R) (s : settings R) (rel abs : R)
    (bx by_ bz : bctype) (v : Z -> Z -> Z -> R) (tau size : R),
  parse_options (pl_read pl) (pl_lit pl) (pl_eps100 pl) (pl_max100 pl) fs args opts = Ok (Running m vm) ->
  poisson_asks m 3 "rk3ssp" s rel abs ->
  poisson_sound s fuel -> bc_named (s_bc_x s) bx -> bc_named (s_bc_y s) by_ -> bc_named (s_bc_z s) bz ->
  let dom := grid_of s bx by_ bz in
  spacing dom <> 0%R -> (0 <= s_dt s <= spacing dom * spacing dom / 6)%R -> (s_t0 s + s_dt s <= s_tfinal s)%R ->
  (forall i j k, inside3 dom i j k -> Rabs (poisson_rate dom v i j k) <= tau)%R -> (0 <= tau)%R ->
  (forall i j k, inside3 dom i j k -> Rabs (v i j k) <= size)%R -> (0 <= size)%R ->
  exists w, madgicart_all pl sin cos fuel fs vts other args opts = Some (Ok (Finished w)) /\
    Forall (fun f => exists i t dt u, is_file3 pl dom i t dt u (snd f) /\ settles dom v tau size (s_t0 s) t u) (w_files w).
Proof. exact pf_C86_settles. Qed.
Print Assumptions C86_settles.

(** C86: on every grid the discrete equation has exactly one solution v, and the run approaches it: in every solution file the distance to v decays like exp (-8 (t - t0) / L^2).
    Any field is as near to v as its rate of change is small, up to the factor L^2/8. *)
Theorem C86_steady :
  forall (pl : platform R) (fuel : nat) (fs : string -> option string) (vts : string -> list xml)
    (other : members R -> option (res (pworld R))) (args : list string) (opts m : members R) (vm : vmap R) (s : settings R) (rel abs : R)
    (bx by_ bz : bctype),
  parse_options (pl_read pl) (pl_lit pl) (pl_eps100 pl) (pl_max100 pl) fs args opts = Ok (Running m vm) ->
  poisson_asks m 3 "rk3ssp" s rel abs ->
  poisson_sound s fuel -> bc_named (s_bc_x s) bx -> bc_named (s_bc_y s) by_ -> bc_named (s_bc_z s) bz ->
  let dom := grid_of s bx by_ bz in
  spacing dom <> 0%R -> (0 <= s_dt s <= spacing dom * spacing dom / 6)%R -> (s_t0 s + s_dt s <= s_tfinal s)%R ->
  exists v,
    (forall i j k, inside3 dom i j k -> poisson_rate dom v i j k = 0%R) /\
    (forall w tau, (0 <= tau)%R -> (forall i j k, inside3 dom i j k -> Rabs (poisson_rate dom w i j k) <= tau)%R ->
       forall i j k, inside3 dom i j k -> (Rabs (w i j k - v i j k) <= tau * barrier_top dom)%R) /\
    exists w, madgicart_all pl sin cos fuel fs vts other args opts = Some (Ok (Finished w)) /\
      Forall (fun f => exists i t dt u, is_file3 pl dom i t dt u (snd f) /\ settles dom v 0 (1 + 3 * barrier_top dom) (s_t0 s) t u) (w_files w).
Proof. exact pf_C86_steady. Qed.
Print Assumptions C86_steady.

(** C86: if the domain is as long as some circles in x and in y, then the run approaches the exact solution sin x cos y cos z of Poisson's equation, up to an error of the second order in the
    spacing h: in every solution file, the values at time t differ from it by at most L^2 h^2/32 plus a part that decays like exp (-8 (t - t0) / L^2). *)
Theorem C86_exact :
  forall (pl : platform R) (fuel : nat) (fs : string -> option string) (vts : string -> list xml)
    (other : members R -> option (res (pworld R))) (args : list string) (opts m : members R) (vm : vmap R) (s : settings R) (rel abs : R)
    (bx by_ bz : bctype) (a b : Z),
  parse_options (pl_read pl) (pl_lit pl) (pl_eps100 pl) (pl_max100 pl) fs args opts = Ok (Running m vm) ->
  poisson_asks m 3 "rk3ssp" s rel abs ->
  poisson_sound s fuel -> bc_named (s_bc_x s) bx -> bc_named (s_bc_y s) by_ -> bc_named (s_bc_z s) bz ->
  let dom := grid_of s bx by_ bz in let h := spacing dom in
  a <> 0 -> (s_xend s - s_xbeg s = 2 * IZR a * PI)%R -> (IZR (s_ny s) * h = 2 * IZR b * PI)%R ->
  (0 <= s_dt s <= h * h / 6)%R -> (s_t0 s + s_dt s <= s_tfinal s)%R ->
  exists w, madgicart_all pl sin cos fuel fs vts other args opts = Some (Ok (Finished w)) /\
    Forall (fun f => exists i t dt u, is_file3 pl dom i t dt u (snd f) /\
      forall i j k, inside3 dom i j k ->
        let L := ((IZR (s_nz s) + 1) * h)%R in
        let x := (s_xbeg s + h * (IZR i + / 2))%R in let y := (s_ybeg s + h * (IZR j + / 2))%R in let z := (s_zbeg s + h * (IZR k + / 2))%R in
        (Rabs (u i j k - sin x * cos y * cos z) <=
           L * L * (h * h) / 32 + L * L / (4 * (h * h) * IZR (s_nz s)) * exp (- (8 * (t - s_t0 s)) / (L * L)))%R) (w_files w).
Proof. exact pf_C86_exact. Qed.
Print Assumptions C86_exact.

Example C86_settles_ex : ((exists m vm, pr_parsed (pr_args "3" "rk3ssp") = Ok (Running m vm) /\ poisson_asks m 3 "rk3ssp" pr_settings 0%R 0%R) /\
  poisson_sound pr_settings 100 /\ bc_named "periodic" Periodic) /\
  let dom := grid_of pr_settings Periodic Periodic Periodic in let h := spacing dom in
  (s_xend pr_settings - s_xbeg pr_settings = 2 * IZR 1 * PI)%R /\ (IZR (s_ny pr_settings) * h = 2 * IZR 2 * PI)%R /\
  (0 <= s_dt pr_settings <= h * h / 6)%R /\ (s_t0 pr_settings + s_dt pr_settings <= s_tfinal pr_settings)%R /\ h <> 0%R.
Proof. exact (conj (conj pr_rk3 pr_sound) pr_exact). Qed.
