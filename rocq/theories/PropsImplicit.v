(** Runs of the whole program with the implicit integrator for the 3D Cahn-Hilliard equation (time_integrator bdf1 or steady): C84.

    [madgicart_all pl nsin ncos fuel ...] is the whole program as in [madgicart], with the implicit integrator.  [asks m 3 (integrator_name q) "none" s] and
    [mg_asks m q] say that the parsed options are the settings s and the multigrid options q.  [implicit_story] (SpecImplicit) describes the steps, the
    solution files and the log of such a run: [implicit_course] its states, each reached from the one before by [implicit_step], a number of
    V-cycles with the residual of backward Euler or of the steady equation. *)
From Coq Require Import String Reals.
From Verif Require Import ModelLogger ModelOptions Outcome ZList Num ModelDisc3D ModelDisc2D ModelTime ModelVTK ModelProgram ModelMG ModelMGCH ModelImplicit
  SpecGrid SpecField SpecRestart SpecMon SpecMG SpecProgram SpecImplicit ProgramFinal ImplicitFinal.
From Coq Require Import ZArith List.
Local Open Scope string_scope.
Local Open Scope list_scope.
Local Open Scope Z_scope.

(** C84: a run with the implicit integrator ends normally.  Its steps are those of the time loop with a fixed step size; each leads from the cell values before to those after
    some number of V-cycles, which stop as soon as the residual has fallen to the given fraction of the residual before the first cycle, at the latest after mg_max_cycles.
    The first smoothings of the run are made with a step of one millionth, all later ones with mg_cfl times the fourth power of the spacing of their level.  The files, their names
    and the rows of the log are those of these states, the residual in the log being the one the last cycle left behind. *)
Theorem C84_run :
  forall (pl : platform R) (nsin ncos : R -> R) (fuel : nat) (fs : string -> option string) (vts : string -> list xml)
    (other : members R -> option (res (pworld R))) (args : list string) (opts m : members R) (vm : vmap R) (s : settings R)
    (q : mg_options R) (bx by_ bz : bctype),
  parse_options (pl_read pl) (pl_lit pl) (pl_eps100 pl) (pl_max100 pl) fs args opts = Ok (Running m vm) ->
  asks m 3 (integrator_name q) "none" s -> mg_asks m q ->
  sound s fuel -> mg_sound q s -> reduces pl -> bc_named (s_bc_x s) bx -> bc_named (s_bc_y s) by_ -> bc_named (s_bc_z s) bz ->
  let dom := grid_of s bx by_ bz in
  exists w, madgicart_all pl nsin ncos fuel fs vts other args opts = Some (Ok (Finished w)) /\
    implicit_story pl q s dom (ch_levels q s dom) (smoothing_step (q_cfl q) dom) [config_template (pl_showg pl) (pl_lit pl) (pl_eps100 pl) (pl_max100 pl) vm] (0, s_t0 s, s_dt s)
      (random3 dom (pl_draw pl) (s_m s)) w.
Proof. exact pf_C84_run. Qed.
Print Assumptions C84_run.

Example C84_run_ex :
  (exists m vm, parse_options (pl_read ex_platform) (pl_lit ex_platform) (pl_eps100 ex_platform) (pl_max100 ex_platform) ex_none
    (im_args "bdf1" "2") ex_members = Ok (Running m vm) /\ asks m 3 "bdf1" "none" (ex_settings 4 100 20) /\ mg_asks m (im_options 2 false)) /\
  sound (ex_settings 4 100 20) 100 /\ mg_sound (im_options 2 false) (ex_settings 4 100 20) /\ bc_named "periodic" Periodic /\ reduces ex_platform.
Proof. exact (conj im_run im_sound). Qed.

(** C84: the mean in every solution file is the option m, unless a boundary is Neumann. *)
Theorem C84_mean :
  forall (pl : platform R) (nsin ncos : R -> R) (fuel : nat) (fs : string -> option string) (vts : string -> list xml)
    (other : members R -> option (res (pworld R))) (args : list string) (opts m : members R) (vm : vmap R) (s : settings R)
    (q : mg_options R) (bx by_ bz : bctype),
  parse_options (pl_read pl) (pl_lit pl) (pl_eps100 pl) (pl_max100 pl) fs args opts = Ok (Running m vm) ->
  asks m 3 (integrator_name q) "none" s -> mg_asks m q ->
  sound s fuel -> mg_sound q s -> reduces pl -> bc_named (s_bc_x s) bx -> bc_named (s_bc_y s) by_ -> bc_named (s_bc_z s) bz ->
  bx <> Neumann -> by_ <> Neumann -> bz <> Neumann ->
  exists w, madgicart_all pl nsin ncos fuel fs vts other args opts = Some (Ok (Finished w)) /\
    Forall (fun f => exists i t dt u, is_file3 pl (grid_of s bx by_ bz) i t dt u (snd f) /\
      mean3 (grid_of s bx by_ bz) u = s_m s) (w_files w).
Proof. exact pf_C84_mean. Qed.
Print Assumptions C84_mean.

Example C84_mean_ex :
  (exists m vm, parse_options (pl_read ex_platform) (pl_lit ex_platform) (pl_eps100 ex_platform) (pl_max100 ex_platform) ex_none
    (im_args "bdf1" "2") ex_members = Ok (Running m vm) /\ asks m 3 "bdf1" "none" (ex_settings 4 100 20) /\ mg_asks m (im_options 2 false)) /\
  sound (ex_settings 4 100 20) 100 /\ mg_sound (im_options 2 false) (ex_settings 4 100 20) /\ bc_named "periodic" Periodic /\ reduces ex_platform.
Proof. exact (conj im_run im_sound). Qed.

(** C84: what the integrator cannot be made with ends the program before the first step, in any arithmetic: with a fatal message if the number of levels is not one to six or the cells in some direction
    cannot be halved that often, with an uncaught exception if the number of smoothings is negative. *)
Theorem C84_refused :
  forall (V : Type) (N : Num V) (pl : platform V) (nsin ncos : V -> V) (fs : string -> option string) (vts : string -> list xml)
    (other : members V -> option (res (pworld V))) (args : list string) (opts m : members V) (vm : vmap V) (s : settings V)
    (q : mg_options V) (bx by_ bz : bctype),
  parse_options (pl_read pl) (pl_lit pl) (pl_eps100 pl) (pl_max100 pl) fs args opts = Ok (Running m vm) ->
  asks m 3 (integrator_name q) "none" s -> mg_asks m q ->
  sound s (Z.to_nat (s_max_steps s)) -> bc_named (s_bc_x s) bx -> bc_named (s_bc_y s) by_ -> bc_named (s_bc_z s) bz ->
  (q_nsmooth q < 0 -> forall fuel, madgicart_all pl nsin ncos fuel fs vts other args opts = Some Throw) /\
  (0 <= q_nsmooth q ->
   ~ (1 <= q_levels q <= 6 /\ s_nx s mod 2 ^ (q_levels q - 1) = 0 /\ s_ny s mod 2 ^ (q_levels q - 1) = 0 /\ s_nz s mod 2 ^ (q_levels q - 1) = 0) ->
   forall fuel, madgicart_all pl nsin ncos fuel fs vts other args opts = Some Fatal).
Proof. exact pf_C84_refused. Qed.
Print Assumptions C84_refused.

Example C84_refused_ex :
  (exists m vm, parse_options (pl_read ex_platform) (pl_lit ex_platform) (pl_eps100 ex_platform) (pl_max100 ex_platform) ex_none
    (im_args "steady" "3") ex_members = Ok (Running m vm) /\ asks m 3 "steady" "none" (ex_settings 4 100 20) /\ mg_asks m (im_options 3 true)) /\
  sound (ex_settings 4 100 20) 100 /\ 6 mod 2 ^ (3 - 1) <> 0.
Proof. exact im_refused. Qed.

(** C84: in two dimensions the implicit integrator cannot be made: the program ends before the first step with a fatal error (an exception if the number of
    smoothings is negative), in any arithmetic and whatever the other options. *)
Theorem C84_flat :
  forall (V : Type) (N : Num V) (pl : platform V) (nsin ncos : V -> V) (fs : string -> option string) (vts : string -> list xml)
    (other : members V -> option (res (pworld V))) (args : list string) (opts m : members V) (vm : vmap V) (s : settings V)
    (q : mg_options V) (bx by_ bz : bctype),
  parse_options (pl_read pl) (pl_lit pl) (pl_eps100 pl) (pl_max100 pl) fs args opts = Ok (Running m vm) ->
  asks m 2 (integrator_name q) "none" s -> mg_asks m q ->
  sound s (Z.to_nat (s_max_steps s)) -> bc_named (s_bc_x s) bx -> bc_named (s_bc_y s) by_ -> bc_named (s_bc_z s) bz ->
  forall fuel, madgicart_all pl nsin ncos fuel fs vts other args opts = Some (if q_nsmooth q <? 0 then Throw else Fatal).
Proof. exact pf_C84_flat. Qed.
Print Assumptions C84_flat.

Example C84_flat_ex : (exists m vm, parse_options (pl_read ex_platform) (pl_lit ex_platform) (pl_eps100 ex_platform) (pl_max100 ex_platform) ex_none
    im_flat_args ex_members = Ok (Running m vm) /\ asks m 2 "bdf1" "none" (ex_settings 4 100 20) /\ mg_asks m (im_options 2 false)) /\
  sound (ex_settings 4 100 20) 100.
Proof. exact im_flat. Qed.

(** C84: with any other integrator, and the Cahn-Hilliard equations, this program is [madgicart], in any arithmetic, so that C72 to C80 are also about it. *)
Theorem C84_otherwise :
  forall (V : Type) (N : Num V) (pl : platform V) (nsin ncos : V -> V) (fuel : nat) (fs : string -> option string) (vts : string -> list xml)
    (other : members V -> option (res (pworld V))) (args : list string) (opts : members V),
  (forall m vm, parse_options (pl_read pl) (pl_lit pl) (pl_eps100 pl) (pl_max100 pl) fs args opts = Ok (Running m vm) ->
     m "equation_type" = VString "cahn-hilliard" /\ exists ti, m "time_integrator" = VString ti /\ ti <> "bdf1" /\ ti <> "steady") ->
  madgicart_all pl nsin ncos fuel fs vts other args opts = madgicart pl fuel fs vts other args opts.
Proof. exact pf_C84_otherwise. Qed.
Print Assumptions C84_otherwise.

Example C84_otherwise_ex : exists m vm, parse_options (pl_read ex_platform) (pl_lit ex_platform) (pl_eps100 ex_platform) (pl_max100 ex_platform) ex_none
    (im_args "ode23" "2") ex_members = Ok (Running m vm) /\ m "equation_type" = VString "cahn-hilliard" /\ m "time_integrator" = VString "ode23".
Proof. exact im_other. Qed.
