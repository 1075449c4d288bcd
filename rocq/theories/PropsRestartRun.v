(** Restarts of the whole program with the implicit integrator (time_integrator bdf1 or steady), and with Poisson's equation: C88.

    [madgicart_all pl ...] is the whole program; [vts r] is the content of the file r.  [is_file3 pl dom0 i t dt u doc] says that doc is the solution file written for step i, time t, step size dt
    and cell values u on the grid dom0; [readable3] that its numbers are read back as they were.  [regrid3 (pl_raw pl) dom0 bx by_ bz] is that grid with the boundary conditions of the restart.
    [implicit_story] (SpecImplicit) and [story3_with] (SpecProgram) describe the steps, the solution files and the log of a run. *)
From Coq Require Import String Reals.
From Verif Require Import ModelLogger ModelOptions Outcome ZList Num ModelDisc3D ModelDisc2D ModelCH ModelTime ModelVTK ModelProgram ModelMG ModelMGCH ModelImplicit
  SpecGrid SpecField SpecTime SpecVTK SpecRestart SpecMon SpecMG SpecProgram SpecImplicit SpecPoissonRun MGFinal ProgramFinal RerunFinal RestartRunFinal.
From Coq Require Import ZArith List.
Local Open Scope string_scope.
Local Open Scope list_scope.
Local Open Scope Z_scope.

(** C88: a Cahn-Hilliard run with the implicit integrator that restarts from a solution file ends normally.  It continues on the grid of the file, from the values, step number, time and step
    size in it, and its steps are those of a run with these options; the first smoothing on each level is again made with a step of one millionth.  The files and the rows of the log are those
    of these states; the log also names the file. *)
Theorem C88_restart :
  forall (pl : platform R) (nsin ncos : R -> R) (fuel : nat) (fs : string -> option string) (vts : string -> list xml)
    (other : members R -> option (res (pworld R))) (args : list string) (opts m : members R) (vm : vmap R) (s : settings R)
    (q : mg_options R) (bx by_ bz : bctype) (r : string) (dom0 : domain R) (i : Z) (t dt : R) (u : Z -> Z -> Z -> R),
  parse_options (pl_read pl) (pl_lit pl) (pl_eps100 pl) (pl_max100 pl) fs args opts = Ok (Running m vm) ->
  asks m 3 (integrator_name q) r s -> mg_asks m q -> r <> "none" ->
  is_file3 pl dom0 i t dt u (vts r) -> readable3 pl dom0 t dt u -> valid_domain3 dom0 -> 2 <= nx dom0 /\ 2 <= ny dom0 /\ 2 <= nz dom0 ->
  nx dom0 <= 2147483647 /\ ny dom0 <= 2147483647 /\ nz dom0 <= 2147483647 -> (xbeg dom0 < xend dom0)%R ->
  sound_from s i fuel -> mg_fits q (nx dom0) (ny dom0) (nz dom0) -> reduces pl ->
  bc_named (s_bc_x s) bx -> bc_named (s_bc_y s) by_ -> bc_named (s_bc_z s) bz ->
  let dom := regrid3 (pl_raw pl) dom0 bx by_ bz in
  exists w, madgicart_all pl nsin ncos fuel fs vts other args opts = Some (Ok (Finished w)) /\
    implicit_story pl q s dom (ch_levels q s dom) (smoothing_step (q_cfl q) dom)
      [config_template (pl_showg pl) (pl_lit pl) (pl_eps100 pl) (pl_max100 pl) vm; "Using initial conditions file " ++ r]%string (i, t, dt) u w.
Proof. exact pf_C88_restart. Qed.
Print Assumptions C88_restart.

Example C88_restart_case :
  (exists m vm, rs_parsed (rs_args "cahn-hilliard" "bdf1" "2") = Ok (Running m vm) /\ asks m 3 "bdf1" "old" rr_settings /\ mg_asks m (rs_options 2 false)) /\
  is_file3 rr_platform rs_dom3 12 4%R 1%R rr_field3 rs_doc3 /\ readable3 rr_platform rs_dom3 4%R 1%R rr_field3 /\ valid_domain3 rs_dom3 /\
  ((2 <= nx rs_dom3 /\ 2 <= ny rs_dom3 /\ 2 <= nz rs_dom3) /\ (nx rs_dom3 <= 2147483647 /\ ny rs_dom3 <= 2147483647 /\ nz rs_dom3 <= 2147483647) /\ (xbeg rs_dom3 < xend rs_dom3)%R) /\
  (sound_from rr_settings 12 100 /\ poisson_sound_from rr_settings 12 100 /\ bc_named "periodic" Periodic) /\
  mg_fits (rs_options 2 false) (nx rs_dom3) (ny rs_dom3) (nz rs_dom3) /\ reduces rr_platform.
Proof. exact (conj rs_bdf1 (conj rs_file3 (conj rs_readable3 (conj rs_valid3 (conj rs_range (conj rs_sound rs_fits)))))). Qed.

(** C88: if the values in the file have the mean m and no boundary is a wall, all solution files of the restarted run have the mean m. *)
Theorem C88_mean :
  forall (pl : platform R) (nsin ncos : R -> R) (fuel : nat) (fs : string -> option string) (vts : string -> list xml)
    (other : members R -> option (res (pworld R))) (args : list string) (opts m : members R) (vm : vmap R) (s : settings R)
    (q : mg_options R) (bx by_ bz : bctype) (r : string) (dom0 : domain R) (i : Z) (t dt : R) (u : Z -> Z -> Z -> R),
  parse_options (pl_read pl) (pl_lit pl) (pl_eps100 pl) (pl_max100 pl) fs args opts = Ok (Running m vm) ->
  asks m 3 (integrator_name q) r s -> mg_asks m q -> r <> "none" ->
  is_file3 pl dom0 i t dt u (vts r) -> readable3 pl dom0 t dt u -> valid_domain3 dom0 -> 2 <= nx dom0 /\ 2 <= ny dom0 /\ 2 <= nz dom0 ->
  nx dom0 <= 2147483647 /\ ny dom0 <= 2147483647 /\ nz dom0 <= 2147483647 -> (xbeg dom0 < xend dom0)%R ->
  sound_from s i fuel -> mg_fits q (nx dom0) (ny dom0) (nz dom0) -> reduces pl ->
  bc_named (s_bc_x s) bx -> bc_named (s_bc_y s) by_ -> bc_named (s_bc_z s) bz ->
  bx <> Neumann -> by_ <> Neumann -> bz <> Neumann -> mean3 dom0 u = s_m s ->
  exists w, madgicart_all pl nsin ncos fuel fs vts other args opts = Some (Ok (Finished w)) /\
    Forall (fun f => exists i t dt v, is_file3 pl (regrid3 (pl_raw pl) dom0 bx by_ bz) i t dt v (snd f) /\
      mean3 (regrid3 (pl_raw pl) dom0 bx by_ bz) v = s_m s) (w_files w).
Proof. exact pf_C88_mean. Qed.
Print Assumptions C88_mean.

Example C88_mean_case :
  (exists m vm, rs_parsed (rs_args "cahn-hilliard" "bdf1" "2") = Ok (Running m vm) /\ asks m 3 "bdf1" "old" rr_settings /\ mg_asks m (rs_options 2 false)) /\
  is_file3 rr_platform rs_dom3 12 4%R 1%R (fun _ _ _ => 0%R) rs_zero3 /\ readable3 rr_platform rs_dom3 4%R 1%R (fun _ _ _ => 0%R) /\
  mean3 rs_dom3 (fun _ _ _ => 0%R) = s_m rr_settings.
Proof. exact (conj rs_bdf1 rs_mean). Qed.

(** C88: what is stopped at once: a negative number of smoothings with an exception; fewer than one or more than six levels, or a grid in the file that cannot be halved to the last of
    them, with the logger's fatal message.  The sizes in the options do not matter. *)
Theorem C88_refused :
  forall (pl : platform R) (nsin ncos : R -> R) (fs : string -> option string) (vts : string -> list xml)
    (other : members R -> option (res (pworld R))) (args : list string) (opts m : members R) (vm : vmap R) (s : settings R)
    (q : mg_options R) (bx by_ bz : bctype) (r : string) (dom0 : domain R) (i : Z) (t dt : R) (u : Z -> Z -> Z -> R),
  parse_options (pl_read pl) (pl_lit pl) (pl_eps100 pl) (pl_max100 pl) fs args opts = Ok (Running m vm) ->
  asks m 3 (integrator_name q) r s -> mg_asks m q -> r <> "none" ->
  is_file3 pl dom0 i t dt u (vts r) -> readable3 pl dom0 t dt u -> valid_domain3 dom0 -> 2 <= nx dom0 /\ 2 <= ny dom0 /\ 2 <= nz dom0 ->
  nx dom0 <= 2147483647 /\ ny dom0 <= 2147483647 /\ nz dom0 <= 2147483647 -> (xbeg dom0 < xend dom0)%R -> 0 <= i < 2147483647 -> 0 <= s_variant s <= 2 ->
  bc_named (s_bc_x s) bx -> bc_named (s_bc_y s) by_ -> bc_named (s_bc_z s) bz ->
  (q_nsmooth q < 0 -> forall fuel, madgicart_all pl nsin ncos fuel fs vts other args opts = Some Throw) /\
  (0 <= q_nsmooth q ->
   ~ (1 <= q_levels q <= 6 /\ nx dom0 mod 2 ^ (q_levels q - 1) = 0 /\ ny dom0 mod 2 ^ (q_levels q - 1) = 0 /\ nz dom0 mod 2 ^ (q_levels q - 1) = 0) ->
   forall fuel, madgicart_all pl nsin ncos fuel fs vts other args opts = Some Fatal).
Proof. exact pf_C88_refused. Qed.
Print Assumptions C88_refused.

Example C88_refused_case :
  (exists m vm, rs_parsed (rs_args "cahn-hilliard" "steady" "3") = Ok (Running m vm) /\ asks m 3 "steady" "old" rr_settings /\ mg_asks m (rs_options 3 true)) /\
  is_file3 rr_platform rs_dom3 12 4%R 1%R rr_field3 rs_doc3 /\ readable3 rr_platform rs_dom3 4%R 1%R rr_field3 /\ valid_domain3 rs_dom3 /\
  nz rs_dom3 mod 2 ^ (q_levels (rs_options 3 true) - 1) <> 0.
Proof. exact (conj rs_deep (conj rs_file3 (conj rs_readable3 (conj rs_valid3 rs_odd)))). Qed.

(** C88: restarts of Poisson's equation with the implicit integrator, likewise. *)
Theorem C88_poisson :
  forall (pl : platform R) (fuel : nat) (fs : string -> option string) (vts : string -> list xml)
    (other : members R -> option (res (pworld R))) (args : list string) (opts m : members R) (vm : vmap R) (s : settings R)
    (q : mg_options R) (bx by_ bz : bctype) (r : string) (dom0 : domain R) (i : Z) (t dt : R) (u : Z -> Z -> Z -> R),
  parse_options (pl_read pl) (pl_lit pl) (pl_eps100 pl) (pl_max100 pl) fs args opts = Ok (Running m vm) ->
  poisson_asks_from m 3 (integrator_name q) r s 0%R 0%R -> mg_asks m q -> r <> "none" ->
  is_file3 pl dom0 i t dt u (vts r) -> readable3 pl dom0 t dt u -> valid_domain3 dom0 -> 2 <= nx dom0 /\ 2 <= ny dom0 /\ 2 <= nz dom0 ->
  nx dom0 <= 2147483647 /\ ny dom0 <= 2147483647 /\ nz dom0 <= 2147483647 -> (xbeg dom0 < xend dom0)%R ->
  poisson_sound_from s i fuel -> mg_fits q (nx dom0) (ny dom0) (nz dom0) -> reduces pl ->
  bc_named (s_bc_x s) bx -> bc_named (s_bc_y s) by_ -> bc_named (s_bc_z s) bz ->
  let dom := regrid3 (pl_raw pl) dom0 bx by_ bz in
  exists w, madgicart_all pl sin cos fuel fs vts other args opts = Some (Ok (Finished w)) /\
    implicit_story pl q s dom (poisson_levels q dom) (poisson_smoothing (q_cfl q) dom)
      [config_template (pl_showg pl) (pl_lit pl) (pl_eps100 pl) (pl_max100 pl) vm; "Using initial conditions file " ++ r]%string (i, t, dt) u w.
Proof. exact pf_C88_poisson. Qed.
Print Assumptions C88_poisson.

Example C88_poisson_case :
  (exists m vm, rs_parsed (rs_args "poisson" "bdf1" "2") = Ok (Running m vm) /\ poisson_asks_from m 3 "bdf1" "old" rr_settings 0%R 0%R /\ mg_asks m (rs_options 2 false)) /\
  is_file3 rr_platform rs_dom3 12 4%R 1%R rr_field3 rs_doc3 /\ readable3 rr_platform rs_dom3 4%R 1%R rr_field3 /\ valid_domain3 rs_dom3 /\
  ((2 <= nx rs_dom3 /\ 2 <= ny rs_dom3 /\ 2 <= nz rs_dom3) /\ (nx rs_dom3 <= 2147483647 /\ ny rs_dom3 <= 2147483647 /\ nz rs_dom3 <= 2147483647) /\ (xbeg rs_dom3 < xend rs_dom3)%R) /\
  (sound_from rr_settings 12 100 /\ poisson_sound_from rr_settings 12 100 /\ bc_named "periodic" Periodic) /\
  mg_fits (rs_options 2 false) (nx rs_dom3) (ny rs_dom3) (nz rs_dom3) /\ reduces rr_platform.
Proof. exact (conj rs_poisson (conj rs_file3 (conj rs_readable3 (conj rs_valid3 (conj rs_range (conj rs_sound rs_fits)))))). Qed.

(** C88: restarts of Poisson's equation with the integrator rk3ssp: the steps of the third-order method from the values in the file. *)
Theorem C88_poisson_rk3 :
  forall (pl : platform R) (fuel : nat) (fs : string -> option string) (vts : string -> list xml)
    (other : members R -> option (res (pworld R))) (args : list string) (opts m : members R) (vm : vmap R) (s : settings R) (rel abs : R)
    (bx by_ bz : bctype) (r : string) (dom0 : domain R) (i : Z) (t dt : R) (u : Z -> Z -> Z -> R),
  parse_options (pl_read pl) (pl_lit pl) (pl_eps100 pl) (pl_max100 pl) fs args opts = Ok (Running m vm) ->
  poisson_asks_from m 3 "rk3ssp" r s rel abs -> r <> "none" ->
  is_file3 pl dom0 i t dt u (vts r) -> readable3 pl dom0 t dt u -> valid_domain3 dom0 -> 2 <= nx dom0 /\ 2 <= ny dom0 /\ 2 <= nz dom0 ->
  nx dom0 <= 2147483647 /\ ny dom0 <= 2147483647 /\ nz dom0 <= 2147483647 -> (xbeg dom0 < xend dom0)%R ->
  poisson_sound_from s i fuel -> bc_named (s_bc_x s) bx -> bc_named (s_bc_y s) by_ -> bc_named (s_bc_z s) bz ->
  let dom := regrid3 (pl_raw pl) dom0 bx by_ bz in
  exists w, madgicart_all pl sin cos fuel fs vts other args opts = Some (Ok (Finished w)) /\
    story3_with pl s rel abs dom [] [config_template (pl_showg pl) (pl_lit pl) (pl_eps100 pl) (pl_max100 pl) vm; "Using initial conditions file " ++ r]%string (i, t, dt)
      (fun dt p => p = dt) (ssp3_3 (poisson_rate dom)) (ssp3_rate3 (poisson_rate dom)) u w.
Proof. exact pf_C88_poisson_rk3. Qed.
Print Assumptions C88_poisson_rk3.

Example C88_poisson_rk3_case :
  (exists m vm, rs_parsed (rs_args "poisson" "rk3ssp" "2") = Ok (Running m vm) /\ poisson_asks_from m 3 "rk3ssp" "old" rr_settings 0%R 0%R) /\
  is_file3 rr_platform rs_dom3 12 4%R 1%R rr_field3 rs_doc3 /\ readable3 rr_platform rs_dom3 4%R 1%R rr_field3 /\ valid_domain3 rs_dom3 /\
  ((2 <= nx rs_dom3 /\ 2 <= ny rs_dom3 /\ 2 <= nz rs_dom3) /\ (nx rs_dom3 <= 2147483647 /\ ny rs_dom3 <= 2147483647 /\ nz rs_dom3 <= 2147483647) /\ (xbeg rs_dom3 < xend rs_dom3)%R) /\
  sound_from rr_settings 12 100 /\ poisson_sound_from rr_settings 12 100 /\ bc_named "periodic" Periodic.
Proof. exact (conj rs_poisson_rk3 (conj rs_file3 (conj rs_readable3 (conj rs_valid3 (conj rs_range rs_sound))))). Qed.

(** C88: restarts of Poisson's equation with the integrator ode23: the steps of the Bogacki-Shampine method from the values in the file, with step sizes within the limits. *)
Theorem C88_poisson_ode23 :
  forall (pl : platform R) (fuel : nat) (fs : string -> option string) (vts : string -> list xml)
    (other : members R -> option (res (pworld R))) (args : list string) (opts m : members R) (vm : vmap R) (s : settings R) (rel abs : R)
    (bx by_ bz : bctype) (r : string) (dom0 : domain R) (i : Z) (t dt : R) (u : Z -> Z -> Z -> R) (tol lo hi : R),
  parse_options (pl_read pl) (pl_lit pl) (pl_eps100 pl) (pl_max100 pl) fs args opts = Ok (Running m vm) ->
  poisson_asks_from m 3 "ode23" r s rel abs ->
  given m [("time_rel_err_tol", VDouble tol); ("min_time_step_size", VDouble lo); ("max_time_step_size", VDouble hi)] -> r <> "none" ->
  is_file3 pl dom0 i t dt u (vts r) -> readable3 pl dom0 t dt u -> valid_domain3 dom0 -> 2 <= nx dom0 /\ 2 <= ny dom0 /\ 2 <= nz dom0 ->
  nx dom0 <= 2147483647 /\ ny dom0 <= 2147483647 /\ nz dom0 <= 2147483647 -> (xbeg dom0 < xend dom0)%R ->
  poisson_sound_from s i fuel -> bc_named (s_bc_x s) bx -> bc_named (s_bc_y s) by_ -> bc_named (s_bc_z s) bz ->
  let dom := regrid3 (pl_raw pl) dom0 bx by_ bz in
  exists w, madgicart_all pl sin cos fuel fs vts other args opts = Some (Ok (Finished w)) /\
    story3_with pl s rel abs dom ["time_err"%string] [config_template (pl_showg pl) (pl_lit pl) (pl_eps100 pl) (pl_max100 pl) vm; "Using initial conditions file " ++ r]%string (i, t, dt)
      (within lo hi) (bs_step3 (poisson_rate dom)) (bs_rate3 (poisson_rate dom)) u w.
Proof. exact pf_C88_poisson_ode23. Qed.
Print Assumptions C88_poisson_ode23.

Example C88_poisson_ode23_case :
  (exists m vm, rs_parsed (rs_args "poisson" "ode23" "2") = Ok (Running m vm) /\ poisson_asks_from m 3 "ode23" "old" rr_settings 0%R 0%R /\
    given m [("time_rel_err_tol", VDouble (IZR 1 * powerRZ 10 (-2))%R); ("min_time_step_size", VDouble (/ 1000000)%R); ("max_time_step_size", VDouble 1000000%R)]) /\
  is_file3 rr_platform rs_dom3 12 4%R 1%R rr_field3 rs_doc3 /\ readable3 rr_platform rs_dom3 4%R 1%R rr_field3 /\ valid_domain3 rs_dom3 /\
  ((2 <= nx rs_dom3 /\ 2 <= ny rs_dom3 /\ 2 <= nz rs_dom3) /\ (nx rs_dom3 <= 2147483647 /\ ny rs_dom3 <= 2147483647 /\ nz rs_dom3 <= 2147483647) /\ (xbeg rs_dom3 < xend rs_dom3)%R) /\
  sound_from rr_settings 12 100 /\ poisson_sound_from rr_settings 12 100 /\ bc_named "periodic" Periodic.
Proof. exact (conj rs_poisson_ode23 (conj rs_file3 (conj rs_readable3 (conj rs_valid3 (conj rs_range rs_sound))))). Qed.

(** C88: what does not hold: that a run that is stopped after a step and restarted from the file of that step computes what it would have computed without the interruption.  The first run makes
    two steps, with the results x1 and x2; the second starts from the values of x1, which is step 1, and makes the step from there.  The values after it can differ, since the restarted run's
    first smoothing is again made with a step of one millionth. *)
Theorem C88_resume_refuted :
  ~ forall (q : mg_options R) (s : settings R) (dom : domain R) (prol : (Z -> Z -> Z -> R) -> Z -> Z -> Z -> R) (u : Z -> Z -> Z -> R)
      (t dt t' dt' : R) (x1 x2 y : Z * R * R * ((Z -> Z -> Z -> R) * (Z -> Z -> Z -> R))),
    valid_domain3 dom -> mg_fits q (nx dom) (ny dom) (nz dom) -> prolongs (q_interp q) prol ->
    implicit_course q dom (ch_levels q s dom prol) (smoothing_step (q_cfl q) dom) (fun _ => 1 / 1000000)%R 0 u [(t, dt); (t', dt')] [x1; x2] ->
    implicit_course q dom (ch_levels q s dom prol) (smoothing_step (q_cfl q) dom) (fun _ => 1 / 1000000)%R 1 (fst (snd x1)) [(t', dt')] [y] ->
    forall i j k, inside3 dom i j k -> fst (snd y) i j k = fst (snd x2) i j k.
Proof. exact pf_C88_resume_refuted. Qed.
Print Assumptions C88_resume_refuted.
