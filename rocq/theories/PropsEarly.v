(** Runs of the whole program that end early, because the residual is within a tolerance: C79.

    [asks_with m dim integrator restart s rel abs] (SpecProgram) says that the parsed options are the settings s
    with the tolerances converged_rel_tol = rel and converged_abs_tol = abs, of which zero is none; [story3_with]
    and [story2_with] describe the steps, the solution files and the log of such a run, [settled3] and [settled2] the
    condition under which it ends early. *)
From Coq Require Import String Reals QArith.
From Verif Require Import ModelLogger ModelOptions Outcome ZList Num ModelDisc3D ModelDisc2D ModelTime ModelVTK ModelProgram SpecGrid SpecField SpecRestart SpecMon
  SpecProgram ExampleNum ProgramFinal RerunFinal EarlyFinal.
From Coq Require Import ZArith List.
Local Open Scope string_scope.
Local Open Scope list_scope.
Local Open Scope Z_scope.

(** C79, 3D, rk3ssp: a new run with tolerances on the residual ends normally.  Its steps, files and log are those of
    a run without, up to the step with which it ends: it goes on after a step as long as the residual logged last is not
    below a tolerance, and it ends before its step limit and its final time only if it is; then the log ends with a message for
    each tolerance met. *)
Theorem C79_run_rk3_3d :
  forall (pl : platform R) (fuel : nat) (fs : string -> option string) (vts : string -> list xml)
    (other : members R -> option (res (pworld R))) (args : list string) (opts m : members R) (vm : vmap R) (s : settings R) (rel abs : R)
    (bx by_ bz : bctype),
  parse_options (pl_read pl) (pl_lit pl) (pl_eps100 pl) (pl_max100 pl) fs args opts = Ok (Running m vm) ->
  asks_with m 3 "rk3ssp" "none" s rel abs ->
  sound s fuel -> bc_named (s_bc_x s) bx -> bc_named (s_bc_y s) by_ -> bc_named (s_bc_z s) bz ->
  let dom := grid_of s bx by_ bz in
  exists w, madgicart pl fuel fs vts other args opts = Some (Ok (Finished w)) /\
    story3_with pl s rel abs dom [] [config_template (pl_showg pl) (pl_lit pl) (pl_eps100 pl) (pl_max100 pl) vm] (0, s_t0 s, s_dt s) (fun dt p => p = dt)
      (ssp3_3 (ch_rate3 dom s)) (ssp3_rate3 (ch_rate3 dom s)) (random3 dom (pl_draw pl) (s_m s)) w.
Proof. exact pf_C79_run_rk3_3d. Qed.
Print Assumptions C79_run_rk3_3d.

Example C79_run_rk3_3d_ex :
  (exists m vm, parse_options (pl_read ex_platform) (pl_lit ex_platform) (pl_eps100 ex_platform) (pl_max100 ex_platform) ex_none
     (ea_args "3" "rk3ssp") ex_members = Ok (Running m vm) /\ asks_with m 3 "rk3ssp" "none" (ex_settings 4 100 20) (1/2)%R (1/2)%R) /\
  sound (ex_settings 4 100 20) 100 /\ bc_named "periodic" Periodic /\ reduces ex_platform.
Proof. exact (conj ea_ask_rk3_3d ex_sound). Qed.

(** C79, 3D, ode23: the same. *)
Theorem C79_run_ode23_3d :
  forall (pl : platform R) (fuel : nat) (fs : string -> option string) (vts : string -> list xml)
    (other : members R -> option (res (pworld R))) (args : list string) (opts m : members R) (vm : vmap R) (s : settings R) (rel abs : R)
    (bx by_ bz : bctype) (tol lo hi : R),
  parse_options (pl_read pl) (pl_lit pl) (pl_eps100 pl) (pl_max100 pl) fs args opts = Ok (Running m vm) ->
  asks_with m 3 "ode23" "none" s rel abs ->
  given m [("time_rel_err_tol", VDouble tol); ("min_time_step_size", VDouble lo); ("max_time_step_size", VDouble hi)] ->
  sound s fuel -> bc_named (s_bc_x s) bx -> bc_named (s_bc_y s) by_ -> bc_named (s_bc_z s) bz ->
  let dom := grid_of s bx by_ bz in
  exists w, madgicart pl fuel fs vts other args opts = Some (Ok (Finished w)) /\
    story3_with pl s rel abs dom ["time_err"%string] [config_template (pl_showg pl) (pl_lit pl) (pl_eps100 pl) (pl_max100 pl) vm] (0, s_t0 s, s_dt s) (within lo hi)
      (bs_step3 (ch_rate3 dom s)) (bs_rate3 (ch_rate3 dom s)) (random3 dom (pl_draw pl) (s_m s)) w.
Proof. exact pf_C79_run_ode23_3d. Qed.
Print Assumptions C79_run_ode23_3d.

Example C79_run_ode23_3d_ex :
  (exists m vm, parse_options (pl_read ex_platform) (pl_lit ex_platform) (pl_eps100 ex_platform) (pl_max100 ex_platform) ex_none
     (ea_args "3" "ode23") ex_members = Ok (Running m vm) /\ asks_with m 3 "ode23" "none" (ex_settings 4 100 20) (1/2)%R (1/2)%R /\
   given m [("time_rel_err_tol", VDouble (IZR 1 * powerRZ 10 (-2))%R); ("min_time_step_size", VDouble (/ 1000000)%R); ("max_time_step_size", VDouble 1000000%R)]) /\
  sound (ex_settings 4 100 20) 100 /\ bc_named "periodic" Periodic /\ reduces ex_platform.
Proof. exact (conj ea_ask_ode23_3d ex_sound). Qed.

(** C79, 2D, rk3ssp: the same. *)
Theorem C79_run_rk3_2d :
  forall (pl : platform R) (fuel : nat) (fs : string -> option string) (vts : string -> list xml)
    (other : members R -> option (res (pworld R))) (args : list string) (opts m : members R) (vm : vmap R) (s : settings R) (rel abs : R)
    (bx by_ bz : bctype),
  parse_options (pl_read pl) (pl_lit pl) (pl_eps100 pl) (pl_max100 pl) fs args opts = Ok (Running m vm) ->
  asks_with m 2 "rk3ssp" "none" s rel abs ->
  sound s fuel -> bc_named (s_bc_x s) bx -> bc_named (s_bc_y s) by_ -> bc_named (s_bc_z s) bz ->
  let dom := grid_of s bx by_ bz in
  exists w, madgicart pl fuel fs vts other args opts = Some (Ok (Finished w)) /\
    story2_with pl s rel abs dom [] [config_template (pl_showg pl) (pl_lit pl) (pl_eps100 pl) (pl_max100 pl) vm] (0, s_t0 s, s_dt s) (fun dt p => p = dt)
      (ssp3_2 (ch_rate2 dom s)) (ssp3_rate2 (ch_rate2 dom s)) (random2 dom (pl_draw pl) (s_m s)) w.
Proof. exact pf_C79_run_rk3_2d. Qed.
Print Assumptions C79_run_rk3_2d.

Example C79_run_rk3_2d_ex :
  (exists m vm, parse_options (pl_read ex_platform) (pl_lit ex_platform) (pl_eps100 ex_platform) (pl_max100 ex_platform) ex_none
     (ea_args "2" "rk3ssp") ex_members = Ok (Running m vm) /\ asks_with m 2 "rk3ssp" "none" (ex_settings 4 100 20) (1/2)%R (1/2)%R) /\
  sound (ex_settings 4 100 20) 100 /\ bc_named "periodic" Periodic /\ reduces ex_platform.
Proof. exact (conj ea_ask_rk3_2d ex_sound). Qed.

(** C79, 2D, ode23: the same. *)
Theorem C79_run_ode23_2d :
  forall (pl : platform R) (fuel : nat) (fs : string -> option string) (vts : string -> list xml)
    (other : members R -> option (res (pworld R))) (args : list string) (opts m : members R) (vm : vmap R) (s : settings R) (rel abs : R)
    (bx by_ bz : bctype) (tol lo hi : R),
  parse_options (pl_read pl) (pl_lit pl) (pl_eps100 pl) (pl_max100 pl) fs args opts = Ok (Running m vm) ->
  asks_with m 2 "ode23" "none" s rel abs ->
  given m [("time_rel_err_tol", VDouble tol); ("min_time_step_size", VDouble lo); ("max_time_step_size", VDouble hi)] ->
  sound s fuel -> bc_named (s_bc_x s) bx -> bc_named (s_bc_y s) by_ -> bc_named (s_bc_z s) bz ->
  let dom := grid_of s bx by_ bz in
  exists w, madgicart pl fuel fs vts other args opts = Some (Ok (Finished w)) /\
    story2_with pl s rel abs dom ["time_err"%string] [config_template (pl_showg pl) (pl_lit pl) (pl_eps100 pl) (pl_max100 pl) vm] (0, s_t0 s, s_dt s) (within lo hi)
      (bs_step2 (ch_rate2 dom s)) (bs_rate2 (ch_rate2 dom s)) (random2 dom (pl_draw pl) (s_m s)) w.
Proof. exact pf_C79_run_ode23_2d. Qed.
Print Assumptions C79_run_ode23_2d.

Example C79_run_ode23_2d_ex :
  (exists m vm, parse_options (pl_read ex_platform) (pl_lit ex_platform) (pl_eps100 ex_platform) (pl_max100 ex_platform) ex_none
     (ea_args "2" "ode23") ex_members = Ok (Running m vm) /\ asks_with m 2 "ode23" "none" (ex_settings 4 100 20) (1/2)%R (1/2)%R /\
   given m [("time_rel_err_tol", VDouble (IZR 1 * powerRZ 10 (-2))%R); ("min_time_step_size", VDouble (/ 1000000)%R); ("max_time_step_size", VDouble 1000000%R)]) /\
  sound (ex_settings 4 100 20) 100 /\ bc_named "periodic" Periodic /\ reduces ex_platform.
Proof. exact (conj ea_ask_ode23_2d ex_sound). Qed.

(** C79, 3D, rk3ssp: a restarted run with tolerances; the greatest residual so far is that since the restart. *)
Theorem C79_restart_rk3_3d :
  forall (pl : platform R) (fuel : nat) (fs : string -> option string) (vts : string -> list xml)
    (other : members R -> option (res (pworld R))) (args : list string) (opts m : members R) (vm : vmap R) (s : settings R) (rel abs : R)
    (bx by_ bz : bctype) (r : string) (dom0 : domain R) (i : Z) (t dt : R) (u : Z -> Z -> Z -> R),
  parse_options (pl_read pl) (pl_lit pl) (pl_eps100 pl) (pl_max100 pl) fs args opts = Ok (Running m vm) ->
  asks_with m 3 "rk3ssp" r s rel abs -> r <> "none" ->
  is_file3 pl dom0 i t dt u (vts r) -> readable3 pl dom0 t dt u -> valid_domain3 dom0 -> 2 <= nx dom0 /\ 2 <= ny dom0 /\ 2 <= nz dom0 ->
  nx dom0 <= 2147483647 /\ ny dom0 <= 2147483647 /\ nz dom0 <= 2147483647 -> (xbeg dom0 < xend dom0)%R ->
  sound_from s i fuel -> bc_named (s_bc_x s) bx -> bc_named (s_bc_y s) by_ -> bc_named (s_bc_z s) bz ->
  let dom := regrid3 (pl_raw pl) dom0 bx by_ bz in
  exists w, madgicart pl fuel fs vts other args opts = Some (Ok (Finished w)) /\
    story3_with pl s rel abs dom [] [config_template (pl_showg pl) (pl_lit pl) (pl_eps100 pl) (pl_max100 pl) vm; "Using initial conditions file " ++ r]%string
      (i, t, dt) (fun dt p => p = dt)
      (ssp3_3 (ch_rate3 dom s)) (ssp3_rate3 (ch_rate3 dom s)) u w.
Proof. exact pf_C79_restart_rk3_3d. Qed.
Print Assumptions C79_restart_rk3_3d.

Example C79_restart_rk3_3d_ex :
  (exists m vm, parse_options (pl_read ea_platform) (pl_lit ea_platform) (pl_eps100 ea_platform) (pl_max100 ea_platform) ex_none
     (ea_restart_args "3" "rk3ssp" "1" "0.5" "10") ex_members = Ok (Running m vm) /\ asks_with m 3 "rk3ssp" "old" (ea_settings 1) (1/2)%R 10%R) /\
  is_file3 ea_platform rr_dom3 12 4%R 1%R (ea_field3 27) (ea_doc3 27) /\ readable3 ea_platform rr_dom3 4%R 1%R (ea_field3 27) /\ valid_domain3 rr_dom3 /\
  (xbeg rr_dom3 < xend rr_dom3)%R /\ sound_from (ea_settings 1) 12 100 /\ bc_named "periodic" Periodic.
Proof. exact (conj ea_restart_rk3_3d (conj (ea_file3 27) (conj (ea_readable3 27 ea_27) (conj rr_valid3 (conj rr_range (ea_sound 1 12 ea_1 (or_introl eq_refl))))))). Qed.

(** C79, 3D, ode23: a restarted run. *)
Theorem C79_restart_ode23_3d :
  forall (pl : platform R) (fuel : nat) (fs : string -> option string) (vts : string -> list xml)
    (other : members R -> option (res (pworld R))) (args : list string) (opts m : members R) (vm : vmap R) (s : settings R) (rel abs : R)
    (bx by_ bz : bctype) (tol lo hi : R) (r : string) (dom0 : domain R) (i : Z) (t dt : R) (u : Z -> Z -> Z -> R),
  parse_options (pl_read pl) (pl_lit pl) (pl_eps100 pl) (pl_max100 pl) fs args opts = Ok (Running m vm) ->
  asks_with m 3 "ode23" r s rel abs -> r <> "none" ->
  given m [("time_rel_err_tol", VDouble tol); ("min_time_step_size", VDouble lo); ("max_time_step_size", VDouble hi)] ->
  is_file3 pl dom0 i t dt u (vts r) -> readable3 pl dom0 t dt u -> valid_domain3 dom0 -> 2 <= nx dom0 /\ 2 <= ny dom0 /\ 2 <= nz dom0 ->
  nx dom0 <= 2147483647 /\ ny dom0 <= 2147483647 /\ nz dom0 <= 2147483647 -> (xbeg dom0 < xend dom0)%R ->
  sound_from s i fuel -> bc_named (s_bc_x s) bx -> bc_named (s_bc_y s) by_ -> bc_named (s_bc_z s) bz ->
  let dom := regrid3 (pl_raw pl) dom0 bx by_ bz in
  exists w, madgicart pl fuel fs vts other args opts = Some (Ok (Finished w)) /\
    story3_with pl s rel abs dom ["time_err"%string] [config_template (pl_showg pl) (pl_lit pl) (pl_eps100 pl) (pl_max100 pl) vm; "Using initial conditions file " ++ r]%string
      (i, t, dt) (within lo hi)
      (bs_step3 (ch_rate3 dom s)) (bs_rate3 (ch_rate3 dom s)) u w.
Proof. exact pf_C79_restart_ode23_3d. Qed.
Print Assumptions C79_restart_ode23_3d.

Example C79_restart_ode23_3d_ex :
  (exists m vm, parse_options (pl_read ea_platform) (pl_lit ea_platform) (pl_eps100 ea_platform) (pl_max100 ea_platform) ex_none
     (ea_restart_args "3" "ode23" "1" "0.5" "10") ex_members = Ok (Running m vm) /\ asks_with m 3 "ode23" "old" (ea_settings 1) (1/2)%R 10%R /\
   given m [("time_rel_err_tol", VDouble (IZR 1 * powerRZ 10 (-2))%R); ("min_time_step_size", VDouble (/ 1000000)%R); ("max_time_step_size", VDouble 1000000%R)]) /\
  is_file3 ea_platform rr_dom3 12 4%R 1%R (ea_field3 27) (ea_doc3 27) /\ readable3 ea_platform rr_dom3 4%R 1%R (ea_field3 27) /\ valid_domain3 rr_dom3 /\
  (xbeg rr_dom3 < xend rr_dom3)%R /\ sound_from (ea_settings 1) 12 100 /\ bc_named "periodic" Periodic.
Proof. exact (conj ea_restart_ode23_3d (conj (ea_file3 27) (conj (ea_readable3 27 ea_27) (conj rr_valid3 (conj rr_range (ea_sound 1 12 ea_1 (or_introl eq_refl))))))). Qed.

(** C79, 2D, rk3ssp: a restarted run. *)
Theorem C79_restart_rk3_2d :
  forall (pl : platform R) (fuel : nat) (fs : string -> option string) (vts : string -> list xml)
    (other : members R -> option (res (pworld R))) (args : list string) (opts m : members R) (vm : vmap R) (s : settings R) (rel abs : R)
    (bx by_ bz : bctype) (r : string) (dom0 : domain R) (i : Z) (t dt : R) (u : Z -> Z -> R),
  parse_options (pl_read pl) (pl_lit pl) (pl_eps100 pl) (pl_max100 pl) fs args opts = Ok (Running m vm) ->
  asks_with m 2 "rk3ssp" r s rel abs -> r <> "none" ->
  is_file2 pl dom0 i t dt u (vts r) -> readable2 pl dom0 t dt u -> pl_read pl "0.0" = Ok 0%R -> valid_domain2 dom0 -> 2 <= nx dom0 ->
  nx dom0 <= 2147483647 -> (xbeg dom0 < xend dom0)%R ->
  sound_from s i fuel -> bc_named (s_bc_x s) bx -> bc_named (s_bc_y s) by_ -> bc_named (s_bc_z s) bz ->
  let dom := regrid2 (pl_raw pl) dom0 bx by_ bz in
  exists w, madgicart pl fuel fs vts other args opts = Some (Ok (Finished w)) /\
    story2_with pl s rel abs dom [] [config_template (pl_showg pl) (pl_lit pl) (pl_eps100 pl) (pl_max100 pl) vm; "Using initial conditions file " ++ r]%string
      (i, t, dt) (fun dt p => p = dt)
      (ssp3_2 (ch_rate2 dom s)) (ssp3_rate2 (ch_rate2 dom s)) u w.
Proof. exact pf_C79_restart_rk3_2d. Qed.
Print Assumptions C79_restart_rk3_2d.

Example C79_restart_rk3_2d_ex :
  (exists m vm, parse_options (pl_read ea_platform) (pl_lit ea_platform) (pl_eps100 ea_platform) (pl_max100 ea_platform) ex_none
     (ea_restart_args "2" "rk3ssp" "1" "0.5" "10") ex_members = Ok (Running m vm) /\ asks_with m 2 "rk3ssp" "old" (ea_settings 1) (1/2)%R 10%R) /\
  is_file2 ea_platform rr_dom2 12 4%R 1%R (ea_field2 27) (ea_doc2 27) /\ readable2 ea_platform rr_dom2 4%R 1%R (ea_field2 27) /\ valid_domain2 rr_dom2 /\
  (xbeg rr_dom2 < xend rr_dom2)%R /\ sound_from (ea_settings 1) 12 100 /\ bc_named "periodic" Periodic.
Proof. exact (conj ea_restart_rk3_2d (conj (ea_file2 27) (conj (ea_readable2 27 ea_27) (conj rr_valid2 (conj rr_range (ea_sound 1 12 ea_1 (or_introl eq_refl))))))). Qed.

(** C79, 2D, ode23: a restarted run. *)
Theorem C79_restart_ode23_2d :
  forall (pl : platform R) (fuel : nat) (fs : string -> option string) (vts : string -> list xml)
    (other : members R -> option (res (pworld R))) (args : list string) (opts m : members R) (vm : vmap R) (s : settings R) (rel abs : R)
    (bx by_ bz : bctype) (tol lo hi : R) (r : string) (dom0 : domain R) (i : Z) (t dt : R) (u : Z -> Z -> R),
  parse_options (pl_read pl) (pl_lit pl) (pl_eps100 pl) (pl_max100 pl) fs args opts = Ok (Running m vm) ->
  asks_with m 2 "ode23" r s rel abs -> r <> "none" ->
  given m [("time_rel_err_tol", VDouble tol); ("min_time_step_size", VDouble lo); ("max_time_step_size", VDouble hi)] ->
  is_file2 pl dom0 i t dt u (vts r) -> readable2 pl dom0 t dt u -> pl_read pl "0.0" = Ok 0%R -> valid_domain2 dom0 -> 2 <= nx dom0 ->
  nx dom0 <= 2147483647 -> (xbeg dom0 < xend dom0)%R ->
  sound_from s i fuel -> bc_named (s_bc_x s) bx -> bc_named (s_bc_y s) by_ -> bc_named (s_bc_z s) bz ->
  let dom := regrid2 (pl_raw pl) dom0 bx by_ bz in
  exists w, madgicart pl fuel fs vts other args opts = Some (Ok (Finished w)) /\
    story2_with pl s rel abs dom ["time_err"%string] [config_template (pl_showg pl) (pl_lit pl) (pl_eps100 pl) (pl_max100 pl) vm; "Using initial conditions file " ++ r]%string
      (i, t, dt) (within lo hi)
      (bs_step2 (ch_rate2 dom s)) (bs_rate2 (ch_rate2 dom s)) u w.
Proof. exact pf_C79_restart_ode23_2d. Qed.
Print Assumptions C79_restart_ode23_2d.

Example C79_restart_ode23_2d_ex :
  (exists m vm, parse_options (pl_read ea_platform) (pl_lit ea_platform) (pl_eps100 ea_platform) (pl_max100 ea_platform) ex_none
     (ea_restart_args "2" "ode23" "1" "0.5" "10") ex_members = Ok (Running m vm) /\ asks_with m 2 "ode23" "old" (ea_settings 1) (1/2)%R 10%R /\
   given m [("time_rel_err_tol", VDouble (IZR 1 * powerRZ 10 (-2))%R); ("min_time_step_size", VDouble (/ 1000000)%R); ("max_time_step_size", VDouble 1000000%R)]) /\
  is_file2 ea_platform rr_dom2 12 4%R 1%R (ea_field2 27) (ea_doc2 27) /\ readable2 ea_platform rr_dom2 4%R 1%R (ea_field2 27) /\ valid_domain2 rr_dom2 /\
  (xbeg rr_dom2 < xend rr_dom2)%R /\ sound_from (ea_settings 1) 12 100 /\ bc_named "periodic" Periodic.
Proof. exact (conj ea_restart_ode23_2d (conj (ea_file2 27) (conj (ea_readable2 27 ea_27) (conj rr_valid2 (conj rr_range (ea_sound 1 12 ea_1 (or_introl eq_refl))))))). Qed.

(** C79: with an absolute tolerance, how often the program logs changes its solution files. The test uses the residual that was
    logged last, so a run that logs less often goes on for longer. *)
Theorem C79_log_frequency_refuted :
  ~ (forall (pl : platform R) (fuel : nat) (fs : string -> option string) (vts : string -> list xml)
      (other : members R -> option (res (pworld R))) (args args' : list string) (opts m m' : members R) (vm vm' : vmap R) (s s' : settings R) (rel abs : R)
      (r : string) (w w' : pworld R),
    reduces pl ->
    parse_options (pl_read pl) (pl_lit pl) (pl_eps100 pl) (pl_max100 pl) fs args opts = Ok (Running m vm) ->
    parse_options (pl_read pl) (pl_lit pl) (pl_eps100 pl) (pl_max100 pl) fs args' opts = Ok (Running m' vm') ->
    asks_with m 2 "rk3ssp" r s rel abs -> asks_with m' 2 "rk3ssp" r s' rel abs -> same_but_log s s' ->
    madgicart pl fuel fs vts other args opts = Some (Ok (Finished w)) ->
    madgicart pl fuel fs vts other args' opts = Some (Ok (Finished w')) -> w_files w = w_files w').
Proof. exact pf_C79_log_frequency_refuted. Qed.
Print Assumptions C79_log_frequency_refuted.

(** C79: with a relative tolerance, a run restarted from one of its own solution files need not write the files that follow in the run that
    wrote it, even if both log and save every step and agree in all options.  The greatest residual so far, which the residual is divided by, is not in the file. *)
Theorem C79_restart_refuted :
  ~ (forall (pl : platform R) (fuel : nat) (fs : string -> option string) (vts vts' : string -> list xml)
      (other : members R -> option (res (pworld R))) (args : list string) (opts m : members R) (vm : vmap R) (s : settings R) (rel abs : R)
      (r name : string) (doc : list xml) (n : nat) (w w' : pworld R),
    reduces pl ->
    parse_options (pl_read pl) (pl_lit pl) (pl_eps100 pl) (pl_max100 pl) fs args opts = Ok (Running m vm) ->
    asks_with m 2 "rk3ssp" r s rel abs -> s_log_every s = 1 -> s_save_every s = 1 ->
    madgicart pl fuel fs vts other args opts = Some (Ok (Finished w)) ->
    nth_error (w_files w) n = Some (name, doc) -> (n + 2 < length (w_files w))%nat -> vts' r = doc ->
    madgicart pl fuel fs vts' other args opts = Some (Ok (Finished w')) -> w_files w' = skipn (n + 1) (w_files w)).
Proof. exact pf_C79_restart_refuted. Qed.
Print Assumptions C79_restart_refuted.
