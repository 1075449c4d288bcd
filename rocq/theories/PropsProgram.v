(** The whole program, from the command line to the solution files and the log: C72.

    [madgicart] is the main function (ModelProgram); [asks m dim integrator restart s] says that the
    parsed options are the settings s; [story3] and [story2] (SpecProgram) describe the steps, the
    solution files and the log of a run, whose rows have the columns named in their list besides the common ones. *)
From Coq Require Import String Reals.
From Verif Require Import ModelLogger ModelOptions Outcome ZList Num ModelDisc3D ModelDisc2D ModelVTK ModelProgram SpecGrid SpecField SpecRestart SpecMon
  SpecProgram ProgramFinal.
From Coq Require Import ZArith List.
Local Open Scope string_scope.
Local Open Scope list_scope.
Local Open Scope Z_scope.

(** C72, 3D, rk3ssp: a new run with sound settings ends normally.  It starts from the random initial field with
    mean m; the steps have the given size, the last one shortened to end at the final time, and their
    number is limited by max_time_steps; each step is one of the third-order strong-stability-preserving
    method for the discrete Cahn-Hilliard equations.  Solution files are written after steps 1, 1 + save_every,
    1 + 2 save_every, ..., and after the last step; each holds the field, time and step number reached.  The
    log gets the configuration and, at steps 1, 1 + log_frequency, ..., the step number, time and step
    size, the root mean square of the increment rate, and the least and greatest value. *)
Theorem C72_run_rk3_3d :
  forall (pl : platform R) (fuel : nat) (fs : string -> option string) (vts : string -> list xml)
    (other : members R -> option (res (pworld R))) (args : list string) (opts m : members R) (vm : vmap R) (s : settings R)
    (bx by_ bz : bctype),
  parse_options (pl_read pl) (pl_lit pl) (pl_eps100 pl) (pl_max100 pl) fs args opts = Ok (Running m vm) ->
  asks m 3 "rk3ssp" "none" s ->
  sound s fuel -> bc_named (s_bc_x s) bx -> bc_named (s_bc_y s) by_ -> bc_named (s_bc_z s) bz ->
  let dom := grid_of s bx by_ bz in
  exists w, madgicart pl fuel fs vts other args opts = Some (Ok (Finished w)) /\
    story3 pl s dom [] [config_template (pl_showg pl) (pl_lit pl) (pl_eps100 pl) (pl_max100 pl) vm] (0, s_t0 s, s_dt s) (fun dt p => p = dt)
      (ssp3_3 (ch_rate3 dom s)) (ssp3_rate3 (ch_rate3 dom s)) (random3 dom (pl_draw pl) (s_m s)) w.
Proof. exact pf_C72_run_rk3_3d. Qed.
Print Assumptions C72_run_rk3_3d.

Example C72_run_rk3_3d_ex :
  (exists m vm, parse_options (pl_read ex_platform) (pl_lit ex_platform) (pl_eps100 ex_platform) (pl_max100 ex_platform) ex_none
     (ex_args "3" "rk3ssp" "4" "100" "20") ex_members = Ok (Running m vm) /\ asks m 3 "rk3ssp" "none" (ex_settings 4 100 20)) /\
  sound (ex_settings 4 100 20) 100 /\ bc_named "periodic" Periodic /\ reduces ex_platform.
Proof. exact (conj ex_run_rk3_3d ex_sound). Qed.

(** C72, 3D, ode23: the same with the method of Bogacki and Shampine; the size proposed for the next step is
    that of the step made or lies within the limits; the rows of the log have a column time_err besides. *)
Theorem C72_run_ode23_3d :
  forall (pl : platform R) (fuel : nat) (fs : string -> option string) (vts : string -> list xml)
    (other : members R -> option (res (pworld R))) (args : list string) (opts m : members R) (vm : vmap R) (s : settings R)
    (bx by_ bz : bctype) (tol lo hi : R),
  parse_options (pl_read pl) (pl_lit pl) (pl_eps100 pl) (pl_max100 pl) fs args opts = Ok (Running m vm) ->
  asks m 3 "ode23" "none" s ->
  given m [("time_rel_err_tol", VDouble tol); ("min_time_step_size", VDouble lo); ("max_time_step_size", VDouble hi)] ->
  sound s fuel -> bc_named (s_bc_x s) bx -> bc_named (s_bc_y s) by_ -> bc_named (s_bc_z s) bz ->
  let dom := grid_of s bx by_ bz in
  exists w, madgicart pl fuel fs vts other args opts = Some (Ok (Finished w)) /\
    story3 pl s dom ["time_err"%string] [config_template (pl_showg pl) (pl_lit pl) (pl_eps100 pl) (pl_max100 pl) vm] (0, s_t0 s, s_dt s) (within lo hi)
      (bs_step3 (ch_rate3 dom s)) (bs_rate3 (ch_rate3 dom s)) (random3 dom (pl_draw pl) (s_m s)) w.
Proof. exact pf_C72_run_ode23_3d. Qed.
Print Assumptions C72_run_ode23_3d.

Example C72_run_ode23_3d_ex :
  (exists m vm, parse_options (pl_read ex_platform) (pl_lit ex_platform) (pl_eps100 ex_platform) (pl_max100 ex_platform) ex_none
     (ex_args "3" "ode23" "4" "100" "20") ex_members = Ok (Running m vm) /\ asks m 3 "ode23" "none" (ex_settings 4 100 20) /\
   given m [("time_rel_err_tol", VDouble (IZR 1 * powerRZ 10 (-2))%R); ("min_time_step_size", VDouble (/ 1000000)%R);
            ("max_time_step_size", VDouble 1000000%R)]) /\
  sound (ex_settings 4 100 20) 100 /\ bc_named "periodic" Periodic /\ reduces ex_platform.
Proof. exact (conj ex_run_ode23_split_3d ex_sound). Qed.

(** C72, 2D, rk3ssp. *)
Theorem C72_run_rk3_2d :
  forall (pl : platform R) (fuel : nat) (fs : string -> option string) (vts : string -> list xml)
    (other : members R -> option (res (pworld R))) (args : list string) (opts m : members R) (vm : vmap R) (s : settings R)
    (bx by_ bz : bctype),
  parse_options (pl_read pl) (pl_lit pl) (pl_eps100 pl) (pl_max100 pl) fs args opts = Ok (Running m vm) ->
  asks m 2 "rk3ssp" "none" s ->
  sound s fuel -> bc_named (s_bc_x s) bx -> bc_named (s_bc_y s) by_ -> bc_named (s_bc_z s) bz ->
  let dom := grid_of s bx by_ bz in
  exists w, madgicart pl fuel fs vts other args opts = Some (Ok (Finished w)) /\
    story2 pl s dom [] [config_template (pl_showg pl) (pl_lit pl) (pl_eps100 pl) (pl_max100 pl) vm] (0, s_t0 s, s_dt s) (fun dt p => p = dt)
      (ssp3_2 (ch_rate2 dom s)) (ssp3_rate2 (ch_rate2 dom s)) (random2 dom (pl_draw pl) (s_m s)) w.
Proof. exact pf_C72_run_rk3_2d. Qed.
Print Assumptions C72_run_rk3_2d.

Example C72_run_rk3_2d_ex :
  (exists m vm, parse_options (pl_read ex_platform) (pl_lit ex_platform) (pl_eps100 ex_platform) (pl_max100 ex_platform) ex_none
     (ex_args "2" "rk3ssp" "4" "100" "20") ex_members = Ok (Running m vm) /\ asks m 2 "rk3ssp" "none" (ex_settings 4 100 20)) /\
  sound (ex_settings 4 100 20) 100 /\ bc_named "periodic" Periodic /\ reduces ex_platform.
Proof. exact (conj ex_run_rk3_2d ex_sound). Qed.

(** C72, 2D, ode23. *)
Theorem C72_run_ode23_2d :
  forall (pl : platform R) (fuel : nat) (fs : string -> option string) (vts : string -> list xml)
    (other : members R -> option (res (pworld R))) (args : list string) (opts m : members R) (vm : vmap R) (s : settings R)
    (bx by_ bz : bctype) (tol lo hi : R),
  parse_options (pl_read pl) (pl_lit pl) (pl_eps100 pl) (pl_max100 pl) fs args opts = Ok (Running m vm) ->
  asks m 2 "ode23" "none" s ->
  given m [("time_rel_err_tol", VDouble tol); ("min_time_step_size", VDouble lo); ("max_time_step_size", VDouble hi)] ->
  sound s fuel -> bc_named (s_bc_x s) bx -> bc_named (s_bc_y s) by_ -> bc_named (s_bc_z s) bz ->
  let dom := grid_of s bx by_ bz in
  exists w, madgicart pl fuel fs vts other args opts = Some (Ok (Finished w)) /\
    story2 pl s dom ["time_err"%string] [config_template (pl_showg pl) (pl_lit pl) (pl_eps100 pl) (pl_max100 pl) vm] (0, s_t0 s, s_dt s) (within lo hi)
      (bs_step2 (ch_rate2 dom s)) (bs_rate2 (ch_rate2 dom s)) (random2 dom (pl_draw pl) (s_m s)) w.
Proof. exact pf_C72_run_ode23_2d. Qed.
Print Assumptions C72_run_ode23_2d.

Example C72_run_ode23_2d_ex :
  (exists m vm, parse_options (pl_read ex_platform) (pl_lit ex_platform) (pl_eps100 ex_platform) (pl_max100 ex_platform) ex_none
     (ex_args "2" "ode23" "4" "100" "20") ex_members = Ok (Running m vm) /\ asks m 2 "ode23" "none" (ex_settings 4 100 20) /\
   given m [("time_rel_err_tol", VDouble (IZR 1 * powerRZ 10 (-2))%R); ("min_time_step_size", VDouble (/ 1000000)%R);
            ("max_time_step_size", VDouble 1000000%R)]) /\
  sound (ex_settings 4 100 20) 100 /\ bc_named "periodic" Periodic /\ reduces ex_platform.
Proof. exact (conj ex_run_ode23_split_2d ex_sound). Qed.

(** C72, 3D: without Neumann boundaries every solution file of a run holds a field whose mean is exactly m, for
    both integrators and whatever step sizes the run used. *)
Theorem C72_mean_3d :
  forall (pl : platform R) (fuel : nat) (fs : string -> option string) (vts : string -> list xml)
    (other : members R -> option (res (pworld R))) (args : list string) (opts m : members R) (vm : vmap R) (s : settings R)
    (bx by_ bz : bctype) (ti : string),
  parse_options (pl_read pl) (pl_lit pl) (pl_eps100 pl) (pl_max100 pl) fs args opts = Ok (Running m vm) ->
  asks m 3 ti "none" s ->
  ti = "rk3ssp" \/ (ti = "ode23" /\ exists tol lo hi,
    given m [("time_rel_err_tol", VDouble tol); ("min_time_step_size", VDouble lo); ("max_time_step_size", VDouble hi)]) ->
  sound s fuel -> bc_named (s_bc_x s) bx -> bc_named (s_bc_y s) by_ -> bc_named (s_bc_z s) bz -> bx <> Neumann -> by_ <> Neumann -> bz <> Neumann ->
  exists w, madgicart pl fuel fs vts other args opts = Some (Ok (Finished w)) /\
    Forall (fun f => exists i t dt u, is_file3 pl (grid_of s bx by_ bz) i t dt u (snd f) /\
      mean3 (grid_of s bx by_ bz) u = s_m s) (w_files w).
Proof. exact pf_C72_mean_3d. Qed.
Print Assumptions C72_mean_3d.

Example C72_mean_3d_ex :
  (exists m vm, parse_options (pl_read ex_platform) (pl_lit ex_platform) (pl_eps100 ex_platform) (pl_max100 ex_platform) ex_none
     (ex_args "3" "rk3ssp" "4" "100" "20") ex_members = Ok (Running m vm) /\ asks m 3 "rk3ssp" "none" (ex_settings 4 100 20)) /\
  sound (ex_settings 4 100 20) 100 /\ bc_named "periodic" Periodic /\ reduces ex_platform.
Proof. exact (conj ex_run_rk3_3d ex_sound). Qed.

(** C72, 2D: the mean in every solution file. *)
Theorem C72_mean_2d :
  forall (pl : platform R) (fuel : nat) (fs : string -> option string) (vts : string -> list xml)
    (other : members R -> option (res (pworld R))) (args : list string) (opts m : members R) (vm : vmap R) (s : settings R)
    (bx by_ bz : bctype) (ti : string),
  parse_options (pl_read pl) (pl_lit pl) (pl_eps100 pl) (pl_max100 pl) fs args opts = Ok (Running m vm) ->
  asks m 2 ti "none" s ->
  ti = "rk3ssp" \/ (ti = "ode23" /\ exists tol lo hi,
    given m [("time_rel_err_tol", VDouble tol); ("min_time_step_size", VDouble lo); ("max_time_step_size", VDouble hi)]) ->
  sound s fuel -> bc_named (s_bc_x s) bx -> bc_named (s_bc_y s) by_ -> bc_named (s_bc_z s) bz ->
  exists w, madgicart pl fuel fs vts other args opts = Some (Ok (Finished w)) /\
    Forall (fun f => exists i t dt u, is_file2 pl (grid_of s bx by_ bz) i t dt u (snd f) /\
      mean2 (grid_of s bx by_ bz) u = s_m s) (w_files w).
Proof. exact pf_C72_mean_2d. Qed.
Print Assumptions C72_mean_2d.

Example C72_mean_2d_ex :
  (exists m vm, parse_options (pl_read ex_platform) (pl_lit ex_platform) (pl_eps100 ex_platform) (pl_max100 ex_platform) ex_none
     (ex_args "2" "rk3ssp" "4" "100" "20") ex_members = Ok (Running m vm) /\ asks m 2 "rk3ssp" "none" (ex_settings 4 100 20)) /\
  sound (ex_settings 4 100 20) 100 /\ bc_named "periodic" Periodic /\ reduces ex_platform.
Proof. exact (conj ex_run_rk3_2d ex_sound). Qed.

(** C72, 3D, any arithmetic: how often and into which file the program logs has no influence on the
    solution files of rk3ssp runs. *)
Theorem C72_log_free_3d :
  forall (V : Type) (N : Num V) (pl : platform V) (fuel fuel' : nat) (fs fs' : string -> option string) (vts vts' : string -> list xml)
    (other other' : members V -> option (res (pworld V))) (args args' : list string) (opts opts' m m' : members V) (vm vm' : vmap V)
    (s s' : settings V) (bx by_ bz : bctype),
  parse_options (pl_read pl) (pl_lit pl) (pl_eps100 pl) (pl_max100 pl) fs args opts = Ok (Running m vm) ->
  parse_options (pl_read pl) (pl_lit pl) (pl_eps100 pl) (pl_max100 pl) fs' args' opts' = Ok (Running m' vm') ->
  asks m 3 "rk3ssp" "none" s -> asks m' 3 "rk3ssp" "none" s' -> same_but_log s s' ->
  sound s fuel -> sound s' fuel' -> bc_named (s_bc_x s) bx -> bc_named (s_bc_y s) by_ -> bc_named (s_bc_z s) bz ->
  neqb (nint 0 : V) (nint 0) = true ->
  exists w w', madgicart pl fuel fs vts other args opts = Some (Ok (Finished w)) /\
    madgicart pl fuel' fs' vts' other' args' opts' = Some (Ok (Finished w')) /\ w_files w = w_files w'.
Proof. exact pf_C72_log_free_3d. Qed.
Print Assumptions C72_log_free_3d.

Example C72_log_free_3d_ex :
  (exists m vm, parse_options (pl_read ex_platform) (pl_lit ex_platform) (pl_eps100 ex_platform) (pl_max100 ex_platform) ex_none
     (ex_args "3" "rk3ssp" "4" "100" "7") ex_members = Ok (Running m vm) /\ asks m 3 "rk3ssp" "none" (ex_settings 4 100 7)) /\
  same_but_log (ex_settings 4 100 20) (ex_settings 4 100 7) /\ sound (ex_settings 4 100 7) 100 /\ neqb (nint 0 : R) (nint 0) = true.
Proof. exact (conj ex_log_free_3d ex_same). Qed.

(** C72, 2D: the log has no influence on the solution files. *)
Theorem C72_log_free_2d :
  forall (V : Type) (N : Num V) (pl : platform V) (fuel fuel' : nat) (fs fs' : string -> option string) (vts vts' : string -> list xml)
    (other other' : members V -> option (res (pworld V))) (args args' : list string) (opts opts' m m' : members V) (vm vm' : vmap V)
    (s s' : settings V) (bx by_ bz : bctype),
  parse_options (pl_read pl) (pl_lit pl) (pl_eps100 pl) (pl_max100 pl) fs args opts = Ok (Running m vm) ->
  parse_options (pl_read pl) (pl_lit pl) (pl_eps100 pl) (pl_max100 pl) fs' args' opts' = Ok (Running m' vm') ->
  asks m 2 "rk3ssp" "none" s -> asks m' 2 "rk3ssp" "none" s' -> same_but_log s s' ->
  sound s fuel -> sound s' fuel' -> bc_named (s_bc_x s) bx -> bc_named (s_bc_y s) by_ -> bc_named (s_bc_z s) bz ->
  neqb (nint 0 : V) (nint 0) = true ->
  exists w w', madgicart pl fuel fs vts other args opts = Some (Ok (Finished w)) /\
    madgicart pl fuel' fs' vts' other' args' opts' = Some (Ok (Finished w')) /\ w_files w = w_files w'.
Proof. exact pf_C72_log_free_2d. Qed.
Print Assumptions C72_log_free_2d.

Example C72_log_free_2d_ex :
  (exists m vm, parse_options (pl_read ex_platform) (pl_lit ex_platform) (pl_eps100 ex_platform) (pl_max100 ex_platform) ex_none
     (ex_args "2" "rk3ssp" "4" "100" "7") ex_members = Ok (Running m vm) /\ asks m 2 "rk3ssp" "none" (ex_settings 4 100 7)) /\
  same_but_log (ex_settings 4 100 20) (ex_settings 4 100 7) /\ sound (ex_settings 4 100 7) 100 /\ neqb (nint 0 : R) (nint 0) = true.
Proof. exact (conj ex_log_free_2d ex_same). Qed.

(** C72, 3D: the limit on the number of steps is not honoured above 2147483647, although the option is read as an
    unsigned int: such a run ends after its first step. *)
Theorem C72_step_limit_3d_refuted :
  forall (V : Type) (N : Num V) (pl : platform V) (fuel : nat) (fs : string -> option string) (vts : string -> list xml)
    (other : members V -> option (res (pworld V))) (args : list string) (opts m : members V) (vm : vmap V) (s : settings V)
    (bx by_ bz : bctype),
  parse_options (pl_read pl) (pl_lit pl) (pl_eps100 pl) (pl_max100 pl) fs args opts = Ok (Running m vm) ->
  asks m 3 "rk3ssp" "none" s -> 2 <= s_nx s -> 2 <= s_ny s <= 2147483647 -> 2 <= s_nz s <= 2147483647 -> 0 <= s_variant s <= 2 ->
  bc_named (s_bc_x s) bx -> bc_named (s_bc_y s) by_ -> bc_named (s_bc_z s) bz ->
  s_log_every s <> 0 -> neqb (nint 0 : V) (nint 0) = true -> 2147483647 < s_max_steps s <= 4294967295 -> (1 <= fuel)%nat ->
  exists w f fin, madgicart pl fuel fs vts other args opts = Some (Ok (Finished w)) /\
    w_files w = every (s_save_every s) [f] ++ [fin] /\
    fst f = file_name3 s (base_of s) 1 /\ fst fin = file_name3 s (base_of s ++ "_final")%string 1.
Proof. exact pf_C72_step_limit_3d_refuted. Qed.
Print Assumptions C72_step_limit_3d_refuted.

Example C72_step_limit_3d_ex :
  exists m vm, parse_options (pl_read ex_platform) (pl_lit ex_platform) (pl_eps100 ex_platform) (pl_max100 ex_platform) ex_none
     (ex_args "3" "rk3ssp" "4" "3000000000" "20") ex_members = Ok (Running m vm) /\ asks m 3 "rk3ssp" "none" (ex_settings 4 3000000000 20).
Proof. exact ex_limit_3d. Qed.

(** C72, 2D: the same wrapped limit. *)
Theorem C72_step_limit_2d_refuted :
  forall (V : Type) (N : Num V) (pl : platform V) (fuel : nat) (fs : string -> option string) (vts : string -> list xml)
    (other : members V -> option (res (pworld V))) (args : list string) (opts m : members V) (vm : vmap V) (s : settings V)
    (bx by_ bz : bctype),
  parse_options (pl_read pl) (pl_lit pl) (pl_eps100 pl) (pl_max100 pl) fs args opts = Ok (Running m vm) ->
  asks m 2 "rk3ssp" "none" s -> 2 <= s_nx s -> 2 <= s_ny s <= 2147483647 -> 2 <= s_nz s <= 2147483647 ->
  bc_named (s_bc_x s) bx -> bc_named (s_bc_y s) by_ -> bc_named (s_bc_z s) bz ->
  s_log_every s <> 0 -> neqb (nint 0 : V) (nint 0) = true -> 2147483647 < s_max_steps s <= 4294967295 -> (1 <= fuel)%nat ->
  exists w f fin, madgicart pl fuel fs vts other args opts = Some (Ok (Finished w)) /\
    w_files w = every (s_save_every s) [f] ++ [fin] /\
    fst f = file_name2 s (base_of s) 1 /\ fst fin = file_name2 s (base_of s ++ "_final")%string 1.
Proof. exact pf_C72_step_limit_2d_refuted. Qed.
Print Assumptions C72_step_limit_2d_refuted.

Example C72_step_limit_2d_ex :
  exists m vm, parse_options (pl_read ex_platform) (pl_lit ex_platform) (pl_eps100 ex_platform) (pl_max100 ex_platform) ex_none
     (ex_args "2" "rk3ssp" "4" "3000000000" "20") ex_members = Ok (Running m vm) /\ asks m 2 "rk3ssp" "none" (ex_settings 4 3000000000 20).
Proof. exact ex_limit_2d. Qed.

(** C72: a resolution of 0 cells in x is accepted by the option parser, but the program's behaviour is then undefined
    (an integer division by zero, in 2D too). *)
Theorem C72_zero_resolution_refuted :
  forall (V : Type) (N : Num V) (pl : platform V) (fuel : nat) (fs : string -> option string) (vts : string -> list xml)
    (other : members V -> option (res (pworld V))) (args : list string) (opts m : members V) (vm : vmap V) (s : settings V)
    (dim : Z) (ti : string),
  parse_options (pl_read pl) (pl_lit pl) (pl_eps100 pl) (pl_max100 pl) fs args opts = Ok (Running m vm) ->
  asks m dim ti "none" s -> s_nx s = 0 -> madgicart pl fuel fs vts other args opts = Some UB.
Proof. exact pf_C72_zero_resolution_refuted. Qed.
Print Assumptions C72_zero_resolution_refuted.

Example C72_zero_resolution_ex :
  exists m vm, parse_options (pl_read ex_platform) (pl_lit ex_platform) (pl_eps100 ex_platform) (pl_max100 ex_platform) ex_none
     (ex_args "2" "rk3ssp" "0" "100" "20") ex_members = Ok (Running m vm) /\ asks m 2 "rk3ssp" "none" (ex_settings 0 100 20).
Proof. exact ex_zero. Qed.
