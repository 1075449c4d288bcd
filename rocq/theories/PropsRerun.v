(** Restarts of the whole program: C75.

    [vts] gives the contents of the restart file by its name; [is_file3 pl dom i t dt u doc] (SpecProgram)
    says that doc is the solution file of step i at time t with step size dt and the field u on the grid
    dom; [readable3] that its numbers can be read back exactly. *)
From Coq Require Import String Reals QArith.
From Verif Require Import ModelLogger ModelOptions Outcome ZList Num ModelDisc3D ModelDisc2D ModelTime ModelVTK ModelProgram SpecGrid SpecField SpecRestart SpecMon
  SpecProgram ExampleNum ProgramFinal RerunFinal.
From Coq Require Import ZArith List.
Local Open Scope string_scope.
Local Open Scope list_scope.
Local Open Scope Z_scope.

(** C75, 3D, rk3ssp: a run given the solution file of step i at time t ends normally.  It continues from the file:
    the grid, the field, the step number, the time and the step size are those of the file, whatever the
    options for them say; the kinds of boundary, the equations' parameters, the final time and the step limit are those of
    the options.  The files saved and the rows logged are counted from the restart; the log names the
    file used. *)
Theorem C75_restart_rk3_3d :
  forall (pl : platform R) (fuel : nat) (fs : string -> option string) (vts : string -> list xml)
    (other : members R -> option (res (pworld R))) (args : list string) (opts m : members R) (vm : vmap R) (s : settings R)
    (bx by_ bz : bctype) (r : string) (dom0 : domain R) (i : Z) (t dt : R) (u : Z -> Z -> Z -> R),
  parse_options (pl_read pl) (pl_lit pl) (pl_eps100 pl) (pl_max100 pl) fs args opts = Ok (Running m vm) ->
  asks m 3 "rk3ssp" r s -> r <> "none" ->
  is_file3 pl dom0 i t dt u (vts r) -> readable3 pl dom0 t dt u -> valid_domain3 dom0 -> 2 <= nx dom0 /\ 2 <= ny dom0 /\ 2 <= nz dom0 ->
  nx dom0 <= 2147483647 /\ ny dom0 <= 2147483647 /\ nz dom0 <= 2147483647 -> (xbeg dom0 < xend dom0)%R ->
  sound_from s i fuel -> bc_named (s_bc_x s) bx -> bc_named (s_bc_y s) by_ -> bc_named (s_bc_z s) bz ->
  let dom := regrid3 (pl_raw pl) dom0 bx by_ bz in
  exists w, madgicart pl fuel fs vts other args opts = Some (Ok (Finished w)) /\
    story3 pl s dom [] [config_template (pl_showg pl) (pl_lit pl) (pl_eps100 pl) (pl_max100 pl) vm; "Using initial conditions file " ++ r]%string
      (i, t, dt) (fun dt p => p = dt)
      (ssp3_3 (ch_rate3 dom s)) (ssp3_rate3 (ch_rate3 dom s)) u w.
Proof. exact pf_C75_restart_rk3_3d. Qed.
Print Assumptions C75_restart_rk3_3d.

Example C75_restart_rk3_3d_ex :
  (exists m vm, parse_options (pl_read rr_platform) (pl_lit rr_platform) (pl_eps100 rr_platform) (pl_max100 rr_platform) ex_none
     (rr_args "3" "rk3ssp") ex_members = Ok (Running m vm) /\ asks m 3 "rk3ssp" "old" rr_settings) /\
  is_file3 rr_platform rr_dom3 12 4%R 1%R rr_field3 rr_doc3 /\ readable3 rr_platform rr_dom3 4%R 1%R rr_field3 /\ valid_domain3 rr_dom3 /\
  (xbeg rr_dom3 < xend rr_dom3)%R /\ sound_from rr_settings 12 100 /\ bc_named "periodic" Periodic.
Proof. exact (conj rr_ask_rk3_3d (conj rr_file3 (conj rr_readable3 (conj rr_valid3 (conj rr_range rr_sound))))). Qed.

(** C75, 3D, ode23. *)
Theorem C75_restart_ode23_3d :
  forall (pl : platform R) (fuel : nat) (fs : string -> option string) (vts : string -> list xml)
    (other : members R -> option (res (pworld R))) (args : list string) (opts m : members R) (vm : vmap R) (s : settings R)
    (bx by_ bz : bctype) (tol lo hi : R) (r : string) (dom0 : domain R) (i : Z) (t dt : R) (u : Z -> Z -> Z -> R),
  parse_options (pl_read pl) (pl_lit pl) (pl_eps100 pl) (pl_max100 pl) fs args opts = Ok (Running m vm) ->
  asks m 3 "ode23" r s -> r <> "none" ->
  given m [("time_rel_err_tol", VDouble tol); ("min_time_step_size", VDouble lo); ("max_time_step_size", VDouble hi)] ->
  is_file3 pl dom0 i t dt u (vts r) -> readable3 pl dom0 t dt u -> valid_domain3 dom0 -> 2 <= nx dom0 /\ 2 <= ny dom0 /\ 2 <= nz dom0 ->
  nx dom0 <= 2147483647 /\ ny dom0 <= 2147483647 /\ nz dom0 <= 2147483647 -> (xbeg dom0 < xend dom0)%R ->
  sound_from s i fuel -> bc_named (s_bc_x s) bx -> bc_named (s_bc_y s) by_ -> bc_named (s_bc_z s) bz ->
  let dom := regrid3 (pl_raw pl) dom0 bx by_ bz in
  exists w, madgicart pl fuel fs vts other args opts = Some (Ok (Finished w)) /\
    story3 pl s dom ["time_err"%string] [config_template (pl_showg pl) (pl_lit pl) (pl_eps100 pl) (pl_max100 pl) vm; "Using initial conditions file " ++ r]%string
      (i, t, dt) (within lo hi)
      (bs_step3 (ch_rate3 dom s)) (bs_rate3 (ch_rate3 dom s)) u w.
Proof. exact pf_C75_restart_ode23_3d. Qed.
Print Assumptions C75_restart_ode23_3d.

Example C75_restart_ode23_3d_ex :
  (exists m vm, parse_options (pl_read rr_platform) (pl_lit rr_platform) (pl_eps100 rr_platform) (pl_max100 rr_platform) ex_none
     (rr_args "3" "ode23") ex_members = Ok (Running m vm) /\ asks m 3 "ode23" "old" rr_settings /\
     given m [("time_rel_err_tol", VDouble (IZR 1 * powerRZ 10 (-2))%R); ("min_time_step_size", VDouble (/ 1000000)%R); ("max_time_step_size", VDouble 1000000%R)]) /\
  is_file3 rr_platform rr_dom3 12 4%R 1%R rr_field3 rr_doc3 /\ readable3 rr_platform rr_dom3 4%R 1%R rr_field3 /\ valid_domain3 rr_dom3 /\
  (xbeg rr_dom3 < xend rr_dom3)%R /\ sound_from rr_settings 12 100 /\ bc_named "periodic" Periodic.
Proof. exact (conj rr_ask_ode23_3d (conj rr_file3 (conj rr_readable3 (conj rr_valid3 (conj rr_range rr_sound))))). Qed.

(** C75, 2D, rk3ssp. *)
Theorem C75_restart_rk3_2d :
  forall (pl : platform R) (fuel : nat) (fs : string -> option string) (vts : string -> list xml)
    (other : members R -> option (res (pworld R))) (args : list string) (opts m : members R) (vm : vmap R) (s : settings R)
    (bx by_ bz : bctype) (r : string) (dom0 : domain R) (i : Z) (t dt : R) (u : Z -> Z -> R),
  parse_options (pl_read pl) (pl_lit pl) (pl_eps100 pl) (pl_max100 pl) fs args opts = Ok (Running m vm) ->
  asks m 2 "rk3ssp" r s -> r <> "none" ->
  is_file2 pl dom0 i t dt u (vts r) -> readable2 pl dom0 t dt u -> pl_read pl "0.0" = Ok 0%R -> valid_domain2 dom0 -> 2 <= nx dom0 ->
  nx dom0 <= 2147483647 -> (xbeg dom0 < xend dom0)%R ->
  sound_from s i fuel -> bc_named (s_bc_x s) bx -> bc_named (s_bc_y s) by_ -> bc_named (s_bc_z s) bz ->
  let dom := regrid2 (pl_raw pl) dom0 bx by_ bz in
  exists w, madgicart pl fuel fs vts other args opts = Some (Ok (Finished w)) /\
    story2 pl s dom [] [config_template (pl_showg pl) (pl_lit pl) (pl_eps100 pl) (pl_max100 pl) vm; "Using initial conditions file " ++ r]%string
      (i, t, dt) (fun dt p => p = dt)
      (ssp3_2 (ch_rate2 dom s)) (ssp3_rate2 (ch_rate2 dom s)) u w.
Proof. exact pf_C75_restart_rk3_2d. Qed.
Print Assumptions C75_restart_rk3_2d.

Example C75_restart_rk3_2d_ex :
  (exists m vm, parse_options (pl_read rr_platform) (pl_lit rr_platform) (pl_eps100 rr_platform) (pl_max100 rr_platform) ex_none
     (rr_args "2" "rk3ssp") ex_members = Ok (Running m vm) /\ asks m 2 "rk3ssp" "old" rr_settings) /\
  is_file2 rr_platform rr_dom2 12 4%R 1%R rr_field2 rr_doc2 /\ readable2 rr_platform rr_dom2 4%R 1%R rr_field2 /\ valid_domain2 rr_dom2 /\
  (xbeg rr_dom2 < xend rr_dom2)%R /\ sound_from rr_settings 12 100 /\ bc_named "periodic" Periodic.
Proof. exact (conj rr_ask_rk3_2d (conj rr_file2 (conj rr_readable2 (conj rr_valid2 (conj rr_range rr_sound))))). Qed.

(** C75, 2D, ode23. *)
Theorem C75_restart_ode23_2d :
  forall (pl : platform R) (fuel : nat) (fs : string -> option string) (vts : string -> list xml)
    (other : members R -> option (res (pworld R))) (args : list string) (opts m : members R) (vm : vmap R) (s : settings R)
    (bx by_ bz : bctype) (tol lo hi : R) (r : string) (dom0 : domain R) (i : Z) (t dt : R) (u : Z -> Z -> R),
  parse_options (pl_read pl) (pl_lit pl) (pl_eps100 pl) (pl_max100 pl) fs args opts = Ok (Running m vm) ->
  asks m 2 "ode23" r s -> r <> "none" ->
  given m [("time_rel_err_tol", VDouble tol); ("min_time_step_size", VDouble lo); ("max_time_step_size", VDouble hi)] ->
  is_file2 pl dom0 i t dt u (vts r) -> readable2 pl dom0 t dt u -> pl_read pl "0.0" = Ok 0%R -> valid_domain2 dom0 -> 2 <= nx dom0 ->
  nx dom0 <= 2147483647 -> (xbeg dom0 < xend dom0)%R ->
  sound_from s i fuel -> bc_named (s_bc_x s) bx -> bc_named (s_bc_y s) by_ -> bc_named (s_bc_z s) bz ->
  let dom := regrid2 (pl_raw pl) dom0 bx by_ bz in
  exists w, madgicart pl fuel fs vts other args opts = Some (Ok (Finished w)) /\
    story2 pl s dom ["time_err"%string] [config_template (pl_showg pl) (pl_lit pl) (pl_eps100 pl) (pl_max100 pl) vm; "Using initial conditions file " ++ r]%string
      (i, t, dt) (within lo hi)
      (bs_step2 (ch_rate2 dom s)) (bs_rate2 (ch_rate2 dom s)) u w.
Proof. exact pf_C75_restart_ode23_2d. Qed.
Print Assumptions C75_restart_ode23_2d.

Example C75_restart_ode23_2d_ex :
  (exists m vm, parse_options (pl_read rr_platform) (pl_lit rr_platform) (pl_eps100 rr_platform) (pl_max100 rr_platform) ex_none
     (rr_args "2" "ode23") ex_members = Ok (Running m vm) /\ asks m 2 "ode23" "old" rr_settings /\
     given m [("time_rel_err_tol", VDouble (IZR 1 * powerRZ 10 (-2))%R); ("min_time_step_size", VDouble (/ 1000000)%R); ("max_time_step_size", VDouble 1000000%R)]) /\
  is_file2 rr_platform rr_dom2 12 4%R 1%R rr_field2 rr_doc2 /\ readable2 rr_platform rr_dom2 4%R 1%R rr_field2 /\ valid_domain2 rr_dom2 /\
  (xbeg rr_dom2 < xend rr_dom2)%R /\ sound_from rr_settings 12 100 /\ bc_named "periodic" Periodic.
Proof. exact (conj rr_ask_ode23_2d (conj rr_file2 (conj rr_readable2 (conj rr_valid2 (conj rr_range rr_sound))))). Qed.

(** C75, 3D: if the field in the restart file has mean m, so has that in every file of the restarted run without Neumann boundaries. *)
Theorem C75_mean_3d :
  forall (pl : platform R) (fuel : nat) (fs : string -> option string) (vts : string -> list xml)
    (other : members R -> option (res (pworld R))) (args : list string) (opts m : members R) (vm : vmap R) (s : settings R)
    (bx by_ bz : bctype) (ti r : string) (dom0 : domain R) (i : Z) (t dt : R) (u : Z -> Z -> Z -> R),
  parse_options (pl_read pl) (pl_lit pl) (pl_eps100 pl) (pl_max100 pl) fs args opts = Ok (Running m vm) ->
  asks m 3 ti r s -> r <> "none" ->
  ti = "rk3ssp" \/ (ti = "ode23" /\ exists tol lo hi,
    given m [("time_rel_err_tol", VDouble tol); ("min_time_step_size", VDouble lo); ("max_time_step_size", VDouble hi)]) ->
  is_file3 pl dom0 i t dt u (vts r) -> readable3 pl dom0 t dt u -> valid_domain3 dom0 -> 2 <= nx dom0 /\ 2 <= ny dom0 /\ 2 <= nz dom0 ->
  nx dom0 <= 2147483647 /\ ny dom0 <= 2147483647 /\ nz dom0 <= 2147483647 -> (xbeg dom0 < xend dom0)%R ->
  sound_from s i fuel -> bc_named (s_bc_x s) bx -> bc_named (s_bc_y s) by_ -> bc_named (s_bc_z s) bz ->
  bx <> Neumann -> by_ <> Neumann -> bz <> Neumann -> mean3 dom0 u = s_m s ->
  exists w, madgicart pl fuel fs vts other args opts = Some (Ok (Finished w)) /\
    Forall (fun f => exists i t dt v, is_file3 pl (regrid3 (pl_raw pl) dom0 bx by_ bz) i t dt v (snd f) /\
      mean3 (regrid3 (pl_raw pl) dom0 bx by_ bz) v = s_m s) (w_files w).
Proof. exact pf_C75_mean_3d. Qed.
Print Assumptions C75_mean_3d.

Example C75_mean_3d_ex :
  (exists m vm, parse_options (pl_read rr_platform) (pl_lit rr_platform) (pl_eps100 rr_platform) (pl_max100 rr_platform) ex_none
     (rr_args "3" "rk3ssp") ex_members = Ok (Running m vm) /\ asks m 3 "rk3ssp" "old" rr_settings) /\
  is_file3 rr_platform rr_dom3 12 4%R 1%R (fun _ _ _ => 0%R) rr_zero3 /\ readable3 rr_platform rr_dom3 4%R 1%R (fun _ _ _ => 0%R) /\
  mean3 rr_dom3 (fun _ _ _ => 0%R) = s_m rr_settings.
Proof. exact (conj rr_ask_rk3_3d rr_mean3). Qed.

(** C75, 2D: if the field in the restart file has mean m, so has that in every file of the restarted run. *)
Theorem C75_mean_2d :
  forall (pl : platform R) (fuel : nat) (fs : string -> option string) (vts : string -> list xml)
    (other : members R -> option (res (pworld R))) (args : list string) (opts m : members R) (vm : vmap R) (s : settings R)
    (bx by_ bz : bctype) (ti r : string) (dom0 : domain R) (i : Z) (t dt : R) (u : Z -> Z -> R),
  parse_options (pl_read pl) (pl_lit pl) (pl_eps100 pl) (pl_max100 pl) fs args opts = Ok (Running m vm) ->
  asks m 2 ti r s -> r <> "none" ->
  ti = "rk3ssp" \/ (ti = "ode23" /\ exists tol lo hi,
    given m [("time_rel_err_tol", VDouble tol); ("min_time_step_size", VDouble lo); ("max_time_step_size", VDouble hi)]) ->
  is_file2 pl dom0 i t dt u (vts r) -> readable2 pl dom0 t dt u -> pl_read pl "0.0" = Ok 0%R -> valid_domain2 dom0 -> 2 <= nx dom0 ->
  nx dom0 <= 2147483647 -> (xbeg dom0 < xend dom0)%R ->
  sound_from s i fuel -> bc_named (s_bc_x s) bx -> bc_named (s_bc_y s) by_ -> bc_named (s_bc_z s) bz ->
  mean2 dom0 u = s_m s ->
  exists w, madgicart pl fuel fs vts other args opts = Some (Ok (Finished w)) /\
    Forall (fun f => exists i t dt v, is_file2 pl (regrid2 (pl_raw pl) dom0 bx by_ bz) i t dt v (snd f) /\
      mean2 (regrid2 (pl_raw pl) dom0 bx by_ bz) v = s_m s) (w_files w).
Proof. exact pf_C75_mean_2d. Qed.
Print Assumptions C75_mean_2d.

Example C75_mean_2d_ex :
  (exists m vm, parse_options (pl_read rr_platform) (pl_lit rr_platform) (pl_eps100 rr_platform) (pl_max100 rr_platform) ex_none
     (rr_args "2" "rk3ssp") ex_members = Ok (Running m vm) /\ asks m 2 "rk3ssp" "old" rr_settings) /\
  is_file2 rr_platform rr_dom2 12 4%R 1%R (fun _ _ => 0%R) rr_zero2 /\ readable2 rr_platform rr_dom2 4%R 1%R (fun _ _ => 0%R) /\
  mean2 rr_dom2 (fun _ _ => 0%R) = s_m rr_settings.
Proof. exact (conj rr_ask_rk3_2d rr_mean2). Qed.

(** C75, 3D, rk3ssp, any number system (so for doubles, bit by bit): let a run end normally, and restart the
    program, with settings that agree except for those the file replaces, from the solution file of its
    step n + 1, made neither by the last step of the run nor just before a shortened one.  If the
    numbers in the file are read back as they were and so is the grid, the restarted run ends normally,
    and its final file is that of the first run, with the same name and contents.  If every step is
    saved, it writes exactly the files of the first run that come after the one it started from. *)
Theorem C75_same_files_3d :
  forall (V : Type) (N : Num V) (pl : platform V) (fuel fuel' : nat) (fs fs' : string -> option string) (vts vts' : string -> list xml)
    (other other' : members V -> option (res (pworld V))) (args args' : list string) (opts opts' m m' : members V) (vm vm' : vmap V)
    (s s' : settings V) (bx by_ bz : bctype) (w : pworld V) (steps : list (V * V)) (e t dt : V) (n j : nat) (r nm : string) (dm : domain V) q,
  parse_options (pl_read pl) (pl_lit pl) (pl_eps100 pl) (pl_max100 pl) fs args opts = Ok (Running m vm) ->
  parse_options (pl_read pl) (pl_lit pl) (pl_eps100 pl) (pl_max100 pl) fs' args' opts' = Ok (Running m' vm') ->
  asks m 3 "rk3ssp" "none" s -> asks m' 3 "rk3ssp" r s' -> r <> "none" -> continues s s' ->
  sound s fuel -> s_nx s <= 2147483647 -> sound_from s' (Z.of_nat n + 1) fuel' ->
  bc_named (s_bc_x s) bx -> bc_named (s_bc_y s) by_ -> bc_named (s_bc_z s) bz ->
  neqb (nint 0 : V) (nint 0) = true ->
  madgicart pl fuel fs vts other args opts = Some (Ok (Finished w)) ->
  marches (fun dt p => p = dt) (s_tfinal s) (s_max_steps s) 0 (s_t0 s) (s_dt s) false steps e ->
  nth_error steps n = Some (t, dt) -> (S n < List.length steps)%nat -> ngeb (nadd (nadd t dt) dt) (s_tfinal s) = false ->
  1 <= s_save_every s -> n = (j * Z.to_nat (s_save_every s))%nat ->
  nth_error (w_files w) j = Some (nm, vts' r) ->
  let dom := grid_of s bx by_ bz in
  (forall u, is_file3 pl dom (Z.of_nat n + 1) (nadd t dt) dt u (vts' r) -> readable3 pl dom (nadd t dt) dt u) ->
  read_domain (pl_read pl) (vts' r) (pl_raw pl) = Ok (dm, q) ->
  nx dm = s_nx s -> ny dm = s_ny s -> nz dm = s_nz s -> xbeg dm = s_xbeg s -> ybeg dm = s_ybeg s -> zbeg dm = s_zbeg s ->
  cell_size dm = cell_size dom ->
  exists w' before before' fin, madgicart pl fuel' fs' vts' other' args' opts' = Some (Ok (Finished w')) /\
    w_files w = before ++ [fin] /\ w_files w' = before' ++ [fin] /\
    (s_save_every s = 1 -> w_files w' = skipn (S n) (w_files w)).
Proof. exact pf_C75_same_files_3d. Qed.
Print Assumptions C75_same_files_3d.

Example C75_same_files_3d_ex :
  (exists m vm m' vm',
    parse_options fp_read (pl_lit fp_platform) 1 1000000000 ex_none (fp_args "3") fp_members = Ok (Running m vm) /\
    parse_options fp_read (pl_lit fp_platform) 1 1000000000 ex_none (fp_args' "3") fp_members = Ok (Running m' vm') /\
    asks (N := Num_milli) m 3 "rk3ssp" "none" fp_first /\ asks (N := Num_milli) m' 3 "rk3ssp" "old" fp_second) /\
  continues fp_first fp_second /\ sound fp_first 100 /\ sound_from fp_second (Z.of_nat 1 + 1) 100 /\
  bc_named "periodic" Periodic /\ bc_named "neumann" Neumann /\
  (exists w nm dm q, fp_run "3" = Some (Ok (Finished w)) /\ nth_error (w_files w) 1 = Some (nm, fp_saved (fp_run "3")) /\
    read_domain (N := Num_milli) fp_read (fp_saved (fp_run "3")) (pl_raw fp_platform) = Ok (dm, q) /\
    nx dm = 2 /\ ny dm = 2 /\ nz dm = 4 /\ xbeg dm = 0 /\ ybeg dm = 0 /\ zbeg dm = 0 /\ cell_size (N := Num_milli) dm = 1000) /\
  (exists steps e, marches (N := Num_milli) (fun dt p => p = dt) 1000 100 0 0 250 false steps e /\ nth_error steps 1 = Some (250, 250) /\ (2 < List.length steps)%nat) /\
  (forall dom t dt u, readable3 (N := Num_milli) fp_platform dom t dt u).
Proof. exact fp_all3. Qed.

(** C75, 2D, rk3ssp: the same. *)
Theorem C75_same_files_2d :
  forall (V : Type) (N : Num V) (pl : platform V) (fuel fuel' : nat) (fs fs' : string -> option string) (vts vts' : string -> list xml)
    (other other' : members V -> option (res (pworld V))) (args args' : list string) (opts opts' m m' : members V) (vm vm' : vmap V)
    (s s' : settings V) (bx by_ bz : bctype) (zero : V) (w : pworld V) (steps : list (V * V)) (e t dt : V) (n j : nat) (r nm : string) (dm : domain V) q,
  parse_options (pl_read pl) (pl_lit pl) (pl_eps100 pl) (pl_max100 pl) fs args opts = Ok (Running m vm) ->
  parse_options (pl_read pl) (pl_lit pl) (pl_eps100 pl) (pl_max100 pl) fs' args' opts' = Ok (Running m' vm') ->
  asks m 2 "rk3ssp" "none" s -> asks m' 2 "rk3ssp" r s' -> r <> "none" -> continues s s' ->
  sound s fuel -> s_nx s <= 2147483647 -> sound_from s' (Z.of_nat n + 1) fuel' ->
  bc_named (s_bc_x s) bx -> bc_named (s_bc_y s) by_ -> bc_named (s_bc_z s) bz ->
  neqb (nint 0 : V) (nint 0) = true ->
  pl_read pl "0.0" = Ok zero ->
  madgicart pl fuel fs vts other args opts = Some (Ok (Finished w)) ->
  marches (fun dt p => p = dt) (s_tfinal s) (s_max_steps s) 0 (s_t0 s) (s_dt s) false steps e ->
  nth_error steps n = Some (t, dt) -> (S n < List.length steps)%nat -> ngeb (nadd (nadd t dt) dt) (s_tfinal s) = false ->
  1 <= s_save_every s -> n = (j * Z.to_nat (s_save_every s))%nat ->
  nth_error (w_files w) j = Some (nm, vts' r) ->
  let dom := grid_of s bx by_ bz in
  (forall u, is_file2 pl dom (Z.of_nat n + 1) (nadd t dt) dt u (vts' r) -> readable2 pl dom (nadd t dt) dt u) ->
  read_domain (pl_read pl) (vts' r) (pl_raw pl) = Ok (dm, q) ->
  nx dm = s_nx s -> xbeg dm = s_xbeg s -> ybeg dm = s_ybeg s ->
  cell_size dm = cell_size dom ->
  exists w' before before' fin, madgicart pl fuel' fs' vts' other' args' opts' = Some (Ok (Finished w')) /\
    w_files w = before ++ [fin] /\ w_files w' = before' ++ [fin] /\
    (s_save_every s = 1 -> w_files w' = skipn (S n) (w_files w)).
Proof. exact pf_C75_same_files_2d. Qed.
Print Assumptions C75_same_files_2d.

Example C75_same_files_2d_ex :
  (exists m vm m' vm',
    parse_options fp_read (pl_lit fp_platform) 1 1000000000 ex_none (fp_args "2") fp_members = Ok (Running m vm) /\
    parse_options fp_read (pl_lit fp_platform) 1 1000000000 ex_none (fp_args' "2") fp_members = Ok (Running m' vm') /\
    asks (N := Num_milli) m 2 "rk3ssp" "none" fp_first /\ asks (N := Num_milli) m' 2 "rk3ssp" "old" fp_second) /\
  continues fp_first fp_second /\ sound fp_first 100 /\ sound_from fp_second (Z.of_nat 1 + 1) 100 /\
  bc_named "periodic" Periodic /\ bc_named "neumann" Neumann /\
  (exists w nm dm q, fp_run "2" = Some (Ok (Finished w)) /\ nth_error (w_files w) 1 = Some (nm, fp_saved (fp_run "2")) /\
    read_domain (N := Num_milli) fp_read (fp_saved (fp_run "2")) (pl_raw fp_platform) = Ok (dm, q) /\
    nx dm = 2 /\ xbeg dm = 0 /\ ybeg dm = 0 /\ cell_size (N := Num_milli) dm = 1000) /\
  (exists steps e, marches (N := Num_milli) (fun dt p => p = dt) 1000 100 0 0 250 false steps e /\ nth_error steps 1 = Some (250, 250) /\ (2 < List.length steps)%nat) /\
  (forall dom t dt u, readable2 (N := Num_milli) fp_platform dom t dt u).
Proof. exact fp_all2. Qed.
