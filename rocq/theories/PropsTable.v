(** Log files read as tables, the way plot_history.py reads them, and the banner above the table: C90.

    [table_in text] (SpecTable) is the table a reader sees in a text who drops everything from a number sign to the end of its line, skips blank lines and splits the others at blanks.
    [file_text f stamp 0 out] is the text of the log file f after the deliveries out, each followed by its time stamp in a comment.  [make_banner] (ModelBanner) is the text
    written first. *)
From Coq Require Import String Reals.
From Verif Require Import ModelMG ModelMGCH ModelLogger ModelOptions Outcome ZList Num ModelText ModelDisc3D ModelDisc2D ModelVTK ModelProgram ModelImplicit ModelBanner SpecGrid SpecField SpecRestart SpecMon
  SpecMG SpecLogger SpecProgram SpecImplicit SpecPoissonRun SpecTable ExampleNum ProgramFinal RerunFinal EarlyFinal ImplicitFinal PoissonRunFinal PoissonImplicitFinal RestartRunFinal TableFinal.
From Coq Require Import ZArith Ascii List.
Import ListNotations.
Local Open Scope string_scope.
Local Open Scope list_scope.
Local Open Scope Z_scope.

(** C90: whatever messages and rows are written to a log after it was opened with a level up to warnings, in whatever order, and whenever the writing stops, the log file reads as a table: first the names of the columns,
    then one line for each row with its printed values, and nothing else.  This needs the banner and the header printed every fifty rows to be comments, time stamps without line ends, and
    names and values printed as words, those after the first with at most twelve characters. *)
Theorem C90_table :
  forall (V : Type) (showe : V -> string) (table : list string -> string) (banner file : string) (l : level) (stamp : nat -> string)
    (names : list string) (entries : list (entry V)) g out,
  (forall n, one_line (stamp n)) -> (forall header, all_comment (table header)) -> all_comment banner ->
  rank l <= rank LWarning -> names <> [] -> Forall is_word names -> Forall (legible showe names) (rows_of entries) ->
  perform_all showe table banner new_logger (InitFile file l :: flat_map entry_calls entries) = Next g out ->
  table_in (file_text file stamp 0 out) =
    match rows_of entries with [] => [] | _ => [names] end ++ map (printed showe) (rows_of entries).
Proof. exact pf_C90_table. Qed.
Print Assumptions C90_table.

Example C90_table_ex :
  one_line "12:00:00" /\ all_comment "#---" /\ Forall is_word ["iter"; "res_c"; "min_c"] /\
  Forall (legible ta_show ["iter"; "res_c"; "min_c"]) (rows_of ta_entries) /\ length (rows_of ta_entries) = 51%nat /\
  exists g out, perform_all ta_show (fun _ => "#---"%string) "#---" new_logger (InitFile "a" LInfo :: flat_map entry_calls ta_entries) = Next g out.
Proof. exact (conj ta_stamp (conj ta_comment (conj ta_names (conj ta_legible (conj eq_refl ta_done))))). Qed.

(** C90, 3D, rk3ssp: the log file of a new run with sound settings and any tolerances reads as a table whose first line has the names iter time dt res_c abs_res rel_res min_c max_c grad_c_mag
    and which has a line for each row logged. *)
Theorem C90_run_rk3_3d :
  forall (pl : platform R) (fuel : nat) (fs : string -> option string) (vts : string -> list xml)
    (other : members R -> option (res (pworld R))) (args : list string) (opts m : members R) (vm : vmap R) (s : settings R) (rel abs : R)
    (bx by_ bz : bctype) (stamp : nat -> string),
  parse_options (pl_read pl) (pl_lit pl) (pl_eps100 pl) (pl_max100 pl) fs args opts = Ok (Running m vm) ->
  asks_with m 3 "rk3ssp" "none" s rel abs ->
  sound s fuel -> bc_named (s_bc_x s) bx -> bc_named (s_bc_y s) by_ -> bc_named (s_bc_z s) bz ->
  reduces pl -> (forall n, one_line (stamp n)) -> (forall header, all_comment (pl_table pl header)) -> all_comment (pl_banner pl) ->
  exists w rows goodbye, madgicart pl fuel fs vts other args opts = Some (Ok (Finished w)) /\
    perform_all (pl_showe pl) (pl_table pl) (pl_banner pl) new_logger
      (log_requests (s_log_file s) [config_template (pl_showg pl) (pl_lit pl) (pl_eps100 pl) (pl_max100 pl) vm] rows ++ map (Message LInfo) goodbye) = Next (w_logger w) (w_out w) /\
    rows <> [] /\
    (Forall (readable (pl_showe pl)) (map columns_of rows) ->
     table_in (file_text (s_log_file s) stamp 0 (w_out w)) = ["iter"; "time"; "dt"; "res_c"; "abs_res"; "rel_res"; "min_c"; "max_c"; "grad_c_mag"] :: map (fun r => printed (pl_showe pl) (columns_of r)) rows).
Proof. exact pf_C90_run_rk3_3d. Qed.
Print Assumptions C90_run_rk3_3d.

Example C90_run_rk3_3d_ex :
  (exists m vm, parse_options (pl_read ta_platform) (pl_lit ta_platform) (pl_eps100 ta_platform) (pl_max100 ta_platform) ex_none
     (ea_args "3" "rk3ssp") ex_members = Ok (Running m vm) /\ asks_with m 3 "rk3ssp" "none" (ex_settings 4 100 20) (1/2)%R (1/2)%R) /\
  sound (ex_settings 4 100 20) 100 /\ bc_named "periodic" Periodic /\ reduces ta_platform /\
  (forall header, all_comment (pl_table ta_platform header)) /\ all_comment (pl_banner ta_platform) /\
  forall row, readable (pl_showe ta_platform) row.
Proof. exact (conj ea_ask_rk3_3d ta_setting). Qed.

(** C90, 3D, ode23: the log file of a new run with sound settings and any tolerances reads as a table whose first line has the names iter time dt time_err res_c abs_res rel_res min_c max_c grad_c_mag
    and which has a line for each row logged. *)
Theorem C90_run_ode23_3d :
  forall (pl : platform R) (fuel : nat) (fs : string -> option string) (vts : string -> list xml)
    (other : members R -> option (res (pworld R))) (args : list string) (opts m : members R) (vm : vmap R) (s : settings R) (rel abs : R)
    (bx by_ bz : bctype) (tol lo hi : R) (stamp : nat -> string),
  parse_options (pl_read pl) (pl_lit pl) (pl_eps100 pl) (pl_max100 pl) fs args opts = Ok (Running m vm) ->
  asks_with m 3 "ode23" "none" s rel abs ->
  given m [("time_rel_err_tol", VDouble tol); ("min_time_step_size", VDouble lo); ("max_time_step_size", VDouble hi)] ->
  sound s fuel -> bc_named (s_bc_x s) bx -> bc_named (s_bc_y s) by_ -> bc_named (s_bc_z s) bz ->
  reduces pl -> (forall n, one_line (stamp n)) -> (forall header, all_comment (pl_table pl header)) -> all_comment (pl_banner pl) ->
  exists w rows goodbye, madgicart pl fuel fs vts other args opts = Some (Ok (Finished w)) /\
    perform_all (pl_showe pl) (pl_table pl) (pl_banner pl) new_logger
      (log_requests (s_log_file s) [config_template (pl_showg pl) (pl_lit pl) (pl_eps100 pl) (pl_max100 pl) vm] rows ++ map (Message LInfo) goodbye) = Next (w_logger w) (w_out w) /\
    rows <> [] /\
    (Forall (readable (pl_showe pl)) (map columns_of rows) ->
     table_in (file_text (s_log_file s) stamp 0 (w_out w)) = ["iter"; "time"; "dt"; "time_err"; "res_c"; "abs_res"; "rel_res"; "min_c"; "max_c"; "grad_c_mag"] :: map (fun r => printed (pl_showe pl) (columns_of r)) rows).
Proof. exact pf_C90_run_ode23_3d. Qed.
Print Assumptions C90_run_ode23_3d.

Example C90_run_ode23_3d_ex :
  (exists m vm, parse_options (pl_read ta_platform) (pl_lit ta_platform) (pl_eps100 ta_platform) (pl_max100 ta_platform) ex_none
     (ea_args "3" "ode23") ex_members = Ok (Running m vm) /\ asks_with m 3 "ode23" "none" (ex_settings 4 100 20) (1/2)%R (1/2)%R /\
   given m [("time_rel_err_tol", VDouble (IZR 1 * powerRZ 10 (-2))%R); ("min_time_step_size", VDouble (/ 1000000)%R); ("max_time_step_size", VDouble 1000000%R)]) /\
  sound (ex_settings 4 100 20) 100 /\ bc_named "periodic" Periodic /\ reduces ta_platform /\
  (forall header, all_comment (pl_table ta_platform header)) /\ all_comment (pl_banner ta_platform) /\
  forall row, readable (pl_showe ta_platform) row.
Proof. exact (conj ea_ask_ode23_3d ta_setting). Qed.

(** C90, 2D, rk3ssp: the log file of a new run with sound settings and any tolerances reads as a table whose first line has the names iter time dt res_c abs_res rel_res min_c max_c grad_c_mag
    and which has a line for each row logged. *)
Theorem C90_run_rk3_2d :
  forall (pl : platform R) (fuel : nat) (fs : string -> option string) (vts : string -> list xml)
    (other : members R -> option (res (pworld R))) (args : list string) (opts m : members R) (vm : vmap R) (s : settings R) (rel abs : R)
    (bx by_ bz : bctype) (stamp : nat -> string),
  parse_options (pl_read pl) (pl_lit pl) (pl_eps100 pl) (pl_max100 pl) fs args opts = Ok (Running m vm) ->
  asks_with m 2 "rk3ssp" "none" s rel abs ->
  sound s fuel -> bc_named (s_bc_x s) bx -> bc_named (s_bc_y s) by_ -> bc_named (s_bc_z s) bz ->
  reduces pl -> (forall n, one_line (stamp n)) -> (forall header, all_comment (pl_table pl header)) -> all_comment (pl_banner pl) ->
  exists w rows goodbye, madgicart pl fuel fs vts other args opts = Some (Ok (Finished w)) /\
    perform_all (pl_showe pl) (pl_table pl) (pl_banner pl) new_logger
      (log_requests (s_log_file s) [config_template (pl_showg pl) (pl_lit pl) (pl_eps100 pl) (pl_max100 pl) vm] rows ++ map (Message LInfo) goodbye) = Next (w_logger w) (w_out w) /\
    rows <> [] /\
    (Forall (readable (pl_showe pl)) (map columns_of rows) ->
     table_in (file_text (s_log_file s) stamp 0 (w_out w)) = ["iter"; "time"; "dt"; "res_c"; "abs_res"; "rel_res"; "min_c"; "max_c"; "grad_c_mag"] :: map (fun r => printed (pl_showe pl) (columns_of r)) rows).
Proof. exact pf_C90_run_rk3_2d. Qed.
Print Assumptions C90_run_rk3_2d.

Example C90_run_rk3_2d_ex :
  (exists m vm, parse_options (pl_read ta_platform) (pl_lit ta_platform) (pl_eps100 ta_platform) (pl_max100 ta_platform) ex_none
     (ea_args "2" "rk3ssp") ex_members = Ok (Running m vm) /\ asks_with m 2 "rk3ssp" "none" (ex_settings 4 100 20) (1/2)%R (1/2)%R) /\
  sound (ex_settings 4 100 20) 100 /\ bc_named "periodic" Periodic /\ reduces ta_platform /\
  (forall header, all_comment (pl_table ta_platform header)) /\ all_comment (pl_banner ta_platform) /\
  forall row, readable (pl_showe ta_platform) row.
Proof. exact (conj ea_ask_rk3_2d ta_setting). Qed.

(** C90, 2D, ode23: the log file of a new run with sound settings and any tolerances reads as a table whose first line has the names iter time dt time_err res_c abs_res rel_res min_c max_c grad_c_mag
    and which has a line for each row logged. *)
Theorem C90_run_ode23_2d :
  forall (pl : platform R) (fuel : nat) (fs : string -> option string) (vts : string -> list xml)
    (other : members R -> option (res (pworld R))) (args : list string) (opts m : members R) (vm : vmap R) (s : settings R) (rel abs : R)
    (bx by_ bz : bctype) (tol lo hi : R) (stamp : nat -> string),
  parse_options (pl_read pl) (pl_lit pl) (pl_eps100 pl) (pl_max100 pl) fs args opts = Ok (Running m vm) ->
  asks_with m 2 "ode23" "none" s rel abs ->
  given m [("time_rel_err_tol", VDouble tol); ("min_time_step_size", VDouble lo); ("max_time_step_size", VDouble hi)] ->
  sound s fuel -> bc_named (s_bc_x s) bx -> bc_named (s_bc_y s) by_ -> bc_named (s_bc_z s) bz ->
  reduces pl -> (forall n, one_line (stamp n)) -> (forall header, all_comment (pl_table pl header)) -> all_comment (pl_banner pl) ->
  exists w rows goodbye, madgicart pl fuel fs vts other args opts = Some (Ok (Finished w)) /\
    perform_all (pl_showe pl) (pl_table pl) (pl_banner pl) new_logger
      (log_requests (s_log_file s) [config_template (pl_showg pl) (pl_lit pl) (pl_eps100 pl) (pl_max100 pl) vm] rows ++ map (Message LInfo) goodbye) = Next (w_logger w) (w_out w) /\
    rows <> [] /\
    (Forall (readable (pl_showe pl)) (map columns_of rows) ->
     table_in (file_text (s_log_file s) stamp 0 (w_out w)) = ["iter"; "time"; "dt"; "time_err"; "res_c"; "abs_res"; "rel_res"; "min_c"; "max_c"; "grad_c_mag"] :: map (fun r => printed (pl_showe pl) (columns_of r)) rows).
Proof. exact pf_C90_run_ode23_2d. Qed.
Print Assumptions C90_run_ode23_2d.

Example C90_run_ode23_2d_ex :
  (exists m vm, parse_options (pl_read ta_platform) (pl_lit ta_platform) (pl_eps100 ta_platform) (pl_max100 ta_platform) ex_none
     (ea_args "2" "ode23") ex_members = Ok (Running m vm) /\ asks_with m 2 "ode23" "none" (ex_settings 4 100 20) (1/2)%R (1/2)%R /\
   given m [("time_rel_err_tol", VDouble (IZR 1 * powerRZ 10 (-2))%R); ("min_time_step_size", VDouble (/ 1000000)%R); ("max_time_step_size", VDouble 1000000%R)]) /\
  sound (ex_settings 4 100 20) 100 /\ bc_named "periodic" Periodic /\ reduces ta_platform /\
  (forall header, all_comment (pl_table ta_platform header)) /\ all_comment (pl_banner ta_platform) /\
  forall row, readable (pl_showe ta_platform) row.
Proof. exact (conj ea_ask_ode23_2d ta_setting). Qed.

(** C90, 3D, rk3ssp: the log file of a restarted run with sound settings and any tolerances reads as a table whose first line has the names iter time dt res_c abs_res rel_res min_c max_c grad_c_mag
    and which has a line for each row logged. *)
Theorem C90_restart_rk3_3d :
  forall (pl : platform R) (fuel : nat) (fs : string -> option string) (vts : string -> list xml)
    (other : members R -> option (res (pworld R))) (args : list string) (opts m : members R) (vm : vmap R) (s : settings R) (rel abs : R)
    (bx by_ bz : bctype) (r : string) (dom0 : domain R) (i : Z) (t dt : R) (u : Z -> Z -> Z -> R) (stamp : nat -> string),
  parse_options (pl_read pl) (pl_lit pl) (pl_eps100 pl) (pl_max100 pl) fs args opts = Ok (Running m vm) ->
  asks_with m 3 "rk3ssp" r s rel abs -> r <> "none" ->
  is_file3 pl dom0 i t dt u (vts r) -> readable3 pl dom0 t dt u -> valid_domain3 dom0 -> 2 <= nx dom0 /\ 2 <= ny dom0 /\ 2 <= nz dom0 ->
  nx dom0 <= 2147483647 /\ ny dom0 <= 2147483647 /\ nz dom0 <= 2147483647 -> (xbeg dom0 < xend dom0)%R ->
  sound_from s i fuel -> bc_named (s_bc_x s) bx -> bc_named (s_bc_y s) by_ -> bc_named (s_bc_z s) bz ->
  reduces pl -> (forall n, one_line (stamp n)) -> (forall header, all_comment (pl_table pl header)) -> all_comment (pl_banner pl) ->
  exists w rows goodbye, madgicart pl fuel fs vts other args opts = Some (Ok (Finished w)) /\
    perform_all (pl_showe pl) (pl_table pl) (pl_banner pl) new_logger
      (log_requests (s_log_file s) [config_template (pl_showg pl) (pl_lit pl) (pl_eps100 pl) (pl_max100 pl) vm; "Using initial conditions file " ++ r]%string rows ++ map (Message LInfo) goodbye) = Next (w_logger w) (w_out w) /\
    rows <> [] /\
    (Forall (readable (pl_showe pl)) (map columns_of rows) ->
     table_in (file_text (s_log_file s) stamp 0 (w_out w)) = ["iter"; "time"; "dt"; "res_c"; "abs_res"; "rel_res"; "min_c"; "max_c"; "grad_c_mag"] :: map (fun r => printed (pl_showe pl) (columns_of r)) rows).
Proof. exact pf_C90_restart_rk3_3d. Qed.
Print Assumptions C90_restart_rk3_3d.

Example C90_restart_rk3_3d_ex :
  ((exists m vm, parse_options (pl_read tb_platform) (pl_lit tb_platform) (pl_eps100 tb_platform) (pl_max100 tb_platform) ex_none
     (ea_restart_args "3" "rk3ssp" "1" "0.5" "10") ex_members = Ok (Running m vm) /\ asks_with m 3 "rk3ssp" "old" (ea_settings 1) (1/2)%R 10%R) /\
  is_file3 tb_platform rr_dom3 12 4%R 1%R (ea_field3 27) (ea_doc3 27) /\ readable3 tb_platform rr_dom3 4%R 1%R (ea_field3 27) /\ valid_domain3 rr_dom3 /\
  (xbeg rr_dom3 < xend rr_dom3)%R /\ sound_from (ea_settings 1) 12 100 /\ bc_named "periodic" Periodic) /\
  reduces tb_platform /\ (forall header, all_comment (pl_table tb_platform header)) /\ all_comment (pl_banner tb_platform) /\
  forall row, readable (pl_showe tb_platform) row.
Proof. exact (conj (conj ea_restart_rk3_3d (conj (ea_file3 27) (conj (ea_readable3 27 ea_27) (conj rr_valid3 (conj rr_range (ea_sound 1 12 ea_1 (or_introl eq_refl))))))) tb_setting). Qed.

(** C90, 3D, ode23: the log file of a restarted run with sound settings and any tolerances reads as a table whose first line has the names iter time dt time_err res_c abs_res rel_res min_c max_c grad_c_mag
    and which has a line for each row logged. *)
Theorem C90_restart_ode23_3d :
  forall (pl : platform R) (fuel : nat) (fs : string -> option string) (vts : string -> list xml)
    (other : members R -> option (res (pworld R))) (args : list string) (opts m : members R) (vm : vmap R) (s : settings R) (rel abs : R)
    (bx by_ bz : bctype) (tol lo hi : R) (r : string) (dom0 : domain R) (i : Z) (t dt : R) (u : Z -> Z -> Z -> R) (stamp : nat -> string),
  parse_options (pl_read pl) (pl_lit pl) (pl_eps100 pl) (pl_max100 pl) fs args opts = Ok (Running m vm) ->
  asks_with m 3 "ode23" r s rel abs -> r <> "none" ->
  given m [("time_rel_err_tol", VDouble tol); ("min_time_step_size", VDouble lo); ("max_time_step_size", VDouble hi)] ->
  is_file3 pl dom0 i t dt u (vts r) -> readable3 pl dom0 t dt u -> valid_domain3 dom0 -> 2 <= nx dom0 /\ 2 <= ny dom0 /\ 2 <= nz dom0 ->
  nx dom0 <= 2147483647 /\ ny dom0 <= 2147483647 /\ nz dom0 <= 2147483647 -> (xbeg dom0 < xend dom0)%R ->
  sound_from s i fuel -> bc_named (s_bc_x s) bx -> bc_named (s_bc_y s) by_ -> bc_named (s_bc_z s) bz ->
  reduces pl -> (forall n, one_line (stamp n)) -> (forall header, all_comment (pl_table pl header)) -> all_comment (pl_banner pl) ->
  exists w rows goodbye, madgicart pl fuel fs vts other args opts = Some (Ok (Finished w)) /\
    perform_all (pl_showe pl) (pl_table pl) (pl_banner pl) new_logger
      (log_requests (s_log_file s) [config_template (pl_showg pl) (pl_lit pl) (pl_eps100 pl) (pl_max100 pl) vm; "Using initial conditions file " ++ r]%string rows ++ map (Message LInfo) goodbye) = Next (w_logger w) (w_out w) /\
    rows <> [] /\
    (Forall (readable (pl_showe pl)) (map columns_of rows) ->
     table_in (file_text (s_log_file s) stamp 0 (w_out w)) = ["iter"; "time"; "dt"; "time_err"; "res_c"; "abs_res"; "rel_res"; "min_c"; "max_c"; "grad_c_mag"] :: map (fun r => printed (pl_showe pl) (columns_of r)) rows).
Proof. exact pf_C90_restart_ode23_3d. Qed.
Print Assumptions C90_restart_ode23_3d.

Example C90_restart_ode23_3d_ex :
  ((exists m vm, parse_options (pl_read tb_platform) (pl_lit tb_platform) (pl_eps100 tb_platform) (pl_max100 tb_platform) ex_none
     (ea_restart_args "3" "ode23" "1" "0.5" "10") ex_members = Ok (Running m vm) /\ asks_with m 3 "ode23" "old" (ea_settings 1) (1/2)%R 10%R /\
   given m [("time_rel_err_tol", VDouble (IZR 1 * powerRZ 10 (-2))%R); ("min_time_step_size", VDouble (/ 1000000)%R); ("max_time_step_size", VDouble 1000000%R)]) /\
  is_file3 tb_platform rr_dom3 12 4%R 1%R (ea_field3 27) (ea_doc3 27) /\ readable3 tb_platform rr_dom3 4%R 1%R (ea_field3 27) /\ valid_domain3 rr_dom3 /\
  (xbeg rr_dom3 < xend rr_dom3)%R /\ sound_from (ea_settings 1) 12 100 /\ bc_named "periodic" Periodic) /\
  reduces tb_platform /\ (forall header, all_comment (pl_table tb_platform header)) /\ all_comment (pl_banner tb_platform) /\
  forall row, readable (pl_showe tb_platform) row.
Proof. exact (conj (conj ea_restart_ode23_3d (conj (ea_file3 27) (conj (ea_readable3 27 ea_27) (conj rr_valid3 (conj rr_range (ea_sound 1 12 ea_1 (or_introl eq_refl))))))) tb_setting). Qed.

(** C90, 2D, rk3ssp: the log file of a restarted run with sound settings and any tolerances reads as a table whose first line has the names iter time dt res_c abs_res rel_res min_c max_c grad_c_mag
    and which has a line for each row logged. *)
Theorem C90_restart_rk3_2d :
  forall (pl : platform R) (fuel : nat) (fs : string -> option string) (vts : string -> list xml)
    (other : members R -> option (res (pworld R))) (args : list string) (opts m : members R) (vm : vmap R) (s : settings R) (rel abs : R)
    (bx by_ bz : bctype) (r : string) (dom0 : domain R) (i : Z) (t dt : R) (u : Z -> Z -> R) (stamp : nat -> string),
  parse_options (pl_read pl) (pl_lit pl) (pl_eps100 pl) (pl_max100 pl) fs args opts = Ok (Running m vm) ->
  asks_with m 2 "rk3ssp" r s rel abs -> r <> "none" ->
  is_file2 pl dom0 i t dt u (vts r) -> readable2 pl dom0 t dt u -> pl_read pl "0.0" = Ok 0%R -> valid_domain2 dom0 -> 2 <= nx dom0 ->
  nx dom0 <= 2147483647 -> (xbeg dom0 < xend dom0)%R ->
  sound_from s i fuel -> bc_named (s_bc_x s) bx -> bc_named (s_bc_y s) by_ -> bc_named (s_bc_z s) bz ->
  reduces pl -> (forall n, one_line (stamp n)) -> (forall header, all_comment (pl_table pl header)) -> all_comment (pl_banner pl) ->
  exists w rows goodbye, madgicart pl fuel fs vts other args opts = Some (Ok (Finished w)) /\
    perform_all (pl_showe pl) (pl_table pl) (pl_banner pl) new_logger
      (log_requests (s_log_file s) [config_template (pl_showg pl) (pl_lit pl) (pl_eps100 pl) (pl_max100 pl) vm; "Using initial conditions file " ++ r]%string rows ++ map (Message LInfo) goodbye) = Next (w_logger w) (w_out w) /\
    rows <> [] /\
    (Forall (readable (pl_showe pl)) (map columns_of rows) ->
     table_in (file_text (s_log_file s) stamp 0 (w_out w)) = ["iter"; "time"; "dt"; "res_c"; "abs_res"; "rel_res"; "min_c"; "max_c"; "grad_c_mag"] :: map (fun r => printed (pl_showe pl) (columns_of r)) rows).
Proof. exact pf_C90_restart_rk3_2d. Qed.
Print Assumptions C90_restart_rk3_2d.

Example C90_restart_rk3_2d_ex :
  ((exists m vm, parse_options (pl_read tb_platform) (pl_lit tb_platform) (pl_eps100 tb_platform) (pl_max100 tb_platform) ex_none
     (ea_restart_args "2" "rk3ssp" "1" "0.5" "10") ex_members = Ok (Running m vm) /\ asks_with m 2 "rk3ssp" "old" (ea_settings 1) (1/2)%R 10%R) /\
  is_file2 tb_platform rr_dom2 12 4%R 1%R (ea_field2 27) (ea_doc2 27) /\ readable2 tb_platform rr_dom2 4%R 1%R (ea_field2 27) /\ valid_domain2 rr_dom2 /\
  (xbeg rr_dom2 < xend rr_dom2)%R /\ sound_from (ea_settings 1) 12 100 /\ bc_named "periodic" Periodic) /\
  reduces tb_platform /\ (forall header, all_comment (pl_table tb_platform header)) /\ all_comment (pl_banner tb_platform) /\
  forall row, readable (pl_showe tb_platform) row.
Proof. exact (conj (conj ea_restart_rk3_2d (conj (ea_file2 27) (conj (ea_readable2 27 ea_27) (conj rr_valid2 (conj rr_range (ea_sound 1 12 ea_1 (or_introl eq_refl))))))) tb_setting). Qed.

(** C90, 2D, ode23: the log file of a restarted run with sound settings and any tolerances reads as a table whose first line has the names iter time dt time_err res_c abs_res rel_res min_c max_c grad_c_mag
    and which has a line for each row logged. *)
Theorem C90_restart_ode23_2d :
  forall (pl : platform R) (fuel : nat) (fs : string -> option string) (vts : string -> list xml)
    (other : members R -> option (res (pworld R))) (args : list string) (opts m : members R) (vm : vmap R) (s : settings R) (rel abs : R)
    (bx by_ bz : bctype) (tol lo hi : R) (r : string) (dom0 : domain R) (i : Z) (t dt : R) (u : Z -> Z -> R) (stamp : nat -> string),
  parse_options (pl_read pl) (pl_lit pl) (pl_eps100 pl) (pl_max100 pl) fs args opts = Ok (Running m vm) ->
  asks_with m 2 "ode23" r s rel abs -> r <> "none" ->
  given m [("time_rel_err_tol", VDouble tol); ("min_time_step_size", VDouble lo); ("max_time_step_size", VDouble hi)] ->
  is_file2 pl dom0 i t dt u (vts r) -> readable2 pl dom0 t dt u -> pl_read pl "0.0" = Ok 0%R -> valid_domain2 dom0 -> 2 <= nx dom0 ->
  nx dom0 <= 2147483647 -> (xbeg dom0 < xend dom0)%R ->
  sound_from s i fuel -> bc_named (s_bc_x s) bx -> bc_named (s_bc_y s) by_ -> bc_named (s_bc_z s) bz ->
  reduces pl -> (forall n, one_line (stamp n)) -> (forall header, all_comment (pl_table pl header)) -> all_comment (pl_banner pl) ->
  exists w rows goodbye, madgicart pl fuel fs vts other args opts = Some (Ok (Finished w)) /\
    perform_all (pl_showe pl) (pl_table pl) (pl_banner pl) new_logger
      (log_requests (s_log_file s) [config_template (pl_showg pl) (pl_lit pl) (pl_eps100 pl) (pl_max100 pl) vm; "Using initial conditions file " ++ r]%string rows ++ map (Message LInfo) goodbye) = Next (w_logger w) (w_out w) /\
    rows <> [] /\
    (Forall (readable (pl_showe pl)) (map columns_of rows) ->
     table_in (file_text (s_log_file s) stamp 0 (w_out w)) = ["iter"; "time"; "dt"; "time_err"; "res_c"; "abs_res"; "rel_res"; "min_c"; "max_c"; "grad_c_mag"] :: map (fun r => printed (pl_showe pl) (columns_of r)) rows).
Proof. exact pf_C90_restart_ode23_2d. Qed.
Print Assumptions C90_restart_ode23_2d.

Example C90_restart_ode23_2d_ex :
  ((exists m vm, parse_options (pl_read tb_platform) (pl_lit tb_platform) (pl_eps100 tb_platform) (pl_max100 tb_platform) ex_none
     (ea_restart_args "2" "ode23" "1" "0.5" "10") ex_members = Ok (Running m vm) /\ asks_with m 2 "ode23" "old" (ea_settings 1) (1/2)%R 10%R /\
   given m [("time_rel_err_tol", VDouble (IZR 1 * powerRZ 10 (-2))%R); ("min_time_step_size", VDouble (/ 1000000)%R); ("max_time_step_size", VDouble 1000000%R)]) /\
  is_file2 tb_platform rr_dom2 12 4%R 1%R (ea_field2 27) (ea_doc2 27) /\ readable2 tb_platform rr_dom2 4%R 1%R (ea_field2 27) /\ valid_domain2 rr_dom2 /\
  (xbeg rr_dom2 < xend rr_dom2)%R /\ sound_from (ea_settings 1) 12 100 /\ bc_named "periodic" Periodic) /\
  reduces tb_platform /\ (forall header, all_comment (pl_table tb_platform header)) /\ all_comment (pl_banner tb_platform) /\
  forall row, readable (pl_showe tb_platform) row.
Proof. exact (conj (conj ea_restart_ode23_2d (conj (ea_file2 27) (conj (ea_readable2 27 ea_27) (conj rr_valid2 (conj rr_range (ea_sound 1 12 ea_1 (or_introl eq_refl))))))) tb_setting). Qed.

(** C90: every line of the banner is a comment, and among its lines are those that show the host, the user, the working directory and the processor, if the names shown have no line ends. *)
Theorem C90_banner :
  forall (e : surroundings) (b : string),
  make_banner e = Ok b -> plain_surroundings e -> one_line (e_directory e) ->
  all_comment b /\
  Forall (fun l => In l (text_lines b)) [
    ("#     Hostname           " ++ e_host e)%string;
    ("#     Username           " ++ match e_user e with Some u => u | None => "unknown" end)%string;
    ("#     Work directory     " ++ e_directory e)%string;
    ("#     Processor model    " ++ processor_model (e_cpuinfo e))%string].
Proof. exact pf_C90_banner. Qed.
Print Assumptions C90_banner.

Example C90_banner_ex : one_line (e_directory (ta_machine "/home/ada")) /\ plain_surroundings (ta_machine "/home/ada") /\ exists b, make_banner (ta_machine "/home/ada") = Ok b.
Proof. exact (conj ta_home (ta_surroundings "/home/ada")). Qed.

(** C90 without the condition on the working directory is false: started in a directory whose name has a line end followed by a word, the program writes that word
    into the log as the first line of the table, where a reader expects the names of the columns. *)
Theorem C90_directory_refuted :
  forall (e : surroundings) (b first word : string),
  make_banner e = Ok b -> plain_surroundings e -> e_directory e = (first ++ nl ++ word)%string -> one_line first -> is_word word ->
  table_in b = [[word]].
Proof. exact pf_C90_directory_refuted. Qed.
Print Assumptions C90_directory_refuted.

Example C90_directory_refuted_ex :
  (one_line "/home/a" /\ is_word "da" /\ e_directory (ta_machine ("/home/a" ++ nl ++ "da")) = ("/home/a" ++ nl ++ "da")%string) /\
  plain_surroundings (ta_machine ("/home/a" ++ nl ++ "da")) /\ exists b, make_banner (ta_machine ("/home/a" ++ nl ++ "da")) = Ok b.
Proof. exact (conj ta_broken (ta_surroundings _)). Qed.

(** C90: the processor shown is the rest of the first line of /proc/cpuinfo that begins with "model name", after the blank that ends its second word; and the text shown never has
    line ends, whatever the file holds. *)
Theorem C90_processor :
  (forall (before : list string) (b rest more : string),
   Forall one_line before -> Forall (fun l => forall r, l <> ("model name" ++ r)%string) before ->
   (forall n, String.get n b <> Some " "%char) -> one_line b -> one_line rest ->
   processor_model (Some (fold_right (fun l r => l ++ nl ++ r) ("model name" ++ b ++ " " ++ rest ++ nl ++ more) before)%string) = rest) /\
  (forall c, one_line (processor_model c)).
Proof. exact pf_C90_processor. Qed.
Print Assumptions C90_processor.

Example C90_processor_ex :
  processor_model (Some ta_cpuinfo) = "Some  CPU @ 2 GHz"%string /\ processor_model None = "not found"%string /\ processor_model (Some "model name") = "not found"%string.
Proof. repeat split; reflexivity. Qed.

(** C90: the banner, and with it every log, is defined exactly if the name of the host has fewer than 64 characters; Linux allows 64. *)
Theorem C90_hostname_refuted :
  forall (e : surroundings),
  ((String.length (e_host e) < 64)%nat -> exists b, make_banner e = Ok b) /\
  ((64 <= String.length (e_host e))%nat -> make_banner e = UB).
Proof. exact pf_C90_hostname_refuted. Qed.
Print Assumptions C90_hostname_refuted.

Example C90_hostname_refuted_ex :
  String.length (String.concat "" (repeat "a" 64)) = 64%nat /\ (String.length (e_host (ta_machine "/")) < 64)%nat.
Proof. split; [reflexivity|repeat constructor]. Qed.

(** C90, 3D, bdf1 and steady: the same of the log file of a new run with the implicit integrator, apart from the integrator's own messages. *)
Theorem C90_run_implicit :
  forall (pl : platform R) (nsin ncos : R -> R) (fuel : nat) (fs : string -> option string) (vts : string -> list xml)
    (other : members R -> option (res (pworld R))) (args : list string) (opts m : members R) (vm : vmap R) (s : settings R)
    (q : mg_options R) (bx by_ bz : bctype) (stamp : nat -> string),
  parse_options (pl_read pl) (pl_lit pl) (pl_eps100 pl) (pl_max100 pl) fs args opts = Ok (Running m vm) ->
  asks m 3 (integrator_name q) "none" s -> mg_asks m q ->
  sound s fuel -> mg_sound q s -> bc_named (s_bc_x s) bx -> bc_named (s_bc_y s) by_ -> bc_named (s_bc_z s) bz ->
  reduces pl -> (forall n, one_line (stamp n)) -> (forall header, all_comment (pl_table pl header)) -> all_comment (pl_banner pl) ->
  exists w rows, madgicart_all pl nsin ncos fuel fs vts other args opts = Some (Ok (Finished w)) /\
    perform_all (pl_showe pl) (pl_table pl) (pl_banner pl) new_logger
      (log_requests (s_log_file s) [config_template (pl_showg pl) (pl_lit pl) (pl_eps100 pl) (pl_max100 pl) vm] rows) = Next (w_logger w) (w_out w) /\
    rows <> [] /\
    (Forall (readable (pl_showe pl)) (map columns_of rows) ->
     table_in (file_text (s_log_file s) stamp 0 (w_out w)) = ["iter"; "time"; "dt"; "res_c"; "abs_res"; "rel_res"; "min_c"; "max_c"; "grad_c_mag"] :: map (fun r => printed (pl_showe pl) (columns_of r)) rows).
Proof. exact pf_C90_run_implicit. Qed.
Print Assumptions C90_run_implicit.

Example C90_run_implicit_ex :
  (exists m vm, parse_options (pl_read ta_platform) (pl_lit ta_platform) (pl_eps100 ta_platform) (pl_max100 ta_platform) ex_none (im_args "bdf1" "2") ex_members = Ok (Running m vm) /\
     asks m 3 "bdf1" "none" (ex_settings 4 100 20) /\ mg_asks m (im_options 2 false)) /\
  (sound (ex_settings 4 100 20) 100 /\ mg_sound (im_options 2 false) (ex_settings 4 100 20) /\ bc_named "periodic" Periodic /\ reduces ex_platform) /\
  (reduces ta_platform /\ (forall header, all_comment (pl_table ta_platform header)) /\ all_comment (pl_banner ta_platform) /\
  forall row, readable (pl_showe ta_platform) row).
Proof. exact (conj im_run (conj im_sound tc_im)). Qed.

(** C90, Poisson's equation with rk3ssp: the same of the log file of a new run with any tolerances. *)
Theorem C90_poisson_rk3 :
  forall (pl : platform R) (fuel : nat) (fs : string -> option string) (vts : string -> list xml)
    (other : members R -> option (res (pworld R))) (args : list string) (opts m : members R) (vm : vmap R) (s : settings R) (rel abs : R)
    (bx by_ bz : bctype) (stamp : nat -> string),
  parse_options (pl_read pl) (pl_lit pl) (pl_eps100 pl) (pl_max100 pl) fs args opts = Ok (Running m vm) ->
  poisson_asks m 3 "rk3ssp" s rel abs ->
  poisson_sound s fuel -> bc_named (s_bc_x s) bx -> bc_named (s_bc_y s) by_ -> bc_named (s_bc_z s) bz ->
  reduces pl -> (forall n, one_line (stamp n)) -> (forall header, all_comment (pl_table pl header)) -> all_comment (pl_banner pl) ->
  exists w rows goodbye, madgicart_all pl sin cos fuel fs vts other args opts = Some (Ok (Finished w)) /\
    perform_all (pl_showe pl) (pl_table pl) (pl_banner pl) new_logger
      (log_requests (s_log_file s) [config_template (pl_showg pl) (pl_lit pl) (pl_eps100 pl) (pl_max100 pl) vm] rows ++ map (Message LInfo) goodbye) = Next (w_logger w) (w_out w) /\
    rows <> [] /\
    (Forall (readable (pl_showe pl)) (map columns_of rows) ->
     table_in (file_text (s_log_file s) stamp 0 (w_out w)) = ["iter"; "time"; "dt"; "res_c"; "abs_res"; "rel_res"; "min_c"; "max_c"; "grad_c_mag"] :: map (fun r => printed (pl_showe pl) (columns_of r)) rows).
Proof. exact pf_C90_poisson_rk3. Qed.
Print Assumptions C90_poisson_rk3.

Example C90_poisson_rk3_ex :
  (exists m vm, parse_options (pl_read (tc_plain pr_platform)) (pl_lit (tc_plain pr_platform)) (pl_eps100 (tc_plain pr_platform)) (pl_max100 (tc_plain pr_platform)) ex_none (pr_args "3" "rk3ssp") ex_members = Ok (Running m vm) /\ poisson_asks m 3 "rk3ssp" pr_settings 0%R 0%R) /\
  (poisson_sound pr_settings 100 /\ bc_named "periodic" Periodic) /\
  (reduces (tc_plain pr_platform) /\ (forall header, all_comment (pl_table (tc_plain pr_platform) header)) /\ all_comment (pl_banner (tc_plain pr_platform)) /\
  forall row, readable (pl_showe (tc_plain pr_platform)) row).
Proof. exact (conj pr_rk3 (conj pr_sound tc_pr)). Qed.

(** C90, Poisson's equation with ode23: likewise, with the column time_err. *)
Theorem C90_poisson_ode23 :
  forall (pl : platform R) (fuel : nat) (fs : string -> option string) (vts : string -> list xml)
    (other : members R -> option (res (pworld R))) (args : list string) (opts m : members R) (vm : vmap R) (s : settings R) (rel abs : R)
    (bx by_ bz : bctype) (tol lo hi : R) (stamp : nat -> string),
  parse_options (pl_read pl) (pl_lit pl) (pl_eps100 pl) (pl_max100 pl) fs args opts = Ok (Running m vm) ->
  poisson_asks m 3 "ode23" s rel abs ->
  given m [("time_rel_err_tol", VDouble tol); ("min_time_step_size", VDouble lo); ("max_time_step_size", VDouble hi)] ->
  poisson_sound s fuel -> bc_named (s_bc_x s) bx -> bc_named (s_bc_y s) by_ -> bc_named (s_bc_z s) bz ->
  reduces pl -> (forall n, one_line (stamp n)) -> (forall header, all_comment (pl_table pl header)) -> all_comment (pl_banner pl) ->
  exists w rows goodbye, madgicart_all pl sin cos fuel fs vts other args opts = Some (Ok (Finished w)) /\
    perform_all (pl_showe pl) (pl_table pl) (pl_banner pl) new_logger
      (log_requests (s_log_file s) [config_template (pl_showg pl) (pl_lit pl) (pl_eps100 pl) (pl_max100 pl) vm] rows ++ map (Message LInfo) goodbye) = Next (w_logger w) (w_out w) /\
    rows <> [] /\
    (Forall (readable (pl_showe pl)) (map columns_of rows) ->
     table_in (file_text (s_log_file s) stamp 0 (w_out w)) = ["iter"; "time"; "dt"; "time_err"; "res_c"; "abs_res"; "rel_res"; "min_c"; "max_c"; "grad_c_mag"] :: map (fun r => printed (pl_showe pl) (columns_of r)) rows).
Proof. exact pf_C90_poisson_ode23. Qed.
Print Assumptions C90_poisson_ode23.

Example C90_poisson_ode23_ex :
  (exists m vm tol lo hi, parse_options (pl_read (tc_plain pr_platform)) (pl_lit (tc_plain pr_platform)) (pl_eps100 (tc_plain pr_platform)) (pl_max100 (tc_plain pr_platform)) ex_none (pr_args "3" "ode23") ex_members = Ok (Running m vm) /\ poisson_asks m 3 "ode23" pr_settings 0%R 0%R /\
     given m [("time_rel_err_tol", VDouble tol); ("min_time_step_size", VDouble lo); ("max_time_step_size", VDouble hi)]) /\
  (poisson_sound pr_settings 100 /\ bc_named "periodic" Periodic) /\
  (reduces (tc_plain pr_platform) /\ (forall header, all_comment (pl_table (tc_plain pr_platform) header)) /\ all_comment (pl_banner (tc_plain pr_platform)) /\
  forall row, readable (pl_showe (tc_plain pr_platform)) row).
Proof. exact (conj pr_ode23 (conj pr_sound tc_pr)). Qed.

(** C90, Poisson's equation with bdf1 and steady: likewise, apart from the integrator's own messages. *)
Theorem C90_poisson_implicit :
  forall (pl : platform R) (fuel : nat) (fs : string -> option string) (vts : string -> list xml)
    (other : members R -> option (res (pworld R))) (args : list string) (opts m : members R) (vm : vmap R) (s : settings R)
    (q : mg_options R) (bx by_ bz : bctype) (stamp : nat -> string),
  parse_options (pl_read pl) (pl_lit pl) (pl_eps100 pl) (pl_max100 pl) fs args opts = Ok (Running m vm) ->
  poisson_asks m 3 (integrator_name q) s 0%R 0%R -> mg_asks m q ->
  poisson_sound s fuel -> mg_sound q s -> bc_named (s_bc_x s) bx -> bc_named (s_bc_y s) by_ -> bc_named (s_bc_z s) bz ->
  reduces pl -> (forall n, one_line (stamp n)) -> (forall header, all_comment (pl_table pl header)) -> all_comment (pl_banner pl) ->
  exists w rows, madgicart_all pl sin cos fuel fs vts other args opts = Some (Ok (Finished w)) /\
    perform_all (pl_showe pl) (pl_table pl) (pl_banner pl) new_logger
      (log_requests (s_log_file s) [config_template (pl_showg pl) (pl_lit pl) (pl_eps100 pl) (pl_max100 pl) vm] rows) = Next (w_logger w) (w_out w) /\
    rows <> [] /\
    (Forall (readable (pl_showe pl)) (map columns_of rows) ->
     table_in (file_text (s_log_file s) stamp 0 (w_out w)) = ["iter"; "time"; "dt"; "res_c"; "abs_res"; "rel_res"; "min_c"; "max_c"; "grad_c_mag"] :: map (fun r => printed (pl_showe pl) (columns_of r)) rows).
Proof. exact pf_C90_poisson_implicit. Qed.
Print Assumptions C90_poisson_implicit.

Example C90_poisson_implicit_ex :
  (exists m vm, parse_options (pl_read (tc_plain pi_platform)) (pl_lit (tc_plain pi_platform)) (pl_eps100 (tc_plain pi_platform)) (pl_max100 (tc_plain pi_platform)) ex_none (pi_args "bdf1" "2") ex_members = Ok (Running m vm) /\ poisson_asks m 3 "bdf1" pi_settings 0%R 0%R /\ mg_asks m (pi_options 2 false)) /\
  (poisson_sound pi_settings 100 /\ bc_named "periodic" Periodic /\ reduces pi_platform) /\
  (mg_sound (pi_options 2 false) pi_settings /\ mg_sound (pi_options 1 true) pi_settings) /\
  (reduces (tc_plain pi_platform) /\ (forall header, all_comment (pl_table (tc_plain pi_platform) header)) /\ all_comment (pl_banner (tc_plain pi_platform)) /\
  forall row, readable (pl_showe (tc_plain pi_platform)) row).
Proof. exact (conj pi_bdf1 (conj pi_sound (conj pi_mg_sound tc_pi))). Qed.

(** C90, 3D, bdf1 and steady: the same of restarts with the implicit integrator, apart from the integrator's own messages. *)
Theorem C90_restart_implicit :
  forall (pl : platform R) (nsin ncos : R -> R) (fuel : nat) (fs : string -> option string) (vts : string -> list xml)
    (other : members R -> option (res (pworld R))) (args : list string) (opts m : members R) (vm : vmap R) (s : settings R)
    (q : mg_options R) (bx by_ bz : bctype) (r : string) (dom0 : domain R) (i : Z) (t dt : R) (u : Z -> Z -> Z -> R) (stamp : nat -> string),
  parse_options (pl_read pl) (pl_lit pl) (pl_eps100 pl) (pl_max100 pl) fs args opts = Ok (Running m vm) ->
  asks m 3 (integrator_name q) r s -> mg_asks m q -> r <> "none" ->
  is_file3 pl dom0 i t dt u (vts r) -> readable3 pl dom0 t dt u -> valid_domain3 dom0 -> 2 <= nx dom0 /\ 2 <= ny dom0 /\ 2 <= nz dom0 ->
  nx dom0 <= 2147483647 /\ ny dom0 <= 2147483647 /\ nz dom0 <= 2147483647 -> (xbeg dom0 < xend dom0)%R ->
  sound_from s i fuel -> mg_fits q (nx dom0) (ny dom0) (nz dom0) -> reduces pl ->
  bc_named (s_bc_x s) bx -> bc_named (s_bc_y s) by_ -> bc_named (s_bc_z s) bz ->
  (forall n, one_line (stamp n)) -> (forall header, all_comment (pl_table pl header)) -> all_comment (pl_banner pl) ->
  exists w rows, madgicart_all pl nsin ncos fuel fs vts other args opts = Some (Ok (Finished w)) /\
    perform_all (pl_showe pl) (pl_table pl) (pl_banner pl) new_logger
      (log_requests (s_log_file s) [config_template (pl_showg pl) (pl_lit pl) (pl_eps100 pl) (pl_max100 pl) vm; "Using initial conditions file " ++ r]%string rows) = Next (w_logger w) (w_out w) /\
    rows <> [] /\
    (Forall (readable (pl_showe pl)) (map columns_of rows) ->
     table_in (file_text (s_log_file s) stamp 0 (w_out w)) = ["iter"; "time"; "dt"; "res_c"; "abs_res"; "rel_res"; "min_c"; "max_c"; "grad_c_mag"] :: map (fun r => printed (pl_showe pl) (columns_of r)) rows).
Proof. exact pf_C90_restart_implicit. Qed.
Print Assumptions C90_restart_implicit.

Example C90_restart_implicit_ex :
  ((exists m vm, rs_parsed (rs_args "cahn-hilliard" "bdf1" "2") = Ok (Running m vm) /\ asks m 3 "bdf1" "old" rr_settings /\ mg_asks m (rs_options 2 false)) /\
  is_file3 (tc_plain rr_platform) rs_dom3 12 4%R 1%R rr_field3 rs_doc3 /\ readable3 (tc_plain rr_platform) rs_dom3 4%R 1%R rr_field3 /\ valid_domain3 rs_dom3 /\
  ((2 <= nx rs_dom3 /\ 2 <= ny rs_dom3 /\ 2 <= nz rs_dom3) /\ (nx rs_dom3 <= 2147483647 /\ ny rs_dom3 <= 2147483647 /\ nz rs_dom3 <= 2147483647) /\ (xbeg rs_dom3 < xend rs_dom3)%R) /\
  (sound_from rr_settings 12 100 /\ poisson_sound_from rr_settings 12 100 /\ bc_named "periodic" Periodic) /\
  mg_fits (rs_options 2 false) (nx rs_dom3) (ny rs_dom3) (nz rs_dom3) /\ reduces (tc_plain rr_platform)) /\
  (reduces (tc_plain rr_platform) /\ (forall header, all_comment (pl_table (tc_plain rr_platform) header)) /\ all_comment (pl_banner (tc_plain rr_platform)) /\
  forall row, readable (pl_showe (tc_plain rr_platform)) row).
Proof. exact (conj (conj rs_bdf1 (conj rs_file3 (conj rs_readable3 (conj rs_valid3 (conj rs_range (conj rs_sound rs_fits)))))) tc_rr). Qed.

(** C90, Poisson's equation: the same of restarts with bdf1 and steady, apart from the integrator's own messages. *)
Theorem C90_poisson_restart_implicit :
  forall (pl : platform R) (fuel : nat) (fs : string -> option string) (vts : string -> list xml)
    (other : members R -> option (res (pworld R))) (args : list string) (opts m : members R) (vm : vmap R) (s : settings R)
    (q : mg_options R) (bx by_ bz : bctype) (r : string) (dom0 : domain R) (i : Z) (t dt : R) (u : Z -> Z -> Z -> R) (stamp : nat -> string),
  parse_options (pl_read pl) (pl_lit pl) (pl_eps100 pl) (pl_max100 pl) fs args opts = Ok (Running m vm) ->
  poisson_asks_from m 3 (integrator_name q) r s 0%R 0%R -> mg_asks m q -> r <> "none" ->
  is_file3 pl dom0 i t dt u (vts r) -> readable3 pl dom0 t dt u -> valid_domain3 dom0 -> 2 <= nx dom0 /\ 2 <= ny dom0 /\ 2 <= nz dom0 ->
  nx dom0 <= 2147483647 /\ ny dom0 <= 2147483647 /\ nz dom0 <= 2147483647 -> (xbeg dom0 < xend dom0)%R ->
  poisson_sound_from s i fuel -> mg_fits q (nx dom0) (ny dom0) (nz dom0) -> reduces pl ->
  bc_named (s_bc_x s) bx -> bc_named (s_bc_y s) by_ -> bc_named (s_bc_z s) bz ->
  (forall n, one_line (stamp n)) -> (forall header, all_comment (pl_table pl header)) -> all_comment (pl_banner pl) ->
  exists w rows, madgicart_all pl sin cos fuel fs vts other args opts = Some (Ok (Finished w)) /\
    perform_all (pl_showe pl) (pl_table pl) (pl_banner pl) new_logger
      (log_requests (s_log_file s) [config_template (pl_showg pl) (pl_lit pl) (pl_eps100 pl) (pl_max100 pl) vm; "Using initial conditions file " ++ r]%string rows) = Next (w_logger w) (w_out w) /\
    rows <> [] /\
    (Forall (readable (pl_showe pl)) (map columns_of rows) ->
     table_in (file_text (s_log_file s) stamp 0 (w_out w)) = ["iter"; "time"; "dt"; "res_c"; "abs_res"; "rel_res"; "min_c"; "max_c"; "grad_c_mag"] :: map (fun r => printed (pl_showe pl) (columns_of r)) rows).
Proof. exact pf_C90_poisson_restart_implicit. Qed.
Print Assumptions C90_poisson_restart_implicit.

Example C90_poisson_restart_implicit_ex :
  ((exists m vm, rs_parsed (rs_args "poisson" "bdf1" "2") = Ok (Running m vm) /\ poisson_asks_from m 3 "bdf1" "old" rr_settings 0%R 0%R /\ mg_asks m (rs_options 2 false)) /\
  is_file3 (tc_plain rr_platform) rs_dom3 12 4%R 1%R rr_field3 rs_doc3 /\ readable3 (tc_plain rr_platform) rs_dom3 4%R 1%R rr_field3 /\ valid_domain3 rs_dom3 /\
  ((2 <= nx rs_dom3 /\ 2 <= ny rs_dom3 /\ 2 <= nz rs_dom3) /\ (nx rs_dom3 <= 2147483647 /\ ny rs_dom3 <= 2147483647 /\ nz rs_dom3 <= 2147483647) /\ (xbeg rs_dom3 < xend rs_dom3)%R) /\
  (sound_from rr_settings 12 100 /\ poisson_sound_from rr_settings 12 100 /\ bc_named "periodic" Periodic) /\
  mg_fits (rs_options 2 false) (nx rs_dom3) (ny rs_dom3) (nz rs_dom3) /\ reduces (tc_plain rr_platform)) /\
  (reduces (tc_plain rr_platform) /\ (forall header, all_comment (pl_table (tc_plain rr_platform) header)) /\ all_comment (pl_banner (tc_plain rr_platform)) /\
  forall row, readable (pl_showe (tc_plain rr_platform)) row).
Proof. exact (conj (conj rs_poisson (conj rs_file3 (conj rs_readable3 (conj rs_valid3 (conj rs_range (conj rs_sound rs_fits)))))) tc_rr). Qed.

(** C90, Poisson's equation: the same of restarts with rk3ssp. *)
Theorem C90_poisson_restart_rk3 :
  forall (pl : platform R) (fuel : nat) (fs : string -> option string) (vts : string -> list xml)
    (other : members R -> option (res (pworld R))) (args : list string) (opts m : members R) (vm : vmap R) (s : settings R) (rel abs : R)
    (bx by_ bz : bctype) (r : string) (dom0 : domain R) (i : Z) (t dt : R) (u : Z -> Z -> Z -> R) (stamp : nat -> string),
  parse_options (pl_read pl) (pl_lit pl) (pl_eps100 pl) (pl_max100 pl) fs args opts = Ok (Running m vm) ->
  poisson_asks_from m 3 "rk3ssp" r s rel abs -> r <> "none" ->
  is_file3 pl dom0 i t dt u (vts r) -> readable3 pl dom0 t dt u -> valid_domain3 dom0 -> 2 <= nx dom0 /\ 2 <= ny dom0 /\ 2 <= nz dom0 ->
  nx dom0 <= 2147483647 /\ ny dom0 <= 2147483647 /\ nz dom0 <= 2147483647 -> (xbeg dom0 < xend dom0)%R ->
  poisson_sound_from s i fuel -> bc_named (s_bc_x s) bx -> bc_named (s_bc_y s) by_ -> bc_named (s_bc_z s) bz ->
  reduces pl -> (forall n, one_line (stamp n)) -> (forall header, all_comment (pl_table pl header)) -> all_comment (pl_banner pl) ->
  exists w rows goodbye, madgicart_all pl sin cos fuel fs vts other args opts = Some (Ok (Finished w)) /\
    perform_all (pl_showe pl) (pl_table pl) (pl_banner pl) new_logger
      (log_requests (s_log_file s) [config_template (pl_showg pl) (pl_lit pl) (pl_eps100 pl) (pl_max100 pl) vm; "Using initial conditions file " ++ r]%string rows ++ map (Message LInfo) goodbye) = Next (w_logger w) (w_out w) /\
    rows <> [] /\
    (Forall (readable (pl_showe pl)) (map columns_of rows) ->
     table_in (file_text (s_log_file s) stamp 0 (w_out w)) = ["iter"; "time"; "dt"; "res_c"; "abs_res"; "rel_res"; "min_c"; "max_c"; "grad_c_mag"] :: map (fun r => printed (pl_showe pl) (columns_of r)) rows).
Proof. exact pf_C90_poisson_restart_rk3. Qed.
Print Assumptions C90_poisson_restart_rk3.

Example C90_poisson_restart_rk3_ex :
  ((exists m vm, rs_parsed (rs_args "poisson" "rk3ssp" "2") = Ok (Running m vm) /\ poisson_asks_from m 3 "rk3ssp" "old" rr_settings 0%R 0%R) /\
  is_file3 (tc_plain rr_platform) rs_dom3 12 4%R 1%R rr_field3 rs_doc3 /\ readable3 (tc_plain rr_platform) rs_dom3 4%R 1%R rr_field3 /\ valid_domain3 rs_dom3 /\
  ((2 <= nx rs_dom3 /\ 2 <= ny rs_dom3 /\ 2 <= nz rs_dom3) /\ (nx rs_dom3 <= 2147483647 /\ ny rs_dom3 <= 2147483647 /\ nz rs_dom3 <= 2147483647) /\ (xbeg rs_dom3 < xend rs_dom3)%R) /\
  sound_from rr_settings 12 100 /\ poisson_sound_from rr_settings 12 100 /\ bc_named "periodic" Periodic) /\
  (reduces (tc_plain rr_platform) /\ (forall header, all_comment (pl_table (tc_plain rr_platform) header)) /\ all_comment (pl_banner (tc_plain rr_platform)) /\
  forall row, readable (pl_showe (tc_plain rr_platform)) row).
Proof. exact (conj (conj rs_poisson_rk3 (conj rs_file3 (conj rs_readable3 (conj rs_valid3 (conj rs_range rs_sound))))) tc_rr). Qed.

(** C90, Poisson's equation: the same of restarts with ode23, with the column time_err. *)
Theorem C90_poisson_restart_ode23 :
  forall (pl : platform R) (fuel : nat) (fs : string -> option string) (vts : string -> list xml)
    (other : members R -> option (res (pworld R))) (args : list string) (opts m : members R) (vm : vmap R) (s : settings R) (rel abs : R)
    (bx by_ bz : bctype) (r : string) (dom0 : domain R) (i : Z) (t dt : R) (u : Z -> Z -> Z -> R) (tol lo hi : R) (stamp : nat -> string),
  parse_options (pl_read pl) (pl_lit pl) (pl_eps100 pl) (pl_max100 pl) fs args opts = Ok (Running m vm) ->
  poisson_asks_from m 3 "ode23" r s rel abs ->
  given m [("time_rel_err_tol", VDouble tol); ("min_time_step_size", VDouble lo); ("max_time_step_size", VDouble hi)] -> r <> "none" ->
  is_file3 pl dom0 i t dt u (vts r) -> readable3 pl dom0 t dt u -> valid_domain3 dom0 -> 2 <= nx dom0 /\ 2 <= ny dom0 /\ 2 <= nz dom0 ->
  nx dom0 <= 2147483647 /\ ny dom0 <= 2147483647 /\ nz dom0 <= 2147483647 -> (xbeg dom0 < xend dom0)%R ->
  poisson_sound_from s i fuel -> bc_named (s_bc_x s) bx -> bc_named (s_bc_y s) by_ -> bc_named (s_bc_z s) bz ->
  reduces pl -> (forall n, one_line (stamp n)) -> (forall header, all_comment (pl_table pl header)) -> all_comment (pl_banner pl) ->
  exists w rows goodbye, madgicart_all pl sin cos fuel fs vts other args opts = Some (Ok (Finished w)) /\
    perform_all (pl_showe pl) (pl_table pl) (pl_banner pl) new_logger
      (log_requests (s_log_file s) [config_template (pl_showg pl) (pl_lit pl) (pl_eps100 pl) (pl_max100 pl) vm; "Using initial conditions file " ++ r]%string rows ++ map (Message LInfo) goodbye) = Next (w_logger w) (w_out w) /\
    rows <> [] /\
    (Forall (readable (pl_showe pl)) (map columns_of rows) ->
     table_in (file_text (s_log_file s) stamp 0 (w_out w)) = ["iter"; "time"; "dt"; "time_err"; "res_c"; "abs_res"; "rel_res"; "min_c"; "max_c"; "grad_c_mag"] :: map (fun r => printed (pl_showe pl) (columns_of r)) rows).
Proof. exact pf_C90_poisson_restart_ode23. Qed.
Print Assumptions C90_poisson_restart_ode23.

Example C90_poisson_restart_ode23_ex :
  ((exists m vm, rs_parsed (rs_args "poisson" "ode23" "2") = Ok (Running m vm) /\ poisson_asks_from m 3 "ode23" "old" rr_settings 0%R 0%R /\
    given m [("time_rel_err_tol", VDouble (IZR 1 * powerRZ 10 (-2))%R); ("min_time_step_size", VDouble (/ 1000000)%R); ("max_time_step_size", VDouble 1000000%R)]) /\
  is_file3 (tc_plain rr_platform) rs_dom3 12 4%R 1%R rr_field3 rs_doc3 /\ readable3 (tc_plain rr_platform) rs_dom3 4%R 1%R rr_field3 /\ valid_domain3 rs_dom3 /\
  ((2 <= nx rs_dom3 /\ 2 <= ny rs_dom3 /\ 2 <= nz rs_dom3) /\ (nx rs_dom3 <= 2147483647 /\ ny rs_dom3 <= 2147483647 /\ nz rs_dom3 <= 2147483647) /\ (xbeg rs_dom3 < xend rs_dom3)%R) /\
  sound_from rr_settings 12 100 /\ poisson_sound_from rr_settings 12 100 /\ bc_named "periodic" Periodic) /\
  (reduces (tc_plain rr_platform) /\ (forall header, all_comment (pl_table (tc_plain rr_platform) header)) /\ all_comment (pl_banner (tc_plain rr_platform)) /\
  forall row, readable (pl_showe (tc_plain rr_platform)) row).
Proof. exact (conj (conj rs_poisson_ode23 (conj rs_file3 (conj rs_readable3 (conj rs_valid3 (conj rs_range rs_sound))))) tc_rr). Qed.
