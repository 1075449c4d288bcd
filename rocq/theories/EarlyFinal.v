(** Proofs of C79. *)
From Coq Require Import Ascii String Reals Lra QArith.
From Verif Require Import ModelLogger ModelOptions Outcome ZList ZListProofs Num ModelIndex ModelInt32 ModelDisc3D ModelDisc2D ModelCH ModelObs
  ModelTime ModelRun ModelReduce ModelMon ModelText ModelVTK ModelMain ModelProgram SpecGrid SpecField SpecTime SpecVTK SpecRestart SpecMon SpecProgram ExampleNum SumProofs FieldProofs MonFinal
  Disc3DProofs Disc2DProofs Make3Proofs Make2Proofs TextProofs VTKProofs VTK2Proofs VTKFinal Program5Proofs Program6Proofs Program7Proofs Program8Proofs Program9Proofs Program10Proofs
  Program11Proofs Program12Proofs ProgramFinal RerunFinal.
From Coq Require Import ZArith Lia ZifyBool ZifyNat List.
Local Open Scope string_scope.
Local Open Scope list_scope.
Local Open Scope Z_scope.

(** ** Examples *)

Definition ea_args (dim integrator : string) : list string :=
  (ex_args dim integrator "4" "100" "20" ++ ["--converged_rel_tol=0.5"; "--converged_abs_tol"; "0.5"])%list.
Definition ea_restart_args (dim integrator log rel abs : string) : list string :=
  ["--dimension=" ++ dim; "--initial_condition_file"; "old"; "--time_integrator=" ++ integrator; "--final_time=9"; "--max_time_steps=100"; "--m"; "0";
   "--sigma=1"; "--log_frequency=" ++ log; "--save_every=1"; "--solution_output_file=run"; "--converged_rel_tol=" ++ rel; "--converged_abs_tol=" ++ abs]%string.
Definition ea_settings (log : Z) : settings R := {|
  s_nx := 128; s_ny := 128; s_nz := 128; s_xbeg := 0%R; s_xend := (IZR 1 * powerRZ 10 0)%R; s_ybeg := 0%R; s_zbeg := 0%R;
  s_bc_x := "periodic"; s_bc_y := "periodic"; s_bc_z := "periodic"; s_variant := 1; s_m := 0%R;
  s_sigma := 1%R; s_eps2 := (IZR 2419753086419753 * powerRZ 10 (-20))%R;
  s_t0 := 0%R; s_tfinal := 9%R; s_dt := (IZR 1 * powerRZ 10 (-6))%R; s_max_steps := 100; s_log_every := log; s_save_every := 1;
  s_log_file := "maDGiCart"; s_output := "run" |}.
Lemma ea_sound log i : log <> 0 -> i = 12 \/ i = 13 -> sound_from (ea_settings log) i 100 /\ bc_named "periodic" Periodic.
Proof. intros L [-> | ->]; (split; [unfold sound_from; cbn; lia|left; split; reflexivity]). Qed.

Lemma pf_C79_run_rk3_3d :
  forall (pl : platform R) (fuel : nat) (fs : string -> option string) (vts : string -> list xml)
    (other : members R -> option (res (pworld R))) (args : list string) (opts m : members R) (vm : vmap R) (s : settings R) (rel abs : R)
    (bx by_ bz : bctype),
  parse_options (pl_read pl) (pl_lit pl) (pl_eps100 pl) (pl_max100 pl) fs args opts = Ok (Running m vm) ->
  asks_with m 3 "rk3ssp" "none" s rel abs ->
  sound s fuel -> bc_named (s_bc_x s) bx -> bc_named (s_bc_y s) by_ -> bc_named (s_bc_z s) bz ->
  let dom := grid_of s bx by_ bz in
  exists w, madgicart pl fuel fs vts other args opts = Some (Ok (Finished w)) /\
    story3_with pl s rel abs dom [] [config_template (pl_showg pl) (pl_lit pl) (pl_eps100 pl) (pl_max100 pl) vm] (0, s_t0 s, s_dt s) (fun dt p => p = dt)
      (ssp3_3 (ch_rate3 dom s)) (ssp3_rate3 (ch_rate3 dom s)) (random3 dom (pl_draw pl) (s_m s)) w.
Proof. intros. eapply run3_rk3_with; eauto. Qed.

Lemma ea_ask_rk3_3d : exists m vm, ex_parsed (ea_args "3" "rk3ssp") = Ok (Running m vm) /\ asks_with m 3 "rk3ssp" "none" (ex_settings 4 100 20) (1/2)%R (1/2)%R.
Proof. destruct (ex_asked_list (asked_with 3 "rk3ssp" "none" (ex_settings 4 100 20) (1/2)%R (1/2)%R) (ea_args "3" "rk3ssp")) as (m & vm & E & H); [vm_compute; reflexivity|].
  exists m, vm. split; [exact E|]. exact H. Qed.

Lemma pf_C79_run_ode23_3d :
  forall (pl : platform R) (fuel : nat) (fs : string -> option string) (vts : string -> list xml)
    (other : members R -> option (res (pworld R))) (args : list string) (opts m : members R) (vm : vmap R) (s : settings R) (rel abs : R)
    (bx by_ bz : bctype) (tol lo hi : R),
  parse_options (pl_read pl) (pl_lit pl) (pl_eps100 pl) (pl_max100 pl) fs args opts = Ok (Running m vm) ->
  asks_with m 3 "ode23" "none" s rel abs ->
  given m [("time_rel_err_tol", VDouble tol); ("min_time_step_size", VDouble lo); ("max_time_step_size", VDouble hi)] ->
  sound s fuel -> bc_named (s_bc_x s) bx -> bc_named (s_bc_y s) by_ -> bc_named (s_bc_z s) bz ->
  let dom := grid_of s bx by_ bz in
  exists w, madgicart pl fuel fs vts other args opts = Some (Ok (Finished w)) /\
    story3_with pl s rel abs dom ["time_err"%string] [config_template (pl_showg pl) (pl_lit pl) (pl_eps100 pl) (pl_max100 pl) vm] (0, s_t0 s, s_dt s) (within lo hi)
      (bs_step3 (ch_rate3 dom s)) (bs_rate3 (ch_rate3 dom s)) (random3 dom (pl_draw pl) (s_m s)) w.
Proof. intros. eapply run3_ode23_with; eauto. Qed.

Lemma ea_ask_ode23_3d : exists m vm, ex_parsed (ea_args "3" "ode23") = Ok (Running m vm) /\ asks_with m 3 "ode23" "none" (ex_settings 4 100 20) (1/2)%R (1/2)%R /\
   given m [("time_rel_err_tol", VDouble (IZR 1 * powerRZ 10 (-2))%R); ("min_time_step_size", VDouble (/ 1000000)%R); ("max_time_step_size", VDouble 1000000%R)].
Proof. destruct (ex_asked_list (asked_with 3 "ode23" "none" (ex_settings 4 100 20) (1/2)%R (1/2)%R ++ [("time_rel_err_tol", VDouble (IZR 1 * powerRZ 10 (-2))%R); ("min_time_step_size", VDouble (/ 1000000)%R); ("max_time_step_size", VDouble 1000000%R)])%list (ea_args "3" "ode23")) as (m & vm & E & H); [vm_compute; reflexivity|].
  exists m, vm. split; [exact E|]. apply Forall_app in H as (H1 & H2). split; assumption. Qed.

Lemma pf_C79_run_rk3_2d :
  forall (pl : platform R) (fuel : nat) (fs : string -> option string) (vts : string -> list xml)
    (other : members R -> option (res (pworld R))) (args : list string) (opts m : members R) (vm : vmap R) (s : settings R) (rel abs : R)
    (bx by_ bz : bctype),
  parse_options (pl_read pl) (pl_lit pl) (pl_eps100 pl) (pl_max100 pl) fs args opts = Ok (Running m vm) ->
  asks_with m 2 "rk3ssp" "none" s rel abs ->
  sound s fuel -> bc_named (s_bc_x s) bx -> bc_named (s_bc_y s) by_ -> bc_named (s_bc_z s) bz ->
  let dom := grid_of s bx by_ bz in
  exists w, madgicart pl fuel fs vts other args opts = Some (Ok (Finished w)) /\
    story2_with pl s rel abs dom [] [config_template (pl_showg pl) (pl_lit pl) (pl_eps100 pl) (pl_max100 pl) vm] (0, s_t0 s, s_dt s) (fun dt p => p = dt)
      (ssp3_2 (ch_rate2 dom s)) (ssp3_rate2 (ch_rate2 dom s)) (random2 dom (pl_draw pl) (s_m s)) w.
Proof. intros. eapply run2_rk3_with; eauto. Qed.

Lemma ea_ask_rk3_2d : exists m vm, ex_parsed (ea_args "2" "rk3ssp") = Ok (Running m vm) /\ asks_with m 2 "rk3ssp" "none" (ex_settings 4 100 20) (1/2)%R (1/2)%R.
Proof. destruct (ex_asked_list (asked_with 2 "rk3ssp" "none" (ex_settings 4 100 20) (1/2)%R (1/2)%R) (ea_args "2" "rk3ssp")) as (m & vm & E & H); [vm_compute; reflexivity|].
  exists m, vm. split; [exact E|]. exact H. Qed.

Lemma pf_C79_run_ode23_2d :
  forall (pl : platform R) (fuel : nat) (fs : string -> option string) (vts : string -> list xml)
    (other : members R -> option (res (pworld R))) (args : list string) (opts m : members R) (vm : vmap R) (s : settings R) (rel abs : R)
    (bx by_ bz : bctype) (tol lo hi : R),
  parse_options (pl_read pl) (pl_lit pl) (pl_eps100 pl) (pl_max100 pl) fs args opts = Ok (Running m vm) ->
  asks_with m 2 "ode23" "none" s rel abs ->
  given m [("time_rel_err_tol", VDouble tol); ("min_time_step_size", VDouble lo); ("max_time_step_size", VDouble hi)] ->
  sound s fuel -> bc_named (s_bc_x s) bx -> bc_named (s_bc_y s) by_ -> bc_named (s_bc_z s) bz ->
  let dom := grid_of s bx by_ bz in
  exists w, madgicart pl fuel fs vts other args opts = Some (Ok (Finished w)) /\
    story2_with pl s rel abs dom ["time_err"%string] [config_template (pl_showg pl) (pl_lit pl) (pl_eps100 pl) (pl_max100 pl) vm] (0, s_t0 s, s_dt s) (within lo hi)
      (bs_step2 (ch_rate2 dom s)) (bs_rate2 (ch_rate2 dom s)) (random2 dom (pl_draw pl) (s_m s)) w.
Proof. intros. eapply run2_ode23_with; eauto. Qed.

Lemma ea_ask_ode23_2d : exists m vm, ex_parsed (ea_args "2" "ode23") = Ok (Running m vm) /\ asks_with m 2 "ode23" "none" (ex_settings 4 100 20) (1/2)%R (1/2)%R /\
   given m [("time_rel_err_tol", VDouble (IZR 1 * powerRZ 10 (-2))%R); ("min_time_step_size", VDouble (/ 1000000)%R); ("max_time_step_size", VDouble 1000000%R)].
Proof. destruct (ex_asked_list (asked_with 2 "ode23" "none" (ex_settings 4 100 20) (1/2)%R (1/2)%R ++ [("time_rel_err_tol", VDouble (IZR 1 * powerRZ 10 (-2))%R); ("min_time_step_size", VDouble (/ 1000000)%R); ("max_time_step_size", VDouble 1000000%R)])%list (ea_args "2" "ode23")) as (m & vm & E & H); [vm_compute; reflexivity|].
  exists m, vm. split; [exact E|]. apply Forall_app in H as (H1 & H2). split; assumption. Qed.

(** Restarts: whole numbers are printed exactly. *)
Definition ea_read (s : string) : res R := if String.eqb s "0.5" then Ok (1 / 2)%R else ex_readR s.
Definition ea_platform : platform R := {|
  pl_read := ea_read; pl_showg := fun _ => "x";
  pl_lit := fun m e => if m =? 0 then 0%R else (IZR m * powerRZ 10 e)%R; pl_eps100 := (/ 1000000)%R; pl_max100 := 1000000%R;
  pl_show := ex_showR; pl_show6 := ex_showR; pl_showe := fun _ => "x"; pl_table := fun l => String.concat "" l; pl_banner := "";
  pl_red := ex_reducers; pl_rmax := fun x _ => x; pl_hi := DBL_MAX; pl_lo := DBL_MIN; pl_pow := fun x _ => x;
  pl_draw := fun n => 0%R; pl_raw := ex_dom 7%R 9%R 8 8 8 8 Neumann Neumann Neumann |}.
Lemma ea_prints n : 0 <= n <= 2147483647 -> prints ex_showR ea_read (IZR n).
Proof.
  intros H. pose proof (ex_printsR n H) as (A & B). split; [exact A|]. unfold ea_read.
  destruct (String.eqb_spec (ex_showR (IZR n)) "0.5") as [E|_]; [|exact B].
  exfalso. rewrite E in B. unfold ex_readR in B. cbn in B. discriminate.
Qed.
Lemma ea_vertex dx i m : dx = 1%R -> 0 <= i <= m -> m <= 2147483647 -> prints ex_showR ea_read (0 + dx * IZR i)%R.
Proof. intros -> H M. replace (0 + 1 * IZR i)%R with (IZR i) by ring. apply ea_prints. lia. Qed.
Definition ea_field3 (n : Z) (i j k : Z) : R := IZR n.
Definition ea_field2 (n : Z) (i j : Z) : R := IZR n.
Definition ea_doc3 (n : Z) : list xml := doc3 ex_showR ex_showR rr_dom3 1%R rr_status (ea_field3 n).
Definition ea_doc2 (n : Z) : list xml := doc2 ex_showR ex_showR rr_dom2 1%R rr_status (ea_field2 n).
Lemma ea_27 : 0 <= 27 <= 2147483647.
Proof. lia. Qed.
Lemma ea_1 : 1 <> 0.
Proof. lia. Qed.
Lemma ea_file3 n : is_file3 ea_platform rr_dom3 12 4%R 1%R (ea_field3 n) (ea_doc3 n).
Proof.
  destruct (make3_ok rr_dom3 rr_valid3) as (d & E & W & D & _).
  destruct (array_of3 rr_dom3 (ea_field3 n) ltac:(cbn; lia) rr_valid3) as (c & HC). exists d, c. split; [exact E|]. split; [exact HC|].
  cbn [ea_platform pl_show pl_show6].
  rewrite (write3_ok ex_showR ex_showR rr_dom3 d _ c (ea_field3 n) rr_valid3 E HC). unfold ea_doc3. do 2 f_equal.
  rewrite (wf_dx _ W), D. exact rr_cell3.
Qed.
Lemma ea_file2 n : is_file2 ea_platform rr_dom2 12 4%R 1%R (ea_field2 n) (ea_doc2 n).
Proof.
  destruct (make2_ok rr_dom2 rr_valid2) as (d & E & W & D & _).
  destruct (array_of2 rr_dom2 (ea_field2 n) ltac:(cbn; lia) rr_valid2) as (c & HC). exists d, c. split; [exact E|]. split; [exact HC|].
  cbn [ea_platform pl_show pl_show6].
  rewrite (write2_ok ex_showR ex_showR 0%R rr_dom2 d _ c (ea_field2 n) rr_valid2 E HC). unfold ea_doc2. do 2 f_equal.
  rewrite (wf2_dx _ W), D. exact rr_cell3.
Qed.
Lemma ea_readable3 n : 0 <= n <= 2147483647 -> readable3 ea_platform rr_dom3 4%R 1%R (ea_field3 n).
Proof.
  intros Hn. split; [|split; [|split]].
  - rewrite rr_cell3. split; [|split]; intros i H; cbn [nx ny nz ex_dom rr_dom3] in H; (eapply ea_vertex; [reflexivity|exact H|lia]).
  - intros i j k _. apply ea_prints. exact Hn.
  - apply (ea_prints 4). lia.
  - apply (ea_prints 1). lia.
Qed.
Lemma ea_readable2 n : 0 <= n <= 2147483647 -> readable2 ea_platform rr_dom2 4%R 1%R (ea_field2 n).
Proof.
  intros Hn. split; [|split; [|split]].
  - rewrite rr_cell2. split; intros i H; cbn [nx ny nz ex_dom rr_dom2] in H; (eapply ea_vertex; [reflexivity|exact H|lia]).
  - intros i j _. apply ea_prints. exact Hn.
  - apply (ea_prints 4). lia.
  - apply (ea_prints 1). lia.
Qed.

Lemma pf_C79_restart_rk3_3d :
  forall (pl : platform R) (fuel : nat) (fs : string -> option string) (vts : string -> list xml)
    (other : members R -> option (res (pworld R))) (args : list string) (opts m : members R) (vm : vmap R) (s : settings R) (rel abs : R)
    (bx by_ bz : bctype) (r : string) (dom0 : domain R) (i : Z) (t dt : R) (u : Z -> Z -> Z -> R),
  parse_options (pl_read pl) (pl_lit pl) (pl_eps100 pl) (pl_max100 pl) fs args opts = Ok (Running m vm) ->
  asks_with m 3 "rk3ssp" r s rel abs -> r <> "none" ->
  is_file3 pl dom0 i t dt u (vts r) -> readable3 pl dom0 t dt u -> valid_domain3 dom0 -> 2 <= nx dom0 /\ 2 <= ny dom0 /\ 2 <= nz dom0 ->
  nx dom0 <= 2147483647 /\ ny dom0 <= 2147483647 /\ nz dom0 <= 2147483647 -> (xbeg dom0 < xend dom0)%R ->
  sound_from s i fuel -> bc_named (s_bc_x s) bx -> bc_named (s_bc_y s) by_ -> bc_named (s_bc_z s) bz ->
  let dom := regrid3 (pl_raw pl) dom0 bx by_ bz in
  exists w, madgicart pl fuel fs vts other args opts = Some (Ok (Finished w)) /\
    story3_with pl s rel abs dom [] [config_template (pl_showg pl) (pl_lit pl) (pl_eps100 pl) (pl_max100 pl) vm; "Using initial conditions file " ++ r]%string
      (i, t, dt) (fun dt p => p = dt)
      (ssp3_3 (ch_rate3 dom s)) (ssp3_rate3 (ch_rate3 dom s)) u w.
Proof. intros. eapply restart3_rk3_with; eauto. Qed.

Lemma ea_restart_rk3_3d : exists m vm, parse_options (pl_read ea_platform) (pl_lit ea_platform) (pl_eps100 ea_platform) (pl_max100 ea_platform) ex_none
     (ea_restart_args "3" "rk3ssp" "1" "0.5" "10") ex_members = Ok (Running m vm) /\ asks_with m 3 "rk3ssp" "old" (ea_settings 1) (1/2)%R 10%R.
Proof. destruct (rr_asked ea_platform ex_members (asked_with 3 "rk3ssp" "old" (ea_settings 1) (1/2)%R 10%R) (ea_restart_args "3" "rk3ssp" "1" "0.5" "10")) as (m & vm & E & H); [vm_compute; reflexivity|].
  exists m, vm. split; [exact E|]. exact H. Qed.

Lemma pf_C79_restart_ode23_3d :
  forall (pl : platform R) (fuel : nat) (fs : string -> option string) (vts : string -> list xml)
    (other : members R -> option (res (pworld R))) (args : list string) (opts m : members R) (vm : vmap R) (s : settings R) (rel abs : R)
    (bx by_ bz : bctype) (tol lo hi : R) (r : string) (dom0 : domain R) (i : Z) (t dt : R) (u : Z -> Z -> Z -> R),
  parse_options (pl_read pl) (pl_lit pl) (pl_eps100 pl) (pl_max100 pl) fs args opts = Ok (Running m vm) ->
  asks_with m 3 "ode23" r s rel abs -> r <> "none" ->
  given m [("time_rel_err_tol", VDouble tol); ("min_time_step_size", VDouble lo); ("max_time_step_size", VDouble hi)] ->
  is_file3 pl dom0 i t dt u (vts r) -> readable3 pl dom0 t dt u -> valid_domain3 dom0 -> 2 <= nx dom0 /\ 2 <= ny dom0 /\ 2 <= nz dom0 ->
  nx dom0 <= 2147483647 /\ ny dom0 <= 2147483647 /\ nz dom0 <= 2147483647 -> (xbeg dom0 < xend dom0)%R ->
  sound_from s i fuel -> bc_named (s_bc_x s) bx -> bc_named (s_bc_y s) by_ -> bc_named (s_bc_z s) bz ->
  let dom := regrid3 (pl_raw pl) dom0 bx by_ bz in
  exists w, madgicart pl fuel fs vts other args opts = Some (Ok (Finished w)) /\
    story3_with pl s rel abs dom ["time_err"%string] [config_template (pl_showg pl) (pl_lit pl) (pl_eps100 pl) (pl_max100 pl) vm; "Using initial conditions file " ++ r]%string
      (i, t, dt) (within lo hi)
      (bs_step3 (ch_rate3 dom s)) (bs_rate3 (ch_rate3 dom s)) u w.
Proof. intros. eapply restart3_ode23_with; eauto. Qed.

Lemma ea_restart_ode23_3d : exists m vm, parse_options (pl_read ea_platform) (pl_lit ea_platform) (pl_eps100 ea_platform) (pl_max100 ea_platform) ex_none
     (ea_restart_args "3" "ode23" "1" "0.5" "10") ex_members = Ok (Running m vm) /\ asks_with m 3 "ode23" "old" (ea_settings 1) (1/2)%R 10%R /\
   given m [("time_rel_err_tol", VDouble (IZR 1 * powerRZ 10 (-2))%R); ("min_time_step_size", VDouble (/ 1000000)%R); ("max_time_step_size", VDouble 1000000%R)].
Proof. destruct (rr_asked ea_platform ex_members (asked_with 3 "ode23" "old" (ea_settings 1) (1/2)%R 10%R ++ [("time_rel_err_tol", VDouble (IZR 1 * powerRZ 10 (-2))%R); ("min_time_step_size", VDouble (/ 1000000)%R); ("max_time_step_size", VDouble 1000000%R)])%list (ea_restart_args "3" "ode23" "1" "0.5" "10")) as (m & vm & E & H); [vm_compute; reflexivity|].
  exists m, vm. split; [exact E|]. apply Forall_app in H as (H1 & H2). split; assumption. Qed.

Lemma pf_C79_restart_rk3_2d :
  forall (pl : platform R) (fuel : nat) (fs : string -> option string) (vts : string -> list xml)
    (other : members R -> option (res (pworld R))) (args : list string) (opts m : members R) (vm : vmap R) (s : settings R) (rel abs : R)
    (bx by_ bz : bctype) (r : string) (dom0 : domain R) (i : Z) (t dt : R) (u : Z -> Z -> R),
  parse_options (pl_read pl) (pl_lit pl) (pl_eps100 pl) (pl_max100 pl) fs args opts = Ok (Running m vm) ->
  asks_with m 2 "rk3ssp" r s rel abs -> r <> "none" ->
  is_file2 pl dom0 i t dt u (vts r) -> readable2 pl dom0 t dt u -> pl_read pl "0.0" = Ok 0%R -> valid_domain2 dom0 -> 2 <= nx dom0 ->
  nx dom0 <= 2147483647 -> (xbeg dom0 < xend dom0)%R ->
  sound_from s i fuel -> bc_named (s_bc_x s) bx -> bc_named (s_bc_y s) by_ -> bc_named (s_bc_z s) bz ->
  let dom := regrid2 (pl_raw pl) dom0 bx by_ bz in
  exists w, madgicart pl fuel fs vts other args opts = Some (Ok (Finished w)) /\
    story2_with pl s rel abs dom [] [config_template (pl_showg pl) (pl_lit pl) (pl_eps100 pl) (pl_max100 pl) vm; "Using initial conditions file " ++ r]%string
      (i, t, dt) (fun dt p => p = dt)
      (ssp3_2 (ch_rate2 dom s)) (ssp3_rate2 (ch_rate2 dom s)) u w.
Proof. intros. eapply restart2_rk3_with; eauto. Qed.

Lemma ea_restart_rk3_2d : exists m vm, parse_options (pl_read ea_platform) (pl_lit ea_platform) (pl_eps100 ea_platform) (pl_max100 ea_platform) ex_none
     (ea_restart_args "2" "rk3ssp" "1" "0.5" "10") ex_members = Ok (Running m vm) /\ asks_with m 2 "rk3ssp" "old" (ea_settings 1) (1/2)%R 10%R.
Proof. destruct (rr_asked ea_platform ex_members (asked_with 2 "rk3ssp" "old" (ea_settings 1) (1/2)%R 10%R) (ea_restart_args "2" "rk3ssp" "1" "0.5" "10")) as (m & vm & E & H); [vm_compute; reflexivity|].
  exists m, vm. split; [exact E|]. exact H. Qed.

Lemma pf_C79_restart_ode23_2d :
  forall (pl : platform R) (fuel : nat) (fs : string -> option string) (vts : string -> list xml)
    (other : members R -> option (res (pworld R))) (args : list string) (opts m : members R) (vm : vmap R) (s : settings R) (rel abs : R)
    (bx by_ bz : bctype) (tol lo hi : R) (r : string) (dom0 : domain R) (i : Z) (t dt : R) (u : Z -> Z -> R),
  parse_options (pl_read pl) (pl_lit pl) (pl_eps100 pl) (pl_max100 pl) fs args opts = Ok (Running m vm) ->
  asks_with m 2 "ode23" r s rel abs -> r <> "none" ->
  given m [("time_rel_err_tol", VDouble tol); ("min_time_step_size", VDouble lo); ("max_time_step_size", VDouble hi)] ->
  is_file2 pl dom0 i t dt u (vts r) -> readable2 pl dom0 t dt u -> pl_read pl "0.0" = Ok 0%R -> valid_domain2 dom0 -> 2 <= nx dom0 ->
  nx dom0 <= 2147483647 -> (xbeg dom0 < xend dom0)%R ->
  sound_from s i fuel -> bc_named (s_bc_x s) bx -> bc_named (s_bc_y s) by_ -> bc_named (s_bc_z s) bz ->
  let dom := regrid2 (pl_raw pl) dom0 bx by_ bz in
  exists w, madgicart pl fuel fs vts other args opts = Some (Ok (Finished w)) /\
    story2_with pl s rel abs dom ["time_err"%string] [config_template (pl_showg pl) (pl_lit pl) (pl_eps100 pl) (pl_max100 pl) vm; "Using initial conditions file " ++ r]%string
      (i, t, dt) (within lo hi)
      (bs_step2 (ch_rate2 dom s)) (bs_rate2 (ch_rate2 dom s)) u w.
Proof. intros. eapply restart2_ode23_with; eauto. Qed.

Lemma ea_restart_ode23_2d : exists m vm, parse_options (pl_read ea_platform) (pl_lit ea_platform) (pl_eps100 ea_platform) (pl_max100 ea_platform) ex_none
     (ea_restart_args "2" "ode23" "1" "0.5" "10") ex_members = Ok (Running m vm) /\ asks_with m 2 "ode23" "old" (ea_settings 1) (1/2)%R 10%R /\
   given m [("time_rel_err_tol", VDouble (IZR 1 * powerRZ 10 (-2))%R); ("min_time_step_size", VDouble (/ 1000000)%R); ("max_time_step_size", VDouble 1000000%R)].
Proof. destruct (rr_asked ea_platform ex_members (asked_with 2 "ode23" "old" (ea_settings 1) (1/2)%R 10%R ++ [("time_rel_err_tol", VDouble (IZR 1 * powerRZ 10 (-2))%R); ("min_time_step_size", VDouble (/ 1000000)%R); ("max_time_step_size", VDouble 1000000%R)])%list (ea_restart_args "2" "ode23" "1" "0.5" "10")) as (m & vm & E & H); [vm_compute; reflexivity|].
  exists m, vm. split; [exact E|]. apply Forall_app in H as (H1 & H2). split; assumption. Qed.

(** ** A uniform field decays *)

Section Uniform.
Local Open Scope R_scope.
Lemma ea_rate dom s u c : s_m s = 0 -> s_sigma s = 1 -> (forall i j, u i j = c) -> forall i j, ch_rate2 dom s u i j = - c.
Proof.
  intros M S U i j. unfold ch_rate2, CH2, Lap2, dxx2, dyy2, periodic2. rewrite !U, M, S. unfold Rdiv. ring.
Qed.
Lemma ea_next dom s u c : s_m s = 0 -> s_sigma s = 1 -> (forall i j, u i j = c) ->
  (forall i j, ssp3_2 (ch_rate2 dom s) 1 u i j = c / 3) /\ (forall i j, ssp3_rate2 (ch_rate2 dom s) 1 u i j = - (2 * c / 3)).
Proof.
  intros M S U. unfold ssp3_2, ssp3_rate2.
  assert (A : forall i j, ch_rate2 dom s u i j = - c) by (apply ea_rate; auto).
  set (u1 := fun i j => u i j + 1 * ch_rate2 dom s u i j).
  assert (U1 : forall i j, u1 i j = 0) by (intros; unfold u1; rewrite U, A; ring).
  assert (A1 : forall i j, ch_rate2 dom s u1 i j = - 0) by (apply ea_rate; auto).
  set (u2 := fun i j => 3 / 4 * u i j + 1 / 4 * (u1 i j + 1 * ch_rate2 dom s u1 i j)).
  assert (U2 : forall i j, u2 i j = 3 / 4 * c) by (intros; unfold u2; rewrite U, U1, A1; field).
  assert (A2 : forall i j, ch_rate2 dom s u2 i j = - (3 / 4 * c)) by (apply ea_rate; auto).
  split; intros i j; rewrite ?U, ?U2, ?A, ?A1, ?A2; field.
Qed.
Lemma ea_rms dom u c : (0 < nx dom)%Z -> (forall i j, u i j = - c) -> 0 <= c -> rms2 dom u = c.
Proof.
  intros X U C. unfold rms2, mean2, total2.
  rewrite (sum2_ext _ _ _ (fun _ _ => c ^ 2)) by (intros; rewrite U; ring).
  rewrite sum2_const by lia. assert (N : IZR (nx dom) <> 0) by (apply not_0_IZR; lia).
  replace (IZR (nx dom) * IZR (nx dom) * c ^ 2 / (IZR (nx dom) * IZR (nx dom))) with (c ^ 2) by (field; exact N).
  apply sqrt_pow2. exact C.
Qed.
Lemma ea_march lim k t l e : t + 2 < 9 -> marches (fun dt p => p = dt) 9 lim k t 1 false l e ->
  (l = [(t, 1)] /\ (lim <= k + 1)%Z) \/
  (exists l', l = (t, 1) :: l' /\ (k + 1 < lim)%Z /\ marches (fun dt p => p = dt) 9 lim (k + 1) (t + 1) 1 false l' e).
Proof.
  intros T M. inversion M as [|k0 t0 dt0 p P L|k0 t0 dt0 p l0 e0 P L K]; subst.
  - left. split; [reflexivity|assumption].
  - right. exists l0. split; [reflexivity|]. split; [assumption|].
    assert (G : ngeb (nadd (nadd t 1) 1) 9 = false).
    { unfold ngeb. cbn [nltb neqb nadd Num_R]. unfold Rltb, Reqb. destruct (Rlt_dec _ _) as [Q|Q]; [exfalso; lra|]. destruct (Req_EM_T _ _) as [Q2|Q2]; [exfalso; lra|reflexivity]. }
    unfold shortened in K. rewrite G in K. cbn [nadd Num_R] in K. exact K.
Qed.
End Uniform.

(** The first two steps of a run from a uniform field: their residuals are 2/3 and 2/9 of the field, and the run makes
    at least two if the first is not within the tolerances, and no third if the second is. *)
Definition ea_first (dom : domain R) (s : settings R) (k : Z) (t c : R) u : list (Z * R * R * ((Z -> Z -> R) * (Z -> Z -> R))) :=
  reached (fun _ dt x => (ssp3_2 (ch_rate2 dom s) dt (fst x), ssp3_rate2 (ch_rate2 dom s) dt (fst x))) k (u, u) [(t, 1%R); ((t + 1)%R, 1%R)].
Lemma ea_sizes dom s k t c u : s_m s = 0%R -> s_sigma s = 1%R -> 0 < nx dom -> (0 <= c)%R -> (forall i j, u i j = c) ->
  exists a b, ea_first dom s k t c u = [a; b] /\ rms2 dom (snd (snd a)) = (2 * c / 3)%R /\ rms2 dom (snd (snd b)) = (2 * c / 9)%R.
Proof.
  intros M G X C U. unfold ea_first. cbn [reached fst snd]. do 2 eexists. split; [reflexivity|]. cbn [fst snd].
  destruct (ea_next dom s u c M G U) as (A & B).
  destruct (ea_next dom s _ (c / 3)%R M G A) as (A' & B').
  split; apply ea_rms; auto; try lra. intros i j. rewrite B'. field.
Qed.
Lemma ea_story pl s rel abs dom msgs k t c u w : s_m s = 0%R -> s_sigma s = 1%R -> s_tfinal s = 9%R -> k + 3 <= s_max_steps s -> s_save_every s = 1 -> (t + 3 < 9)%R ->
  0 < nx dom -> (0 <= c)%R -> (forall i j, u i j = c) -> reduces pl ->
  story2_with pl s rel abs dom [] msgs (k, t, 1%R) (fun dt p => p = dt) (ssp3_2 (ch_rate2 dom s)) (ssp3_rate2 (ch_rate2 dom s)) u w ->
  exists a b, ea_first dom s k t c u = [a; b] /\ rms2 dom (snd (snd a)) = (2 * c / 3)%R /\ rms2 dom (snd (snd b)) = (2 * c / 9)%R /\
  (exists f rest, w_files w = f :: rest /\ saved2 pl s dom (base_of s) (k + 1, (t + 1)%R, 1%R, ssp3_2 (ch_rate2 dom s) 1 u) f) /\
  (~ settled2 dom (s_log_every s) rel abs [a] ->
    (length (w_files w) >= 3)%nat /\ (settled2 dom (s_log_every s) rel abs [a; b] -> length (w_files w) = 3%nat) /\
    (~ settled2 dom (s_log_every s) rel abs [a; b] -> (length (w_files w) >= 4)%nat)).
Proof.
  intros M G T L SV TT X C U RD (steps & e & files & fin & limit & MA & LM & FI & WF & _ & _ & ST).
  destruct (ea_sizes dom s k t c u M G X C U) as (a & b & E & SA & SB). exists a, b. split; [exact E|]. split; [exact SA|]. split; [exact SB|].
  specialize (ST RD). cbn zeta in ST. destruct ST as (S1 & S2). rewrite T in MA. rewrite SV, every_one in WF.
  assert (LF : length files = length steps).
  { rewrite <- (forall2_len _ _ _ FI). apply reached_length. }
  assert (LW : length (w_files w) = S (length steps)) by (rewrite WF, app_length; cbn [length]; lia).
  assert (H1 : exists l, steps = (t, 1%R) :: l).
  { destruct (ea_march limit k t steps e ltac:(lra) MA) as [(Q & _)|(l & Q & _)]; [exists []|exists l]; exact Q. }
  split.
  { destruct H1 as (l & ->). cbn [reached] in FI. inversion FI as [|? f ? rest F1 F2]; subst. exists f, (rest ++ [fin])%list. split; [exact WF|exact F1]. }
  intros NS.
  destruct (ea_march limit k t steps e ltac:(lra) MA) as [(Q & LL)|(l & Q & LL & MB)].
  { exfalso. subst steps. destruct LM as [LM|(LM & _)]; [lia|]. apply NS. specialize (S2 LM).
    unfold ea_first in E. cbn [reached fst snd] in E, S2. injection E as E1 E2. rewrite <- E1. exact S2. }
  destruct (ea_march limit (k + 1) (t + 1)%R l e ltac:(lra) MB) as [(Q2 & LL2)|(l2 & Q2 & LL2 & MC)].
  - subst l steps. rewrite LW. cbn [length]. split; [lia|]. split; [intros; reflexivity|]. intros NS2. exfalso. apply NS2.
    destruct LM as [LM|(LM & _)]; [lia|]. rewrite <- E. exact (S2 LM).
  - subst l steps.
    assert (NS2 : (2 < length ((t, 1%R) :: ((t + 1)%R, 1%R) :: l2))%nat -> ~ settled2 dom (s_log_every s) rel abs [a; b]).
    { intros Q. specialize (S1 2%nat (conj Nat.lt_0_2 Q)). rewrite <- E. exact S1. }
    assert (L2 : (1 <= length l2)%nat).
    { inversion MC; subst; cbn [length]; lia. }
    rewrite LW. cbn [length] in NS2 |- *. split; [lia|]. split; [intros Q; exfalso; apply NS2; [lia|exact Q]|intros; lia].
Qed.

Lemma ea_reduces : reduces ea_platform.
Proof. exact (proj2 (proj2 ex_sound)). Qed.
Lemma ea_every20 {A} (a b : A) : SpecProgram.every 20 [a; b] = [a].
Proof. reflexivity. Qed.
Lemma ea_every20_1 {A} (a : A) : SpecProgram.every 20 [a] = [a].
Proof. reflexivity. Qed.
Lemma ea_one {A} (b : list A) x y : [x] = (b ++ [y])%list -> y = x.
Proof. destruct b as [|z b]; cbn; [congruence|]. destruct b; discriminate. Qed.
Lemma ea_two {A} (b : list A) x y z : [x; y] = (b ++ [z])%list -> z = y.
Proof. destruct b as [|p [|q b]]; cbn; try congruence. destruct b; discriminate. Qed.
Definition ea_vts (d : list xml) (name : string) : list xml := d.
Definition ea_other (m : members R) : option (res (pworld R)) := None.
Lemma ea_restarts log rel abs vrel vabs dom0 i t u d :
  rr_values ea_platform ex_members (ea_restart_args "2" "rk3ssp" log rel abs) (map fst (asked_with 2 "rk3ssp" "old" (ea_settings (if String.eqb log "1" then 1 else 20)) vrel vabs)) =
    Some (map snd (asked_with 2 "rk3ssp" "old" (ea_settings (if String.eqb log "1" then 1 else 20)) vrel vabs)) ->
  is_file2 ea_platform dom0 i t 1%R u d -> readable2 ea_platform dom0 t 1%R u -> valid_domain2 dom0 -> nx dom0 = 2 -> (xbeg dom0 < xend dom0)%R ->
  i = 12 \/ i = 13 ->
  exists m vm w, parse_options (pl_read ea_platform) (pl_lit ea_platform) (pl_eps100 ea_platform) (pl_max100 ea_platform) ex_none
      (ea_restart_args "2" "rk3ssp" log rel abs) ex_members = Ok (Running m vm) /\
    asks_with m 2 "rk3ssp" "old" (ea_settings (if String.eqb log "1" then 1 else 20)) vrel vabs /\
    madgicart ea_platform 100 ex_none (ea_vts d) ea_other (ea_restart_args "2" "rk3ssp" log rel abs) ex_members = Some (Ok (Finished w)) /\
    exists msgs, story2_with ea_platform (ea_settings (if String.eqb log "1" then 1 else 20)) vrel vabs (regrid2 (pl_raw ea_platform) dom0 Periodic Periodic Periodic) [] msgs
      (i, t, 1%R) (fun dt p => p = dt)
      (ssp3_2 (ch_rate2 (regrid2 (pl_raw ea_platform) dom0 Periodic Periodic Periodic) (ea_settings (if String.eqb log "1" then 1 else 20))))
      (ssp3_rate2 (ch_rate2 (regrid2 (pl_raw ea_platform) dom0 Periodic Periodic Periodic) (ea_settings (if String.eqb log "1" then 1 else 20)))) u w.
Proof.
  intros A F RB V X XR I. destruct (rr_asked ea_platform ex_members _ _ A) as (m & vm & P & Q).
  assert (LG : (if String.eqb log "1" then 1 else 20) <> 0) by (destruct (String.eqb log "1"); lia).
  set (lg := if String.eqb log "1" then 1 else 20) in *. destruct (ea_sound lg i LG I) as (SO & BC).
  destruct (pf_C79_restart_rk3_2d ea_platform 100 ex_none (ea_vts d) ea_other _ _ m vm (ea_settings lg) vrel vabs Periodic Periodic Periodic "old" dom0 i t 1%R u P Q)
    as (w & R1 & R2); auto; try lia; try discriminate.
  exists m, vm, w. split; [exact P|]. split; [exact Q|]. split; [exact R1|]. eexists. exact R2.
Qed.

Lemma pf_C79_log_frequency_refuted :
  ~ (forall (pl : platform R) (fuel : nat) (fs : string -> option string) (vts : string -> list xml)
      (other : members R -> option (res (pworld R))) (args args' : list string) (opts m m' : members R) (vm vm' : vmap R) (s s' : settings R) (rel abs : R)
      (r : string) (w w' : pworld R),
    reduces pl ->
    parse_options (pl_read pl) (pl_lit pl) (pl_eps100 pl) (pl_max100 pl) fs args opts = Ok (Running m vm) ->
    parse_options (pl_read pl) (pl_lit pl) (pl_eps100 pl) (pl_max100 pl) fs args' opts = Ok (Running m' vm') ->
    asks_with m 2 "rk3ssp" r s rel abs -> asks_with m' 2 "rk3ssp" r s' rel abs -> same_but_log s s' ->
    madgicart pl fuel fs vts other args opts = Some (Ok (Finished w)) ->
    madgicart pl fuel fs vts other args' opts = Some (Ok (Finished w')) -> w_files w = w_files w').
Proof.
  intros H.
  destruct (ea_restarts "1" "0" "10" 0%R 10%R rr_dom2 12 4%R (ea_field2 27) (ea_doc2 27) ltac:(vm_compute; reflexivity)
    (ea_file2 27) (ea_readable2 27 ea_27) rr_valid2 eq_refl rr_range (or_introl eq_refl)) as (m & vm & w & P & Q & E & msgs & ST).
  destruct (ea_restarts "20" "0" "10" 0%R 10%R rr_dom2 12 4%R (ea_field2 27) (ea_doc2 27) ltac:(vm_compute; reflexivity)
    (ea_file2 27) (ea_readable2 27 ea_27) rr_valid2 eq_refl rr_range (or_introl eq_refl)) as (m' & vm' & w' & P' & Q' & E' & msgs' & ST').
  cbn [String.eqb Ascii.eqb Bool.eqb] in Q, Q', ST, ST'.
  assert (SB : same_but_log (ea_settings 1) (ea_settings 20)) by (repeat split).
  pose proof (H ea_platform 100%nat ex_none (ea_vts (ea_doc2 27)) ea_other _ _ ex_members m m' vm vm' _ _ _ _ "old" w w' ea_reduces P P' Q Q' SB E E') as EQ.
  apply (ea_story _ _ _ _ _ _ _ _ 27%R) in ST; [|reflexivity|reflexivity|reflexivity|cbn; lia|reflexivity|lra|cbn; lia|lra|reflexivity|exact ea_reduces].
  apply (ea_story _ _ _ _ _ _ _ _ 27%R) in ST'; [|reflexivity|reflexivity|reflexivity|cbn; lia|reflexivity|lra|cbn; lia|lra|reflexivity|exact ea_reduces].
  destruct ST as (a & b & _ & SA & SB1 & _ & K). destruct ST' as (a' & b' & _ & SA' & SB' & _ & K').
  cbn [s_log_every ea_settings] in K, K'.
  assert (N : ~ settled2 (regrid2 (pl_raw ea_platform) rr_dom2 Periodic Periodic Periodic) 1 0 10 [a]).
  { intros (bf & x & top & EL & _ & [(Z & _)|(_ & Z)]); [apply Z; reflexivity|]. rewrite every_one in EL. apply ea_one in EL. subst x. rewrite SA in Z. lra. }
  assert (Y : settled2 (regrid2 (pl_raw ea_platform) rr_dom2 Periodic Periodic Periodic) 1 0 10 [a; b]).
  { exists [a], b, 18%R. rewrite every_one. split; [reflexivity|]. cbn [map]. rewrite SA, SB1. split.
    - split; [left; field|]. intros x [<-|[<-|[]]]; lra.
    - right. split; lra. }
  assert (N' : ~ settled2 (regrid2 (pl_raw ea_platform) rr_dom2 Periodic Periodic Periodic) 20 0 10 [a']).
  { intros (bf & x & top & EL & _ & [(Z & _)|(_ & Z)]); [apply Z; reflexivity|]. rewrite ea_every20_1 in EL. apply ea_one in EL. subst x. rewrite SA' in Z. lra. }
  assert (N2 : ~ settled2 (regrid2 (pl_raw ea_platform) rr_dom2 Periodic Periodic Periodic) 20 0 10 [a'; b']).
  { intros (bf & x & top & EL & _ & [(Z & _)|(_ & Z)]); [apply Z; reflexivity|]. rewrite ea_every20 in EL. apply ea_one in EL. subst x. rewrite SA' in Z. lra. }
  destruct (K N) as (_ & K2 & _). destruct (K' N') as (_ & _ & K3). specialize (K2 Y). specialize (K3 N2). rewrite EQ in K2. lia.
Qed.

Lemma pf_C79_restart_refuted :
  ~ (forall (pl : platform R) (fuel : nat) (fs : string -> option string) (vts vts' : string -> list xml)
      (other : members R -> option (res (pworld R))) (args : list string) (opts m : members R) (vm : vmap R) (s : settings R) (rel abs : R)
      (r name : string) (doc : list xml) (n : nat) (w w' : pworld R),
    reduces pl ->
    parse_options (pl_read pl) (pl_lit pl) (pl_eps100 pl) (pl_max100 pl) fs args opts = Ok (Running m vm) ->
    asks_with m 2 "rk3ssp" r s rel abs -> s_log_every s = 1 -> s_save_every s = 1 ->
    madgicart pl fuel fs vts other args opts = Some (Ok (Finished w)) ->
    nth_error (w_files w) n = Some (name, doc) -> (n + 2 < length (w_files w))%nat -> vts' r = doc ->
    madgicart pl fuel fs vts' other args opts = Some (Ok (Finished w')) -> w_files w' = skipn (n + 1) (w_files w)).
Proof.
  intros H.
  destruct (ea_restarts "1" "0.5" "0" (1/2)%R 0%R rr_dom2 12 4%R (ea_field2 27) (ea_doc2 27) ltac:(vm_compute; reflexivity)
    (ea_file2 27) (ea_readable2 27 ea_27) rr_valid2 eq_refl rr_range (or_introl eq_refl)) as (m & vm & w & P & Q & E & msgs & ST).
  cbn [String.eqb Ascii.eqb Bool.eqb] in Q, ST.
  set (dom := regrid2 (pl_raw ea_platform) rr_dom2 Periodic Periodic Periodic) in *.
  apply (ea_story _ _ _ _ _ _ _ _ 27%R) in ST; [|reflexivity|reflexivity|reflexivity|cbn; lia|reflexivity|lra|cbn; lia|lra|reflexivity|exact ea_reduces].
  destruct ST as (a & b & _ & SA & SB & ((name & doc) & rest & WF & (_ & FL)) & K). cbn [snd s_log_every ea_settings] in FL, K.
  set (u := ssp3_2 (ch_rate2 dom (ea_settings 1)) 1 (ea_field2 27)) in *.
  assert (U : forall i j, u i j = 9%R).
  { intros i j. unfold u. rewrite (proj1 (ea_next dom (ea_settings 1) (ea_field2 27) 27 eq_refl eq_refl (fun _ _ => eq_refl))). lra. }
  assert (T5 : (4 + 1 = 5)%R) by lra. rewrite T5 in FL.
  assert (RB : readable2 ea_platform dom 5%R 1%R u).
  { destruct (ea_readable2 27 ea_27) as (A & _ & _ & B). split; [exact A|]. split; [intros i j _; rewrite U; apply (ea_prints 9); lia|]. split; [apply (ea_prints 5); lia|exact B]. }
  destruct (ea_restarts "1" "0.5" "0" (1/2)%R 0%R dom 13 5%R u doc ltac:(vm_compute; reflexivity)
    FL RB ltac:(vm_compute; repeat split; discriminate) eq_refl rr_range (or_intror eq_refl)) as (m' & vm' & w' & P' & Q' & E' & msgs' & ST').
  cbn [String.eqb Ascii.eqb Bool.eqb] in Q', ST'.
  apply (ea_story _ _ _ _ _ _ _ _ 9%R) in ST'; [|reflexivity|reflexivity|reflexivity|cbn; lia|reflexivity|lra|cbn; lia|lra|exact U|exact ea_reduces].
  destruct ST' as (a' & b' & _ & SA' & SB' & _ & K'). cbn [s_log_every ea_settings] in K'.
  assert (NN : forall d x, rms2 d (snd (snd x)) <> 0%R -> ~ settled2 d 1 (1/2) 0 [x]).
  { intros d x NZ (bf & y & top & EL & GR & D). rewrite every_one in EL, GR. apply ea_one in EL. subst y.
    cbn [map] in GR. destruct GR as ([GR|[]] & _). rewrite <- GR in D.
    destruct D as [(_ & [(_ & D)|(D & _)])|(D & _)]; [|contradiction|apply D; reflexivity].
    unfold Rdiv in D at 1. rewrite Rinv_r in D by exact NZ. lra. }
  destruct (K (NN _ _ ltac:(rewrite SA; lra))) as (_ & K2 & _).
  assert (Y : settled2 dom 1 (1/2) 0 [a; b]).
  { exists [a], b, 18%R. rewrite every_one. split; [reflexivity|]. cbn [map]. rewrite SA, SB. split.
    - split; [left; field|]. intros x [<-|[<-|[]]]; lra.
    - left. split; [lra|]. left. split; lra. }
  specialize (K2 Y). destruct (K' (NN _ _ ltac:(rewrite SA'; lra))) as (K3 & _ & _).
  pose proof (H ea_platform 100%nat ex_none (ea_vts (ea_doc2 27)) (ea_vts doc) ea_other _ ex_members m vm (ea_settings 1) (1/2)%R 0%R "old" name doc 0%nat w w'
    ea_reduces P Q eq_refl eq_refl E ltac:(rewrite WF; reflexivity) ltac:(rewrite K2; lia) eq_refl E') as EQ.
  rewrite WF in K2. cbn [length] in K2. rewrite WF in EQ. cbn [Nat.add skipn] in EQ. rewrite EQ in K3. lia.
Qed.
