(** Proofs of C75. *)
From Coq Require Import Ascii String Reals Lra QArith.
From Verif Require Import ModelLogger ModelOptions Outcome ZList ZListProofs Num ModelIndex ModelInt32 ModelDisc3D ModelDisc2D ModelCH ModelObs
  ModelTime ModelRun ModelReduce ModelMon ModelText ModelVTK ModelMain ModelProgram SpecGrid SpecField SpecTime SpecVTK SpecRestart SpecMon SpecProgram ExampleNum SumProofs FieldProofs MonFinal
  Disc3DProofs Disc2DProofs Make3Proofs Make2Proofs TextProofs VTKProofs VTK2Proofs VTKFinal Program5Proofs Program6Proofs Program7Proofs Program8Proofs Program9Proofs Program10Proofs ProgramFinal.
From Coq Require Import ZArith Lia ZifyBool ZifyNat List.
Local Open Scope string_scope.
Local Open Scope list_scope.
Local Open Scope Z_scope.

(** ** Examples *)

(** Command lines and the options they set. *)
Definition rr_values {V} `{N : Num V} (pl : platform V) (ms : members V) (args names : list string) : option (list (value V)) :=
  match parse_options (pl_read pl) (pl_lit pl) (pl_eps100 pl) (pl_max100 pl) ex_none args ms with
  | Ok (Running m _) => Some (map m names) | _ => None end.
Lemma rr_asked {V} `{N : Num V} (pl : platform V) ms l args : rr_values pl ms args (map fst l) = Some (map snd l) ->
  exists m vm, parse_options (pl_read pl) (pl_lit pl) (pl_eps100 pl) (pl_max100 pl) ex_none args ms = Ok (Running m vm) /\ given m l.
Proof.
  unfold rr_values. destruct (parse_options _ _ _ _ _ _ _) as [[m vm|c]| | |]; try discriminate.
  intros E. exists m, vm. split; [reflexivity|]. injection E as E. unfold given. induction l as [|(n, v) l IH]; [constructor|].
  cbn [map fst snd] in E. injection E as E1 E2. constructor; [exact E1|apply IH; exact E2].
Qed.

(** A restart in exact arithmetic; whole numbers are printed exactly. *)
Definition rr_platform : platform R := {|
  pl_read := ex_readR; pl_showg := fun _ => "x";
  pl_lit := fun m e => if m =? 0 then 0%R else (IZR m * powerRZ 10 e)%R; pl_eps100 := (/ 1000000)%R; pl_max100 := 1000000%R;
  pl_show := ex_showR; pl_show6 := ex_showR; pl_showe := fun _ => "x"; pl_table := fun l => String.concat "" l; pl_banner := "";
  pl_red := ex_reducers; pl_rmax := fun x _ => x; pl_hi := DBL_MAX; pl_lo := DBL_MIN; pl_pow := fun x _ => x;
  pl_draw := fun n => 0%R; pl_raw := ex_dom 7%R 9%R 8 8 8 8 Neumann Neumann Neumann |}.
Definition rr_args (dim integrator : string) : list string :=
  ["--dimension=" ++ dim; "--initial_condition_file"; "old"; "--time_integrator=" ++ integrator; "--final_time=9"; "--max_time_steps=100"; "--m"; "0";
   "--log_frequency=20"; "--save_every=3"; "--solution_output_file=run"]%string.
Definition rr_settings : settings R := {|
  s_nx := 128; s_ny := 128; s_nz := 128; s_xbeg := 0%R; s_xend := (IZR 1 * powerRZ 10 0)%R; s_ybeg := 0%R; s_zbeg := 0%R;
  s_bc_x := "periodic"; s_bc_y := "periodic"; s_bc_z := "periodic"; s_variant := 1; s_m := 0%R;
  s_sigma := (IZR 2914488109293305 * powerRZ 10 (-13))%R; s_eps2 := (IZR 2419753086419753 * powerRZ 10 (-20))%R;
  s_t0 := 0%R; s_tfinal := 9%R; s_dt := (IZR 1 * powerRZ 10 (-6))%R; s_max_steps := 100; s_log_every := 20; s_save_every := 3;
  s_log_file := "maDGiCart"; s_output := "run" |}.
Definition rr_dom3 : domain R := ex_dom 0%R 2%R 2 2 3 2 Periodic Neumann Periodic.
Definition rr_dom2 : domain R := ex_dom 0%R 2%R 2 2 3 2 Periodic Neumann Periodic.
Definition rr_field3 (i j k : Z) : R := IZR ((i + j + k) mod 2).
Definition rr_field2 (i j : Z) : R := IZR ((i + j) mod 2).
Definition rr_status : file_status R := {| fs_iter := 12; fs_time := 4%R; fs_dt := 1%R |}.
Definition rr_doc3 : list xml := doc3 ex_showR ex_showR rr_dom3 1%R rr_status rr_field3.
Definition rr_doc2 : list xml := doc2 ex_showR ex_showR rr_dom2 1%R rr_status rr_field2.
Lemma rr_valid3 : valid_domain3 rr_dom3.
Proof. vm_compute. repeat split; discriminate. Qed.
Lemma rr_valid2 : valid_domain2 rr_dom2.
Proof. vm_compute. repeat split; discriminate. Qed.
Lemma rr_cell3 : cell_size rr_dom3 = 1%R.
Proof. unfold cell_size. cbn [nsub ndiv nint Num_R xend xbeg nx ex_dom rr_dom3]. field. Qed.
Lemma rr_cell2 : cell_size rr_dom2 = 1%R.
Proof. exact rr_cell3. Qed.
Lemma rr_file3 : is_file3 rr_platform rr_dom3 12 4%R 1%R rr_field3 rr_doc3.
Proof.
  destruct (make3_ok rr_dom3 rr_valid3) as (d & E & W & D & _).
  destruct (array_of3 rr_dom3 rr_field3 ltac:(cbn; lia) rr_valid3) as (c & HC). exists d, c. split; [exact E|]. split; [exact HC|].
  cbn [rr_platform pl_show pl_show6].
  rewrite (write3_ok ex_showR ex_showR rr_dom3 d _ c rr_field3 rr_valid3 E HC). unfold rr_doc3. do 2 f_equal.
  rewrite (wf_dx _ W), D. exact rr_cell3.
Qed.
Lemma rr_file2 : is_file2 rr_platform rr_dom2 12 4%R 1%R rr_field2 rr_doc2.
Proof.
  destruct (make2_ok rr_dom2 rr_valid2) as (d & E & W & D & _).
  destruct (array_of2 rr_dom2 rr_field2 ltac:(cbn; lia) rr_valid2) as (c & HC). exists d, c. split; [exact E|]. split; [exact HC|].
  cbn [rr_platform pl_show pl_show6].
  rewrite (write2_ok ex_showR ex_showR 0%R rr_dom2 d _ c rr_field2 rr_valid2 E HC). unfold rr_doc2. do 2 f_equal.
  rewrite (wf2_dx _ W), D. exact rr_cell3.
Qed.
Lemma rr_mod n : 0 <= n mod 2 <= 2147483647.
Proof. pose proof (Z.mod_pos_bound n 2). lia. Qed.
Lemma rr_readable3 : readable3 rr_platform rr_dom3 4%R 1%R rr_field3.
Proof.
  split; [|split; [|split]].
  - rewrite rr_cell3. split; [|split]; intros i H; cbn [nx ny nz ex_dom rr_dom3] in H; (eapply ex_vertexR; [reflexivity|exact H|lia]).
  - intros i j k _. apply ex_printsR. apply rr_mod.
  - apply (ex_printsR 4). lia.
  - apply (ex_printsR 1). lia.
Qed.
Lemma rr_readable2 : readable2 rr_platform rr_dom2 4%R 1%R rr_field2.
Proof.
  split; [|split; [|split]].
  - rewrite rr_cell2. split; intros i H; cbn [nx ny nz ex_dom rr_dom2] in H; (eapply ex_vertexR; [reflexivity|exact H|lia]).
  - intros i j _. apply ex_printsR. apply rr_mod.
  - apply (ex_printsR 4). lia.
  - apply (ex_printsR 1). lia.
Qed.
Lemma rr_range : (xbeg rr_dom3 < xend rr_dom3)%R.
Proof. cbn. lra. Qed.
Lemma rr_sound : sound_from rr_settings 12 100 /\ bc_named "periodic" Periodic.
Proof. split; [unfold sound_from; cbn; lia|left; split; reflexivity]. Qed.

Lemma pf_C75_restart_rk3_3d :
  forall (pl : platform R) (fuel : nat) (fs : string -> option string) (vts : string -> list xml)
    (other : members R -> option (res (pworld R))) (args : list string) (opts m : members R) (vm : vmap R) (s : settings R)
    (bx by_ bz : bctype) (r : string) (dom0 : domain R) (i : Z) (t dt : R) (u : Z -> Z -> Z -> R),
  parse_options (pl_read pl) (pl_lit pl) (pl_eps100 pl) (pl_max100 pl) fs args opts = Ok (Running m vm) ->
  asks m 3 "rk3ssp" r s -> r <> "none" ->
  is_file3 pl dom0 i t dt u (vts r) -> readable3 pl dom0 t dt u -> valid_domain3 dom0 -> 2 <= nx dom0 /\ 2 <= ny dom0 /\ 2 <= nz dom0 ->
  nx dom0 <= 2147483647 /\ ny dom0 <= 2147483647 /\ nz dom0 <= 2147483647 -> (xbeg dom0 < xend dom0)%R ->
  sound_from s i fuel -> bc_named (s_bc_x s) bx -> bc_named (s_bc_y s) by_ -> bc_named (s_bc_z s) bz ->
  let dom := regrid3 (pl_raw pl) dom0 bx by_ bz in
  exists w, madgicart pl fuel fs vts other args opts = Some (Ok (Finished w)) /\
    story3 pl s dom [] [config_template (pl_showg pl) (pl_lit pl) (pl_eps100 pl) (pl_max100 pl) vm; "Using initial conditions file " ++ r]%string
      (i, t, dt) (fun dt p => p = dt)
      (ssp3_3 (ch_rate3 dom s)) (ssp3_rate3 (ch_rate3 dom s)) u w.
Proof.
  intros. apply restart3_rk3 with (m := m); auto.
Qed.

Lemma rr_ask_rk3_3d : exists m vm, parse_options (pl_read rr_platform) (pl_lit rr_platform) (pl_eps100 rr_platform) (pl_max100 rr_platform) ex_none
     (rr_args "3" "rk3ssp") ex_members = Ok (Running m vm) /\ asks m 3 "rk3ssp" "old" rr_settings.
Proof. apply (rr_asked rr_platform ex_members (asked 3 "rk3ssp" "old" rr_settings)). vm_compute. reflexivity. Qed.

Lemma pf_C75_restart_ode23_3d :
  forall (pl : platform R) (fuel : nat) (fs : string -> option string) (vts : string -> list xml)
    (other : members R -> option (res (pworld R))) (args : list string) (opts m : members R) (vm : vmap R) (s : settings R)
    (bx by_ bz : bctype) (tol lo hi : R) (r : string) (dom0 : domain R) (i : Z) (t dt : R) (u : Z -> Z -> Z -> R),
  parse_options (pl_read pl) (pl_lit pl) (pl_eps100 pl) (pl_max100 pl) fs args opts = Ok (Running m vm) ->
  asks m 3 "ode23" r s -> r <> "none" ->
  given m [("time_rel_err_tol", VDouble tol); ("min_time_step_size", VDouble lo); ("max_time_step_size", VDouble hi)] ->
  is_file3 pl dom0 i t dt u (vts r) -> readable3 pl dom0 t dt u -> valid_domain3 dom0 -> 2 <= nx dom0 /\ 2 <= ny dom0 /\ 2 <= nz dom0 ->
  nx dom0 <= 2147483647 /\ ny dom0 <= 2147483647 /\ nz dom0 <= 2147483647 -> (xbeg dom0 < xend dom0)%R ->
  sound_from s i fuel -> bc_named (s_bc_x s) bx -> bc_named (s_bc_y s) by_ -> bc_named (s_bc_z s) bz ->
  let dom := regrid3 (pl_raw pl) dom0 bx by_ bz in
  exists w, madgicart pl fuel fs vts other args opts = Some (Ok (Finished w)) /\
    story3 pl s dom ["time_err"%string] [config_template (pl_showg pl) (pl_lit pl) (pl_eps100 pl) (pl_max100 pl) vm; "Using initial conditions file " ++ r]%string
      (i, t, dt) (within lo hi)
      (bs_step3 (ch_rate3 dom s)) (bs_rate3 (ch_rate3 dom s)) u w.
Proof.
  intros. apply restart3_ode23 with (m := m) (tol := tol); auto.
Qed.

Lemma rr_ask_ode23_3d : exists m vm, parse_options (pl_read rr_platform) (pl_lit rr_platform) (pl_eps100 rr_platform) (pl_max100 rr_platform) ex_none
     (rr_args "3" "ode23") ex_members = Ok (Running m vm) /\ asks m 3 "ode23" "old" rr_settings /\
     given m [("time_rel_err_tol", VDouble (IZR 1 * powerRZ 10 (-2))%R); ("min_time_step_size", VDouble (/ 1000000)%R); ("max_time_step_size", VDouble 1000000%R)].
Proof. 
  destruct (rr_asked rr_platform ex_members (asked 3 "ode23" "old" rr_settings ++ [("time_rel_err_tol", VDouble (IZR 1 * powerRZ 10 (-2))%R); ("min_time_step_size", VDouble (/ 1000000)%R); ("max_time_step_size", VDouble 1000000%R)])%list (rr_args "3" "ode23")) as (m & vm & E & H); [vm_compute; reflexivity|].
  apply Forall_app in H as (H1 & H2). exists m, vm. split; [exact E|]. split; assumption. Qed.

Lemma pf_C75_restart_rk3_2d :
  forall (pl : platform R) (fuel : nat) (fs : string -> option string) (vts : string -> list xml)
    (other : members R -> option (res (pworld R))) (args : list string) (opts m : members R) (vm : vmap R) (s : settings R)
    (bx by_ bz : bctype) (r : string) (dom0 : domain R) (i : Z) (t dt : R) (u : Z -> Z -> R),
  parse_options (pl_read pl) (pl_lit pl) (pl_eps100 pl) (pl_max100 pl) fs args opts = Ok (Running m vm) ->
  asks m 2 "rk3ssp" r s -> r <> "none" ->
  is_file2 pl dom0 i t dt u (vts r) -> readable2 pl dom0 t dt u -> pl_read pl "0.0" = Ok 0%R -> valid_domain2 dom0 -> 2 <= nx dom0 ->
  nx dom0 <= 2147483647 -> (xbeg dom0 < xend dom0)%R ->
  sound_from s i fuel -> bc_named (s_bc_x s) bx -> bc_named (s_bc_y s) by_ -> bc_named (s_bc_z s) bz ->
  let dom := regrid2 (pl_raw pl) dom0 bx by_ bz in
  exists w, madgicart pl fuel fs vts other args opts = Some (Ok (Finished w)) /\
    story2 pl s dom [] [config_template (pl_showg pl) (pl_lit pl) (pl_eps100 pl) (pl_max100 pl) vm; "Using initial conditions file " ++ r]%string
      (i, t, dt) (fun dt p => p = dt)
      (ssp3_2 (ch_rate2 dom s)) (ssp3_rate2 (ch_rate2 dom s)) u w.
Proof.
  intros. apply restart2_rk3 with (m := m); auto.
Qed.

Lemma rr_ask_rk3_2d : exists m vm, parse_options (pl_read rr_platform) (pl_lit rr_platform) (pl_eps100 rr_platform) (pl_max100 rr_platform) ex_none
     (rr_args "2" "rk3ssp") ex_members = Ok (Running m vm) /\ asks m 2 "rk3ssp" "old" rr_settings.
Proof. apply (rr_asked rr_platform ex_members (asked 2 "rk3ssp" "old" rr_settings)). vm_compute. reflexivity. Qed.

Lemma pf_C75_restart_ode23_2d :
  forall (pl : platform R) (fuel : nat) (fs : string -> option string) (vts : string -> list xml)
    (other : members R -> option (res (pworld R))) (args : list string) (opts m : members R) (vm : vmap R) (s : settings R)
    (bx by_ bz : bctype) (tol lo hi : R) (r : string) (dom0 : domain R) (i : Z) (t dt : R) (u : Z -> Z -> R),
  parse_options (pl_read pl) (pl_lit pl) (pl_eps100 pl) (pl_max100 pl) fs args opts = Ok (Running m vm) ->
  asks m 2 "ode23" r s -> r <> "none" ->
  given m [("time_rel_err_tol", VDouble tol); ("min_time_step_size", VDouble lo); ("max_time_step_size", VDouble hi)] ->
  is_file2 pl dom0 i t dt u (vts r) -> readable2 pl dom0 t dt u -> pl_read pl "0.0" = Ok 0%R -> valid_domain2 dom0 -> 2 <= nx dom0 ->
  nx dom0 <= 2147483647 -> (xbeg dom0 < xend dom0)%R ->
  sound_from s i fuel -> bc_named (s_bc_x s) bx -> bc_named (s_bc_y s) by_ -> bc_named (s_bc_z s) bz ->
  let dom := regrid2 (pl_raw pl) dom0 bx by_ bz in
  exists w, madgicart pl fuel fs vts other args opts = Some (Ok (Finished w)) /\
    story2 pl s dom ["time_err"%string] [config_template (pl_showg pl) (pl_lit pl) (pl_eps100 pl) (pl_max100 pl) vm; "Using initial conditions file " ++ r]%string
      (i, t, dt) (within lo hi)
      (bs_step2 (ch_rate2 dom s)) (bs_rate2 (ch_rate2 dom s)) u w.
Proof.
  intros. apply restart2_ode23 with (m := m) (tol := tol); auto.
Qed.

Lemma rr_ask_ode23_2d : exists m vm, parse_options (pl_read rr_platform) (pl_lit rr_platform) (pl_eps100 rr_platform) (pl_max100 rr_platform) ex_none
     (rr_args "2" "ode23") ex_members = Ok (Running m vm) /\ asks m 2 "ode23" "old" rr_settings /\
     given m [("time_rel_err_tol", VDouble (IZR 1 * powerRZ 10 (-2))%R); ("min_time_step_size", VDouble (/ 1000000)%R); ("max_time_step_size", VDouble 1000000%R)].
Proof. 
  destruct (rr_asked rr_platform ex_members (asked 2 "ode23" "old" rr_settings ++ [("time_rel_err_tol", VDouble (IZR 1 * powerRZ 10 (-2))%R); ("min_time_step_size", VDouble (/ 1000000)%R); ("max_time_step_size", VDouble 1000000%R)])%list (rr_args "2" "ode23")) as (m & vm & E & H); [vm_compute; reflexivity|].
  apply Forall_app in H as (H1 & H2). exists m, vm. split; [exact E|]. split; assumption. Qed.

Definition rr_zero3 : list xml := doc3 ex_showR ex_showR rr_dom3 1%R rr_status (fun _ _ _ => 0%R).
Lemma rr_mean3 : is_file3 rr_platform rr_dom3 12 4%R 1%R (fun _ _ _ => 0%R) rr_zero3 /\ readable3 rr_platform rr_dom3 4%R 1%R (fun _ _ _ => 0%R) /\
  mean3 rr_dom3 (fun _ _ _ => 0%R) = s_m rr_settings.
Proof.
  split; [|split].
  - destruct (make3_ok rr_dom3 rr_valid3) as (d & E & W & D & _).
    destruct (array_of3 rr_dom3 (fun _ _ _ => 0%R) ltac:(cbn; lia) rr_valid3) as (c & HC). exists d, c. split; [exact E|]. split; [exact HC|].
    cbn [rr_platform pl_show pl_show6].
    rewrite (write3_ok ex_showR ex_showR rr_dom3 d _ c (fun _ _ _ => 0%R) rr_valid3 E HC). unfold rr_zero3. do 2 f_equal.
    rewrite (wf_dx _ W), D. exact rr_cell3.
  - destruct rr_readable3 as (A & _ & B). split; [exact A|]. split; [|exact B]. intros. apply (ex_printsR 0). lia.
  - cbn [rr_settings s_m]. unfold mean3, total3. rewrite sum3_const by (cbn; lia). cbn [rr_dom3 ex_dom nx ny nz]. field.
Qed.

Definition rr_zero2 : list xml := doc2 ex_showR ex_showR rr_dom2 1%R rr_status (fun _ _ => 0%R).
Lemma rr_mean2 : is_file2 rr_platform rr_dom2 12 4%R 1%R (fun _ _ => 0%R) rr_zero2 /\ readable2 rr_platform rr_dom2 4%R 1%R (fun _ _ => 0%R) /\
  mean2 rr_dom2 (fun _ _ => 0%R) = s_m rr_settings.
Proof.
  split; [|split].
  - destruct (make2_ok rr_dom2 rr_valid2) as (d & E & W & D & _).
    destruct (array_of2 rr_dom2 (fun _ _ => 0%R) ltac:(cbn; lia) rr_valid2) as (c & HC). exists d, c. split; [exact E|]. split; [exact HC|].
    cbn [rr_platform pl_show pl_show6].
    rewrite (write2_ok ex_showR ex_showR 0%R rr_dom2 d _ c (fun _ _ => 0%R) rr_valid2 E HC). unfold rr_zero2. do 2 f_equal.
    rewrite (wf2_dx _ W), D. exact rr_cell3.
  - destruct rr_readable2 as (A & _ & B). split; [exact A|]. split; [|exact B]. intros. apply (ex_printsR 0). lia.
  - cbn [rr_settings s_m]. unfold mean2, total2. rewrite sum2_const by (cbn; lia). cbn [rr_dom2 ex_dom nx ny nz]. field.
Qed.

Lemma pf_C75_mean_3d :
  forall (pl : platform R) (fuel : nat) (fs : string -> option string) (vts : string -> list xml)
    (other : members R -> option (res (pworld R))) (args : list string) (opts m : members R) (vm : vmap R) (s : settings R)
    (bx by_ bz : bctype) (ti r : string) (dom0 : domain R) (i : Z) (t dt : R) (u : Z -> Z -> Z -> R),
  parse_options (pl_read pl) (pl_lit pl) (pl_eps100 pl) (pl_max100 pl) fs args opts = Ok (Running m vm) ->
  asks m 3 ti r s -> r <> "none" ->
  ti = "rk3ssp" \/ (ti = "ode23" /\ exists tol lo hi,
    given m [("time_rel_err_tol", VDouble tol); ("min_time_step_size", VDouble lo); ("max_time_step_size", VDouble hi)]) ->
  is_file3 pl dom0 i t dt u (vts r) -> readable3 pl dom0 t dt u -> valid_domain3 dom0 -> 2 <= nx dom0 /\ 2 <= ny dom0 /\ 2 <= nz dom0 ->
  nx dom0 <= 2147483647 /\ ny dom0 <= 2147483647 /\ nz dom0 <= 2147483647 -> (xbeg dom0 < xend dom0)%R ->
  sound_from s i fuel -> bc_named (s_bc_x s) bx -> bc_named (s_bc_y s) by_ -> bc_named (s_bc_z s) bz ->
  bx <> Neumann -> by_ <> Neumann -> bz <> Neumann -> mean3 dom0 u = s_m s ->
  exists w, madgicart pl fuel fs vts other args opts = Some (Ok (Finished w)) /\
    Forall (fun f => exists i t dt v, is_file3 pl (regrid3 (pl_raw pl) dom0 bx by_ bz) i t dt v (snd f) /\
      mean3 (regrid3 (pl_raw pl) dom0 bx by_ bz) v = s_m s) (w_files w).
Proof.
  intros pl fuel fs vts other args opts m vm s bx by_ bz ti r dom0 i t dt u PO A NR TI HF HR HV0 H2 HB HX SO BX BY BZ PX PY PZ HU.
  set (dom := regrid3 (pl_raw pl) dom0 bx by_ bz).
  assert (HV : valid_domain3 dom) by (unfold valid_domain3 in *; cbn; lia).
  assert (HP : all_periodic dom) by (repeat split; assumption).
  assert (HU' : mean3 dom u = s_m s) by exact HU. clear HU. rename HU' into HU.
  destruct TI as [->|(-> & tol & lo & hi & G)].
  - destruct (restart3_rk3 pl fuel fs vts other args opts m vm s bx by_ bz r dom0 i t dt u PO A NR HF HR HV0 H2 HB HX SO BX BY BZ) as (w & E & ST). exists w. split; [exact E|].
    eapply (story_mean3 s dom HV); [|apply mean_off3; [exact HV|exact HU]|exact ST]. apply ssp_off3; auto.
  - destruct (restart3_ode23 pl fuel fs vts other args opts m vm s bx by_ bz r dom0 i t dt u tol lo hi PO A G NR HF HR HV0 H2 HB HX SO BX BY BZ) as (w & E & ST). exists w. split; [exact E|].
    eapply (story_mean3 s dom HV); [|apply mean_off3; [exact HV|exact HU]|exact ST]. apply bs_off3; auto.
Qed.

Lemma pf_C75_mean_2d :
  forall (pl : platform R) (fuel : nat) (fs : string -> option string) (vts : string -> list xml)
    (other : members R -> option (res (pworld R))) (args : list string) (opts m : members R) (vm : vmap R) (s : settings R)
    (bx by_ bz : bctype) (ti r : string) (dom0 : domain R) (i : Z) (t dt : R) (u : Z -> Z -> R),
  parse_options (pl_read pl) (pl_lit pl) (pl_eps100 pl) (pl_max100 pl) fs args opts = Ok (Running m vm) ->
  asks m 2 ti r s -> r <> "none" ->
  ti = "rk3ssp" \/ (ti = "ode23" /\ exists tol lo hi,
    given m [("time_rel_err_tol", VDouble tol); ("min_time_step_size", VDouble lo); ("max_time_step_size", VDouble hi)]) ->
  is_file2 pl dom0 i t dt u (vts r) -> readable2 pl dom0 t dt u -> pl_read pl "0.0" = Ok 0%R -> valid_domain2 dom0 -> 2 <= nx dom0 ->
  nx dom0 <= 2147483647 -> (xbeg dom0 < xend dom0)%R ->
  sound_from s i fuel -> bc_named (s_bc_x s) bx -> bc_named (s_bc_y s) by_ -> bc_named (s_bc_z s) bz ->
  mean2 dom0 u = s_m s ->
  exists w, madgicart pl fuel fs vts other args opts = Some (Ok (Finished w)) /\
    Forall (fun f => exists i t dt v, is_file2 pl (regrid2 (pl_raw pl) dom0 bx by_ bz) i t dt v (snd f) /\
      mean2 (regrid2 (pl_raw pl) dom0 bx by_ bz) v = s_m s) (w_files w).
Proof.
  intros pl fuel fs vts other args opts m vm s bx by_ bz ti r dom0 i t dt u PO A NR TI HF HR RZ HV0 H2 HB HX SO BX BY BZ HU.
  set (dom := regrid2 (pl_raw pl) dom0 bx by_ bz).
  assert (HV : valid_domain2 dom) by (unfold valid_domain2 in *; cbn; lia).
  assert (HU' : mean2 dom u = s_m s) by exact HU. clear HU. rename HU' into HU.
  destruct TI as [->|(-> & tol & lo & hi & G)].
  - destruct (restart2_rk3 pl fuel fs vts other args opts m vm s bx by_ bz r dom0 i t dt u PO A NR HF HR RZ HV0 H2 HB HX SO BX BY BZ) as (w & E & ST). exists w. split; [exact E|].
    eapply (story_mean2 s dom HV); [|apply mean_off2; [exact HV|exact HU]|exact ST]. apply ssp_off2; auto.
  - destruct (restart2_ode23 pl fuel fs vts other args opts m vm s bx by_ bz r dom0 i t dt u tol lo hi PO A G NR HF HR RZ HV0 H2 HB HX SO BX BY BZ) as (w & E & ST). exists w. split; [exact E|].
    eapply (story_mean2 s dom HV); [|apply mean_off2; [exact HV|exact HU]|exact ST]. apply bs_off2; auto.
Qed.

(** ** The same files *)

(** An arithmetic for the example: fixed point, in thousandths; numbers are printed as they are stored. *)
Definition Num_milli : Num Z := {|
  nadd := Z.add; nsub := Z.sub; nmul := fun x y => (x * y) / 1000; ndiv := fun x y => (x * 1000) / y; nopp := Z.opp;
  nint := fun n => n * 1000; nrat := fun p q => (p * 1000) / Zpos q; npow3 := fun x => (x * x * x) / 1000000; npow2 := fun x => (x * x) / 1000;
  nsqrt := fun x => Z.sqrt (x * 1000); nabs := Z.abs; nltb := Z.ltb; neqb := Z.eqb |}.
Definition fp_read (s : string) : res Z :=
  if String.eqb s "0.0" then Ok 0 else
  match (match s with String "-"%char s' => option_map Z.opp (unsigned_value s') | _ => unsigned_value s end) with Some v => Ok v | None => Throw end.
Lemma fp_digits n : 0 <= n -> wordb (dec n) = true /\ unsigned_value (dec n) = Some n /\ (forall s', dec n <> String "-"%char s') /\ dec n <> "0.0".
Proof.
  intros H. pose proof (dec_spec n H) as (NE & _). pose proof (dec_every n H) as EV. pose proof (dec_value n H) as DV.
  split; [|split; [|split]].
  - clear NE DV. induction (dec n) as [|c s IH]; cbn [wordb]; auto. destruct EV as (A & B). rewrite (digit_not_blank c A), IH by auto. reflexivity.
  - unfold unsigned_value. destruct (dec n); [contradiction|exact DV].
  - intros s' E. rewrite E in EV. destruct EV as ((x & A) & _). discriminate A.
  - intros E. rewrite E in EV. destruct EV as (_ & (x & A) & _). discriminate A.
Qed.
Lemma fp_prints n : prints dec fp_read n.
Proof.
  destruct (Z.ltb_spec n 0) as [H|H].
  - assert (E : dec n = String "-"%char (dec (- n))).
    { unfold dec at 1 2. replace (n <? 0) with true by lia. replace (- n <? 0) with false by lia. reflexivity. }
    destruct (fp_digits (- n) ltac:(lia)) as (A & B & _). split.
    + apply wordb_word; rewrite E; [discriminate|]. cbn [wordb]. rewrite A. reflexivity.
    + rewrite E. unfold fp_read. cbn [String.eqb Ascii.eqb Bool.eqb]. rewrite B. cbn [option_map]. f_equal. lia.
  - destruct (fp_digits n H) as (A & B & C & D). split.
    + apply wordb_word; [|exact A]. apply (dec_spec n H).
    + unfold fp_read. destruct (String.eqb_spec (dec n) "0.0") as [E|_]; [contradiction|].
      destruct (dec n) as [|c s']; [discriminate B|].
      destruct c as [[] [] [] [] [] [] [] []]; try (rewrite B; reflexivity). exfalso. eapply C. reflexivity.
Qed.

Definition fp_reducers : reducers Z :=
  {| red_min := fun i l => fold_left Z.min l i; red_max := fun i l => fold_left Z.max l i; red_sum := fun i l => fold_left Z.add l i |}.
Definition fp_platform : platform Z := {|
  pl_read := fp_read; pl_showg := dec;
  pl_lit := fun m e => if e <? 0 then (m * 1000) / 10 ^ (- e) else m * 1000 * 10 ^ e; pl_eps100 := 1; pl_max100 := 1000000000;
  pl_show := dec; pl_show6 := dec; pl_showe := dec; pl_table := fun l => String.concat "" l; pl_banner := "";
  pl_red := fp_reducers; pl_rmax := fun x l => fold_left Z.max l x; pl_hi := 1000000000; pl_lo := 1; pl_pow := fun x _ => x;
  pl_draw := fun n => if Nat.even n then 500 else -300; pl_raw := ex_dom 7 9 8 8 8 8 Neumann Neumann Neumann |}.
Definition fp_common (dim : string) : list string :=
  ["--dimension=" ++ dim; "--bc_y=neumann"; "--time_step_size=250"; "--max_time_steps=100"; "--m"; "100"; "--eps2=70"; "--sigma=900"; "--log_frequency=2";
   "--save_every=1"; "--solution_output_file=run"]%string.
Definition fp_args (dim : string) : list string := (fp_common dim ++ ["--domain_resolution_x=2"; "--domain_resolution_y=2"; "--domain_resolution_z=4"; "--domain_x_end=2000"])%list.
Definition fp_args' (dim : string) : list string := (fp_common dim ++ ["--initial_condition_file=old"; "--initial_time=123"])%list.
Definition fp_settings (nx ny nz xend t0 : Z) : settings Z := {|
  s_nx := nx; s_ny := ny; s_nz := nz; s_xbeg := 0; s_xend := xend; s_ybeg := 0; s_zbeg := 0;
  s_bc_x := "periodic"; s_bc_y := "neumann"; s_bc_z := "periodic"; s_variant := 1; s_m := 100; s_sigma := 900; s_eps2 := 70;
  s_t0 := t0; s_tfinal := 1000; s_dt := 250; s_max_steps := 100; s_log_every := 2; s_save_every := 1;
  s_log_file := "maDGiCart"; s_output := "run" |}.
Definition fp_first : settings Z := fp_settings 2 2 4 2000 0.
Definition fp_second : settings Z := fp_settings 128 128 128 1000 123.
Definition fp_members : members Z := fun _ => VString "".
Definition fp_other : members Z -> option (res (pworld Z)) := fun _ => None.
Definition fp_run (dim : string) : option (res (ending Z)) := madgicart (N := Num_milli) fp_platform 100 ex_none (fun _ => []) fp_other (fp_args dim) fp_members.
(** The second of the files the run saves. *)
Definition fp_saved (o : option (res (ending Z))) : list xml :=
  match o with Some (Ok (Finished w)) => match nth_error (w_files w) 1 with Some (_, doc) => doc | None => [] end | _ => [] end.
Definition fp_old (dim : string) : string -> list xml := fun _ => fp_saved (fp_run dim).
Definition fp_check (o : option (res (ending Z))) : bool :=
  match o with
  | Some (Ok (Finished w)) =>
      match nth_error (w_files w) 1 with
      | Some (_, doc) =>
          match read_domain (N := Num_milli) fp_read doc (pl_raw fp_platform) with
          | Ok (dm, _) => (nx dm =? 2) && (ny dm =? 2) && (nz dm =? 4) && (xbeg dm =? 0) && (ybeg dm =? 0) && (zbeg dm =? 0) && (cell_size (N := Num_milli) dm =? 1000)
          | _ => false
          end
      | None => false
      end
  | _ => false
  end.
Definition fp_check2 (o : option (res (ending Z))) : bool :=
  match o with
  | Some (Ok (Finished w)) =>
      match nth_error (w_files w) 1 with
      | Some (_, doc) =>
          match read_domain (N := Num_milli) fp_read doc (pl_raw fp_platform) with
          | Ok (dm, _) => (nx dm =? 2) && (xbeg dm =? 0) && (ybeg dm =? 0) && (cell_size (N := Num_milli) dm =? 1000)
          | _ => false
          end
      | None => false
      end
  | _ => false
  end.
Lemma fp_check_spec o : fp_check o = true ->
  exists w nm dm q, o = Some (Ok (Finished w)) /\ nth_error (w_files w) 1 = Some (nm, fp_saved o) /\
    read_domain (N := Num_milli) fp_read (fp_saved o) (pl_raw fp_platform) = Ok (dm, q) /\
    nx dm = 2 /\ ny dm = 2 /\ nz dm = 4 /\ xbeg dm = 0 /\ ybeg dm = 0 /\ zbeg dm = 0 /\ cell_size (N := Num_milli) dm = 1000.
Proof.
  unfold fp_check, fp_saved. destruct o as [[[c|w]| | |]|]; try discriminate. destruct (nth_error (w_files w) 1) as [(nm, doc)|] eqn:E1; try discriminate.
  destruct (read_domain (N := Num_milli) fp_read doc (pl_raw fp_platform)) as [(dm, q)| | |] eqn:E2; try discriminate.
  intros H. exists w, nm, dm, q. split; [reflexivity|]. split; [exact E1|]. split; [reflexivity|]. clear E1 E2. lia.
Qed.
Lemma fp_check2_spec o : fp_check2 o = true ->
  exists w nm dm q, o = Some (Ok (Finished w)) /\ nth_error (w_files w) 1 = Some (nm, fp_saved o) /\
    read_domain (N := Num_milli) fp_read (fp_saved o) (pl_raw fp_platform) = Ok (dm, q) /\
    nx dm = 2 /\ xbeg dm = 0 /\ ybeg dm = 0 /\ cell_size (N := Num_milli) dm = 1000.
Proof.
  unfold fp_check2, fp_saved. destruct o as [[[c|w]| | |]|]; try discriminate. destruct (nth_error (w_files w) 1) as [(nm, doc)|] eqn:E1; try discriminate.
  destruct (read_domain (N := Num_milli) fp_read doc (pl_raw fp_platform)) as [(dm, q)| | |] eqn:E2; try discriminate.
  intros H. exists w, nm, dm, q. split; [reflexivity|]. split; [exact E1|]. split; [reflexivity|]. clear E1 E2. lia.
Qed.
Lemma fp_run3 : fp_check (fp_run "3") = true.
Proof. vm_compute. reflexivity. Qed.
Lemma fp_run2 : fp_check2 (fp_run "2") = true.
Proof. vm_compute. reflexivity. Qed.
Lemma fp_marches : exists steps e,
  marches (N := Num_milli) (fun dt p => p = dt) 1000 100 0 0 250 false steps e /\ nth_error steps 1 = Some (250, 250) /\ (2 < List.length steps)%nat.
Proof.
  do 2 eexists. split; [|split].
  - eapply march_on; [reflexivity|lia|]. cbn. eapply march_on; [reflexivity|lia|]. cbn. eapply march_on; [reflexivity|lia|]. cbn. apply march_last.
  - reflexivity.
  - cbn. lia.
Qed.

Lemma fp_ask3 : exists m vm m' vm',
  parse_options fp_read (pl_lit fp_platform) 1 1000000000 ex_none (fp_args "3") fp_members = Ok (Running m vm) /\
  parse_options fp_read (pl_lit fp_platform) 1 1000000000 ex_none (fp_args' "3") fp_members = Ok (Running m' vm') /\
  asks (N := Num_milli) m 3 "rk3ssp" "none" fp_first /\ asks (N := Num_milli) m' 3 "rk3ssp" "old" fp_second.
Proof.
  destruct (rr_asked (N := Num_milli) fp_platform fp_members (asked (N := Num_milli) 3 "rk3ssp" "none" fp_first) (fp_args "3")) as (m & vm & E & A); [vm_compute; reflexivity|].
  destruct (rr_asked (N := Num_milli) fp_platform fp_members (asked (N := Num_milli) 3 "rk3ssp" "old" fp_second) (fp_args' "3")) as (m' & vm' & E' & A'); [vm_compute; reflexivity|].
  exists m, vm, m', vm'. split; [exact E|]. split; [exact E'|]. split; assumption.
Qed.
Lemma fp_readable3 dom t dt u : readable3 (N := Num_milli) fp_platform dom t dt u.
Proof. split; [|split; [|split]]; [split; [|split]; intros; apply fp_prints|intros; apply fp_prints|apply fp_prints|apply fp_prints]. Qed.

Lemma fp_ask2 : exists m vm m' vm',
  parse_options fp_read (pl_lit fp_platform) 1 1000000000 ex_none (fp_args "2") fp_members = Ok (Running m vm) /\
  parse_options fp_read (pl_lit fp_platform) 1 1000000000 ex_none (fp_args' "2") fp_members = Ok (Running m' vm') /\
  asks (N := Num_milli) m 2 "rk3ssp" "none" fp_first /\ asks (N := Num_milli) m' 2 "rk3ssp" "old" fp_second.
Proof.
  destruct (rr_asked (N := Num_milli) fp_platform fp_members (asked (N := Num_milli) 2 "rk3ssp" "none" fp_first) (fp_args "2")) as (m & vm & E & A); [vm_compute; reflexivity|].
  destruct (rr_asked (N := Num_milli) fp_platform fp_members (asked (N := Num_milli) 2 "rk3ssp" "old" fp_second) (fp_args' "2")) as (m' & vm' & E' & A'); [vm_compute; reflexivity|].
  exists m, vm, m', vm'. split; [exact E|]. split; [exact E'|]. split; assumption.
Qed.
Lemma fp_readable2 dom t dt u : readable2 (N := Num_milli) fp_platform dom t dt u.
Proof. split; [|split; [|split]]; [split; intros; apply fp_prints|intros; apply fp_prints|apply fp_prints|apply fp_prints]. Qed.

Lemma pf_C75_same_files_3d :
  forall (V : Type) (N : Num V) (pl : platform V) (fuel fuel' : nat) (fs fs' : string -> option string) (vts vts' : string -> list xml)
    (other other' : members V -> option (res (pworld V))) (args args' : list string) (opts opts' m m' : members V) (vm vm' : vmap V)
    (s s' : settings V) (bx by_ bz : bctype) (w : pworld V) (steps : list (V * V)) (e t dt : V) (n j : nat) (r nm : string) (dm : domain V) q,
  parse_options (pl_read pl) (pl_lit pl) (pl_eps100 pl) (pl_max100 pl) fs args opts = Ok (Running m vm) ->
  parse_options (pl_read pl) (pl_lit pl) (pl_eps100 pl) (pl_max100 pl) fs' args' opts' = Ok (Running m' vm') ->
  asks m 3 "rk3ssp" "none" s -> asks m' 3 "rk3ssp" r s' -> r <> "none" -> continues s s' ->
  sound s fuel -> s_nx s <= 2147483647 -> sound_from s' (Z.of_nat n + 1) fuel' ->
  bc_named (s_bc_x s) bx -> bc_named (s_bc_y s) by_ -> bc_named (s_bc_z s) bz ->
  neqb (nint 0 : V) (nint 0) = true ->
  madgicart pl fuel fs vts other args opts = Some (Ok (Finished w)) ->
  marches (fun dt p => p = dt) (s_tfinal s) (s_max_steps s) 0 (s_t0 s) (s_dt s) false steps e ->
  nth_error steps n = Some (t, dt) -> (S n < List.length steps)%nat -> ngeb (nadd (nadd t dt) dt) (s_tfinal s) = false ->
  1 <= s_save_every s -> n = (j * Z.to_nat (s_save_every s))%nat ->
  nth_error (w_files w) j = Some (nm, vts' r) ->
  let dom := grid_of s bx by_ bz in
  (forall u, is_file3 pl dom (Z.of_nat n + 1) (nadd t dt) dt u (vts' r) -> readable3 pl dom (nadd t dt) dt u) ->
  read_domain (pl_read pl) (vts' r) (pl_raw pl) = Ok (dm, q) ->
  nx dm = s_nx s -> ny dm = s_ny s -> nz dm = s_nz s -> xbeg dm = s_xbeg s -> ybeg dm = s_ybeg s -> zbeg dm = s_zbeg s ->
  cell_size dm = cell_size dom ->
  exists w' before before' fin, madgicart pl fuel' fs' vts' other' args' opts' = Some (Ok (Finished w')) /\
    w_files w = before ++ [fin] /\ w_files w' = before' ++ [fin] /\
    (s_save_every s = 1 -> w_files w' = skipn (S n) (w_files w)).
Proof.
  intros V N pl fuel fuel' fs fs' vts vts' other other' args args' opts opts' m m' vm vm' s s' bx by_ bz w steps e t dt n j r nm dm q. exact (same_files3 pl fuel fuel' fs fs' vts vts' other other' args args' opts opts' m m' vm vm' s s' bx by_ bz w steps e t dt n j r nm dm q).
Qed.

Lemma fp_all3 :
  (exists m vm m' vm',
    parse_options fp_read (pl_lit fp_platform) 1 1000000000 ex_none (fp_args "3") fp_members = Ok (Running m vm) /\
    parse_options fp_read (pl_lit fp_platform) 1 1000000000 ex_none (fp_args' "3") fp_members = Ok (Running m' vm') /\
    asks (N := Num_milli) m 3 "rk3ssp" "none" fp_first /\ asks (N := Num_milli) m' 3 "rk3ssp" "old" fp_second) /\
  continues fp_first fp_second /\ sound fp_first 100 /\ sound_from fp_second (Z.of_nat 1 + 1) 100 /\
  bc_named "periodic" Periodic /\ bc_named "neumann" Neumann /\
  (exists w nm dm q, fp_run "3" = Some (Ok (Finished w)) /\ nth_error (w_files w) 1 = Some (nm, fp_saved (fp_run "3")) /\
    read_domain (N := Num_milli) fp_read (fp_saved (fp_run "3")) (pl_raw fp_platform) = Ok (dm, q) /\
    nx dm = 2 /\ ny dm = 2 /\ nz dm = 4 /\ xbeg dm = 0 /\ ybeg dm = 0 /\ zbeg dm = 0 /\ cell_size (N := Num_milli) dm = 1000) /\
  (exists steps e, marches (N := Num_milli) (fun dt p => p = dt) 1000 100 0 0 250 false steps e /\ nth_error steps 1 = Some (250, 250) /\ (2 < List.length steps)%nat) /\
  (forall dom t dt u, readable3 (N := Num_milli) fp_platform dom t dt u).
Proof.
  split; [exact fp_ask3|]. split; [repeat split|]. split; [unfold sound; cbn; lia|]. split; [unfold sound_from; cbn; lia|].
  split; [left; split; reflexivity|]. split; [right; first [split; reflexivity|left; split; reflexivity|right; split; reflexivity]|].
  split; [exact (fp_check_spec _ fp_run3)|]. split; [exact fp_marches|exact fp_readable3].
Qed.

Lemma pf_C75_same_files_2d :
  forall (V : Type) (N : Num V) (pl : platform V) (fuel fuel' : nat) (fs fs' : string -> option string) (vts vts' : string -> list xml)
    (other other' : members V -> option (res (pworld V))) (args args' : list string) (opts opts' m m' : members V) (vm vm' : vmap V)
    (s s' : settings V) (bx by_ bz : bctype) (zero : V) (w : pworld V) (steps : list (V * V)) (e t dt : V) (n j : nat) (r nm : string) (dm : domain V) q,
  parse_options (pl_read pl) (pl_lit pl) (pl_eps100 pl) (pl_max100 pl) fs args opts = Ok (Running m vm) ->
  parse_options (pl_read pl) (pl_lit pl) (pl_eps100 pl) (pl_max100 pl) fs' args' opts' = Ok (Running m' vm') ->
  asks m 2 "rk3ssp" "none" s -> asks m' 2 "rk3ssp" r s' -> r <> "none" -> continues s s' ->
  sound s fuel -> s_nx s <= 2147483647 -> sound_from s' (Z.of_nat n + 1) fuel' ->
  bc_named (s_bc_x s) bx -> bc_named (s_bc_y s) by_ -> bc_named (s_bc_z s) bz ->
  neqb (nint 0 : V) (nint 0) = true ->
  pl_read pl "0.0" = Ok zero ->
  madgicart pl fuel fs vts other args opts = Some (Ok (Finished w)) ->
  marches (fun dt p => p = dt) (s_tfinal s) (s_max_steps s) 0 (s_t0 s) (s_dt s) false steps e ->
  nth_error steps n = Some (t, dt) -> (S n < List.length steps)%nat -> ngeb (nadd (nadd t dt) dt) (s_tfinal s) = false ->
  1 <= s_save_every s -> n = (j * Z.to_nat (s_save_every s))%nat ->
  nth_error (w_files w) j = Some (nm, vts' r) ->
  let dom := grid_of s bx by_ bz in
  (forall u, is_file2 pl dom (Z.of_nat n + 1) (nadd t dt) dt u (vts' r) -> readable2 pl dom (nadd t dt) dt u) ->
  read_domain (pl_read pl) (vts' r) (pl_raw pl) = Ok (dm, q) ->
  nx dm = s_nx s -> xbeg dm = s_xbeg s -> ybeg dm = s_ybeg s ->
  cell_size dm = cell_size dom ->
  exists w' before before' fin, madgicart pl fuel' fs' vts' other' args' opts' = Some (Ok (Finished w')) /\
    w_files w = before ++ [fin] /\ w_files w' = before' ++ [fin] /\
    (s_save_every s = 1 -> w_files w' = skipn (S n) (w_files w)).
Proof.
  intros V N pl fuel fuel' fs fs' vts vts' other other' args args' opts opts' m m' vm vm' s s' bx by_ bz zero w steps e t dt n j r nm dm q. exact (same_files2 pl fuel fuel' fs fs' vts vts' other other' args args' opts opts' m m' vm vm' s s' bx by_ bz zero w steps e t dt n j r nm dm q).
Qed.

Lemma fp_all2 :
  (exists m vm m' vm',
    parse_options fp_read (pl_lit fp_platform) 1 1000000000 ex_none (fp_args "2") fp_members = Ok (Running m vm) /\
    parse_options fp_read (pl_lit fp_platform) 1 1000000000 ex_none (fp_args' "2") fp_members = Ok (Running m' vm') /\
    asks (N := Num_milli) m 2 "rk3ssp" "none" fp_first /\ asks (N := Num_milli) m' 2 "rk3ssp" "old" fp_second) /\
  continues fp_first fp_second /\ sound fp_first 100 /\ sound_from fp_second (Z.of_nat 1 + 1) 100 /\
  bc_named "periodic" Periodic /\ bc_named "neumann" Neumann /\
  (exists w nm dm q, fp_run "2" = Some (Ok (Finished w)) /\ nth_error (w_files w) 1 = Some (nm, fp_saved (fp_run "2")) /\
    read_domain (N := Num_milli) fp_read (fp_saved (fp_run "2")) (pl_raw fp_platform) = Ok (dm, q) /\
    nx dm = 2 /\ xbeg dm = 0 /\ ybeg dm = 0 /\ cell_size (N := Num_milli) dm = 1000) /\
  (exists steps e, marches (N := Num_milli) (fun dt p => p = dt) 1000 100 0 0 250 false steps e /\ nth_error steps 1 = Some (250, 250) /\ (2 < List.length steps)%nat) /\
  (forall dom t dt u, readable2 (N := Num_milli) fp_platform dom t dt u).
Proof.
  split; [exact fp_ask2|]. split; [repeat split|]. split; [unfold sound; cbn; lia|]. split; [unfold sound_from; cbn; lia|].
  split; [left; split; reflexivity|]. split; [right; first [split; reflexivity|left; split; reflexivity|right; split; reflexivity]|].
  split; [exact (fp_check2_spec _ fp_run2)|]. split; [exact fp_marches|exact fp_readable2].
Qed.

