(** Proofs of C88. *)
From Coq Require Import String Reals Lra.
From Verif Require Import ModelLogger ModelOptions Outcome ZList ZListProofs Num ModelIndex ModelDisc3D ModelDisc2D ModelCH ModelObs
  ModelTime ModelRun ModelMon ModelVTK ModelMain ModelProgram ModelMG ModelMGCH ModelImplicit SpecGrid SpecField SpecTime SpecVTK SpecRestart SpecMon SpecMG SpecProgram SpecImplicit SpecPoissonRun
  Disc3DProofs Make3Proofs BC3Proofs FieldProofs VTK2Proofs VTKFinal ProgramProofs Program2Proofs Program3Proofs Program4Proofs Program5Proofs Program6Proofs Program7Proofs Program9Proofs MGFinal SumProofs
  Program13Proofs Program14Proofs Program15Proofs Program22Proofs Program23Proofs TextProofs VTKProofs Program8Proofs Program10Proofs ExampleNum RestartFinal ProgramFinal RerunFinal.
From Coq Require Import ZArith Lia ZifyBool ZifyNat List.
Local Open Scope string_scope.
Local Open Scope list_scope.
Local Open Scope Z_scope.

(** A restart from a file with more cells. *)
Definition rs_dom3 : domain R := ex_dom 0%R 4%R 4 8 6 2 Periodic Neumann Periodic.
Definition rs_doc3 : list xml := doc3 ex_showR ex_showR rs_dom3 1%R rr_status rr_field3.
Definition rs_zero3 : list xml := doc3 ex_showR ex_showR rs_dom3 1%R rr_status (fun _ _ _ => 0%R).
Lemma rs_valid3 : valid_domain3 rs_dom3.
Proof. unfold valid_domain3. cbn. lia. Qed.
Lemma rs_cell3 : cell_size rs_dom3 = 1%R.
Proof. unfold cell_size. cbn. field. Qed.
Lemma rs_writes (u : Z -> Z -> Z -> R) : is_file3 rr_platform rs_dom3 12 4%R 1%R u (doc3 ex_showR ex_showR rs_dom3 1%R rr_status u).
Proof.
  destruct (make3_ok rs_dom3 rs_valid3) as (d & E & W & D & _).
  destruct (array_of3 rs_dom3 u ltac:(cbn; lia) rs_valid3) as (c & HC). exists d, c. split; [exact E|]. split; [exact HC|].
  cbn [rr_platform pl_show pl_show6].
  rewrite (write3_ok ex_showR ex_showR rs_dom3 d _ c u rs_valid3 E HC). do 2 f_equal.
  rewrite (wf_dx _ W), D. exact rs_cell3.
Qed.
Lemma rs_file3 : is_file3 rr_platform rs_dom3 12 4%R 1%R rr_field3 rs_doc3.
Proof. apply rs_writes. Qed.
Lemma rs_readable3 : readable3 rr_platform rs_dom3 4%R 1%R rr_field3.
Proof.
  split; [|split; [|split]].
  - rewrite rs_cell3. split; [|split]; intros i H; cbn [nx ny nz ex_dom rs_dom3] in H; (eapply ex_vertexR; [reflexivity|exact H|lia]).
  - intros i j k _. apply ex_printsR. apply rr_mod.
  - apply (ex_printsR 4). lia.
  - apply (ex_printsR 1). lia.
Qed.
Lemma rs_range : (2 <= nx rs_dom3 /\ 2 <= ny rs_dom3 /\ 2 <= nz rs_dom3) /\ (nx rs_dom3 <= 2147483647 /\ ny rs_dom3 <= 2147483647 /\ nz rs_dom3 <= 2147483647) /\ (xbeg rs_dom3 < xend rs_dom3)%R.
Proof. split; [cbn; lia|]. split; [cbn; lia|]. cbn. lra. Qed.
Definition rs_args (equation integrator levels : string) : list string :=
  (["--equation_type=" ++ equation; "--mg_levels=" ++ levels; "--mg_nsmooth=2"; "--mg_max_cycles"; "7"; "--mg_rel_tol=0"; "--mg_cfl=1"; "--mg_relaxation=1"; "--mg_coarse_relaxation=1";
   "--mg_interpolation=linear"]%string ++ rr_args "3" integrator)%list.
Definition rs_options (levels : Z) (steady : bool) : mg_options R := {|
  q_levels := levels; q_nsmooth := 2; q_max_cycles := 7; q_tol := 0%R; q_cfl := 1%R; q_relax := 1%R;
  q_coarse_relax := 1%R; q_interp := MGLinear; q_steady := steady |}.
Definition rs_parsed (args : list string) : res (parsed R) :=
  parse_options (pl_read rr_platform) (pl_lit rr_platform) (pl_eps100 rr_platform) (pl_max100 rr_platform) ex_none args ex_members.
Definition rs_mg (levels : Z) : list (string * value R) :=
  [("mg_levels", VInt levels); ("mg_nsmooth", VInt 2); ("mg_max_cycles", VInt 7); ("mg_rel_tol", VDouble 0%R); ("mg_cfl", VDouble 1%R); ("mg_relaxation", VDouble 1%R);
   ("mg_coarse_relaxation", VDouble 1%R); ("mg_interpolation", VString "linear")].
Lemma rs_bdf1 : exists m vm, rs_parsed (rs_args "cahn-hilliard" "bdf1" "2") = Ok (Running m vm) /\ asks m 3 "bdf1" "old" rr_settings /\ mg_asks m (rs_options 2 false).
Proof.
  destruct (rr_asked rr_platform ex_members (asked 3 "bdf1" "old" rr_settings ++ rs_mg 2) (rs_args "cahn-hilliard" "bdf1" "2")) as (m & vm & P & G); [vm_compute; reflexivity|].
  apply Forall_app in G as (G1 & G2). exists m, vm. split; [exact P|]. split; [exact G1|exact G2].
Qed.
Lemma rs_deep : exists m vm, rs_parsed (rs_args "cahn-hilliard" "steady" "3") = Ok (Running m vm) /\ asks m 3 "steady" "old" rr_settings /\ mg_asks m (rs_options 3 true).
Proof.
  destruct (rr_asked rr_platform ex_members (asked 3 "steady" "old" rr_settings ++ rs_mg 3) (rs_args "cahn-hilliard" "steady" "3")) as (m & vm & P & G); [vm_compute; reflexivity|].
  apply Forall_app in G as (G1 & G2). exists m, vm. split; [exact P|]. split; [exact G1|exact G2].
Qed.
Lemma rs_poisson : exists m vm, rs_parsed (rs_args "poisson" "bdf1" "2") = Ok (Running m vm) /\ poisson_asks_from m 3 "bdf1" "old" rr_settings 0%R 0%R /\ mg_asks m (rs_options 2 false).
Proof.
  destruct (rr_asked rr_platform ex_members (poisson_asked_from 3 "bdf1" "old" rr_settings 0%R 0%R ++ rs_mg 2) (rs_args "poisson" "bdf1" "2")) as (m & vm & P & G); [vm_compute; reflexivity|].
  apply Forall_app in G as (G1 & G2). exists m, vm. split; [exact P|]. split; [exact G1|exact G2].
Qed.
Lemma rs_poisson_rk3 : exists m vm, rs_parsed (rs_args "poisson" "rk3ssp" "2") = Ok (Running m vm) /\ poisson_asks_from m 3 "rk3ssp" "old" rr_settings 0%R 0%R.
Proof. apply (rr_asked rr_platform ex_members (poisson_asked_from 3 "rk3ssp" "old" rr_settings 0%R 0%R)). vm_compute. reflexivity. Qed.
Lemma rs_poisson_ode23 : exists m vm, rs_parsed (rs_args "poisson" "ode23" "2") = Ok (Running m vm) /\ poisson_asks_from m 3 "ode23" "old" rr_settings 0%R 0%R /\
  given m [("time_rel_err_tol", VDouble (IZR 1 * powerRZ 10 (-2))%R); ("min_time_step_size", VDouble (/ 1000000)%R); ("max_time_step_size", VDouble 1000000%R)].
Proof.
  destruct (rr_asked rr_platform ex_members (poisson_asked_from 3 "ode23" "old" rr_settings 0%R 0%R ++
    [("time_rel_err_tol", VDouble (IZR 1 * powerRZ 10 (-2))%R); ("min_time_step_size", VDouble (/ 1000000)%R); ("max_time_step_size", VDouble 1000000%R)])
    (rs_args "poisson" "ode23" "2")) as (m & vm & P & G); [vm_compute; reflexivity|].
  apply Forall_app in G as (G1 & G2). exists m, vm. split; [exact P|]. split; [exact G1|exact G2].
Qed.
Lemma rs_fits : mg_fits (rs_options 2 false) (nx rs_dom3) (ny rs_dom3) (nz rs_dom3) /\ reduces rr_platform.
Proof.
  split.
  - unfold mg_fits. cbn [q_levels rs_options nx ny nz rs_dom3 ex_dom q_nsmooth q_interp]. change (2 ^ (2 - 1)) with 2.
    repeat split; try reflexivity; try lia; try discriminate.
  - destruct ex_sound as (_ & _ & H). exact H.
Qed.
Lemma rs_sound : sound_from rr_settings 12 100 /\ poisson_sound_from rr_settings 12 100 /\ bc_named "periodic" Periodic.
Proof. split; [unfold sound_from; cbn; lia|]. split; [unfold poisson_sound_from; cbn; lia|left; split; reflexivity]. Qed.
Lemma rs_odd : nz rs_dom3 mod 2 ^ (q_levels (rs_options 3 true) - 1) <> 0.
Proof. cbn [nz rs_dom3 ex_dom q_levels rs_options]. change (6 mod 2 ^ (3 - 1)) with 2. lia. Qed.
Lemma rs_mean : is_file3 rr_platform rs_dom3 12 4%R 1%R (fun _ _ _ => 0%R) rs_zero3 /\ readable3 rr_platform rs_dom3 4%R 1%R (fun _ _ _ => 0%R) /\
  mean3 rs_dom3 (fun _ _ _ => 0%R) = s_m rr_settings.
Proof.
  split; [apply rs_writes|split].
  - destruct rs_readable3 as (A & _ & B). split; [exact A|]. split; [|exact B]. intros. apply (ex_printsR 0). lia.
  - cbn [rr_settings s_m]. unfold mean3, total3. rewrite sum3_const by (cbn; lia). cbn [rs_dom3 ex_dom nx ny nz]. field.
Qed.

Lemma pf_C88_restart :
  forall (pl : platform R) (nsin ncos : R -> R) (fuel : nat) (fs : string -> option string) (vts : string -> list xml)
    (other : members R -> option (res (pworld R))) (args : list string) (opts m : members R) (vm : vmap R) (s : settings R)
    (q : mg_options R) (bx by_ bz : bctype) (r : string) (dom0 : domain R) (i : Z) (t dt : R) (u : Z -> Z -> Z -> R),
  parse_options (pl_read pl) (pl_lit pl) (pl_eps100 pl) (pl_max100 pl) fs args opts = Ok (Running m vm) ->
  asks m 3 (integrator_name q) r s -> mg_asks m q -> r <> "none" ->
  is_file3 pl dom0 i t dt u (vts r) -> readable3 pl dom0 t dt u -> valid_domain3 dom0 -> 2 <= nx dom0 /\ 2 <= ny dom0 /\ 2 <= nz dom0 ->
  nx dom0 <= 2147483647 /\ ny dom0 <= 2147483647 /\ nz dom0 <= 2147483647 -> (xbeg dom0 < xend dom0)%R ->
  sound_from s i fuel -> mg_fits q (nx dom0) (ny dom0) (nz dom0) -> reduces pl ->
  bc_named (s_bc_x s) bx -> bc_named (s_bc_y s) by_ -> bc_named (s_bc_z s) bz ->
  let dom := regrid3 (pl_raw pl) dom0 bx by_ bz in
  exists w, madgicart_all pl nsin ncos fuel fs vts other args opts = Some (Ok (Finished w)) /\
    implicit_story pl q s dom (ch_levels q s dom) (smoothing_step (q_cfl q) dom)
      [config_template (pl_showg pl) (pl_lit pl) (pl_eps100 pl) (pl_max100 pl) vm; "Using initial conditions file " ++ r]%string (i, t, dt) u w.
Proof.
  intros. destruct (restart_implicit pl nsin ncos fuel fs vts other args opts m vm s q bx by_ bz r dom0 i t dt u) as (w & E & ST & _); auto. exists w. auto.
Qed.

Lemma pf_C88_mean :
  forall (pl : platform R) (nsin ncos : R -> R) (fuel : nat) (fs : string -> option string) (vts : string -> list xml)
    (other : members R -> option (res (pworld R))) (args : list string) (opts m : members R) (vm : vmap R) (s : settings R)
    (q : mg_options R) (bx by_ bz : bctype) (r : string) (dom0 : domain R) (i : Z) (t dt : R) (u : Z -> Z -> Z -> R),
  parse_options (pl_read pl) (pl_lit pl) (pl_eps100 pl) (pl_max100 pl) fs args opts = Ok (Running m vm) ->
  asks m 3 (integrator_name q) r s -> mg_asks m q -> r <> "none" ->
  is_file3 pl dom0 i t dt u (vts r) -> readable3 pl dom0 t dt u -> valid_domain3 dom0 -> 2 <= nx dom0 /\ 2 <= ny dom0 /\ 2 <= nz dom0 ->
  nx dom0 <= 2147483647 /\ ny dom0 <= 2147483647 /\ nz dom0 <= 2147483647 -> (xbeg dom0 < xend dom0)%R ->
  sound_from s i fuel -> mg_fits q (nx dom0) (ny dom0) (nz dom0) -> reduces pl ->
  bc_named (s_bc_x s) bx -> bc_named (s_bc_y s) by_ -> bc_named (s_bc_z s) bz ->
  bx <> Neumann -> by_ <> Neumann -> bz <> Neumann -> mean3 dom0 u = s_m s ->
  exists w, madgicart_all pl nsin ncos fuel fs vts other args opts = Some (Ok (Finished w)) /\
    Forall (fun f => exists i t dt v, is_file3 pl (regrid3 (pl_raw pl) dom0 bx by_ bz) i t dt v (snd f) /\
      mean3 (regrid3 (pl_raw pl) dom0 bx by_ bz) v = s_m s) (w_files w).
Proof.
  intros. destruct (restart_implicit pl nsin ncos fuel fs vts other args opts m vm s q bx by_ bz r dom0 i t dt u) as (w & E & _ & HM); auto. exists w. auto.
Qed.

Lemma pf_C88_refused :
  forall (pl : platform R) (nsin ncos : R -> R) (fs : string -> option string) (vts : string -> list xml)
    (other : members R -> option (res (pworld R))) (args : list string) (opts m : members R) (vm : vmap R) (s : settings R)
    (q : mg_options R) (bx by_ bz : bctype) (r : string) (dom0 : domain R) (i : Z) (t dt : R) (u : Z -> Z -> Z -> R),
  parse_options (pl_read pl) (pl_lit pl) (pl_eps100 pl) (pl_max100 pl) fs args opts = Ok (Running m vm) ->
  asks m 3 (integrator_name q) r s -> mg_asks m q -> r <> "none" ->
  is_file3 pl dom0 i t dt u (vts r) -> readable3 pl dom0 t dt u -> valid_domain3 dom0 -> 2 <= nx dom0 /\ 2 <= ny dom0 /\ 2 <= nz dom0 ->
  nx dom0 <= 2147483647 /\ ny dom0 <= 2147483647 /\ nz dom0 <= 2147483647 -> (xbeg dom0 < xend dom0)%R -> 0 <= i < 2147483647 -> 0 <= s_variant s <= 2 ->
  bc_named (s_bc_x s) bx -> bc_named (s_bc_y s) by_ -> bc_named (s_bc_z s) bz ->
  (q_nsmooth q < 0 -> forall fuel, madgicart_all pl nsin ncos fuel fs vts other args opts = Some Throw) /\
  (0 <= q_nsmooth q ->
   ~ (1 <= q_levels q <= 6 /\ nx dom0 mod 2 ^ (q_levels q - 1) = 0 /\ ny dom0 mod 2 ^ (q_levels q - 1) = 0 /\ nz dom0 mod 2 ^ (q_levels q - 1) = 0) ->
   forall fuel, madgicart_all pl nsin ncos fuel fs vts other args opts = Some Fatal).
Proof.
  intros pl nsin ncos fs vts other args opts m vm s q bx by_ bz r dom0 i t dt u PO A MQ NR HF HR HV0 H2 HB HX HI SV BX BY BZ.
  assert (NE : String.eqb r "none" = false) by (apply String.eqb_neq; exact NR).
  set (dom := regrid3 (pl_raw pl) dom0 bx by_ bz).
  assert (HV : valid_domain3 dom) by (unfold valid_domain3 in *; cbn; lia).
  assert (RL : exists f, reg_lookup integrators (integrator_name q) = Ok f) by (unfold integrator_name; destruct (q_steady q); eexists; reflexivity).
  destruct RL as (f & RL).
  destruct (file_start3 pl dom0 i t dt u (vts r) s bx by_ bz HF HR HV0 H2 HB HX HI) as ((dm & RDM & EDM) & RT).
  destruct (build3_from pl m s bx by_ bz BX BY BZ (integrator_name q) f r (vts r) dm 3 i t dt RL A SV RDM RT ltac:(rewrite EDM; exact HV)) as (d & EM & B).
  rewrite EDM in EM. fold dom in EM.
  assert (SC : make_ch3 d (s_variant s) = Ok (new_scratch (create_real_array3 d))).
  { unfold make_ch3. match goal with |- context [if ?b then _ else _] => destruct b eqn:EB end; [reflexivity|lia]. }
  pose proof (all_fails_from pl nsin ncos fs vts other args opts m vm PO s r NE q d _ _ _ f A B MQ) as AF. cbv zeta in AF.
  split.
  - intros NS fuel. apply AF. unfold bdf_new, get_mg_cycle. replace (q_nsmooth q <? 0) with true by lia. reflexivity.
  - intros NS NO fuel. apply AF.
    apply (proj2 (pf_C51_constructor R _ q dom d (s_variant s) (params_in s) (new_scratch (create_real_array3 d)) (pl_rmax pl) (red_sum (pl_red pl) (nint 0)) (pl_pow pl)
      [create_real_array3 d] [create_real_array3 d] HV EM SC NS)). exact NO.
Qed.

Lemma pf_C88_poisson :
  forall (pl : platform R) (fuel : nat) (fs : string -> option string) (vts : string -> list xml)
    (other : members R -> option (res (pworld R))) (args : list string) (opts m : members R) (vm : vmap R) (s : settings R)
    (q : mg_options R) (bx by_ bz : bctype) (r : string) (dom0 : domain R) (i : Z) (t dt : R) (u : Z -> Z -> Z -> R),
  parse_options (pl_read pl) (pl_lit pl) (pl_eps100 pl) (pl_max100 pl) fs args opts = Ok (Running m vm) ->
  poisson_asks_from m 3 (integrator_name q) r s 0%R 0%R -> mg_asks m q -> r <> "none" ->
  is_file3 pl dom0 i t dt u (vts r) -> readable3 pl dom0 t dt u -> valid_domain3 dom0 -> 2 <= nx dom0 /\ 2 <= ny dom0 /\ 2 <= nz dom0 ->
  nx dom0 <= 2147483647 /\ ny dom0 <= 2147483647 /\ nz dom0 <= 2147483647 -> (xbeg dom0 < xend dom0)%R ->
  poisson_sound_from s i fuel -> mg_fits q (nx dom0) (ny dom0) (nz dom0) -> reduces pl ->
  bc_named (s_bc_x s) bx -> bc_named (s_bc_y s) by_ -> bc_named (s_bc_z s) bz ->
  let dom := regrid3 (pl_raw pl) dom0 bx by_ bz in
  exists w, madgicart_all pl sin cos fuel fs vts other args opts = Some (Ok (Finished w)) /\
    implicit_story pl q s dom (poisson_levels q dom) (poisson_smoothing (q_cfl q) dom)
      [config_template (pl_showg pl) (pl_lit pl) (pl_eps100 pl) (pl_max100 pl) vm; "Using initial conditions file " ++ r]%string (i, t, dt) u w.
Proof. intros. apply restart_poisson_implicit with m; assumption. Qed.

Lemma pf_C88_poisson_rk3 :
  forall (pl : platform R) (fuel : nat) (fs : string -> option string) (vts : string -> list xml)
    (other : members R -> option (res (pworld R))) (args : list string) (opts m : members R) (vm : vmap R) (s : settings R) (rel abs : R)
    (bx by_ bz : bctype) (r : string) (dom0 : domain R) (i : Z) (t dt : R) (u : Z -> Z -> Z -> R),
  parse_options (pl_read pl) (pl_lit pl) (pl_eps100 pl) (pl_max100 pl) fs args opts = Ok (Running m vm) ->
  poisson_asks_from m 3 "rk3ssp" r s rel abs -> r <> "none" ->
  is_file3 pl dom0 i t dt u (vts r) -> readable3 pl dom0 t dt u -> valid_domain3 dom0 -> 2 <= nx dom0 /\ 2 <= ny dom0 /\ 2 <= nz dom0 ->
  nx dom0 <= 2147483647 /\ ny dom0 <= 2147483647 /\ nz dom0 <= 2147483647 -> (xbeg dom0 < xend dom0)%R ->
  poisson_sound_from s i fuel -> bc_named (s_bc_x s) bx -> bc_named (s_bc_y s) by_ -> bc_named (s_bc_z s) bz ->
  let dom := regrid3 (pl_raw pl) dom0 bx by_ bz in
  exists w, madgicart_all pl sin cos fuel fs vts other args opts = Some (Ok (Finished w)) /\
    story3_with pl s rel abs dom [] [config_template (pl_showg pl) (pl_lit pl) (pl_eps100 pl) (pl_max100 pl) vm; "Using initial conditions file " ++ r]%string (i, t, dt)
      (fun dt p => p = dt) (ssp3_3 (poisson_rate dom)) (ssp3_rate3 (poisson_rate dom)) u w.
Proof. intros. apply restart_poisson_rk3 with m; assumption. Qed.

Lemma pf_C88_poisson_ode23 :
  forall (pl : platform R) (fuel : nat) (fs : string -> option string) (vts : string -> list xml)
    (other : members R -> option (res (pworld R))) (args : list string) (opts m : members R) (vm : vmap R) (s : settings R) (rel abs : R)
    (bx by_ bz : bctype) (r : string) (dom0 : domain R) (i : Z) (t dt : R) (u : Z -> Z -> Z -> R) (tol lo hi : R),
  parse_options (pl_read pl) (pl_lit pl) (pl_eps100 pl) (pl_max100 pl) fs args opts = Ok (Running m vm) ->
  poisson_asks_from m 3 "ode23" r s rel abs ->
  given m [("time_rel_err_tol", VDouble tol); ("min_time_step_size", VDouble lo); ("max_time_step_size", VDouble hi)] -> r <> "none" ->
  is_file3 pl dom0 i t dt u (vts r) -> readable3 pl dom0 t dt u -> valid_domain3 dom0 -> 2 <= nx dom0 /\ 2 <= ny dom0 /\ 2 <= nz dom0 ->
  nx dom0 <= 2147483647 /\ ny dom0 <= 2147483647 /\ nz dom0 <= 2147483647 -> (xbeg dom0 < xend dom0)%R ->
  poisson_sound_from s i fuel -> bc_named (s_bc_x s) bx -> bc_named (s_bc_y s) by_ -> bc_named (s_bc_z s) bz ->
  let dom := regrid3 (pl_raw pl) dom0 bx by_ bz in
  exists w, madgicart_all pl sin cos fuel fs vts other args opts = Some (Ok (Finished w)) /\
    story3_with pl s rel abs dom ["time_err"%string] [config_template (pl_showg pl) (pl_lit pl) (pl_eps100 pl) (pl_max100 pl) vm; "Using initial conditions file " ++ r]%string (i, t, dt)
      (within lo hi) (bs_step3 (poisson_rate dom)) (bs_rate3 (poisson_rate dom)) u w.
Proof. intros. apply restart_poisson_ode23 with (m := m) (tol := tol); assumption. Qed.

(** One level, one smoothing, one cycle: the third smoothing of the uninterrupted run has step 1/2, the first one of the restarted run one millionth. *)
Definition ri_options : mg_options R := {|
  q_levels := 1; q_nsmooth := 1; q_max_cycles := 1; q_tol := 0%R; q_cfl := (1 / 2)%R; q_relax := 1%R; q_coarse_relax := 1%R; q_interp := MGNearest; q_steady := true |}.
Definition ri_settings : settings R := {|
  s_nx := 4; s_ny := 4; s_nz := 4; s_xbeg := 0%R; s_xend := 4%R; s_ybeg := 0%R; s_zbeg := 0%R;
  s_bc_x := "periodic"; s_bc_y := "periodic"; s_bc_z := "periodic"; s_variant := 1; s_m := 0%R; s_sigma := 1%R; s_eps2 := 1%R;
  s_t0 := 0%R; s_tfinal := 9%R; s_dt := 1%R; s_max_steps := 2; s_log_every := 1; s_save_every := 1; s_log_file := "log"; s_output := "run" |}.
Definition ri_dom : domain R := grid_of ri_settings Periodic Periodic Periodic.
Lemma ri_valid : valid_domain3 ri_dom.
Proof. unfold valid_domain3. cbn. lia. Qed.
Lemma ri_fits : mg_fits ri_options (nx ri_dom) (ny ri_dom) (nz ri_dom).
Proof.
  unfold mg_fits. cbn [q_levels ri_options nx ny nz ri_dom grid_of ri_settings s_nx s_ny s_nz q_nsmooth q_interp]. change (2 ^ (1 - 1)) with 1.
  repeat split; try reflexivity; try lia; try discriminate.
Qed.
Lemma ri_step : smoothing_step (q_cfl ri_options) ri_dom 0 = (1 / 2)%R.
Proof. unfold smoothing_step, spacing_at. cbn [nx xend xbeg ri_dom grid_of ri_settings s_nx s_xend s_xbeg q_cfl ri_options]. change (4 / 2 ^ 0) with 4. field. Qed.

Lemma pf_C88_resume_refuted :
  ~ forall (q : mg_options R) (s : settings R) (dom : domain R) (prol : (Z -> Z -> Z -> R) -> Z -> Z -> Z -> R) (u : Z -> Z -> Z -> R)
      (t dt t' dt' : R) (x1 x2 y : Z * R * R * ((Z -> Z -> Z -> R) * (Z -> Z -> Z -> R))),
    valid_domain3 dom -> mg_fits q (nx dom) (ny dom) (nz dom) -> prolongs (q_interp q) prol ->
    implicit_course q dom (ch_levels q s dom prol) (smoothing_step (q_cfl q) dom) (fun _ => 1 / 1000000)%R 0 u [(t, dt); (t', dt')] [x1; x2] ->
    implicit_course q dom (ch_levels q s dom prol) (smoothing_step (q_cfl q) dom) (fun _ => 1 / 1000000)%R 1 (fst (snd x1)) [(t', dt')] [y] ->
    forall i j k, inside3 dom i j k -> fst (snd y) i j k = fst (snd x2) i j k.
Proof.
  intros H. set (prol := fun (v : Z -> Z -> Z -> R) i j k => v (i / 2) (j / 2) (k / 2)).
  destruct (interrupted ri_dom ri_settings ri_options prol ri_valid eq_refl eq_refl eq_refl eq_refl (fun _ => 1 / 1000000)%R 0%R 1%R 1%R 1%R (fun _ _ _ => 1%R) 1%R
    ltac:(reflexivity)) as (x1 & x2 & y & C1 & C2 & E).
  assert (I : inside3 ri_dom 0 0 0) by (unfold inside3; cbn; lia).
  destruct (E 0 0 0 I) as (E1 & E2).
  pose proof (H ri_options ri_settings ri_dom prol (fun _ _ _ => 1%R) _ _ _ _ x1 x2 y ri_valid ri_fits ltac:(cbn; reflexivity) C1 C2 0 0 0 I) as EQ.
  rewrite E1, E2, ri_step in EQ. unfold gain1 in EQ. cbn [s_m s_sigma ri_settings] in EQ. lra.
Qed.
