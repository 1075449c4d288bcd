(** Proofs of C87. *)
From Coq Require Import String Reals Lra.
From Verif Require Import ModelLogger ModelOptions Outcome ZList ZListProofs Num ModelDisc3D ModelDisc2D ModelCH ModelObs
  ModelTime ModelRun ModelMon ModelVTK ModelMain ModelProgram ModelMG ModelMGCH ModelImplicit SpecGrid SpecField SpecTime SpecRestart SpecMon SpecMG SpecProgram SpecImplicit SpecPoissonRun
  Disc3DProofs BC3Proofs FieldProofs Make3Proofs Time1Proofs Step1Proofs StepFinal ProgramProofs Program2Proofs Program3Proofs Program4Proofs Program5Proofs PoissonProofs PoissonFinal MGFinal
  Program14Proofs Program15Proofs Program16Proofs Program17Proofs Program19Proofs Program20Proofs Program21Proofs ProgramFinal PoissonRunFinal.
From Coq Require Import ZArith Lia ZifyBool ZifyNat List.
Local Open Scope string_scope.
Local Open Scope list_scope.
Local Open Scope Z_scope.

Lemma pf_C87_run :
  forall (pl : platform R) (fuel : nat) (fs : string -> option string) (vts : string -> list xml)
    (other : members R -> option (res (pworld R))) (args : list string) (opts m : members R) (vm : vmap R) (s : settings R)
    (q : mg_options R) (bx by_ bz : bctype),
  parse_options (pl_read pl) (pl_lit pl) (pl_eps100 pl) (pl_max100 pl) fs args opts = Ok (Running m vm) ->
  poisson_asks m 3 (integrator_name q) s 0%R 0%R -> mg_asks m q ->
  poisson_sound s fuel -> mg_sound q s -> reduces pl -> bc_named (s_bc_x s) bx -> bc_named (s_bc_y s) by_ -> bc_named (s_bc_z s) bz ->
  let dom := grid_of s bx by_ bz in
  exists w, madgicart_all pl sin cos fuel fs vts other args opts = Some (Ok (Finished w)) /\
    implicit_story pl q s dom (poisson_levels q dom) (poisson_smoothing (q_cfl q) dom)
      [config_template (pl_showg pl) (pl_lit pl) (pl_eps100 pl) (pl_max100 pl) vm] (0, s_t0 s, s_dt s) (fun _ _ _ => 0%R) w.
Proof. intros. apply run_poisson_implicit with m; assumption. Qed.

(** The machine also reads one eighth. *)
Definition pi_platform : platform R := {|
  pl_read := fun s => if String.eqb s "0.125" then Ok (1 / 8)%R else pl_read pr_platform s; pl_showg := pl_showg pr_platform;
  pl_lit := pl_lit pr_platform; pl_eps100 := pl_eps100 pr_platform; pl_max100 := pl_max100 pr_platform;
  pl_show := pl_show pr_platform; pl_show6 := pl_show6 pr_platform; pl_showe := pl_showe pr_platform; pl_table := pl_table pr_platform; pl_banner := "";
  pl_red := pl_red pr_platform; pl_rmax := pl_rmax pr_platform; pl_hi := DBL_MAX; pl_lo := DBL_MIN; pl_pow := pl_pow pr_platform;
  pl_draw := pl_draw pr_platform; pl_raw := pl_raw pr_platform |}.
Definition pi_args (integrator levels : string) : list string :=
  ["--equation_type=poisson"; "--dimension=3"; "--domain_resolution_x=4"; "--domain_resolution_y=8"; "--domain_resolution_z=6"; "--domain_x_end=circle";
   "--time_integrator=" ++ integrator; "--time_step_size=0.25"; "--max_time_steps=100"; "--m"; "0.5";
   "--log_frequency=20"; "--save_every=3"; "--solution_output_file=run";
   "--mg_levels=" ++ levels; "--mg_nsmooth=2"; "--mg_max_cycles"; "7"; "--mg_rel_tol=0.5"; "--mg_cfl=0.125";
   "--mg_relaxation=0.5"; "--mg_coarse_relaxation=0.5"; "--mg_interpolation=linear"]%string.
Definition pi_options (levels : Z) (steady : bool) : mg_options R := {|
  q_levels := levels; q_nsmooth := 2; q_max_cycles := 7; q_tol := (1 / 2)%R; q_cfl := (1 / 8)%R; q_relax := (1 / 2)%R;
  q_coarse_relax := (1 / 2)%R; q_interp := MGLinear; q_steady := steady |}.
Definition pi_settings : settings R := {|
  s_nx := 4; s_ny := 8; s_nz := 6; s_xbeg := 0%R; s_xend := (2 * PI)%R; s_ybeg := 0%R; s_zbeg := 0%R;
  s_bc_x := "periodic"; s_bc_y := "periodic"; s_bc_z := "periodic"; s_variant := 1; s_m := (1 / 2)%R;
  s_sigma := (IZR 2914488109293305 * powerRZ 10 (-13))%R; s_eps2 := (IZR 2419753086419753 * powerRZ 10 (-20))%R;
  s_t0 := 0%R; s_tfinal := (IZR 1 * powerRZ 10 0)%R; s_dt := (1 / 4)%R; s_max_steps := 100; s_log_every := 20; s_save_every := 3;
  s_log_file := "maDGiCart"; s_output := "run" |}.
Definition pi_parsed (args : list string) : res (parsed R) :=
  parse_options (pl_read pi_platform) (pl_lit pi_platform) (pl_eps100 pi_platform) (pl_max100 pi_platform) ex_none args ex_members.
Definition pi_values (args names : list string) : option (list (value R)) :=
  match pi_parsed args with Ok (Running m _) => Some (map m names) | _ => None end.
Lemma pi_asked_list l args : pi_values args (map fst l) = Some (map snd l) -> exists m vm, pi_parsed args = Ok (Running m vm) /\ given m l.
Proof.
  unfold pi_values. destruct (pi_parsed args) as [[m vm|c]| | |]; try discriminate.
  intros E. exists m, vm. split; [reflexivity|]. injection E as E. unfold given. induction l as [|(n, v) l IH]; [constructor|].
  cbn [map fst snd] in E. injection E as E1 E2. constructor; [exact E1|apply IH; exact E2].
Qed.
Lemma pi_asked integrator levels z st : pi_values (pi_args integrator levels) (map fst (poisson_asked 3 integrator pi_settings 0%R 0%R ++
    [("mg_levels", VInt z); ("mg_nsmooth", VInt 2); ("mg_max_cycles", VInt 7);
    ("mg_rel_tol", VDouble (1 / 2)%R); ("mg_cfl", VDouble (1 / 8)%R); ("mg_relaxation", VDouble (1 / 2)%R);
    ("mg_coarse_relaxation", VDouble (1 / 2)%R); ("mg_interpolation", VString "linear")])) = Some (map snd (poisson_asked 3 integrator pi_settings 0%R 0%R ++
    [("mg_levels", VInt z); ("mg_nsmooth", VInt 2); ("mg_max_cycles", VInt 7);
    ("mg_rel_tol", VDouble (1 / 2)%R); ("mg_cfl", VDouble (1 / 8)%R); ("mg_relaxation", VDouble (1 / 2)%R);
    ("mg_coarse_relaxation", VDouble (1 / 2)%R); ("mg_interpolation", VString "linear")])) ->
  exists m vm, pi_parsed (pi_args integrator levels) = Ok (Running m vm) /\ poisson_asks m 3 integrator pi_settings 0%R 0%R /\ mg_asks m (pi_options z st).
Proof.
  intros E. destruct (pi_asked_list _ _ E) as (m & vm & P & G). apply Forall_app in G as (G1 & G2). exists m, vm. split; [exact P|]. split; [exact G1|exact G2].
Qed.
Lemma pi_bdf1 : exists m vm, pi_parsed (pi_args "bdf1" "2") = Ok (Running m vm) /\ poisson_asks m 3 "bdf1" pi_settings 0%R 0%R /\ mg_asks m (pi_options 2 false).
Proof. apply pi_asked. vm_compute. reflexivity. Qed.
Lemma pi_steady : exists m vm, pi_parsed (pi_args "steady" "1") = Ok (Running m vm) /\ poisson_asks m 3 "steady" pi_settings 0%R 0%R /\ mg_asks m (pi_options 1 true).
Proof. apply pi_asked. vm_compute. reflexivity. Qed.
Lemma pi_deep : exists m vm, pi_parsed (pi_args "steady" "3") = Ok (Running m vm) /\ poisson_asks m 3 "steady" pi_settings 0%R 0%R /\ mg_asks m (pi_options 3 true).
Proof. apply pi_asked. vm_compute. reflexivity. Qed.
Lemma pi_sound : poisson_sound pi_settings 100 /\ bc_named "periodic" Periodic /\ reduces pi_platform.
Proof.
  split; [unfold poisson_sound; cbn; lia|]. split; [left; split; reflexivity|]. destruct ex_sound as (_ & _ & H). exact H.
Qed.
Lemma pi_mg_sound : mg_sound (pi_options 2 false) pi_settings /\ mg_sound (pi_options 1 true) pi_settings.
Proof.
  unfold mg_sound, mg_fits. cbn [q_levels pi_options s_nx s_ny s_nz pi_settings q_nsmooth q_interp]. change (2 ^ (2 - 1)) with 2. change (2 ^ (1 - 1)) with 1.
  repeat split; try reflexivity; try lia; try discriminate.
Qed.

Lemma pf_C87_refused :
  forall (V : Type) (N : Num V) (pl : platform V) (nsin ncos : V -> V) (fs : string -> option string) (vts : string -> list xml)
    (other : members V -> option (res (pworld V))) (args : list string) (opts m : members V) (vm : vmap V) (s : settings V) (rel abs : V)
    (q : mg_options V) (bx by_ bz : bctype),
  parse_options (pl_read pl) (pl_lit pl) (pl_eps100 pl) (pl_max100 pl) fs args opts = Ok (Running m vm) ->
  poisson_asks m 3 (integrator_name q) s rel abs -> mg_asks m q ->
  poisson_sound s (Z.to_nat (s_max_steps s)) -> bc_named (s_bc_x s) bx -> bc_named (s_bc_y s) by_ -> bc_named (s_bc_z s) bz ->
  (q_nsmooth q < 0 -> forall fuel, madgicart_all pl nsin ncos fuel fs vts other args opts = Some Throw) /\
  (0 <= q_nsmooth q ->
   ~ (1 <= q_levels q <= 6 /\ s_nx s mod 2 ^ (q_levels q - 1) = 0 /\ s_ny s mod 2 ^ (q_levels q - 1) = 0 /\ s_nz s mod 2 ^ (q_levels q - 1) = 0) ->
   forall fuel, madgicart_all pl nsin ncos fuel fs vts other args opts = Some Fatal).
Proof.
  intros V N pl nsin ncos fs vts other args opts m vm s rel abs q bx by_ bz PO A MQ (SX & SY & SZ & SM & SL & SF) BX BY BZ.
  assert (RL : exists f, reg_lookup integrators (integrator_name q) = Ok f) by (unfold integrator_name; destruct (q_steady q); eexists; reflexivity).
  destruct RL as (f & RL). set (dom := grid_of s bx by_ bz).
  assert (HV : valid_domain3 dom) by (unfold valid_domain3; cbn; lia).
  destruct (build_poisson_ok pl m s bx by_ bz ltac:(lia) ltac:(lia) ltac:(lia) BX BY BZ (integrator_name q) f RL A) as (d & EM & B). fold dom in EM.
  assert (SC : make_ch3 d 0 = Ok (new_scratch (create_real_array3 d))) by reflexivity.
  pose proof (poisson_all_fails pl nsin ncos fs vts other args opts m vm PO s q d _ _ _ f A B MQ) as AF. cbv zeta in AF.
  split.
  - intros NS fuel. apply AF. unfold bdf_new_poisson, get_mg_cycle. replace (q_nsmooth q <? 0) with true by lia. reflexivity.
  - intros NS NO fuel. apply AF. eapply (proj2 (poisson_stopped nsin ncos q d (params_in s) _ _ _ _ _ _)).
    apply (proj2 (pf_C51_constructor V N q dom d 0 (params_in s) (new_scratch (create_real_array3 d)) (pl_rmax pl) (red_sum (pl_red pl) (nint 0)) (pl_pow pl)
      [create_real_array3 d] [create_real_array3 d] HV EM SC NS)). exact NO.
Qed.

Lemma pi_odd : 6 mod 2 ^ (3 - 1) <> 0.
Proof. discriminate. Qed.

Lemma pf_C87_keeps :
  forall (q : mg_options R) (dom : domain R) (d : disc3 R) rmax rsum pw (u du : state R) (g : mg_config R (scratch R)) (b0 b : mg_world R (scratch R))
    (w : Z -> Z -> Z -> R) (time dt : R),
  valid_domain3 dom -> 2 <= nhalo dom -> thick_at (q_levels q - 1) dom ->
  make3 dom = Ok d -> 1 <= q_nsmooth q -> q_interp q <> MGOther ->
  shaped 1 (cells3 dom) u -> shaped 1 (cells3 dom) du ->
  bdf_new_poisson sin cos q d (new_scratch (create_real_array3 d)) rmax rsum pw u du = Ok (g, b0) -> SpecMG.reached g b0 b ->
  state_inside3 dom (solution b) w ->
  (forall i j k, inside3 dom i j k -> poisson_rate dom w i j k = 0%R) ->
  exists b', bdf_step g b time dt = Ok b' /\ state_inside3 dom (solution b') w.
Proof. exact poisson_keeps. Qed.

Lemma pi_keeps : exists d g b0 b w, valid_domain3 mg_dom /\ 2 <= nhalo mg_dom /\
  thick_at (q_levels mg_opts - 1) mg_dom /\ make3 mg_dom = Ok d /\ shaped 1 (cells3 mg_dom) (new_state3 d) /\
  bdf_new_poisson sin cos mg_opts d (new_scratch (create_real_array3 d)) (fun i _ => i) (fun _ => 0%R) (fun x _ => x) (new_state3 d) (new_state3 d) = Ok (g, b0) /\
  SpecMG.reached g b0 b /\ state_inside3 mg_dom (solution b) w /\
  (forall i j k, inside3 mg_dom i j k -> poisson_rate mg_dom w i j k = 0%R).
Proof.
  assert (H0 : spacing mg_dom <> 0%R) by (unfold spacing; cbn [mg_dom xend xbeg nx]; lra).
  set (w := steady mg_dom mg_dom_valid ltac:(cbn; lia) H0).
  destruct (mg_example_const 0) as (d & sc & g1 & b1 & _ & A & B & C & _).
  destruct (mg_array w) as (st & HS & LS).
  assert (SC : make_ch3 d 0 = Ok (new_scratch (create_real_array3 d))) by reflexivity.
  destruct (proj1 (pf_C51_constructor R _ mg_opts mg_dom d 0 Program18Proofs.p0 (new_scratch (create_real_array3 d)) (fun i _ => i) (fun _ => 0%R) (fun x _ => x)
    (new_state3 d) (new_state3 d) mg_dom_valid A SC ltac:(cbn; lia))) as (g2 & b0 & NEW & LB & SB); [cbn; repeat split; lia|].
  destruct (poisson_started _ _ _ _ _ _ _ _ _ _ NEW) as (g & NEW').
  clear NEW g1 b1 g2. destruct (b_levels b0) as [|v vs] eqn:EL; [cbn in LB; discriminate|].
  assert (SU : v_u v = new_state3 d) by (unfold solution in SB; rewrite EL in SB; exact SB).
  destruct (proj1 (one_array _ _) C) as (c & EC & LC).
  exists d, g, b0. eexists. exists w. split; [exact mg_dom_valid|]. split; [cbn; lia|]. split; [exact mg_dom_thick|]. split; [exact A|]. split; [exact C|].
  split; [exact NEW'|]. split; [eapply (reached_set g b0 b0 v vs st (v_du v)); [constructor|exact EL| |reflexivity]|split].
  - rewrite SU, LS, EC. cbn [map]. rewrite LC. reflexivity.
  - exact HS.
  - intros. apply steady_rate. assumption.
Qed.

Lemma pf_C87_settles :
  forall (pl : platform R) (fuel : nat) (fs : string -> option string) (vts : string -> list xml)
    (other : members R -> option (res (pworld R))) (args : list string) (opts m : members R) (vm : vmap R) (s : settings R)
    (q : mg_options R) (bx by_ bz : bctype) (v : Z -> Z -> Z -> R) (tau size : R),
  parse_options (pl_read pl) (pl_lit pl) (pl_eps100 pl) (pl_max100 pl) fs args opts = Ok (Running m vm) ->
  poisson_asks m 3 "steady" s 0%R 0%R -> mg_asks m q -> q_steady q = true ->
  poisson_sound s fuel -> mg_sound q s -> reduces pl -> bc_named (s_bc_x s) bx -> bc_named (s_bc_y s) by_ -> bc_named (s_bc_z s) bz ->
  q_levels q = 1 -> 0 < q_max_cycles q ->
  let dom := grid_of s bx by_ bz in
  spacing dom <> 0%R -> (0 <= q_cfl q <= 1 / 6)%R -> (1 / 1000000 <= spacing dom * spacing dom / 6)%R ->
  (forall i j k, inside3 dom i j k -> Rabs (poisson_rate dom v i j k) <= tau)%R -> (0 <= tau)%R ->
  (forall i j k, inside3 dom i j k -> Rabs (v i j k) <= size)%R -> (0 <= size)%R ->
  exists w, madgicart_all pl sin cos fuel fs vts other args opts = Some (Ok (Finished w)) /\
    Forall (fun f => exists i t dt u, 0 < i /\ is_file3 pl dom i t dt u (snd f) /\
      settles dom v tau size 0 (q_cfl q * (spacing dom * spacing dom) * IZR (2 * q_nsmooth q * i - 1)) u) (w_files w).
Proof.
  intros pl fuel fs vts other args opts m vm s q bx by_ bz v tau size PO A MQ QS SO MS RD BX BY BZ LV MC dom H0 CF ML HF T0 HS S0.
  assert (A' : poisson_asks m 3 (integrator_name q) s 0%R 0%R) by (unfold integrator_name; rewrite QS; exact A).
  destruct (run_poisson_implicit pl fuel fs vts other args opts m vm s q bx by_ bz PO A' MQ SO MS RD BX BY BZ) as (w & E & ST). fold dom in ST.
  exists w. split; [exact E|]. destruct SO as (SX & SY & SZ & _).
  assert (HV : valid_domain3 dom) by (unfold valid_domain3; cbn; lia).
  assert (HZ : 1 <= nz dom) by (cbn; lia).
  assert (HH : (0 < spacing dom * spacing dom)%R) by nra.
  destruct ST as (prol & steps & e & rated & files & fin & _ & _ & CO & FS & WF & FI & _).
  destruct (zero_near dom HZ H0 v tau T0 HF size HS S0) as (N0 & B0).
  assert (EC : (q_cfl q * (spacing dom * spacing dom))%R = poisson_smoothing (q_cfl q) dom 0).
  { unfold poisson_smoothing, spacing_at. change (2 ^ 0) with 1. rewrite Z.div_1_r. unfold spacing. ring. }
  set (c := (q_cfl q * (spacing dom * spacing dom))%R) in *.
  assert (C0 : (0 <= c <= spacing dom * spacing dom / 6)%R) by (unfold c; nra).
  destruct MS as (_ & _ & _ & _ & NS & _).
  pose proof (course_first dom HV HZ ltac:(cbn; lia) H0 v tau T0 HF c C0 q prol QS LV NS MC EC (fun _ => 1 / 1000000)%R 0 _ _ _ _ ltac:(lra) B0 N0 CO) as RN.
  assert (RS : Forall (fun x => let '(i, _, _, u) := x in 0 < i /\ settles dom v tau size 0 (c * IZR (2 * q_nsmooth q * i - 1)) u)
    (map (fun x => let '(i, t, dt, p) := x : Z * R * R * ((Z -> Z -> Z -> R) * (Z -> Z -> Z -> R)) in (i, t, dt, fst p)) rated)).
  { apply Forall_map. eapply Forall_impl; [|exact RN]. intros (((i, t), dt), p) (H & K). split; [exact K|]. apply (near_settles dom HZ H0 v tau T0 HF); [|exact S0].
    rewrite Z.sub_0_r, INR_IZR_INZ, Z2Nat.id in H by nia. rewrite Rminus_0_r.
    replace (- (c * IZR (2 * q_nsmooth q * i - 1)) / barrier_top dom)%R with (- (IZR (2 * q_nsmooth q * i - 1) * c / barrier_top dom))%R
      by (field; pose proof (top_pos dom HZ H0); lra). exact H. }
  clear RN. rewrite WF. apply Forall_app. split.
  - rewrite every_pick. apply pick_forall. clear - FS RS.
    match type of FS with Forall2 _ ?L _ => match type of RS with Forall ?P _ => assert (RS2 : Forall P L) by exact RS; clear RS; revert RS2; generalize dependent L end end.
    intros L FS RS. induction FS as [|(((i, t), dt), u) f l l' H HF IH]; [constructor|].
    inversion RS as [|? ? PR R2]; subst. destruct PR as (P & R1). constructor; auto. exists i, t, dt, u. split; [exact P|]. split; [apply H|exact R1].
  - constructor; [|constructor]. destruct FI as (bef & i & t & dt & u & ER & SF). rewrite ER in RS.
    apply Forall_app in RS as (_ & RS). inversion RS as [|? ? PR _]; subst. destruct PR as (P & R1). exists i, t, e, u. split; [exact P|]. split; [apply SF|exact R1].
Qed.

Lemma pi_small : let h := spacing (grid_of pi_settings Periodic Periodic Periodic) in
  h <> 0%R /\ (0 <= q_cfl (pi_options 1 true) <= 1 / 6)%R /\ (1 / 1000000 <= h * h / 6)%R /\
  (s_xend pi_settings - s_xbeg pi_settings = 2 * IZR 1 * PI)%R /\ (IZR (s_ny pi_settings) * h = 2 * IZR 2 * PI)%R.
Proof.
  intros h. assert (E : h = (PI / 2)%R) by (unfold h, spacing; cbn [grid_of pi_settings s_xend s_xbeg s_nx xend xbeg nx]; field).
  rewrite E. cbn [pi_options q_cfl pi_settings s_xend s_xbeg s_ny]. pose proof PI2_3_2 as P. unfold PI2 in P.
  split; [lra|]. split; [lra|]. split; [nra|]. split; [ring|field].
Qed.

Lemma pf_C87_steady :
  forall (pl : platform R) (fuel : nat) (fs : string -> option string) (vts : string -> list xml)
    (other : members R -> option (res (pworld R))) (args : list string) (opts m : members R) (vm : vmap R) (s : settings R)
    (q : mg_options R) (bx by_ bz : bctype),
  parse_options (pl_read pl) (pl_lit pl) (pl_eps100 pl) (pl_max100 pl) fs args opts = Ok (Running m vm) ->
  poisson_asks m 3 "steady" s 0%R 0%R -> mg_asks m q -> q_steady q = true ->
  poisson_sound s fuel -> mg_sound q s -> reduces pl -> bc_named (s_bc_x s) bx -> bc_named (s_bc_y s) by_ -> bc_named (s_bc_z s) bz ->
  q_levels q = 1 -> 0 < q_max_cycles q ->
  let dom := grid_of s bx by_ bz in
  spacing dom <> 0%R -> (0 <= q_cfl q <= 1 / 6)%R -> (1 / 1000000 <= spacing dom * spacing dom / 6)%R ->
  exists v,
    (forall i j k, inside3 dom i j k -> poisson_rate dom v i j k = 0%R) /\
    (forall w tau, (0 <= tau)%R -> (forall i j k, inside3 dom i j k -> Rabs (poisson_rate dom w i j k) <= tau)%R ->
       forall i j k, inside3 dom i j k -> (Rabs (w i j k - v i j k) <= tau * barrier_top dom)%R) /\
    exists w, madgicart_all pl sin cos fuel fs vts other args opts = Some (Ok (Finished w)) /\
      Forall (fun f => exists i t dt u, 0 < i /\ is_file3 pl dom i t dt u (snd f) /\
        settles dom v 0 (1 + 3 * barrier_top dom) 0 (q_cfl q * (spacing dom * spacing dom) * IZR (2 * q_nsmooth q * i - 1)) u) (w_files w).
Proof.
  intros pl fuel fs vts other args opts m vm s q bx by_ bz PO A MQ QS SO MS RD BX BY BZ LV MC dom H0 CF ML.
  pose proof SO as (SX & SY & SZ & _).
  assert (HV : valid_domain3 dom) by (unfold valid_domain3; cbn; lia).
  assert (HZ : 1 <= nz dom) by (cbn; lia).
  exists (steady dom HV HZ H0). split; [|split].
  - intros. apply steady_rate. assumption.
  - intros. rewrite Rabs_minus_sym. apply steady_near; assumption.
  - apply (pf_C87_settles pl fuel fs vts other args opts m vm s q bx by_ bz (steady dom HV HZ H0) 0%R (1 + 3 * barrier_top dom)%R PO A MQ QS SO MS RD BX BY BZ LV MC H0 CF ML).
    + intros. rewrite steady_rate by assumption. rewrite Rabs_R0. lra.
    + lra.
    + intros i j k I. pose proof (steady_moderate dom HV HZ H0 i j k I). pose proof (barrier_top_le dom H0 k). lra.
    + pose proof (top_pos dom HZ H0). lra.
Qed.

Lemma pf_C87_exact :
  forall (pl : platform R) (fuel : nat) (fs : string -> option string) (vts : string -> list xml)
    (other : members R -> option (res (pworld R))) (args : list string) (opts m : members R) (vm : vmap R) (s : settings R)
    (q : mg_options R) (bx by_ bz : bctype) (a b : Z),
  parse_options (pl_read pl) (pl_lit pl) (pl_eps100 pl) (pl_max100 pl) fs args opts = Ok (Running m vm) ->
  poisson_asks m 3 "steady" s 0%R 0%R -> mg_asks m q -> q_steady q = true ->
  poisson_sound s fuel -> mg_sound q s -> reduces pl -> bc_named (s_bc_x s) bx -> bc_named (s_bc_y s) by_ -> bc_named (s_bc_z s) bz ->
  q_levels q = 1 -> 0 < q_max_cycles q ->
  let dom := grid_of s bx by_ bz in let h := spacing dom in
  a <> 0 -> (s_xend s - s_xbeg s = 2 * IZR a * PI)%R -> (IZR (s_ny s) * h = 2 * IZR b * PI)%R ->
  (0 <= q_cfl q <= 1 / 6)%R -> (1 / 1000000 <= h * h / 6)%R ->
  exists w, madgicart_all pl sin cos fuel fs vts other args opts = Some (Ok (Finished w)) /\
    Forall (fun f => exists n t dt u, 0 < n /\ is_file3 pl dom n t dt u (snd f) /\
      forall i j k, inside3 dom i j k ->
        let c := (IZR (s_nz s) + 1)%R in
        let x := (s_xbeg s + h * (IZR i + / 2))%R in let y := (s_ybeg s + h * (IZR j + / 2))%R in let z := (s_zbeg s + h * (IZR k + / 2))%R in
        (Rabs (u i j k - sin x * cos y * cos z) <=
           (c * h) * (c * h) * (h * h) / 32 + c * c / (4 * IZR (s_nz s)) * exp (- (8 * q_cfl q * IZR (2 * q_nsmooth q * n - 1)) / (c * c)))%R) (w_files w).
Proof.
  intros pl fuel fs vts other args opts m vm s q bx by_ bz a b PO A MA QS SO MS RP BX BY BZ L1 MC dom h NA EA EB DT TF.
  pose proof SO as (SX & SY & SZ & _).
  assert (HV : valid_domain3 dom) by (unfold valid_domain3; cbn; lia).
  assert (H0 : (spacing dom <> 0)%R).
  { unfold spacing. cbn [dom grid_of xend xbeg nx]. rewrite EA. apply Rmult_integral_contrapositive_currified.
    - apply Rmult_integral_contrapositive_currified; [|apply PI_neq0].
      apply Rmult_integral_contrapositive_currified; [lra|]. apply not_0_IZR; auto.
    - apply Rinv_neq_0_compat, not_0_IZR. lia. }
  assert (HH : (0 < h * h)%R) by (unfold h; nra).
  destruct (pf_C87_settles pl fuel fs vts other args opts m vm s q bx by_ bz (poisson_at dom) (h * h / 4)%R 1%R PO A MA QS SO MS RP BX BY BZ L1 MC H0 DT TF) as (w & E & F).
  - intros. apply (exact_rate dom a b); auto.
  - lra.
  - intros. apply at_1.
  - lra.
  - exists w. split; [exact E|]. eapply Forall_impl; [|exact F]. intros f (n & t & dt & u & PN & IF & ST). exists n, t, dt, u. split; [exact PN|]. split; [exact IF|].
    intros i' j' k' I c x y z. specialize (ST i' j' k' I). unfold poisson_at, poisson_exact in ST. fold dom in ST. fold h in ST.
    change (xbeg dom) with (s_xbeg s) in ST. change (ybeg dom) with (s_ybeg s) in ST. change (zbeg dom) with (s_zbeg s) in ST. fold x y z in ST.
    assert (NZ : (0 < IZR (s_nz s))%R) by (apply IZR_lt; lia).
    assert (c0 : c <> 0%R) by (unfold c; lra). assert (h0 : h <> 0%R) by exact H0.
    assert (EW : barrier_top dom = ((c * h) * (c * h) / 8)%R). { unfold barrier_top. fold h. change (nz dom) with (s_nz s). rewrite plus_IZR. unfold c. field. }
    rewrite EW in ST. change (nz dom) with (s_nz s) in ST.
    replace (- (q_cfl q * (h * h) * IZR (2 * q_nsmooth q * n - 1) - 0) / (c * h * (c * h) / 8))%R
      with (- (8 * q_cfl q * IZR (2 * q_nsmooth q * n - 1)) / (c * c))%R in ST by (field; auto).
    eapply Rle_trans; [exact ST|]. right. field. repeat split; auto; lra.
Qed.

