(** Proofs of C85 and C86. *)
From Coq Require Import String Reals Lra.
From Verif Require Import ModelLogger ModelOptions Outcome ZList ZListProofs Num ModelDisc3D ModelDisc2D ModelCH ModelObs
  ModelTime ModelRun ModelMon ModelVTK ModelMain ModelProgram ModelImplicit SpecGrid SpecField SpecTime SpecRestart SpecMon SpecProgram SpecPoissonRun
  Disc3DProofs BC3Proofs FieldProofs Make3Proofs ProgramProofs Program2Proofs Program3Proofs Program4Proofs Program5Proofs PoissonProofs PoissonFinal Program15Proofs Program16Proofs Program17Proofs ProgramFinal.
From Coq Require Import ZArith Lia ZifyBool ZifyNat List.
Local Open Scope string_scope.
Local Open Scope list_scope.
Local Open Scope Z_scope.

(** A machine that reads one text as the length of a circle. *)
Definition pr_platform : platform R := {|
  pl_read := fun s => if String.eqb s "0.25" then Ok (1 / 4)%R else if String.eqb s "circle" then Ok (2 * PI)%R else pl_read ex_platform s; pl_showg := pl_showg ex_platform;
  pl_lit := pl_lit ex_platform; pl_eps100 := pl_eps100 ex_platform; pl_max100 := pl_max100 ex_platform;
  pl_show := pl_show ex_platform; pl_show6 := pl_show6 ex_platform; pl_showe := pl_showe ex_platform; pl_table := pl_table ex_platform; pl_banner := "";
  pl_red := pl_red ex_platform; pl_rmax := pl_rmax ex_platform; pl_hi := DBL_MAX; pl_lo := DBL_MIN; pl_pow := pl_pow ex_platform;
  pl_draw := pl_draw ex_platform; pl_raw := pl_raw ex_platform |}.
Definition pr_args (dim integrator : string) : list string :=
  ["--equation_type=poisson"; "--dimension=" ++ dim; "--domain_resolution_x=4"; "--domain_resolution_y=8"; "--domain_resolution_z=5"; "--domain_x_end=circle";
   "--time_integrator=" ++ integrator; "--time_step_size=0.25"; "--max_time_steps=100"; "--m"; "0.5";
   "--log_frequency=20"; "--save_every=3"; "--solution_output_file=run"]%string.
Definition pr_settings : settings R := {|
  s_nx := 4; s_ny := 8; s_nz := 5; s_xbeg := 0%R; s_xend := (2 * PI)%R; s_ybeg := 0%R; s_zbeg := 0%R;
  s_bc_x := "periodic"; s_bc_y := "periodic"; s_bc_z := "periodic"; s_variant := 1; s_m := (1 / 2)%R;
  s_sigma := (IZR 2914488109293305 * powerRZ 10 (-13))%R; s_eps2 := (IZR 2419753086419753 * powerRZ 10 (-20))%R;
  s_t0 := 0%R; s_tfinal := (IZR 1 * powerRZ 10 0)%R; s_dt := (1 / 4)%R; s_max_steps := 100; s_log_every := 20; s_save_every := 3;
  s_log_file := "maDGiCart"; s_output := "run" |}.
Definition pr_parsed (args : list string) : res (parsed R) :=
  parse_options (pl_read pr_platform) (pl_lit pr_platform) (pl_eps100 pr_platform) (pl_max100 pr_platform) ex_none args ex_members.
Definition pr_values (args names : list string) : option (list (value R)) :=
  match pr_parsed args with Ok (Running m _) => Some (map m names) | _ => None end.
Lemma pr_asked_list l args : pr_values args (map fst l) = Some (map snd l) -> exists m vm, pr_parsed args = Ok (Running m vm) /\ given m l.
Proof.
  unfold pr_values. destruct (pr_parsed args) as [[m vm|c]| | |]; try discriminate.
  intros E. exists m, vm. split; [reflexivity|]. injection E as E. unfold given. induction l as [|(n, v) l IH]; [constructor|].
  cbn [map fst snd] in E. injection E as E1 E2. constructor; [exact E1|apply IH; exact E2].
Qed.
Definition pr_step_limits : list (string * value R) :=
  [("time_rel_err_tol", VDouble (IZR 1 * powerRZ 10 (-4))%R); ("min_time_step_size", VDouble (/ 1000000)%R); ("max_time_step_size", VDouble 1000000%R)].
Lemma pr_rk3 : exists m vm, pr_parsed (pr_args "3" "rk3ssp") = Ok (Running m vm) /\ poisson_asks m 3 "rk3ssp" pr_settings 0%R 0%R.
Proof. apply pr_asked_list. vm_compute. reflexivity. Qed.
Lemma pr_flat : exists m vm, pr_parsed (pr_args "2" "rk3ssp") = Ok (Running m vm) /\ poisson_asks m 2 "rk3ssp" pr_settings 0%R 0%R.
Proof. apply pr_asked_list. vm_compute. reflexivity. Qed.
Lemma pr_sound : poisson_sound pr_settings 100 /\ bc_named "periodic" Periodic.
Proof. split; [unfold poisson_sound; cbn; lia|]. left; split; reflexivity. Qed.

Lemma pf_C85_run_rk3 :
  forall (pl : platform R) (fuel : nat) (fs : string -> option string) (vts : string -> list xml)
    (other : members R -> option (res (pworld R))) (args : list string) (opts m : members R) (vm : vmap R) (s : settings R) (rel abs : R)
    (bx by_ bz : bctype),
  parse_options (pl_read pl) (pl_lit pl) (pl_eps100 pl) (pl_max100 pl) fs args opts = Ok (Running m vm) ->
  poisson_asks m 3 "rk3ssp" s rel abs ->
  poisson_sound s fuel -> bc_named (s_bc_x s) bx -> bc_named (s_bc_y s) by_ -> bc_named (s_bc_z s) bz ->
  let dom := grid_of s bx by_ bz in
  exists w, madgicart_all pl sin cos fuel fs vts other args opts = Some (Ok (Finished w)) /\
    story3_with pl s rel abs dom [] [config_template (pl_showg pl) (pl_lit pl) (pl_eps100 pl) (pl_max100 pl) vm] (0, s_t0 s, s_dt s) (fun dt p => p = dt)
      (ssp3_3 (poisson_rate dom)) (ssp3_rate3 (poisson_rate dom)) (fun _ _ _ => 0%R) w.
Proof.
  intros. apply run_poisson_rk3 with (m := m); auto.
Qed.

Lemma pf_C85_run_ode23 :
  forall (pl : platform R) (fuel : nat) (fs : string -> option string) (vts : string -> list xml)
    (other : members R -> option (res (pworld R))) (args : list string) (opts m : members R) (vm : vmap R) (s : settings R) (rel abs : R)
    (bx by_ bz : bctype) (tol lo hi : R),
  parse_options (pl_read pl) (pl_lit pl) (pl_eps100 pl) (pl_max100 pl) fs args opts = Ok (Running m vm) ->
  poisson_asks m 3 "ode23" s rel abs ->
  given m [("time_rel_err_tol", VDouble tol); ("min_time_step_size", VDouble lo); ("max_time_step_size", VDouble hi)] ->
  poisson_sound s fuel -> bc_named (s_bc_x s) bx -> bc_named (s_bc_y s) by_ -> bc_named (s_bc_z s) bz ->
  let dom := grid_of s bx by_ bz in
  exists w, madgicart_all pl sin cos fuel fs vts other args opts = Some (Ok (Finished w)) /\
    story3_with pl s rel abs dom ["time_err"%string] [config_template (pl_showg pl) (pl_lit pl) (pl_eps100 pl) (pl_max100 pl) vm] (0, s_t0 s, s_dt s) (within lo hi)
      (bs_step3 (poisson_rate dom)) (bs_rate3 (poisson_rate dom)) (fun _ _ _ => 0%R) w.
Proof.
  intros. eapply run_poisson_ode23 with (m := m); eauto.
Qed.

Lemma pr_ode23 : exists m vm tol lo hi, pr_parsed (pr_args "3" "ode23") = Ok (Running m vm) /\ poisson_asks m 3 "ode23" pr_settings 0%R 0%R /\
  given m [("time_rel_err_tol", VDouble tol); ("min_time_step_size", VDouble lo); ("max_time_step_size", VDouble hi)].
Proof.
  assert (H : exists tol lo hi m vm, pr_parsed (pr_args "3" "ode23") = Ok (Running m vm) /\ given m (poisson_asked 3 "ode23" pr_settings 0%R 0%R ++
    [("time_rel_err_tol", VDouble tol); ("min_time_step_size", VDouble lo); ("max_time_step_size", VDouble hi)])).
  { do 3 eexists. apply pr_asked_list. vm_compute. reflexivity. }
  destruct H as (tol & lo & hi & m & vm & E & G). exists m, vm, tol, lo, hi. split; [exact E|]. apply Forall_app in G. exact G.
Qed.

Lemma pf_C85_flat :
  forall (V : Type) (N : Num V) (pl : platform V) (nsin ncos : V -> V) (fuel : nat) (fs : string -> option string) (vts : string -> list xml)
    (other : members V -> option (res (pworld V))) (args : list string) (opts m : members V) (vm : vmap V) (s : settings V) (rel abs : V)
    (ti : string) (bx by_ bz : bctype),
  parse_options (pl_read pl) (pl_lit pl) (pl_eps100 pl) (pl_max100 pl) fs args opts = Ok (Running m vm) ->
  poisson_asks m 2 ti s rel abs ->
  poisson_sound s fuel -> bc_named (s_bc_x s) bx -> bc_named (s_bc_y s) by_ -> bc_named (s_bc_z s) bz ->
  madgicart_all pl nsin ncos fuel fs vts other args opts = Some Throw.
Proof.
  intros V N pl nsin ncos fuel fs vts other args opts m vm s rel abs ti bx by_ bz PO A (SX & SY & SZ & _) BX BY BZ.
  eapply poisson_flat; [exact PO|exact A|]. eapply build_poisson_flat; [exact SX|exact SY|exact SZ|exact BX|exact BY|exact BZ|exact A].
Qed.

Lemma pf_C86_settles :
  forall (pl : platform R) (fuel : nat) (fs : string -> option string) (vts : string -> list xml)
    (other : members R -> option (res (pworld R))) (args : list string) (opts m : members R) (vm : vmap R) (s : settings R) (rel abs : R)
    (bx by_ bz : bctype) (v : Z -> Z -> Z -> R) (tau size : R),
  parse_options (pl_read pl) (pl_lit pl) (pl_eps100 pl) (pl_max100 pl) fs args opts = Ok (Running m vm) ->
  poisson_asks m 3 "rk3ssp" s rel abs ->
  poisson_sound s fuel -> bc_named (s_bc_x s) bx -> bc_named (s_bc_y s) by_ -> bc_named (s_bc_z s) bz ->
  let dom := grid_of s bx by_ bz in
  spacing dom <> 0%R -> (0 <= s_dt s <= spacing dom * spacing dom / 6)%R -> (s_t0 s + s_dt s <= s_tfinal s)%R ->
  (forall i j k, inside3 dom i j k -> Rabs (poisson_rate dom v i j k) <= tau)%R -> (0 <= tau)%R ->
  (forall i j k, inside3 dom i j k -> Rabs (v i j k) <= size)%R -> (0 <= size)%R ->
  exists w, madgicart_all pl sin cos fuel fs vts other args opts = Some (Ok (Finished w)) /\
    Forall (fun f => exists i t dt u, is_file3 pl dom i t dt u (snd f) /\ settles dom v tau size (s_t0 s) t u) (w_files w).
Proof.
  intros pl fuel fs vts other args opts m vm s rel abs bx by_ bz v tau size PO A SO BX BY BZ dom H0 DT TF HF T0 HS S0.
  destruct (run_poisson_rk3 pl fuel fs vts other args opts m vm s rel abs bx by_ bz PO A SO BX BY BZ) as (w & E & ST). fold dom in ST.
  exists w. split; [exact E|]. destruct SO as (SX & SY & SZ & _).
  assert (HV : valid_domain3 dom) by (unfold valid_domain3; cbn; lia).
  assert (HZ : 1 <= nz dom) by (cbn; lia).
  destruct ST as (steps & e & files & fin & limit & MA & _ & FS & WF & FI & _).
  destruct (zero_near dom HZ H0 v tau T0 HF size HS S0) as (N0 & B0).
  pose proof (run_near dom HV HZ H0 v tau T0 HF _ _ _ _ _ _ _ _ MA _ _ DT TF B0 N0) as RN.
  assert (RS : Forall (fun x => let '(_, t, _, u) := x in settles dom v tau size (s_t0 s) t u) (reached (fun _ => ssp3_3 (poisson_rate dom)) 0 (fun _ _ _ => 0%R) steps)).
  { eapply Forall_impl; [|exact RN]. intros (((i, t), dt), u) H. eapply near_settles; eauto. }
  clear RN. rewrite WF. apply Forall_app. split.
  - rewrite every_pick. apply pick_forall. clear - FS RS.
    induction FS as [|(((i, t), dt), u) f l l' H HF IH]; [constructor|].
    inversion RS as [|? ? R1 R2]; subst. constructor; auto. exists i, t, dt, u. split; [apply H|exact R1].
  - constructor; [|constructor]. destruct FI as (bef & i & t & dt & u & ER & SF). rewrite ER in RS.
    apply Forall_app in RS as (_ & RS). inversion RS as [|? ? R1 _]; subst. exists i, t, e, u. split; [apply SF|exact R1].
Qed.

Lemma pf_C86_steady :
  forall (pl : platform R) (fuel : nat) (fs : string -> option string) (vts : string -> list xml)
    (other : members R -> option (res (pworld R))) (args : list string) (opts m : members R) (vm : vmap R) (s : settings R) (rel abs : R)
    (bx by_ bz : bctype),
  parse_options (pl_read pl) (pl_lit pl) (pl_eps100 pl) (pl_max100 pl) fs args opts = Ok (Running m vm) ->
  poisson_asks m 3 "rk3ssp" s rel abs ->
  poisson_sound s fuel -> bc_named (s_bc_x s) bx -> bc_named (s_bc_y s) by_ -> bc_named (s_bc_z s) bz ->
  let dom := grid_of s bx by_ bz in
  spacing dom <> 0%R -> (0 <= s_dt s <= spacing dom * spacing dom / 6)%R -> (s_t0 s + s_dt s <= s_tfinal s)%R ->
  exists v,
    (forall i j k, inside3 dom i j k -> poisson_rate dom v i j k = 0%R) /\
    (forall w tau, (0 <= tau)%R -> (forall i j k, inside3 dom i j k -> Rabs (poisson_rate dom w i j k) <= tau)%R ->
       forall i j k, inside3 dom i j k -> (Rabs (w i j k - v i j k) <= tau * barrier_top dom)%R) /\
    exists w, madgicart_all pl sin cos fuel fs vts other args opts = Some (Ok (Finished w)) /\
      Forall (fun f => exists i t dt u, is_file3 pl dom i t dt u (snd f) /\ settles dom v 0 (1 + 3 * barrier_top dom) (s_t0 s) t u) (w_files w).
Proof.
  intros pl fuel fs vts other args opts m vm s rel abs bx by_ bz PO A SO BX BY BZ dom H0 DT TF.
  pose proof SO as (SX & SY & SZ & _).
  assert (HV : valid_domain3 dom) by (unfold valid_domain3; cbn; lia).
  assert (HZ : 1 <= nz dom) by (cbn; lia).
  exists (steady dom HV HZ H0). split; [|split].
  - intros. apply steady_rate. assumption.
  - intros. rewrite Rabs_minus_sym. apply steady_near; assumption.
  - apply (pf_C86_settles pl fuel fs vts other args opts m vm s rel abs bx by_ bz (steady dom HV HZ H0) 0%R (1 + 3 * barrier_top dom)%R PO A SO BX BY BZ H0 DT TF).
    + intros. rewrite steady_rate by assumption. rewrite Rabs_R0. lra.
    + lra.
    + intros i j k I. pose proof (steady_moderate dom HV HZ H0 i j k I). pose proof (barrier_top_le dom H0 k). lra.
    + pose proof (top_pos dom HZ H0). lra.
Qed.

Lemma exact_rate (dom : domain R) a b : valid_domain3 dom -> (spacing dom <> 0)%R ->
  (xend dom - xbeg dom = 2 * IZR a * PI)%R -> (IZR (ny dom) * spacing dom = 2 * IZR b * PI)%R ->
  forall i j k, (Rabs (poisson_rate dom (poisson_at dom) i j k) <= spacing dom * spacing dom / 4)%R.
Proof.
  intros HV H0 EA EB i j k. unfold poisson_rate.
  assert (EX : forall i j k, poisson_extend dom (poisson_at dom) i j k = poisson_at dom i j k).
  { intros i' j' k'. unfold poisson_extend. destruct (_ && _)%bool; auto. apply (poisson_periodic dom a b); auto. }
  rewrite (Lap3_ext (spacing dom) _ (poisson_at dom)) by (intros; apply EX). rewrite Lap3_poisson by auto.
  pose proof (factor_bound (spacing dom) H0) as FB. pose proof (at_1 dom i j k) as AT.
  replace (poisson_at dom i j k * (6 * (cos (spacing dom) - 1) / (spacing dom * spacing dom)) + 3 * poisson_at dom i j k)%R
    with (poisson_at dom i j k * (3 + 6 * (cos (spacing dom) - 1) / (spacing dom * spacing dom)))%R by (field; exact H0).
  rewrite Rabs_mult, (Rabs_right (3 + _)) by lra. pose proof (Rabs_pos (poisson_at dom i j k)). nra.
Qed.

Lemma pf_C86_exact :
  forall (pl : platform R) (fuel : nat) (fs : string -> option string) (vts : string -> list xml)
    (other : members R -> option (res (pworld R))) (args : list string) (opts m : members R) (vm : vmap R) (s : settings R) (rel abs : R)
    (bx by_ bz : bctype) (a b : Z),
  parse_options (pl_read pl) (pl_lit pl) (pl_eps100 pl) (pl_max100 pl) fs args opts = Ok (Running m vm) ->
  poisson_asks m 3 "rk3ssp" s rel abs ->
  poisson_sound s fuel -> bc_named (s_bc_x s) bx -> bc_named (s_bc_y s) by_ -> bc_named (s_bc_z s) bz ->
  let dom := grid_of s bx by_ bz in let h := spacing dom in
  a <> 0 -> (s_xend s - s_xbeg s = 2 * IZR a * PI)%R -> (IZR (s_ny s) * h = 2 * IZR b * PI)%R ->
  (0 <= s_dt s <= h * h / 6)%R -> (s_t0 s + s_dt s <= s_tfinal s)%R ->
  exists w, madgicart_all pl sin cos fuel fs vts other args opts = Some (Ok (Finished w)) /\
    Forall (fun f => exists i t dt u, is_file3 pl dom i t dt u (snd f) /\
      forall i j k, inside3 dom i j k ->
        let L := ((IZR (s_nz s) + 1) * h)%R in
        let x := (s_xbeg s + h * (IZR i + / 2))%R in let y := (s_ybeg s + h * (IZR j + / 2))%R in let z := (s_zbeg s + h * (IZR k + / 2))%R in
        (Rabs (u i j k - sin x * cos y * cos z) <=
           L * L * (h * h) / 32 + L * L / (4 * (h * h) * IZR (s_nz s)) * exp (- (8 * (t - s_t0 s)) / (L * L)))%R) (w_files w).
Proof.
  intros pl fuel fs vts other args opts m vm s rel abs bx by_ bz a b PO A SO BX BY BZ dom h NA EA EB DT TF.
  pose proof SO as (SX & SY & SZ & _).
  assert (HV : valid_domain3 dom) by (unfold valid_domain3; cbn; lia).
  assert (H0 : (spacing dom <> 0)%R).
  { unfold spacing. cbn [dom grid_of xend xbeg nx]. rewrite EA. apply Rmult_integral_contrapositive_currified.
    - apply Rmult_integral_contrapositive_currified; [|apply PI_neq0].
      apply Rmult_integral_contrapositive_currified; [lra|]. apply not_0_IZR; auto.
    - apply Rinv_neq_0_compat, not_0_IZR. lia. }
  assert (HH : (0 < h * h)%R) by (unfold h; nra).
  destruct (pf_C86_settles pl fuel fs vts other args opts m vm s rel abs bx by_ bz (poisson_at dom) (h * h / 4)%R 1%R PO A SO BX BY BZ H0 DT TF) as (w & E & F).
  - intros. apply (exact_rate dom a b); auto.
  - lra.
  - intros. apply at_1.
  - lra.
  - exists w. split; [exact E|]. eapply Forall_impl; [|exact F]. intros f (i & t & dt & u & IF & ST). exists i, t, dt, u. split; [exact IF|].
    intros i' j' k' I L x y z. specialize (ST i' j' k' I). unfold poisson_at, poisson_exact in ST. fold dom in ST. fold h in ST.
    change (xbeg dom) with (s_xbeg s) in ST. change (ybeg dom) with (s_ybeg s) in ST. change (zbeg dom) with (s_zbeg s) in ST. fold x y z in ST.
    assert (NZ : (0 < IZR (s_nz s))%R) by (apply IZR_lt; lia).
    assert (EW : barrier_top dom = (L * L / 8)%R). { unfold barrier_top. fold h. change (nz dom) with (s_nz s). rewrite plus_IZR. unfold L. field. }
    assert (LP : (0 < L * L)%R). { unfold L. replace ((IZR (s_nz s) + 1) * h * ((IZR (s_nz s) + 1) * h))%R with ((IZR (s_nz s) + 1) * (IZR (s_nz s) + 1) * (h * h))%R by ring. apply Rmult_lt_0_compat; [nra|exact HH]. }
    assert (L0 : L <> 0%R) by nra. assert (h0 : h <> 0%R) by exact H0.
    rewrite EW in ST. change (nz dom) with (s_nz s) in ST.
    replace (- (t - s_t0 s) / (L * L / 8))%R with (- (8 * (t - s_t0 s)) / (L * L))%R in ST by (field; exact L0).
    eapply Rle_trans; [exact ST|]. right. field. split; [lra|exact h0].
Qed.

Lemma pr_exact : let dom := grid_of pr_settings Periodic Periodic Periodic in let h := spacing dom in
  (s_xend pr_settings - s_xbeg pr_settings = 2 * IZR 1 * PI)%R /\ (IZR (s_ny pr_settings) * h = 2 * IZR 2 * PI)%R /\
  (0 <= s_dt pr_settings <= h * h / 6)%R /\ (s_t0 pr_settings + s_dt pr_settings <= s_tfinal pr_settings)%R /\ h <> 0%R.
Proof.
  intros dom h. assert (E : h = (PI / 2)%R) by (unfold h, spacing; cbn [dom grid_of pr_settings s_xend s_xbeg s_nx xend xbeg nx]; field).
  rewrite E. cbn [pr_settings s_xend s_xbeg s_ny s_dt s_t0 s_tfinal]. pose proof PI2_3_2 as P. unfold PI2 in P. cbn [powerRZ].
  split; [ring|]. split; [field|]. split; [|split; [lra|]]; [split; [lra|nra]|lra].
Qed.

