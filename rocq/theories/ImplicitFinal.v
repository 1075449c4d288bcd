(** Proofs of C84. *)
From Coq Require Import String Reals Lra.
From Verif Require Import ModelLogger ModelOptions Outcome ZList ZListProofs Num ModelDisc3D ModelDisc2D ModelCH ModelObs
  ModelTime ModelRun ModelMon ModelVTK ModelMain ModelProgram ModelMG ModelMGCH ModelImplicit SpecGrid SpecField SpecTime SpecRestart SpecMon SpecMG SpecProgram SpecImplicit
  Make3Proofs ProgramProofs Program2Proofs Program3Proofs Program4Proofs Program5Proofs MGFinal Program14Proofs ProgramFinal.
From Coq Require Import ZArith Lia ZifyBool ZifyNat List.
Local Open Scope string_scope.
Local Open Scope list_scope.
Local Open Scope Z_scope.

Lemma pf_C84_run :
  forall (pl : platform R) (nsin ncos : R -> R) (fuel : nat) (fs : string -> option string) (vts : string -> list xml)
    (other : members R -> option (res (pworld R))) (args : list string) (opts m : members R) (vm : vmap R) (s : settings R)
    (q : mg_options R) (bx by_ bz : bctype),
  parse_options (pl_read pl) (pl_lit pl) (pl_eps100 pl) (pl_max100 pl) fs args opts = Ok (Running m vm) ->
  asks m 3 (integrator_name q) "none" s -> mg_asks m q ->
  sound s fuel -> mg_sound q s -> reduces pl -> bc_named (s_bc_x s) bx -> bc_named (s_bc_y s) by_ -> bc_named (s_bc_z s) bz ->
  let dom := grid_of s bx by_ bz in
  exists w, madgicart_all pl nsin ncos fuel fs vts other args opts = Some (Ok (Finished w)) /\
    implicit_story pl q s dom (ch_levels q s dom) (smoothing_step (q_cfl q) dom) [config_template (pl_showg pl) (pl_lit pl) (pl_eps100 pl) (pl_max100 pl) vm] (0, s_t0 s, s_dt s)
      (random3 dom (pl_draw pl) (s_m s)) w.
Proof.
  intros pl nsin ncos fuel fs vts other args opts m vm s q bx by_ bz PO A MQ SO MS RD BX BY BZ dom.
  destruct (run_implicit pl nsin ncos fuel fs vts other args opts m vm s q bx by_ bz PO A MQ SO MS RD BX BY BZ) as (w & E & H & _).
  exists w. split; assumption.
Qed.

Definition im_args (integrator levels : string) : list string :=
  (ex_args "3" integrator "4" "100" "20" ++ ["--mg_levels=" ++ levels; "--mg_nsmooth=2"; "--mg_max_cycles"; "7"; "--mg_rel_tol=0.5"; "--mg_cfl=0.5";
   "--mg_relaxation=0.5"; "--mg_coarse_relaxation=0.5"; "--mg_interpolation=linear"]%string)%list.
Definition im_options (levels : Z) (steady : bool) : mg_options R := {|
  q_levels := levels; q_nsmooth := 2; q_max_cycles := 7; q_tol := (1 / 2)%R; q_cfl := (1 / 2)%R; q_relax := (1 / 2)%R;
  q_coarse_relax := (1 / 2)%R; q_interp := MGLinear; q_steady := steady |}.
Lemma im_run : (exists m vm, parse_options (pl_read ex_platform) (pl_lit ex_platform) (pl_eps100 ex_platform) (pl_max100 ex_platform) ex_none
    (im_args "bdf1" "2") ex_members = Ok (Running m vm) /\ asks m 3 "bdf1" "none" (ex_settings 4 100 20) /\ mg_asks m (im_options 2 false)).
Proof.
  assert (H : ex_asked (asked 3 "bdf1" "none" (ex_settings 4 100 20) ++
    [("mg_levels", VInt 2); ("mg_nsmooth", VInt 2); ("mg_max_cycles", VInt 7);
    ("mg_rel_tol", VDouble (1 / 2)%R); ("mg_cfl", VDouble (1 / 2)%R); ("mg_relaxation", VDouble (1 / 2)%R);
    ("mg_coarse_relaxation", VDouble (1 / 2)%R); ("mg_interpolation", VString "linear")]) (im_args "bdf1" "2")).
  { apply ex_asked_list. vm_compute. reflexivity. }
  destruct H as (m & vm & E & G). apply Forall_app in G as (G1 & G2). exists m, vm. split; [exact E|]. split; [exact G1|exact G2].
Qed.
Lemma im_sound : sound (ex_settings 4 100 20) 100 /\ mg_sound (im_options 2 false) (ex_settings 4 100 20) /\ bc_named "periodic" Periodic /\ reduces ex_platform.
Proof.
  destruct ex_sound as (H1 & H2 & H3). split; [exact H1|]. split; [|split; assumption].
  unfold mg_sound, mg_fits. cbn [q_levels im_options s_nx s_ny s_nz ex_settings q_nsmooth q_interp]. change (2 ^ (2 - 1)) with 2. repeat split; try reflexivity; try lia; try discriminate.
Qed.

Lemma pf_C84_mean :
  forall (pl : platform R) (nsin ncos : R -> R) (fuel : nat) (fs : string -> option string) (vts : string -> list xml)
    (other : members R -> option (res (pworld R))) (args : list string) (opts m : members R) (vm : vmap R) (s : settings R)
    (q : mg_options R) (bx by_ bz : bctype),
  parse_options (pl_read pl) (pl_lit pl) (pl_eps100 pl) (pl_max100 pl) fs args opts = Ok (Running m vm) ->
  asks m 3 (integrator_name q) "none" s -> mg_asks m q ->
  sound s fuel -> mg_sound q s -> reduces pl -> bc_named (s_bc_x s) bx -> bc_named (s_bc_y s) by_ -> bc_named (s_bc_z s) bz ->
  bx <> Neumann -> by_ <> Neumann -> bz <> Neumann ->
  exists w, madgicart_all pl nsin ncos fuel fs vts other args opts = Some (Ok (Finished w)) /\
    Forall (fun f => exists i t dt u, is_file3 pl (grid_of s bx by_ bz) i t dt u (snd f) /\
      mean3 (grid_of s bx by_ bz) u = s_m s) (w_files w).
Proof.
  intros pl nsin ncos fuel fs vts other args opts m vm s q bx by_ bz PO A MQ SO MS RD BX BY BZ NX NY NZ.
  destruct (run_implicit pl nsin ncos fuel fs vts other args opts m vm s q bx by_ bz PO A MQ SO MS RD BX BY BZ) as (w & E & _ & H).
  exists w. split; [assumption|]. apply H; assumption.
Qed.

Lemma pf_C84_refused :
  forall (V : Type) (N : Num V) (pl : platform V) (nsin ncos : V -> V) (fs : string -> option string) (vts : string -> list xml)
    (other : members V -> option (res (pworld V))) (args : list string) (opts m : members V) (vm : vmap V) (s : settings V)
    (q : mg_options V) (bx by_ bz : bctype),
  parse_options (pl_read pl) (pl_lit pl) (pl_eps100 pl) (pl_max100 pl) fs args opts = Ok (Running m vm) ->
  asks m 3 (integrator_name q) "none" s -> mg_asks m q ->
  sound s (Z.to_nat (s_max_steps s)) -> bc_named (s_bc_x s) bx -> bc_named (s_bc_y s) by_ -> bc_named (s_bc_z s) bz ->
  (q_nsmooth q < 0 -> forall fuel, madgicart_all pl nsin ncos fuel fs vts other args opts = Some Throw) /\
  (0 <= q_nsmooth q ->
   ~ (1 <= q_levels q <= 6 /\ s_nx s mod 2 ^ (q_levels q - 1) = 0 /\ s_ny s mod 2 ^ (q_levels q - 1) = 0 /\ s_nz s mod 2 ^ (q_levels q - 1) = 0) ->
   forall fuel, madgicart_all pl nsin ncos fuel fs vts other args opts = Some Fatal).
Proof.
  intros V N pl nsin ncos fs vts other args opts m vm s q bx by_ bz PO A MQ (SX & SY & SZ & SV & SM & SL & SF) BX BY BZ.
  assert (RL : exists f, reg_lookup integrators (integrator_name q) = Ok f) by (unfold integrator_name; destruct (q_steady q); eexists; reflexivity).
  destruct RL as (f & RL). set (dom := grid_of s bx by_ bz).
  assert (HV : valid_domain3 dom) by (unfold valid_domain3; cbn; lia).
  destruct (build3_ok pl m s bx by_ bz ltac:(lia) ltac:(lia) ltac:(lia) BX BY BZ (integrator_name q) f RL A SV) as (d & EM & B). fold dom in EM.
  assert (SC : make_ch3 d (s_variant s) = Ok (new_scratch (create_real_array3 d))).
  { unfold make_ch3. match goal with |- context [if ?b then _ else _] => destruct b eqn:EB end; [reflexivity|lia]. }
  pose proof (all_fails pl nsin ncos fs vts other args opts m vm PO s q d RandomField (s_variant s) (params_in s) _ f A B MQ) as AF.
  split.
  - intros NS fuel. apply AF. unfold bdf_new, get_mg_cycle. replace (q_nsmooth q <? 0) with true by lia. reflexivity.
  - intros NS NO fuel. apply AF. apply (proj2 (pf_C51_constructor V N q dom d (s_variant s) (params_in s) (new_scratch (create_real_array3 d)) (pl_rmax pl) (red_sum (pl_red pl) (nint 0)) (pl_pow pl)
      [create_real_array3 d] [create_real_array3 d] HV EM SC NS)). exact NO.
Qed.

Lemma im_refused : (exists m vm, parse_options (pl_read ex_platform) (pl_lit ex_platform) (pl_eps100 ex_platform) (pl_max100 ex_platform) ex_none
    (im_args "steady" "3") ex_members = Ok (Running m vm) /\ asks m 3 "steady" "none" (ex_settings 4 100 20) /\ mg_asks m (im_options 3 true)) /\
  sound (ex_settings 4 100 20) 100 /\ 6 mod 2 ^ (3 - 1) <> 0.
Proof.
  assert (H : ex_asked (asked 3 "steady" "none" (ex_settings 4 100 20) ++
    [("mg_levels", VInt 3); ("mg_nsmooth", VInt 2); ("mg_max_cycles", VInt 7);
    ("mg_rel_tol", VDouble (1 / 2)%R); ("mg_cfl", VDouble (1 / 2)%R); ("mg_relaxation", VDouble (1 / 2)%R);
    ("mg_coarse_relaxation", VDouble (1 / 2)%R); ("mg_interpolation", VString "linear")]) (im_args "steady" "3")).
  { apply ex_asked_list. vm_compute. reflexivity. }
  destruct H as (m & vm & E & G). apply Forall_app in G as (G1 & G2).
  split; [exists m, vm; split; [exact E|split; [exact G1|exact G2]]|]. split; [exact (proj1 ex_sound)|discriminate].
Qed.

Lemma pf_C84_flat :
  forall (V : Type) (N : Num V) (pl : platform V) (nsin ncos : V -> V) (fs : string -> option string) (vts : string -> list xml)
    (other : members V -> option (res (pworld V))) (args : list string) (opts m : members V) (vm : vmap V) (s : settings V)
    (q : mg_options V) (bx by_ bz : bctype),
  parse_options (pl_read pl) (pl_lit pl) (pl_eps100 pl) (pl_max100 pl) fs args opts = Ok (Running m vm) ->
  asks m 2 (integrator_name q) "none" s -> mg_asks m q ->
  sound s (Z.to_nat (s_max_steps s)) -> bc_named (s_bc_x s) bx -> bc_named (s_bc_y s) by_ -> bc_named (s_bc_z s) bz ->
  forall fuel, madgicart_all pl nsin ncos fuel fs vts other args opts = Some (if q_nsmooth q <? 0 then Throw else Fatal).
Proof.
  intros V N pl nsin ncos fs vts other args opts m vm s q bx by_ bz PO A MQ (SX & SY & SZ & SV & SM & SL & SF) BX BY BZ.
  assert (RL : exists f, reg_lookup integrators (integrator_name q) = Ok f) by (unfold integrator_name; destruct (q_steady q); eexists; reflexivity).
  destruct RL as (f & RL).
  destruct (build2_ok pl m s bx by_ bz ltac:(lia) ltac:(lia) ltac:(lia) BX BY BZ (integrator_name q) f RL A) as (d & EM & B).
  exact (all_flat pl nsin ncos fs vts other args opts m vm PO s q d _ _ _ _ _ A B MQ).
Qed.

Definition im_flat_args : list string :=
  (ex_args "2" "bdf1" "4" "100" "20" ++ ["--mg_levels=2"; "--mg_nsmooth=2"; "--mg_max_cycles"; "7"; "--mg_rel_tol=0.5"; "--mg_cfl=0.5";
   "--mg_relaxation=0.5"; "--mg_coarse_relaxation=0.5"; "--mg_interpolation=linear"]%string)%list.
Lemma im_flat : (exists m vm, parse_options (pl_read ex_platform) (pl_lit ex_platform) (pl_eps100 ex_platform) (pl_max100 ex_platform) ex_none
    im_flat_args ex_members = Ok (Running m vm) /\ asks m 2 "bdf1" "none" (ex_settings 4 100 20) /\ mg_asks m (im_options 2 false)) /\
  sound (ex_settings 4 100 20) 100.
Proof.
  split; [|exact (proj1 im_sound)].
  assert (H : ex_asked (asked 2 "bdf1" "none" (ex_settings 4 100 20) ++
    [("mg_levels", VInt 2); ("mg_nsmooth", VInt 2); ("mg_max_cycles", VInt 7);
    ("mg_rel_tol", VDouble (1 / 2)%R); ("mg_cfl", VDouble (1 / 2)%R); ("mg_relaxation", VDouble (1 / 2)%R);
    ("mg_coarse_relaxation", VDouble (1 / 2)%R); ("mg_interpolation", VString "linear")]) im_flat_args).
  { apply ex_asked_list. vm_compute. reflexivity. }
  destruct H as (m & vm & E & G). apply Forall_app in G as (G1 & G2). exists m, vm. split; [exact E|]. split; assumption.
Qed.

Lemma pf_C84_otherwise :
  forall (V : Type) (N : Num V) (pl : platform V) (nsin ncos : V -> V) (fuel : nat) (fs : string -> option string) (vts : string -> list xml)
    (other : members V -> option (res (pworld V))) (args : list string) (opts : members V),
  (forall m vm, parse_options (pl_read pl) (pl_lit pl) (pl_eps100 pl) (pl_max100 pl) fs args opts = Ok (Running m vm) ->
     m "equation_type" = VString "cahn-hilliard" /\ exists ti, m "time_integrator" = VString ti /\ ti <> "bdf1" /\ ti <> "steady") ->
  madgicart_all pl nsin ncos fuel fs vts other args opts = madgicart pl fuel fs vts other args opts.
Proof.
  intros V N pl nsin ncos fuel fs vts other args opts H. unfold madgicart_all, madgicart.
  destruct (parse_options _ _ _ _ _ _ _) as [[m vm|c]| | |]; try reflexivity. destruct (H m vm eq_refl) as (EQ & ti & E & N1 & N2). clear H.
  cbn [lift].
  destruct (get_string m "log_file"); try reflexivity. cbn [lift].
  destruct (get_string m "initial_condition_file") as [r| | |]; try reflexivity. cbn [lift].
  destruct (start_log _ _ _) as [w| | |]; try reflexivity. cbn [lift].
  destruct (get_string m "solution_output_file"); try reflexivity. cbn [lift].
  destruct (build _ _ _) as [(((((e, i), v), p), o), f)| | |] eqn:EB; try reflexivity. cbn [lift].
  destruct (get_int m "log_frequency"); try reflexivity. cbn [lift].
  destruct (get_int m "save_every"); try reflexivity. cbn [lift].
  destruct (get_unsigned m "max_time_steps"); try reflexivity. cbn [lift].
  unfold get_string at 1. rewrite E. cbn [lift].
  destruct (String.eqb_spec ti "bdf1"); [contradiction|]. destruct (String.eqb_spec ti "steady"); [contradiction|]. cbn [orb].
  destruct e; try reflexivity. apply build_poisson in EB. rewrite EQ in EB. discriminate.
Qed.

Lemma im_other : exists m vm, parse_options (pl_read ex_platform) (pl_lit ex_platform) (pl_eps100 ex_platform) (pl_max100 ex_platform) ex_none
    (im_args "ode23" "2") ex_members = Ok (Running m vm) /\ m "equation_type" = VString "cahn-hilliard" /\ m "time_integrator" = VString "ode23".
Proof.
  assert (H : ex_asked [("equation_type", VString "cahn-hilliard"); ("time_integrator", VString "ode23")] (im_args "ode23" "2")) by (apply ex_asked_list; vm_compute; reflexivity).
  destruct H as (m & vm & E & G). exists m, vm. split; [exact E|]. inversion G as [|? ? G1 G2]; subst. inversion G2 as [|? ? G3 G4]; subst. split; assumption.
Qed.

