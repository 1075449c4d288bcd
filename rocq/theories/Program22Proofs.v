(** Restarts with the implicit integrator, and with Poisson's equation. *)
From Coq Require Import String Reals Lra FunctionalExtensionality.
From Verif Require Import ModelLogger ModelOptions Outcome ZList ZListProofs Num Kernel ModelIndex IndexProofs ModelDisc3D ModelDisc2D ModelCH
  SpecGrid Disc3DProofs Make3Proofs BC3Proofs CHProofs Stencil3Proofs Transfer3Proofs TransferFinal SpecField SumProofs FieldProofs ModelTime ModelRun ModelObs SpecTime Time1Proofs Time2Proofs Step1Proofs StepFinal
  ModelMon ModelVTK VTK2Proofs VTKFinal ModelMain ModelProgram SpecMon SpecVTK SpecRestart RestartProofs RestartFinal Mon1Proofs MonFinal SpecProgram ProgramProofs Program2Proofs Program3Proofs Program4Proofs Program5Proofs
  Program6Proofs Program7Proofs Program9Proofs Program11Proofs Program12Proofs
  ModelMG ModelMGCH SpecMG MG1Proofs MG2Proofs MG3Proofs MG4Proofs MG5Proofs MGFinal ModelImplicit SpecImplicit MG6Proofs Program13Proofs Program14Proofs
  ModelPoisson PoissonFinal SpecPoissonRun Program15Proofs Program18Proofs Program19Proofs.
From Coq Require Import Lia ZifyBool ZifyNat List.
Local Open Scope string_scope.
Local Open Scope list_scope.
Local Open Scope Z_scope.

(** What a solution file gives a run. *)
Lemma file_start3 (pl : platform R) dom0 i t dt u doc (s : settings R) bx by_ bz :
  is_file3 pl dom0 i t dt u doc -> readable3 pl dom0 t dt u -> valid_domain3 dom0 ->
  2 <= nx dom0 /\ 2 <= ny dom0 /\ 2 <= nz dom0 -> nx dom0 <= 2147483647 /\ ny dom0 <= 2147483647 /\ nz dom0 <= 2147483647 -> (xbeg dom0 < xend dom0)%R ->
  0 <= i < 2147483647 ->
  (exists dm, read_domain (pl_read pl) doc (pl_raw pl) = Ok (dm, 3) /\ with_bcs dm bx by_ bz = regrid3 (pl_raw pl) dom0 bx by_ bz) /\
  set_initial_time_step (pl_read pl) doc {| rs_t0 := s_t0 s; rs_step := 0; rs_dt := s_dt s |} = Ok {| rs_t0 := t; rs_step := i; rs_dt := dt |}.
Proof.
  intros HF HR HV0 H2 HB HX HI. split.
  - destruct HF as (d0 & c & EM & HC & EW). destruct HR as (VP & _).
    destruct (make3_inv dom0 d0 HV0 EM) as (W & ED).
    assert (EX : d3_dx d0 = cell_size dom0) by (rewrite (wf_dx _ W), ED; reflexivity). rewrite <- EX in VP.
    destruct (pf_C55_domain_3d (pl_show pl) (pl_show6 pl) (pl_read pl) dom0 (pl_raw pl) d0 {| fs_iter := i; fs_time := t; fs_dt := dt |} c u)
      as (doc' & EW' & RD); auto; try apply HB.
    rewrite EW in EW'. injection EW' as <-. eexists. split; [exact RD|]. reflexivity.
  - exact (file_time3 pl dom0 i t dt u doc HF HR ltac:(lia) {| rs_t0 := s_t0 s; rs_step := 0; rs_dt := s_dt s |}).
Qed.

Lemma build_poisson_from (pl : platform R) m (s : settings R) bx by_ bz rel abs ti f r doc dm n i t dt :
  bc_named (s_bc_x s) bx -> bc_named (s_bc_y s) by_ -> bc_named (s_bc_z s) bz ->
  reg_lookup integrators ti = Ok f -> poisson_asks_from m 3 ti r s rel abs ->
  read_domain (pl_read pl) doc (pl_raw pl) = Ok (dm, n) ->
  set_initial_time_step (pl_read pl) doc {| rs_t0 := s_t0 s; rs_step := 0; rs_dt := s_dt s |} = Ok {| rs_t0 := t; rs_step := i; rs_dt := dt |} ->
  valid_domain3 (with_bcs dm bx by_ bz) ->
  exists d, make3 (with_bcs dm bx by_ bz) = Ok d /\
    build pl m (Some doc) = Ok (Poisson3 d, FromFile, s_variant s, params_in s, options_from_with s rel abs i t dt, f).
Proof.
  intros BX BY BZ RL A RD RT HV.
  destruct (make3_ok (with_bcs dm bx by_ bz) HV) as (d & E & _).
  exists d. split; [exact E|]. unfold build. rewrite RD. cbn [rbind].
  reads_poisson A. unfold config_of, check_variant, params_of, time_options_of, get_int, get_double, get_string, get_bool, get_unsigned.
  repeat match goal with H : m ?n = _ |- context [m ?n] => rewrite H; clear H end. cbn [rbind].
  unfold geom_factory, geom_domain. cbn [c_bc_x c_bc_y c_bc_z].
  rewrite (proj2 (parse_bc_spec _ _) BX), (proj2 (parse_bc_spec _ _) BY), (proj2 (parse_bc_spec _ _) BZ). cbn [rbind].
  cbn [c_dimension Z.eqb Pos.eqb].
  change ({| nx := nx dm; ny := ny dm; nz := nz dm; xbeg := xbeg dm; xend := xend dm;
    ybeg := ybeg dm; yend := yend dm; zbeg := zbeg dm; zend := zend dm; xbc := bx; ybc := by_; zbc := bz; nhalo := 2 |})
    with (with_bcs dm bx by_ bz).
  rewrite E. cbn [rbind]. unfold rhs_factory, initial_factory, integrator_factory.
  cbn [c_equation c_dimension c_integrator Z.eqb Pos.eqb].
  change (String.eqb "poisson" "cahn-hilliard") with false. change (String.eqb "poisson" "poisson") with true. cbn [rbind].
  cbn [time_options_for t_t0 t_initial_step t_dt_initial].
  change (nint 0 : R) with 0%R in *. rewrite RT. cbn [rbind]. rewrite RL. reflexivity.
Qed.

Section Program.
  Context {V : Type} `{N : Num V} (pl : platform V) (nsin ncos : V -> V) (fuel : nat) (fs : string -> option string) (vts : string -> list xml)
    (other : members V -> option (res (pworld V))) (args : list string) (opts m : members V) (vm : vmap V).
  Hypothesis PO : parse_options (pl_read pl) (pl_lit pl) (pl_eps100 pl) (pl_max100 pl) fs args opts = Ok (Running m vm).
  Variables (s : settings V) (r : string).
  Hypothesis NE : String.eqb r "none" = false.

  Lemma all_after_from {rel abs} (q : mg_options V) d v p o f w' : asks_with m 3 (integrator_name q) r s rel abs ->
    build pl m (Some (vts r)) = Ok (CahnHilliard3 d, FromFile, v, p, o, f) ->
    (forall w0, w_files w0 = [] -> exists w1,
       run_bdf pl m fuel (scene3 pl (s_max_steps s) d) d v p (initial_values3 pl FromFile (Some (vts r)) p d) o (base_of s)
         (driver_observers (s_log_every s) (s_save_every s)) w0 = Some (Ok w1) /\ w' w0 w1) ->
    exists w0 w1, started pl vm s r w0 /\ madgicart_all pl nsin ncos fuel fs vts other args opts = Some (Ok (Finished w1)) /\ w' w0 w1.
  Proof.
    intros A B R. destruct (start_ok pl (s_log_file s) (start_messages (template pl vm) r)) as (w0 & E0 & F0 & S0 & P0).
    destruct (R w0 F0) as (w1 & E1 & H1). exists w0, w1. split; [split; [exact F0|split; [exact S0|exact P0]]|]. split; [|exact H1].
    unfold madgicart_all. rewrite PO. cbn [lift]. reads A.
    unfold get_string, get_int, get_unsigned.
    repeat match goal with H : m ?n = _ |- context [m ?n] => rewrite H; clear H end. cbn [lift].
    change (config_template (pl_showg pl) (pl_lit pl) (pl_eps100 pl) (pl_max100 pl) vm) with (template pl vm).
    rewrite E0. cbn [lift]. rewrite NE. cbv iota. rewrite B. cbn [lift].
    replace (String.eqb (integrator_name q) "bdf1" || String.eqb (integrator_name q) "steady")%bool with true
      by (unfold integrator_name; destruct (q_steady q); reflexivity). cbv iota.
    change (output_base (s_output s) (s_log_file s)) with (base_of s). rewrite E1. reflexivity.
  Qed.

  Lemma all_fails_from {rel abs} (q : mg_options V) d v p o f : asks_with m 3 (integrator_name q) r s rel abs ->
    build pl m (Some (vts r)) = Ok (CahnHilliard3 d, FromFile, v, p, o, f) -> mg_asks m q ->
    let a := create_real_array3 d in let z := bdf_new q d v p (new_scratch a) (pl_rmax pl) (red_sum (pl_red pl) (nint 0)) (pl_pow pl) [a] [a] in
    (z = Throw -> forall fuel, madgicart_all pl nsin ncos fuel fs vts other args opts = Some Throw) /\
    (z = Fatal -> forall fuel, madgicart_all pl nsin ncos fuel fs vts other args opts = Some Fatal).
  Proof.
    intros A B M a z. pose proof (mg_read m q 3 r s _ _ M A) as EQ.
    destruct (start_ok pl (s_log_file s) (start_messages (template pl vm) r)) as (w0 & E0 & _).
    assert (G : forall fuel, madgicart_all pl nsin ncos fuel fs vts other args opts =
      after (run_bdf pl m fuel (scene3 pl (s_max_steps s) d) d v p (initial_values3 pl FromFile (Some (vts r)) p d) o (base_of s)
         (driver_observers (s_log_every s) (s_save_every s)) w0) (fun w => Ok (Finished w))).
    { intros fuel0. unfold madgicart_all. rewrite PO. cbn [lift]. reads A. clear M.
      unfold get_string, get_int, get_unsigned.
      repeat match goal with H : m ?n = _ |- context [m ?n] => rewrite H; clear H end. cbn [lift].
      change (config_template (pl_showg pl) (pl_lit pl) (pl_eps100 pl) (pl_max100 pl) vm) with (template pl vm).
      rewrite E0. cbn [lift]. rewrite NE. cbv iota. rewrite B. cbn [lift].
      replace (String.eqb (integrator_name q) "bdf1" || String.eqb (integrator_name q) "steady")%bool with true
        by (unfold integrator_name; destruct (q_steady q); reflexivity). cbv iota.
      change (output_base (s_output s) (s_log_file s)) with (base_of s). reflexivity. }
    split; intros E fuel0; rewrite G; unfold run_bdf; rewrite EQ; cbn [lift]; fold a; fold z; rewrite E; reflexivity.
  Qed.

  Lemma poisson_all_after_from {rel abs} (q : mg_options V) d v p o f w' : poisson_asks_from m 3 (integrator_name q) r s rel abs ->
    build pl m (Some (vts r)) = Ok (Poisson3 d, FromFile, v, p, o, f) ->
    (forall w0, w_files w0 = [] -> exists w1,
       run_bdf_poisson pl nsin ncos m fuel (scene3 pl (s_max_steps s) d) d (initial_values3 pl FromFile (Some (vts r)) p d) o (base_of s)
         (driver_observers (s_log_every s) (s_save_every s)) w0 = Some (Ok w1) /\ w' w0 w1) ->
    exists w0 w1, started pl vm s r w0 /\ madgicart_all pl nsin ncos fuel fs vts other args opts = Some (Ok (Finished w1)) /\ w' w0 w1.
  Proof.
    intros A B R. destruct (start_ok pl (s_log_file s) (start_messages (template pl vm) r)) as (w0 & E0 & F0 & S0 & P0).
    destruct (R w0 F0) as (w1 & E1 & H1). exists w0, w1. split; [split; [exact F0|split; [exact S0|exact P0]]|]. split; [|exact H1].
    unfold madgicart_all. rewrite PO. cbn [lift]. reads_poisson A.
    unfold get_string, get_int, get_unsigned.
    repeat match goal with H : m ?n = _ |- context [m ?n] => rewrite H; clear H end. cbn [lift].
    change (config_template (pl_showg pl) (pl_lit pl) (pl_eps100 pl) (pl_max100 pl) vm) with (template pl vm).
    rewrite E0. cbn [lift]. rewrite NE. cbv iota. rewrite B. cbn [lift].
    replace (String.eqb (integrator_name q) "bdf1" || String.eqb (integrator_name q) "steady")%bool with true
      by (unfold integrator_name; destruct (q_steady q); reflexivity). cbv iota.
    change (output_base (s_output s) (s_log_file s)) with (base_of s).
    change (poisson_values pl FromFile (Some (vts r)) p d) with (initial_values3 pl FromFile (Some (vts r)) p d). rewrite E1. reflexivity.
  Qed.

  Lemma poisson_after_from {rel abs} d v p o f w' ti : ti <> "bdf1" -> ti <> "steady" -> poisson_asks_from m 3 ti r s rel abs ->
    build pl m (Some (vts r)) = Ok (Poisson3 d, FromFile, v, p, o, f) ->
    (forall w0, w_files w0 = [] -> exists w1,
       run_with pl m fuel (scene3 pl (s_max_steps s) d) (create_real_array3 d)
         (poisson_eval nsin ncos d) (initial_values3 pl FromFile (Some (vts r)) p d) o f (base_of s) (driver_observers (s_log_every s) (s_save_every s)) w0 (other m)
       = Some (Ok w1) /\ w' w0 w1) ->
    exists w0 w1, started pl vm s r w0 /\ madgicart_all pl nsin ncos fuel fs vts other args opts = Some (Ok (Finished w1)) /\ w' w0 w1.
  Proof.
    intros N1 N2 A B R. destruct (start_ok pl (s_log_file s) (start_messages (template pl vm) r)) as (w0 & E0 & F0 & S0 & P0).
    destruct (R w0 F0) as (w1 & E1 & H1). exists w0, w1. split; [split; [exact F0|split; [exact S0|exact P0]]|]. split; [|exact H1].
    unfold madgicart_all. rewrite PO. cbn [lift]. reads_poisson A.
    unfold get_string, get_int, get_unsigned.
    repeat match goal with H : m ?n = _ |- context [m ?n] => rewrite H; clear H end. cbn [lift].
    change (config_template (pl_showg pl) (pl_lit pl) (pl_eps100 pl) (pl_max100 pl) vm) with (template pl vm).
    rewrite E0. cbn [lift]. rewrite NE. cbv iota. rewrite B. cbn [lift].
    destruct (String.eqb_spec ti "bdf1"); [contradiction|]. destruct (String.eqb_spec ti "steady"); [contradiction|]. cbn [orb].
    change (output_base (s_output s) (s_log_file s)) with (base_of s).
    change (poisson_values pl FromFile (Some (vts r)) p d) with (initial_values3 pl FromFile (Some (vts r)) p d). rewrite E1. reflexivity.
  Qed.
End Program.

(** ** The implicit integrator *)
Lemma fits_thick {V} (q : mg_options V) nx_ ny_ nz_ (dom : domain R) : mg_fits q nx_ ny_ nz_ -> nhalo dom = 2 -> nx dom = nx_ -> ny dom = ny_ -> nz dom = nz_ ->
  thick_at (q_levels q - 1) dom.
Proof.
  intros (QL & (X1 & X2) & (Y1 & Y2) & (Z1 & Z2) & NS & INT) NH <- <- <-.
  assert (0 < 2 ^ (q_levels q - 1)) by (apply Z.pow_pos_nonneg; lia).
  unfold thick_at. rewrite NH.
  pose proof (Z.div_mod (nx dom) (2 ^ (q_levels q - 1)) ltac:(lia)). pose proof (Z.div_mod (ny dom) (2 ^ (q_levels q - 1)) ltac:(lia)).
  pose proof (Z.div_mod (nz dom) (2 ^ (q_levels q - 1)) ltac:(lia)). repeat split; nia.
Qed.

Lemma restart_implicit (pl : platform R) nsin ncos fuel fs vts other args opts m vm s q bx by_ bz r dom0 i t dt u :
  parse_options (pl_read pl) (pl_lit pl) (pl_eps100 pl) (pl_max100 pl) fs args opts = Ok (Running m vm) ->
  asks m 3 (integrator_name q) r s -> mg_asks m q -> r <> "none" ->
  is_file3 pl dom0 i t dt u (vts r) -> readable3 pl dom0 t dt u -> 
  valid_domain3 dom0 -> 2 <= nx dom0 /\ 2 <= ny dom0 /\ 2 <= nz dom0 -> nx dom0 <= 2147483647 /\ ny dom0 <= 2147483647 /\ nz dom0 <= 2147483647 -> (xbeg dom0 < xend dom0)%R ->
  sound_from s i fuel -> mg_fits q (nx dom0) (ny dom0) (nz dom0) -> reduces pl -> bc_named (s_bc_x s) bx -> bc_named (s_bc_y s) by_ -> bc_named (s_bc_z s) bz ->
  let dom := regrid3 (pl_raw pl) dom0 bx by_ bz in
  exists w, madgicart_all pl nsin ncos fuel fs vts other args opts = Some (Ok (Finished w)) /\
    implicit_story pl q s dom (ch_levels q s dom) (smoothing_step (q_cfl q) dom)
      [config_template (pl_showg pl) (pl_lit pl) (pl_eps100 pl) (pl_max100 pl) vm; "Using initial conditions file " ++ r]%string (i, t, dt) u w /\
    (bx <> Neumann -> by_ <> Neumann -> bz <> Neumann -> mean3 dom u = s_m s ->
     Forall (fun f => exists i t dt v, is_file3 pl dom i t dt v (snd f) /\ mean3 dom v = s_m s) (w_files w)).
Proof.
  intros PO A MQ NR HF HR HV0 H2 HB HX SO QF RD BX BY BZ dom.
  pose proof QF as (QL & QX & QY & QZ & NS & INT).
  assert (NE : String.eqb r "none" = false) by (apply String.eqb_neq; exact NR).
  pose proof SO as (S1 & S2 & S3 & S4 & S5).
  assert (HV : valid_domain3 dom) by (unfold valid_domain3 in *; cbn; lia).
  assert (LN : 2 <= nhalo dom) by (cbn; lia).
  assert (TH : thick_at (q_levels q - 1) dom) by (eapply fits_thick; [exact QF|reflexivity|reflexivity|reflexivity|reflexivity]).
  assert (RL : exists f, reg_lookup integrators (integrator_name q) = Ok f) by (unfold integrator_name; destruct (q_steady q); eexists; reflexivity).
  destruct RL as (f & RL).
  destruct (file_start3 pl dom0 i t dt u (vts r) s bx by_ bz HF HR HV0 H2 HB HX S4) as ((dm & RDM & EDM) & RT).
  destruct (build3_from pl m s bx by_ bz BX BY BZ (integrator_name q) f r (vts r) dm 3 i t dt RL A S1 RDM RT ltac:(rewrite EDM; exact HV))
    as (d & EM & B). rewrite EDM in EM. fold dom in EM. clear EDM RDM RT.
  pose proof (new_array3_len dom d HV ltac:(lia) EM) as LA.
  destruct (file_values3 pl dom0 i t dt u (vts r) HV0 ltac:(lia) ltac:(lia) ltac:(lia) HF HR dom d (params_in s) (create_real_array3 d) HV EM eq_refl eq_refl eq_refl LA) as (c & EC & HC).
  destruct (make3_inv dom d HV EM) as (W & ED).
  assert (SC : make_ch3 d (s_variant s) = Ok (new_scratch (create_real_array3 d))).
  { unfold make_ch3. match goal with |- context [if ?b then _ else _] => destruct b eqn:EB end; [reflexivity|lia]. }
  destruct (proj1 (pf_C51_constructor R _ q dom d (s_variant s) (params_in s) (new_scratch (create_real_array3 d)) (pl_rmax pl) (red_sum (pl_red pl) (nint 0)) (pl_pow pl)
    [create_real_array3 d] [create_real_array3 d] HV EM SC ltac:(lia))) as (g & b0 & NEW & _).
  { cbn [dom regrid3 nx ny nz]. destruct QX, QY, QZ. auto. }
  assert (HA : state_holds 1 (cells3 dom) (P3 dom) [c] (of3 dom u)).
  { apply state3; [cbn; lia|]. eapply holds_inside3_ext; [exact HC|]. intros i1 j1 k1 I. unfold at3. rewrite of3_slot; [reflexivity|].
    apply inside_padded3; [cbn; lia|exact I]. }
  set (o := options_from_with s 0%R 0%R i t dt).
  assert (OM : t_max_steps o = s_max_steps s)
    by (cbn; unfold int_of_unsigned, ModelInt32.int_max; replace (s_max_steps s <=? 2147483647)%Z with true by lia; reflexivity).
  destruct (options_from_run s fuel 0%R 0%R i t dt SO) as (O2 & O3 & O4 & O5 & O6). fold o in O2, O3, O4, O5, O6.
  destruct (all_after_from pl nsin ncos fuel fs vts other args opts m vm PO s r NE q d (s_variant s) (params_in s) o f
    (run_result_with pl (scene3 pl (s_max_steps s) d) (base_of s) (cells3 dom) (P3 dom) (name3 s) (s_log_every s) (s_save_every s)
       [] (fun dt p => p = dt) (bdf_next pl q d (s_variant s) (params_in s) g) (bdf_slope pl q d (s_variant s) (params_in s) g) o (bdf_start (of3 dom u))) A B)
    as (w0 & w & ST & EW & RN).
  { intros w0 _. clear QX QY QZ QF HC. clearbody dom o. subst dom.
    apply (run_bdf_ok pl (scene3 pl (s_max_steps s) d) (base_of s) (name3 s) (s_log_every s) (s_save_every s) q d (s_variant s) (params_in s) g b0 S3
      ltac:(intros; apply scene3_name; lia) (scene3_monitor pl _ d (s_max_steps s) HV ltac:(lia) EM) (scene3_write pl _ d (s_max_steps s) HV ltac:(lia) EM)
      (scene3_idx pl _ d (s_max_steps s) HV ltac:(lia) EM) o O2 O3 (conj O4 O5) W LN SC INT LA TH NEW NS fuel m
      (initial_values3 pl FromFile (Some (vts r)) (params_in s) d) c (of3 (d3_domain d) u) w0 (mg_read m q 3 r s _ _ MQ A) EC HA O6). }
  exists w. split; [exact EW|].
  apply Program3Proofs.plain in RN; [|split; exact zero_eq].
  destruct RN as (steps & e & tr & docs & fin & MA & TR & SFL & WF & LAST & LOG).
  rewrite OM in MA.
  assert (PB : bx = xbc dom /\ by_ = ybc dom /\ bz = zbc dom) by (repeat split; reflexivity).
  clear HC. clearbody dom. subst dom. set (dom := d3_domain d) in *.
  destruct (stands_course s q d (s_variant s) (new_scratch (create_real_array3 d)) (pl_rmax pl) (red_sum (pl_red pl)) (pl_pow pl) [create_real_array3 d] [create_real_array3 d] g b0
     HV W LN INT TH NEW (proj1 RD) steps i (bdf_start (of3 dom u)) (bdf_start (of3 dom u)) u (fun _ => 1 / 1000000)%R) as (rated & CO & FR).
  { split; [reflexivity|]. right. intros l _. reflexivity. }
  assert (TF : Forall2 (traced_field3 dom []) tr rated).
  { eapply forall2_comp; [|exact TR|exact FR].
    intros (((((i1, t1), dt1), cc), r1), ex) (((i', t'), dt'), (u1, v)) (((i'', t''), dt''), (u', v')) (E1 & E2 & E3 & H1 & H3 & H9) (E4 & E5 & E6 & H4 & H5).
    cbn [fst snd] in H4, H5. repeat split; try congruence.
    + apply state3 in H1; [|lia]. eapply holds_inside3_ext in H1; [exact (proj1 H1)|exact H4].
    + apply state3 in H1; [|lia]. eapply holds_inside3_ext in H1; [exact (proj2 H1)|exact H4].
    + apply state3 in H3; [|lia]. eapply holds_inside3_ext in H3; [exact (proj1 H3)|exact H5].
    + apply state3 in H3; [|lia]. eapply holds_inside3_ext in H3; [exact (proj2 H3)|exact H5]. }
  destruct (told_list3 pl s dom d vm r ltac:(lia) HV EM [] (fun _ u => u) (fun _ u => u) w0 w e tr docs fin rated ST TF SFL WF LAST LOG) as (T1 & T2 & T3 & T4).
  split.
  2:{ intros NX NY NZ HM. destruct PB as (PX & PY & PZ).
    assert (RM : Forall (fun x => mean3 dom (fst (snd x)) = s_m s) rated).
    { eapply (course_mean s q d (s_variant s) (new_scratch (create_real_array3 d)) (pl_rmax pl) (red_sum (pl_red pl)) (pl_pow pl) [create_real_array3 d] [create_real_array3 d] g b0
        HV W LN INT TH NEW); [|exact CO|exact HM].
      fold dom. rewrite <- PX, <- PY, <- PZ. auto. }
    assert (RO : Forall (fun x => mean3 dom (snd x) = s_m s) (map (fun z => let '(i, t, dt, p) := z in (i, t, dt, fst p)) rated)).
    { clear - RM. induction RM as [|(((i1, t1), dt1), y) l H HF IH]; constructor; auto. }
    rewrite T2. apply Forall_app. split.
    - rewrite every_pick. apply pick_forall. clear - T1 RO.
      induction T1 as [|(((i1, t1), dt1), u1) f l l' H HF IH]; [constructor|].
      inversion RO as [|? ? R1 R2]; subst. constructor; auto. exists i1, t1, dt1, u1. split; [apply H|exact R1].
    - constructor; [|constructor]. destruct T3 as (bef & i1 & t1 & dt1 & u1 & ER & SF'). rewrite ER in RO.
      apply Forall_app in RO as (_ & RO). inversion RO as [|? ? R1 _]; subst. exists i1, t1, e, u1. split; [apply SF'|exact R1]. }
  exists (prol_of q), steps, e, rated, docs, fin. split; [apply prol_ok; exact INT|]. split; [exact MA|]. split; [exact CO|]. split; [exact T1|]. split; [exact T2|]. split; [exact T3|].
  pose proof (T4 RD) as T5. unfold start_messages in T5. rewrite NE in T5. exact T5.
Qed.

Lemma poisson_mg_read_from {V} `{N : Num V} (m : members V) q dim r s rel abs : mg_asks m q -> poisson_asks_from m dim (integrator_name q) r s rel abs -> mg_options_of m = Ok q.
Proof.
  intros M A. assert (T : m "time_integrator"%string = VString (integrator_name q)). { reads_poisson A. assumption. }
  clear A. reads M. unfold mg_options_of, get_int, get_double, get_string.
  repeat match goal with H : m ?n = _ |- context [m ?n] => rewrite H; clear H end. cbn [rbind].
  destruct q as [a1 a2 a3 a4 a5 a6 a7 i st]. unfold integrator_name. cbn [q_levels q_nsmooth q_max_cycles q_tol q_cfl q_relax q_coarse_relax q_interp q_steady].
  destruct i, st; reflexivity.
Qed.

Lemma options_from_run' {V} `{N : Num V} (s : settings V) fuel rel abs i t dt : poisson_sound_from s i fuel -> options_run fuel (options_from_with s rel abs i t dt).
Proof.
  intros (S2 & S3 & S4 & S5). unfold options_run, options_from_with, resumed. cbn [options_with t_use_cfl t_initial_step t_max_steps rs_step].
  replace (int_of_unsigned (s_max_steps s)) with (s_max_steps s) by (unfold int_of_unsigned, ModelInt32.int_max; replace (s_max_steps s <=? 2147483647) with true by lia; reflexivity).
  split; [reflexivity|]. unfold INT_MAX. lia.
Qed.

Lemma restart_poisson_implicit (pl : platform R) fuel fs vts other args opts m vm s q bx by_ bz r dom0 i t dt u :
  parse_options (pl_read pl) (pl_lit pl) (pl_eps100 pl) (pl_max100 pl) fs args opts = Ok (Running m vm) ->
  poisson_asks_from m 3 (integrator_name q) r s 0%R 0%R -> mg_asks m q -> r <> "none" ->
  is_file3 pl dom0 i t dt u (vts r) -> readable3 pl dom0 t dt u -> 
  valid_domain3 dom0 -> 2 <= nx dom0 /\ 2 <= ny dom0 /\ 2 <= nz dom0 -> nx dom0 <= 2147483647 /\ ny dom0 <= 2147483647 /\ nz dom0 <= 2147483647 -> (xbeg dom0 < xend dom0)%R ->
  poisson_sound_from s i fuel -> mg_fits q (nx dom0) (ny dom0) (nz dom0) -> reduces pl -> bc_named (s_bc_x s) bx -> bc_named (s_bc_y s) by_ -> bc_named (s_bc_z s) bz ->
  let dom := regrid3 (pl_raw pl) dom0 bx by_ bz in
  exists w, madgicart_all pl sin cos fuel fs vts other args opts = Some (Ok (Finished w)) /\
    implicit_story pl q s dom (poisson_levels q dom) (poisson_smoothing (q_cfl q) dom)
      [config_template (pl_showg pl) (pl_lit pl) (pl_eps100 pl) (pl_max100 pl) vm; "Using initial conditions file " ++ r]%string (i, t, dt) u w.
Proof.
  intros PO A MQ NR HF HR HV0 H2 HB HX SO QF RD BX BY BZ dom.
  pose proof QF as (QL & QX & QY & QZ & NS & INT).
  assert (NE : String.eqb r "none" = false) by (apply String.eqb_neq; exact NR).
  pose proof SO as (S2 & S3 & S4 & S5).
  assert (HV : valid_domain3 dom) by (unfold valid_domain3 in *; cbn; lia).
  assert (LN : 2 <= nhalo dom) by (cbn; lia).
  assert (TH : thick_at (q_levels q - 1) dom) by (eapply fits_thick; [exact QF|reflexivity|reflexivity|reflexivity|reflexivity]).
  assert (RL : exists f, reg_lookup integrators (integrator_name q) = Ok f) by (unfold integrator_name; destruct (q_steady q); eexists; reflexivity).
  destruct RL as (f & RL).
  destruct (file_start3 pl dom0 i t dt u (vts r) s bx by_ bz HF HR HV0 H2 HB HX S4) as ((dm & RDM & EDM) & RT).
  destruct (build_poisson_from pl m s bx by_ bz _ _ (integrator_name q) f r (vts r) dm 3 i t dt BX BY BZ RL A RDM RT ltac:(rewrite EDM; exact HV))
    as (d & EM & B). rewrite EDM in EM. fold dom in EM. clear EDM RDM RT.
  pose proof (new_array3_len dom d HV ltac:(lia) EM) as LA.
  destruct (file_values3 pl dom0 i t dt u (vts r) HV0 ltac:(lia) ltac:(lia) ltac:(lia) HF HR dom d (params_in s) (create_real_array3 d) HV EM eq_refl eq_refl eq_refl LA) as (c & EC & HC).
  destruct (make3_inv dom d HV EM) as (W & ED).
  assert (SC : make_ch3 d 0 = Ok (new_scratch (create_real_array3 d))) by reflexivity.
  destruct (proj1 (pf_C51_constructor R _ q dom d 0 p0 (new_scratch (create_real_array3 d)) (pl_rmax pl) (red_sum (pl_red pl) (nint 0)) (pl_pow pl)
    [create_real_array3 d] [create_real_array3 d] HV EM SC ltac:(lia))) as (g1 & b0 & NEW1 & _).
  { cbn [dom regrid3 nx ny nz]. destruct QX, QY, QZ. auto. }
  destruct (poisson_started _ _ _ _ _ _ _ _ _ _ NEW1) as (g & NEW).
  assert (HA : state_holds 1 (cells3 dom) (P3 dom) [c] (of3 dom u)).
  { apply state3; [cbn; lia|]. eapply holds_inside3_ext; [exact HC|]. intros i1 j1 k1 I. unfold at3. rewrite of3_slot; [reflexivity|].
    apply inside_padded3; [cbn; lia|exact I]. }
  set (o := options_from_with s 0%R 0%R i t dt).
  assert (OM : t_max_steps o = s_max_steps s)
    by (cbn; unfold int_of_unsigned, ModelInt32.int_max; replace (s_max_steps s <=? 2147483647)%Z with true by lia; reflexivity).
  destruct (options_from_run' s fuel 0%R 0%R i t dt SO) as (O2 & O3 & O4 & O5 & O6). fold o in O2, O3, O4, O5, O6.
  destruct (poisson_all_after_from pl sin cos fuel fs vts other args opts m vm PO s r NE q d (s_variant s) (params_in s) o f
    (run_result_with pl (scene3 pl (s_max_steps s) d) (base_of s) (cells3 dom) (P3 dom) (name3 s) (s_log_every s) (s_save_every s)
       [] (fun dt p => p = dt) (pb_next pl q d g) (pb_slope pl q d g) o (bdf_start (of3 dom u))) A B)
    as (w0 & w & ST & EW & RN).
  { intros w0 _. clear QX QY QZ QF HC. clearbody dom o. subst dom.
    apply (run_pb_ok pl (scene3 pl (s_max_steps s) d) (base_of s) (name3 s) (s_log_every s) (s_save_every s) q d g b0 S3
      ltac:(intros; apply scene3_name; lia) (scene3_monitor pl _ d (s_max_steps s) HV ltac:(lia) EM) (scene3_write pl _ d (s_max_steps s) HV ltac:(lia) EM)
      (scene3_idx pl _ d (s_max_steps s) HV ltac:(lia) EM) o O2 O3 (conj O4 O5) W EM LN SC INT LA TH NEW NS fuel m
      (initial_values3 pl FromFile (Some (vts r)) (params_in s) d) c (of3 (d3_domain d) u) w0 (poisson_mg_read_from m q 3 r s _ _ MQ A) EC HA O6). }
  exists w. split; [exact EW|].
  apply Program3Proofs.plain in RN; [|split; exact zero_eq].
  destruct RN as (steps & e & tr & docs & fin & MA & TR & SFL & WF & LAST & LOG).
  rewrite OM in MA.
  clear HC. clearbody dom. subst dom. set (dom := d3_domain d) in *.
  destruct (p_stands_course q d (new_scratch (create_real_array3 d)) (pl_rmax pl) (red_sum (pl_red pl)) (pl_pow pl) [create_real_array3 d] [create_real_array3 d] g b0
     HV W LN INT TH NEW (proj1 RD) steps i (bdf_start (of3 dom u)) (bdf_start (of3 dom u)) u (fun _ => 1 / 1000000)%R) as (rated & CO & FR).
  { split; [reflexivity|]. right. intros l _. reflexivity. }
  assert (TF : Forall2 (traced_field3 dom []) tr rated).
  { eapply forall2_comp; [|exact TR|exact FR].
    intros (((((i1, t1), dt1), cc), r1), ex) (((i', t'), dt'), (u1, v)) (((i'', t''), dt''), (u', v')) (E1 & E2 & E3 & H1 & H3 & H9) (E4 & E5 & E6 & H4 & H5).
    cbn [fst snd] in H4, H5. repeat split; try congruence.
    + apply state3 in H1; [|lia]. eapply holds_inside3_ext in H1; [exact (proj1 H1)|exact H4].
    + apply state3 in H1; [|lia]. eapply holds_inside3_ext in H1; [exact (proj2 H1)|exact H4].
    + apply state3 in H3; [|lia]. eapply holds_inside3_ext in H3; [exact (proj1 H3)|exact H5].
    + apply state3 in H3; [|lia]. eapply holds_inside3_ext in H3; [exact (proj2 H3)|exact H5]. }
  destruct (told_list3 pl s dom d vm r ltac:(lia) HV EM [] (fun _ u => u) (fun _ u => u) w0 w e tr docs fin rated ST TF SFL WF LAST LOG) as (T1 & T2 & T3 & T4).
  exists (prol_of q), steps, e, rated, docs, fin. split; [apply prol_ok; exact INT|]. split; [exact MA|]. split; [exact CO|]. split; [exact T1|]. split; [exact T2|]. split; [exact T3|].
  pose proof (T4 RD) as T5. unfold start_messages in T5. rewrite NE in T5. exact T5.
Qed.

(** ** Poisson's equation with the explicit integrators *)
Lemma restart_poisson_rk3 (pl : platform R) fuel fs vts other args opts m vm s rel abs bx by_ bz r dom0 i t dt u :
  parse_options (pl_read pl) (pl_lit pl) (pl_eps100 pl) (pl_max100 pl) fs args opts = Ok (Running m vm) ->
  poisson_asks_from m 3 "rk3ssp" r s rel abs -> r <> "none" ->
  is_file3 pl dom0 i t dt u (vts r) -> readable3 pl dom0 t dt u -> 
  valid_domain3 dom0 -> 2 <= nx dom0 /\ 2 <= ny dom0 /\ 2 <= nz dom0 -> nx dom0 <= 2147483647 /\ ny dom0 <= 2147483647 /\ nz dom0 <= 2147483647 -> (xbeg dom0 < xend dom0)%R ->
  poisson_sound_from s i fuel -> bc_named (s_bc_x s) bx -> bc_named (s_bc_y s) by_ -> bc_named (s_bc_z s) bz ->
  let dom := regrid3 (pl_raw pl) dom0 bx by_ bz in
  exists w, madgicart_all pl sin cos fuel fs vts other args opts = Some (Ok (Finished w)) /\
    story3_with pl s rel abs dom [] [config_template (pl_showg pl) (pl_lit pl) (pl_eps100 pl) (pl_max100 pl) vm; "Using initial conditions file " ++ r]%string (i, t, dt)
      (fun dt p => p = dt) (ssp3_3 (poisson_rate dom)) (ssp3_rate3 (poisson_rate dom)) u w.
Proof.
  intros PO A NR HF HR HV0 H2 HB HX SO BX BY BZ dom.
  assert (NE : String.eqb r "none" = false) by (apply String.eqb_neq; exact NR).
  pose proof SO as (S2 & S3 & S4 & S5).
  assert (HV : valid_domain3 dom) by (unfold valid_domain3 in *; cbn; lia).
  destruct (file_start3 pl dom0 i t dt u (vts r) s bx by_ bz HF HR HV0 H2 HB HX S4) as ((dm & RDM & EDM) & RT).
  destruct (build_poisson_from pl m s bx by_ bz _ _ "rk3ssp" Rk3ssp r (vts r) dm 3 i t dt BX BY BZ ltac:(reflexivity) A RDM RT ltac:(rewrite EDM; exact HV))
    as (d & EM & B). rewrite EDM in EM. fold dom in EM. clear EDM RDM RT.
  pose proof (new_array3_len dom d HV ltac:(cbn; lia) EM) as LA.
  destruct (file_values3 pl dom0 i t dt u (vts r) HV0 ltac:(lia) ltac:(lia) ltac:(lia) HF HR dom d (params_in s) (create_real_array3 d) HV EM eq_refl eq_refl eq_refl LA) as (c & EC & HC).
  set (a := of3 dom u).
  assert (HA : state_holds 1 (cells3 dom) (P3 dom) [c] a).
  { apply state3; [cbn; lia|]. eapply holds_inside3_ext; [exact HC|]. intros i1 j1 k1 I. unfold at3, a. rewrite of3_slot; [reflexivity|].
    apply inside_padded3; [cbn; lia|exact I]. }
  set (o := options_from_with s rel abs i t dt).
  destruct (options_from_run' s fuel rel abs i t dt SO) as (O2 & O3 & O4 & O5 & O6). fold o in O2, O3, O4, O5, O6.
  destruct (poisson_after_from pl sin cos fuel fs vts other args opts m vm PO s r NE d (s_variant s) (params_in s) o Rk3ssp
    (ran3_with pl s dom d [] (fun dt p => p = dt) (rk3_next (poisson_f dom)) (rk3_slope (poisson_f dom)) o a) "rk3ssp"
    ltac:(discriminate) ltac:(discriminate) A B) as (w0 & w & ST & EW & RN).
  { intros w0 _. unfold run_with. apply run_rk3_ok with (c := c).
    - exact S3.
    - intros. apply scene3_name. lia.
    - apply scene3_monitor; [exact HV|cbn; lia|exact EM].
    - apply scene3_write; [exact HV|cbn; lia|exact EM].
    - apply scene3_idx; [exact HV|cbn; lia|exact EM].
    - exact O2.
    - exact O3.
    - split; assumption.
    - apply poisson_computes; [exact HV|cbn; lia|unfold dom, regrid3; cbn [nhalo nx ny nz]; lia|exact EM].
    - exact LA.
    - exact EC.
    - exact HA.
    - exact O6. }
  exists w. split; [exact EW|].
  assert (OO : story3_with pl s rel abs dom [] (start_messages (template pl vm) r) (t_initial_step o, t_t0 o, t_dt_initial o)
    (fun dt p => p = dt) (ssp3_3 (poisson_rate dom)) (ssp3_rate3 (poisson_rate dom)) u w).
  { eapply (outcome3_with pl s dom d vm r o eq_refl eq_refl ltac:(cbn; lia) HV EM _ (ssp3_3 (poisson_rate dom)) (ssp3_rate3 (poisson_rate dom)));
      [| | |exact ST|exact RN|exact S2].
    - intros t1 dt1 b u1 HB1. apply rk3_fields; auto. intros. apply poisson_fields; auto.
    - intros i1 j1 k1 I. unfold at3, a. rewrite of3_slot; [reflexivity|]. apply inside_padded3; [cbn; lia|exact I].
    - auto. }
  unfold start_messages in OO. rewrite NE in OO. exact OO.
Qed.

Lemma restart_poisson_ode23 (pl : platform R) fuel fs vts other args opts m vm s rel abs bx by_ bz r dom0 i t dt u (tol lo hi : R) :
  parse_options (pl_read pl) (pl_lit pl) (pl_eps100 pl) (pl_max100 pl) fs args opts = Ok (Running m vm) ->
  poisson_asks_from m 3 "ode23" r s rel abs ->
  given m [("time_rel_err_tol", VDouble tol); ("min_time_step_size", VDouble lo); ("max_time_step_size", VDouble hi)] -> r <> "none" ->
  is_file3 pl dom0 i t dt u (vts r) -> readable3 pl dom0 t dt u -> 
  valid_domain3 dom0 -> 2 <= nx dom0 /\ 2 <= ny dom0 /\ 2 <= nz dom0 -> nx dom0 <= 2147483647 /\ ny dom0 <= 2147483647 /\ nz dom0 <= 2147483647 -> (xbeg dom0 < xend dom0)%R ->
  poisson_sound_from s i fuel -> bc_named (s_bc_x s) bx -> bc_named (s_bc_y s) by_ -> bc_named (s_bc_z s) bz ->
  let dom := regrid3 (pl_raw pl) dom0 bx by_ bz in
  exists w, madgicart_all pl sin cos fuel fs vts other args opts = Some (Ok (Finished w)) /\
    story3_with pl s rel abs dom ["time_err"%string] [config_template (pl_showg pl) (pl_lit pl) (pl_eps100 pl) (pl_max100 pl) vm; "Using initial conditions file " ++ r]%string (i, t, dt)
      (within lo hi) (bs_step3 (poisson_rate dom)) (bs_rate3 (poisson_rate dom)) u w.
Proof.
  intros PO A G NR HF HR HV0 H2 HB HX SO BX BY BZ dom.
  assert (NE : String.eqb r "none" = false) by (apply String.eqb_neq; exact NR).
  pose proof SO as (S2 & S3 & S4 & S5).
  assert (HV : valid_domain3 dom) by (unfold valid_domain3 in *; cbn; lia).
  destruct (file_start3 pl dom0 i t dt u (vts r) s bx by_ bz HF HR HV0 H2 HB HX S4) as ((dm & RDM & EDM) & RT).
  destruct (build_poisson_from pl m s bx by_ bz _ _ "ode23" Ode23Integrator r (vts r) dm 3 i t dt BX BY BZ ltac:(reflexivity) A RDM RT ltac:(rewrite EDM; exact HV))
    as (d & EM & B). rewrite EDM in EM. fold dom in EM. clear EDM RDM RT.
  pose proof (new_array3_len dom d HV ltac:(cbn; lia) EM) as LA.
  destruct (file_values3 pl dom0 i t dt u (vts r) HV0 ltac:(lia) ltac:(lia) ltac:(lia) HF HR dom d (params_in s) (create_real_array3 d) HV EM eq_refl eq_refl eq_refl LA) as (c & EC & HC).
  set (a := of3 dom u).
  assert (HA : state_holds 1 (cells3 dom) (P3 dom) [c] a).
  { apply state3; [cbn; lia|]. eapply holds_inside3_ext; [exact HC|]. intros i1 j1 k1 I. unfold at3, a. rewrite of3_slot; [reflexivity|].
    apply inside_padded3; [cbn; lia|exact I]. }
  set (o := options_from_with s rel abs i t dt).
  destruct (options_from_run' s fuel rel abs i t dt SO) as (O2 & O3 & O4 & O5 & O6). fold o in O2, O3, O4, O5, O6.
  destruct (poisson_after_from pl sin cos fuel fs vts other args opts m vm PO s r NE d (s_variant s) (params_in s) o Ode23Integrator
    (ran3_with pl s dom d ["time_err"%string] (clamped lo hi) (bs23 (poisson_f dom)) (slope23 (poisson_f dom)) o a) "ode23"
    ltac:(discriminate) ltac:(discriminate) A B) as (w0 & w & ST & EW & RN).
  { intros w0 _. unfold run_with.
    unfold given in G. repeat (apply Forall_cons_iff in G; let E := fresh "O" in destruct G as (E & G); cbn [fst snd] in E).
    unfold get_double. repeat match goal with H : m ?n = _ |- context [m ?n] => rewrite H; clear H end. cbn [lift].
    apply run_ode23_ok with (c := c).
    - exact S3.
    - intros. apply scene3_name. lia.
    - apply scene3_monitor; [exact HV|cbn; lia|exact EM].
    - apply scene3_write; [exact HV|cbn; lia|exact EM].
    - apply scene3_idx; [exact HV|cbn; lia|exact EM].
    - exact O2.
    - exact O3.
    - split; assumption.
    - apply poisson_computes; [exact HV|cbn; lia|unfold dom, regrid3; cbn [nhalo nx ny nz]; lia|exact EM].
    - reflexivity.
    - exact LA.
    - exact EC.
    - exact HA.
    - exact O6. }
  exists w. split; [exact EW|].
  assert (OO : story3_with pl s rel abs dom ["time_err"%string] (start_messages (template pl vm) r) (t_initial_step o, t_t0 o, t_dt_initial o)
    (within lo hi) (bs_step3 (poisson_rate dom)) (bs_rate3 (poisson_rate dom)) u w).
  { eapply (outcome3_with pl s dom d vm r o eq_refl eq_refl ltac:(cbn; lia) HV EM _ (bs_step3 (poisson_rate dom)) (bs_rate3 (poisson_rate dom)));
      [| | |exact ST|exact RN|exact S2].
    - intros t1 dt1 b u1 HB1. apply bs_fields; auto. intros. apply poisson_fields; auto.
    - intros i1 j1 k1 I. unfold at3, a. rewrite of3_slot; [reflexivity|]. apply inside_padded3; [cbn; lia|exact I].
    - apply clamped_within. }
  unfold start_messages in OO. rewrite NE in OO. exact OO.
Qed.
