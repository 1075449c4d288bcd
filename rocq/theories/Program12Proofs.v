(** Runs of the whole program that may end early, because the residual is within a
    tolerance: restarts. *)
From Coq Require Import String Reals Lra.
From Verif Require Import ModelLogger ModelOptions Outcome ZList ZListProofs Num Gather ModelIndex ModelInt32 ModelDisc3D ModelDisc2D ModelCH ModelObs
  ModelTime ModelRun ModelMon ModelVTK ModelMain ModelProgram SpecGrid SpecField SpecTime SpecVTK SpecRestart SpecMon SpecProgram Disc3DProofs Make3Proofs
  Disc2DProofs Make2Proofs BC3Proofs CHProofs VTK2Proofs VTKFinal SumProofs FieldProofs Time2Proofs Step1Proofs Mon1Proofs Mon3Proofs Mon4Proofs MonFinal
  RestartProofs RestartFinal ProgramProofs Program2Proofs Program3Proofs Program4Proofs Program5Proofs Program6Proofs Program7Proofs Program8Proofs Program9Proofs Program11Proofs.
From Coq Require Import Lia ZifyBool ZifyNat List.
Local Open Scope string_scope.
Local Open Scope list_scope.
Local Open Scope Z_scope.

Lemma restart3_rk3_with (pl : platform R) fuel fs vts other args opts m vm s rel abs bx by_ bz r dom0 i t dt u :
  parse_options (pl_read pl) (pl_lit pl) (pl_eps100 pl) (pl_max100 pl) fs args opts = Ok (Running m vm) ->
  asks_with m 3 "rk3ssp" r s rel abs -> r <> "none" ->
  is_file3 pl dom0 i t dt u (vts r) -> readable3 pl dom0 t dt u -> 
  valid_domain3 dom0 -> 2 <= nx dom0 /\ 2 <= ny dom0 /\ 2 <= nz dom0 -> nx dom0 <= 2147483647 /\ ny dom0 <= 2147483647 /\ nz dom0 <= 2147483647 -> (xbeg dom0 < xend dom0)%R ->
  sound_from s i fuel -> bc_named (s_bc_x s) bx -> bc_named (s_bc_y s) by_ -> bc_named (s_bc_z s) bz ->
  let dom := regrid3 (pl_raw pl) dom0 bx by_ bz in
  exists w, madgicart pl fuel fs vts other args opts = Some (Ok (Finished w)) /\
    story3_with pl s rel abs dom [] [config_template (pl_showg pl) (pl_lit pl) (pl_eps100 pl) (pl_max100 pl) vm; "Using initial conditions file " ++ r]%string (i, t, dt)
      (fun dt p => p = dt) (ssp3_3 (ch_rate3 dom s)) (ssp3_rate3 (ch_rate3 dom s)) u w.
Proof.
  intros PO A NR HF HR HV0 H2 HB HX SO BX BY BZ dom.
  assert (NE : String.eqb r "none" = false) by (apply String.eqb_neq; exact NR).
  pose proof SO as (S1 & S2 & S3 & S4 & S5).
  assert (HV : valid_domain3 dom) by (unfold valid_domain3 in *; cbn; lia).
  assert (RD : exists dm, read_domain (pl_read pl) (vts r) (pl_raw pl) = Ok (dm, 3) /\ with_bcs dm bx by_ bz = dom).
  { destruct HF as (d0 & c & EM & HC & EW). destruct HR as (VP & _).
    destruct (make3_inv dom0 d0 HV0 EM) as (W & ED).
    assert (EX : d3_dx d0 = cell_size dom0) by (rewrite (wf_dx _ W), ED; reflexivity). rewrite <- EX in VP.
    destruct (pf_C55_domain_3d (pl_show pl) (pl_show6 pl) (pl_read pl) dom0 (pl_raw pl) d0 {| fs_iter := i; fs_time := t; fs_dt := dt |} c u)
      as (doc & EW' & RD); auto; try apply HB.
    rewrite EW in EW'. injection EW' as <-. eexists. split; [exact RD|]. reflexivity. }
  destruct RD as (dm & RD & EDM).
  pose proof (file_time3 pl dom0 i t dt u (vts r) HF HR ltac:(lia) {| rs_t0 := s_t0 s; rs_step := 0; rs_dt := s_dt s |}) as RT.
  destruct (build3_from pl m s bx by_ bz BX BY BZ "rk3ssp" Rk3ssp r (vts r) dm 3 i t dt ltac:(reflexivity) A S1 RD RT ltac:(rewrite EDM; exact HV))
    as (d & EM & B). rewrite EDM in EM.
  pose proof (new_array3_len dom d HV ltac:(cbn; lia) EM) as LA.
  destruct (file_values3 pl dom0 i t dt u (vts r) HV0 ltac:(lia) ltac:(lia) ltac:(lia) HF HR dom d (params_in s) (create_real_array3 d) HV EM eq_refl eq_refl eq_refl LA) as (c1 & EC & HC).
  assert (HA : state_holds 1 (cells3 dom) (P3 dom) [c1] (of3 dom u)).
  { apply state3; [cbn; lia|]. eapply holds_inside3_ext; [exact HC|]. intros i1 j1 k1 I. unfold at3. rewrite of3_slot; [reflexivity|].
    apply inside_padded3; [cbn; lia|exact I]. }
  destruct (whole3_rk3_with pl fuel fs vts other args opts m vm PO s r ltac:(lia) S3 dom d FromFile (s_variant s) (params_in s) (options_from_with s rel abs i t dt) c1 (of3 dom u) A)
    as (w0 & w & ST & EW & RN).
  { rewrite NE. exact B. }
  { exact HV. }
  { cbn; lia. }
  { unfold dom, regrid3. cbn [nhalo nx ny nz]. lia. }
  { exact EM. }
  { exact S1. }
  { apply options_from_run; exact SO. }
  { rewrite NE. exact EC. }
  { exact HA. }
  exists w. split; [exact EW|].
  destruct (make3_inv dom d HV EM) as (W & ED).
  assert (EX : d3_dx d = spacing dom) by (rewrite (wf_dx _ W), ED; reflexivity).
  assert (OO : story3_with pl s rel abs dom [] (start_messages (template pl vm) r) (t_initial_step (options_from_with s rel abs i t dt), t_t0 (options_from_with s rel abs i t dt), t_dt_initial (options_from_with s rel abs i t dt))
    (fun dt p => p = dt) (ssp3_3 (ch_rate3 dom s)) (ssp3_rate3 (ch_rate3 dom s)) u w).
  { eapply (outcome3_with pl s dom d vm r (options_from_with s rel abs i t dt) eq_refl eq_refl ltac:(cbn; lia) HV EM _ (ssp3_3 (ch_rate3 dom s)) (ssp3_rate3 (ch_rate3 dom s))); [| | |exact ST|exact RN|exact S2].
    - intros t1 dt1 a u1 HA1. rewrite EX. apply rk3_agree3; auto.
    - intros i1 j1 k1 I. unfold at3. rewrite of3_slot; [reflexivity|]. apply inside_padded3; [cbn; lia|exact I].
    - auto. }
  unfold start_messages in OO. rewrite NE in OO. exact OO.
Qed.

Lemma restart3_ode23_with (pl : platform R) fuel fs vts other args opts m vm s rel abs bx by_ bz r dom0 i t dt u tol lo hi :
  parse_options (pl_read pl) (pl_lit pl) (pl_eps100 pl) (pl_max100 pl) fs args opts = Ok (Running m vm) ->
  asks_with m 3 "ode23" r s rel abs -> given m [("time_rel_err_tol", VDouble tol); ("min_time_step_size", VDouble lo); ("max_time_step_size", VDouble hi)] ->
  r <> "none" ->
  is_file3 pl dom0 i t dt u (vts r) -> readable3 pl dom0 t dt u -> 
  valid_domain3 dom0 -> 2 <= nx dom0 /\ 2 <= ny dom0 /\ 2 <= nz dom0 -> nx dom0 <= 2147483647 /\ ny dom0 <= 2147483647 /\ nz dom0 <= 2147483647 -> (xbeg dom0 < xend dom0)%R ->
  sound_from s i fuel -> bc_named (s_bc_x s) bx -> bc_named (s_bc_y s) by_ -> bc_named (s_bc_z s) bz ->
  let dom := regrid3 (pl_raw pl) dom0 bx by_ bz in
  exists w, madgicart pl fuel fs vts other args opts = Some (Ok (Finished w)) /\
    story3_with pl s rel abs dom ["time_err"%string] [config_template (pl_showg pl) (pl_lit pl) (pl_eps100 pl) (pl_max100 pl) vm; "Using initial conditions file " ++ r]%string (i, t, dt)
      (within lo hi) (bs_step3 (ch_rate3 dom s)) (bs_rate3 (ch_rate3 dom s)) u w.
Proof.
  intros PO A G NR HF HR HV0 H2 HB HX SO BX BY BZ dom.
  assert (NE : String.eqb r "none" = false) by (apply String.eqb_neq; exact NR).
  pose proof SO as (S1 & S2 & S3 & S4 & S5).
  assert (HV : valid_domain3 dom) by (unfold valid_domain3 in *; cbn; lia).
  assert (RD : exists dm, read_domain (pl_read pl) (vts r) (pl_raw pl) = Ok (dm, 3) /\ with_bcs dm bx by_ bz = dom).
  { destruct HF as (d0 & c & EM & HC & EW). destruct HR as (VP & _).
    destruct (make3_inv dom0 d0 HV0 EM) as (W & ED).
    assert (EX : d3_dx d0 = cell_size dom0) by (rewrite (wf_dx _ W), ED; reflexivity). rewrite <- EX in VP.
    destruct (pf_C55_domain_3d (pl_show pl) (pl_show6 pl) (pl_read pl) dom0 (pl_raw pl) d0 {| fs_iter := i; fs_time := t; fs_dt := dt |} c u)
      as (doc & EW' & RD); auto; try apply HB.
    rewrite EW in EW'. injection EW' as <-. eexists. split; [exact RD|]. reflexivity. }
  destruct RD as (dm & RD & EDM).
  pose proof (file_time3 pl dom0 i t dt u (vts r) HF HR ltac:(lia) {| rs_t0 := s_t0 s; rs_step := 0; rs_dt := s_dt s |}) as RT.
  destruct (build3_from pl m s bx by_ bz BX BY BZ "ode23" Ode23Integrator r (vts r) dm 3 i t dt ltac:(reflexivity) A S1 RD RT ltac:(rewrite EDM; exact HV))
    as (d & EM & B). rewrite EDM in EM.
  pose proof (new_array3_len dom d HV ltac:(cbn; lia) EM) as LA.
  destruct (file_values3 pl dom0 i t dt u (vts r) HV0 ltac:(lia) ltac:(lia) ltac:(lia) HF HR dom d (params_in s) (create_real_array3 d) HV EM eq_refl eq_refl eq_refl LA) as (c1 & EC & HC).
  assert (HA : state_holds 1 (cells3 dom) (P3 dom) [c1] (of3 dom u)).
  { apply state3; [cbn; lia|]. eapply holds_inside3_ext; [exact HC|]. intros i1 j1 k1 I. unfold at3. rewrite of3_slot; [reflexivity|].
    apply inside_padded3; [cbn; lia|exact I]. }
  destruct (whole3_ode23_with pl fuel fs vts other args opts m vm PO s r ltac:(lia) S3 dom d FromFile (s_variant s) (params_in s) (options_from_with s rel abs i t dt) c1 (of3 dom u) tol lo hi A G)
    as (w0 & w & ST & EW & RN).
  { rewrite NE. exact B. }
  { exact HV. }
  { cbn; lia. }
  { unfold dom, regrid3. cbn [nhalo nx ny nz]. lia. }
  { exact EM. }
  { exact S1. }
  { apply options_from_run; exact SO. }
  { rewrite NE. exact EC. }
  { exact HA. }
  exists w. split; [exact EW|].
  destruct (make3_inv dom d HV EM) as (W & ED).
  assert (EX : d3_dx d = spacing dom) by (rewrite (wf_dx _ W), ED; reflexivity).
  assert (OO : story3_with pl s rel abs dom ["time_err"%string] (start_messages (template pl vm) r) (t_initial_step (options_from_with s rel abs i t dt), t_t0 (options_from_with s rel abs i t dt), t_dt_initial (options_from_with s rel abs i t dt))
    (within lo hi) (bs_step3 (ch_rate3 dom s)) (bs_rate3 (ch_rate3 dom s)) u w).
  { eapply (outcome3_with pl s dom d vm r (options_from_with s rel abs i t dt) eq_refl eq_refl ltac:(cbn; lia) HV EM _ (bs_step3 (ch_rate3 dom s)) (bs_rate3 (ch_rate3 dom s))); [| | |exact ST|exact RN|exact S2].
    - intros t1 dt1 a u1 HA1. rewrite EX. apply bs_agree3; auto.
    - intros i1 j1 k1 I. unfold at3. rewrite of3_slot; [reflexivity|]. apply inside_padded3; [cbn; lia|exact I].
    - apply clamped_within. }
  unfold start_messages in OO. rewrite NE in OO. exact OO.
Qed.

Lemma restart2_rk3_with (pl : platform R) fuel fs vts other args opts m vm s rel abs bx by_ bz r dom0 i t dt u :
  parse_options (pl_read pl) (pl_lit pl) (pl_eps100 pl) (pl_max100 pl) fs args opts = Ok (Running m vm) ->
  asks_with m 2 "rk3ssp" r s rel abs -> r <> "none" ->
  is_file2 pl dom0 i t dt u (vts r) -> readable2 pl dom0 t dt u -> pl_read pl "0.0" = Ok 0%R ->
  valid_domain2 dom0 -> 2 <= nx dom0 -> nx dom0 <= 2147483647 -> (xbeg dom0 < xend dom0)%R ->
  sound_from s i fuel -> bc_named (s_bc_x s) bx -> bc_named (s_bc_y s) by_ -> bc_named (s_bc_z s) bz ->
  let dom := regrid2 (pl_raw pl) dom0 bx by_ bz in
  exists w, madgicart pl fuel fs vts other args opts = Some (Ok (Finished w)) /\
    story2_with pl s rel abs dom [] [config_template (pl_showg pl) (pl_lit pl) (pl_eps100 pl) (pl_max100 pl) vm; "Using initial conditions file " ++ r]%string (i, t, dt)
      (fun dt p => p = dt) (ssp3_2 (ch_rate2 dom s)) (ssp3_rate2 (ch_rate2 dom s)) u w.
Proof.
  intros PO A NR HF HR RZ HV0 H2 HB HX SO BX BY BZ dom.
  assert (NE : String.eqb r "none" = false) by (apply String.eqb_neq; exact NR).
  pose proof SO as (S1 & S2 & S3 & S4 & S5).
  assert (HV : valid_domain2 dom) by (unfold valid_domain2 in *; cbn; lia).
  assert (RD : exists dm, read_domain (pl_read pl) (vts r) (pl_raw pl) = Ok (dm, 2) /\ with_bcs dm bx by_ bz = dom).
  { destruct HF as (d0 & c & EM & HC & EW). destruct HR as (VP & _).
    destruct (make2_inv dom0 d0 HV0 EM) as (W & ED).
    assert (EX : d2_dx d0 = cell_size dom0) by (rewrite (wf2_dx _ W), ED; reflexivity). rewrite <- EX in VP.
    destruct (pf_C55_domain_2d (pl_show pl) (pl_show6 pl) (pl_read pl) dom0 (pl_raw pl) d0 {| fs_iter := i; fs_time := t; fs_dt := dt |} c u)
      as (doc & EW' & RD); auto; try apply HB.
    rewrite EW in EW'. injection EW' as <-. eexists. split; [exact RD|]. reflexivity. }
  destruct RD as (dm & RD & EDM).
  pose proof (file_time2 pl dom0 i t dt u (vts r) HF HR ltac:(lia) {| rs_t0 := s_t0 s; rs_step := 0; rs_dt := s_dt s |}) as RT.
  destruct (build2_from pl m s bx by_ bz BX BY BZ "rk3ssp" Rk3ssp r (vts r) dm 2 i t dt ltac:(reflexivity) A RD RT ltac:(rewrite EDM; exact HV))
    as (d & EM & B). rewrite EDM in EM.
  pose proof (new_array2_len dom d HV ltac:(cbn; lia) EM) as LA.
  destruct (file_values2 pl dom0 i t dt u (vts r) HV0 ltac:(lia) 0%R RZ HF HR dom d (params_in s) (create_real_array2 d) HV EM eq_refl LA) as (c1 & EC & HC).
  assert (HA : state_holds 1 (cells2 dom) (P2 dom) [c1] (of2 dom u)).
  { apply state2; [cbn; lia|]. eapply holds_inside2_ext; [exact HC|]. intros i1 j1 I. unfold at2. rewrite of2_slot; [reflexivity|].
    apply inside_padded2; [cbn; lia|exact I]. }
  destruct (whole2_rk3_with pl fuel fs vts other args opts m vm PO s r ltac:(lia) S3 dom d FromFile (s_variant s) (params_in s) (options_from_with s rel abs i t dt) c1 (of2 dom u) A)
    as (w0 & w & ST & EW & RN).
  { rewrite NE. exact B. }
  { exact HV. }
  { cbn; lia. }
  { unfold dom, regrid2. cbn [nhalo nx ny nz]. lia. }
  { exact EM. }
  { apply options_from_run; exact SO. }
  { rewrite NE. exact EC. }
  { exact HA. }
  exists w. split; [exact EW|].
  destruct (make2_inv dom d HV EM) as (W & ED).
  assert (EX : d2_dx d = spacing dom) by (rewrite (wf2_dx _ W), ED; reflexivity).
  assert (OO : story2_with pl s rel abs dom [] (start_messages (template pl vm) r) (t_initial_step (options_from_with s rel abs i t dt), t_t0 (options_from_with s rel abs i t dt), t_dt_initial (options_from_with s rel abs i t dt))
    (fun dt p => p = dt) (ssp3_2 (ch_rate2 dom s)) (ssp3_rate2 (ch_rate2 dom s)) u w).
  { eapply (outcome2_with pl s dom d vm r (options_from_with s rel abs i t dt) eq_refl eq_refl ltac:(cbn; lia) HV EM ltac:(cbn; lia) _ (ssp3_2 (ch_rate2 dom s)) (ssp3_rate2 (ch_rate2 dom s))); [| | |exact ST|exact RN|exact S2].
    - intros t1 dt1 a u1 HA1. rewrite EX. apply rk3_agree2; auto.
    - intros i1 j1 I. unfold at2. rewrite of2_slot; [reflexivity|]. apply inside_padded2; [cbn; lia|exact I].
    - auto. }
  unfold start_messages in OO. rewrite NE in OO. exact OO.
Qed.

Lemma restart2_ode23_with (pl : platform R) fuel fs vts other args opts m vm s rel abs bx by_ bz r dom0 i t dt u tol lo hi :
  parse_options (pl_read pl) (pl_lit pl) (pl_eps100 pl) (pl_max100 pl) fs args opts = Ok (Running m vm) ->
  asks_with m 2 "ode23" r s rel abs -> given m [("time_rel_err_tol", VDouble tol); ("min_time_step_size", VDouble lo); ("max_time_step_size", VDouble hi)] ->
  r <> "none" ->
  is_file2 pl dom0 i t dt u (vts r) -> readable2 pl dom0 t dt u -> pl_read pl "0.0" = Ok 0%R ->
  valid_domain2 dom0 -> 2 <= nx dom0 -> nx dom0 <= 2147483647 -> (xbeg dom0 < xend dom0)%R ->
  sound_from s i fuel -> bc_named (s_bc_x s) bx -> bc_named (s_bc_y s) by_ -> bc_named (s_bc_z s) bz ->
  let dom := regrid2 (pl_raw pl) dom0 bx by_ bz in
  exists w, madgicart pl fuel fs vts other args opts = Some (Ok (Finished w)) /\
    story2_with pl s rel abs dom ["time_err"%string] [config_template (pl_showg pl) (pl_lit pl) (pl_eps100 pl) (pl_max100 pl) vm; "Using initial conditions file " ++ r]%string (i, t, dt)
      (within lo hi) (bs_step2 (ch_rate2 dom s)) (bs_rate2 (ch_rate2 dom s)) u w.
Proof.
  intros PO A G NR HF HR RZ HV0 H2 HB HX SO BX BY BZ dom.
  assert (NE : String.eqb r "none" = false) by (apply String.eqb_neq; exact NR).
  pose proof SO as (S1 & S2 & S3 & S4 & S5).
  assert (HV : valid_domain2 dom) by (unfold valid_domain2 in *; cbn; lia).
  assert (RD : exists dm, read_domain (pl_read pl) (vts r) (pl_raw pl) = Ok (dm, 2) /\ with_bcs dm bx by_ bz = dom).
  { destruct HF as (d0 & c & EM & HC & EW). destruct HR as (VP & _).
    destruct (make2_inv dom0 d0 HV0 EM) as (W & ED).
    assert (EX : d2_dx d0 = cell_size dom0) by (rewrite (wf2_dx _ W), ED; reflexivity). rewrite <- EX in VP.
    destruct (pf_C55_domain_2d (pl_show pl) (pl_show6 pl) (pl_read pl) dom0 (pl_raw pl) d0 {| fs_iter := i; fs_time := t; fs_dt := dt |} c u)
      as (doc & EW' & RD); auto; try apply HB.
    rewrite EW in EW'. injection EW' as <-. eexists. split; [exact RD|]. reflexivity. }
  destruct RD as (dm & RD & EDM).
  pose proof (file_time2 pl dom0 i t dt u (vts r) HF HR ltac:(lia) {| rs_t0 := s_t0 s; rs_step := 0; rs_dt := s_dt s |}) as RT.
  destruct (build2_from pl m s bx by_ bz BX BY BZ "ode23" Ode23Integrator r (vts r) dm 2 i t dt ltac:(reflexivity) A RD RT ltac:(rewrite EDM; exact HV))
    as (d & EM & B). rewrite EDM in EM.
  pose proof (new_array2_len dom d HV ltac:(cbn; lia) EM) as LA.
  destruct (file_values2 pl dom0 i t dt u (vts r) HV0 ltac:(lia) 0%R RZ HF HR dom d (params_in s) (create_real_array2 d) HV EM eq_refl LA) as (c1 & EC & HC).
  assert (HA : state_holds 1 (cells2 dom) (P2 dom) [c1] (of2 dom u)).
  { apply state2; [cbn; lia|]. eapply holds_inside2_ext; [exact HC|]. intros i1 j1 I. unfold at2. rewrite of2_slot; [reflexivity|].
    apply inside_padded2; [cbn; lia|exact I]. }
  destruct (whole2_ode23_with pl fuel fs vts other args opts m vm PO s r ltac:(lia) S3 dom d FromFile (s_variant s) (params_in s) (options_from_with s rel abs i t dt) c1 (of2 dom u) tol lo hi A G)
    as (w0 & w & ST & EW & RN).
  { rewrite NE. exact B. }
  { exact HV. }
  { cbn; lia. }
  { unfold dom, regrid2. cbn [nhalo nx ny nz]. lia. }
  { exact EM. }
  { apply options_from_run; exact SO. }
  { rewrite NE. exact EC. }
  { exact HA. }
  exists w. split; [exact EW|].
  destruct (make2_inv dom d HV EM) as (W & ED).
  assert (EX : d2_dx d = spacing dom) by (rewrite (wf2_dx _ W), ED; reflexivity).
  assert (OO : story2_with pl s rel abs dom ["time_err"%string] (start_messages (template pl vm) r) (t_initial_step (options_from_with s rel abs i t dt), t_t0 (options_from_with s rel abs i t dt), t_dt_initial (options_from_with s rel abs i t dt))
    (within lo hi) (bs_step2 (ch_rate2 dom s)) (bs_rate2 (ch_rate2 dom s)) u w).
  { eapply (outcome2_with pl s dom d vm r (options_from_with s rel abs i t dt) eq_refl eq_refl ltac:(cbn; lia) HV EM ltac:(cbn; lia) _ (bs_step2 (ch_rate2 dom s)) (bs_rate2 (ch_rate2 dom s))); [| | |exact ST|exact RN|exact S2].
    - intros t1 dt1 a u1 HA1. rewrite EX. apply bs_agree2; auto.
    - intros i1 j1 I. unfold at2. rewrite of2_slot; [reflexivity|]. apply inside_padded2; [cbn; lia|exact I].
    - apply clamped_within. }
  unfold start_messages in OO. rewrite NE in OO. exact OO.
Qed.
