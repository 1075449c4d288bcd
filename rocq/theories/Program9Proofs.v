(** Restarted runs of the whole program. *)
From Coq Require Import String Reals Lra.
From Verif Require Import ModelLogger ModelOptions Outcome ZList ZListProofs Num Gather ModelIndex ModelInt32 ModelDisc3D ModelDisc2D ModelCH ModelObs
  ModelTime ModelRun ModelMon ModelVTK ModelMain ModelProgram SpecGrid SpecField SpecTime SpecVTK SpecRestart SpecMon SpecProgram Disc3DProofs Make3Proofs
  Disc2DProofs Make2Proofs BC3Proofs CHProofs VTK2Proofs VTKFinal SumProofs FieldProofs Time2Proofs Step1Proofs Mon1Proofs Mon3Proofs Mon4Proofs MonFinal
  RestartProofs RestartFinal ProgramProofs Program2Proofs Program3Proofs Program4Proofs Program5Proofs Program6Proofs Program7Proofs Program8Proofs.
From Coq Require Import Lia ZifyBool ZifyNat List.
Local Open Scope string_scope.
Local Open Scope list_scope.
Local Open Scope Z_scope.

(** The grid from a description read in a file. *)
Definition with_bcs {V} (dm : domain V) (bx by_ bz : bctype) : domain V :=
  {| nx := nx dm; ny := ny dm; nz := nz dm; xbeg := xbeg dm; xend := xend dm; ybeg := ybeg dm; yend := yend dm;
     zbeg := zbeg dm; zend := zend dm; xbc := bx; ybc := by_; zbc := bz; nhalo := 2 |}.

Section BuildFrom.
  Context {V : Type} `{N : Num V} (pl : platform V) (m : members V) (s : settings V) (bx by_ bz : bctype).
  Hypothesis BX : bc_named (s_bc_x s) bx.
  Hypothesis BY : bc_named (s_bc_y s) by_.
  Hypothesis BZ : bc_named (s_bc_z s) bz.

  Ltac reads H := unfold given in H; repeat (apply Forall_cons_iff in H; let E := fresh "O" in destruct H as (E & H); cbn [fst snd] in E); clear H.

  Lemma config_from {rel abs} dim ti r : asks_with m dim ti r s rel abs ->
    config_of m false = Ok {| c_dimension := dim; c_nx := s_nx s; c_ny := s_ny s; c_nz := s_nz s;
      c_xbeg := s_xbeg s; c_xend := s_xend s; c_ybeg := s_ybeg s; c_yend := s_ybeg s;
      c_zbeg := s_zbeg s; c_zend := s_zbeg s; c_bc_x := s_bc_x s; c_bc_y := s_bc_y s; c_bc_z := s_bc_z s;
      c_equation := "cahn-hilliard"; c_integrator := ti |}.
  Proof.
    intros A. unfold asks_with, asked_with in A. reads A. unfold config_of. unfold get_int, get_double, get_string.
    repeat match goal with H : m ?n = _ |- context [m ?n] => rewrite H; clear H end. reflexivity.
  Qed.

  Definition options_from_with (rel abs : V) (i : Z) (t dt : V) : time_options V := resumed (options_with s rel abs) {| rs_t0 := t; rs_step := i; rs_dt := dt |}.
  Definition options_from (i : Z) (t dt : V) : time_options V := resumed (options_of s) {| rs_t0 := t; rs_step := i; rs_dt := dt |}.

  Lemma options_from_run fuel rel abs i t dt : sound_from s i fuel -> options_run fuel (options_from_with rel abs i t dt).
  Proof.
    intros (S1 & S2 & S3 & S4 & S5). unfold options_run, options_from_with, resumed. cbn [options_with t_use_cfl t_initial_step t_max_steps rs_step].
    replace (int_of_unsigned (s_max_steps s)) with (s_max_steps s) by (unfold int_of_unsigned, int_max; replace (s_max_steps s <=? 2147483647) with true by lia; reflexivity).
    split; [reflexivity|]. unfold INT_MAX. lia.
  Qed.

  Lemma options_from_fit fuel i t dt : sound_from s i fuel -> neqb (nint 0 : V) (nint 0) = true -> options_fit fuel (options_from i t dt).
  Proof. intros H Z0. split; [split; exact Z0|]. exact (options_from_run fuel (nint 0) (nint 0) i t dt H). Qed.

  Lemma build3_from {rel abs} ti f r doc dm n i t dt : reg_lookup integrators ti = Ok f -> asks_with m 3 ti r s rel abs -> 0 <= s_variant s <= 2 ->
    read_domain (pl_read pl) doc (pl_raw pl) = Ok (dm, n) ->
    set_initial_time_step (pl_read pl) doc {| rs_t0 := s_t0 s; rs_step := 0; rs_dt := s_dt s |} = Ok {| rs_t0 := t; rs_step := i; rs_dt := dt |} ->
    valid_domain3 (with_bcs dm bx by_ bz) ->
    exists d, make3 (with_bcs dm bx by_ bz) = Ok d /\
      build pl m (Some doc) = Ok (CahnHilliard3 d, FromFile, s_variant s, params_in s, options_from_with rel abs i t dt, f).
  Proof.
    intros RL A VR RD RT HV.
    destruct (make3_ok (with_bcs dm bx by_ bz) HV) as (d & E & _).
    exists d. split; [exact E|]. unfold build. rewrite RD. cbn [rbind]. rewrite (config_from 3 ti r A). cbn [rbind].
    unfold geom_factory, geom_domain. cbn [c_bc_x c_bc_y c_bc_z].
    rewrite (proj2 (parse_bc_spec _ _) BX), (proj2 (parse_bc_spec _ _) BY), (proj2 (parse_bc_spec _ _) BZ). cbn [rbind].
    cbn [c_dimension Z.eqb Pos.eqb].
    change ({| nx := nx dm; ny := ny dm; nz := nz dm; xbeg := xbeg dm; xend := xend dm;
      ybeg := ybeg dm; yend := yend dm; zbeg := zbeg dm; zend := zend dm; xbc := bx; ybc := by_; zbc := bz; nhalo := 2 |})
      with (with_bcs dm bx by_ bz).
    rewrite E. cbn [rbind]. unfold rhs_factory, initial_factory, integrator_factory.
    cbn [c_equation c_dimension c_integrator Z.eqb Pos.eqb].
    change (String.eqb "cahn-hilliard" "cahn-hilliard") with true. cbn [rbind].
    unfold check_variant. rewrite (variant_ok m s 3 ti r A). cbn [rbind].
    replace ((0 <=? s_variant s) && (s_variant s <=? 2)) with true by lia. cbn [rbind].
    rewrite (params_ok m s 3 ti r A), (time_ok m s 3 ti r A). cbn [rbind time_options_for].
    change {| rs_t0 := t_t0 (options_with s rel abs); rs_step := t_initial_step (options_with s rel abs); rs_dt := t_dt_initial (options_with s rel abs) |}
      with {| rs_t0 := s_t0 s; rs_step := 0; rs_dt := s_dt s |}.
    rewrite RT. cbn [rbind]. rewrite RL. reflexivity.
  Qed.

  Lemma build2_from {rel abs} ti f r doc dm n i t dt : reg_lookup integrators ti = Ok f -> asks_with m 2 ti r s rel abs -> 
    read_domain (pl_read pl) doc (pl_raw pl) = Ok (dm, n) ->
    set_initial_time_step (pl_read pl) doc {| rs_t0 := s_t0 s; rs_step := 0; rs_dt := s_dt s |} = Ok {| rs_t0 := t; rs_step := i; rs_dt := dt |} ->
    valid_domain2 (with_bcs dm bx by_ bz) ->
    exists d, make2 (with_bcs dm bx by_ bz) = Ok d /\
      build pl m (Some doc) = Ok (CahnHilliard2 d, FromFile, s_variant s, params_in s, options_from_with rel abs i t dt, f).
  Proof.
    intros RL A RD RT HV.
    destruct (make2_ok (with_bcs dm bx by_ bz) HV) as (d & E & _).
    exists d. split; [exact E|]. unfold build. rewrite RD. cbn [rbind]. rewrite (config_from 2 ti r A). cbn [rbind].
    unfold geom_factory, geom_domain. cbn [c_bc_x c_bc_y c_bc_z].
    rewrite (proj2 (parse_bc_spec _ _) BX), (proj2 (parse_bc_spec _ _) BY), (proj2 (parse_bc_spec _ _) BZ). cbn [rbind].
    cbn [c_dimension Z.eqb Pos.eqb].
    change ({| nx := nx dm; ny := ny dm; nz := nz dm; xbeg := xbeg dm; xend := xend dm;
      ybeg := ybeg dm; yend := yend dm; zbeg := zbeg dm; zend := zend dm; xbc := bx; ybc := by_; zbc := bz; nhalo := 2 |})
      with (with_bcs dm bx by_ bz).
    rewrite E. cbn [rbind]. unfold rhs_factory, initial_factory, integrator_factory.
    cbn [c_equation c_dimension c_integrator Z.eqb Pos.eqb].
    change (String.eqb "cahn-hilliard" "cahn-hilliard") with true. cbn [rbind].
    unfold check_variant. rewrite (variant_ok m s 2 ti r A). cbn [rbind].
    rewrite (params_ok m s 2 ti r A), (time_ok m s 2 ti r A). cbn [rbind time_options_for].
    change {| rs_t0 := t_t0 (options_with s rel abs); rs_step := t_initial_step (options_with s rel abs); rs_dt := t_dt_initial (options_with s rel abs) |}
      with {| rs_t0 := s_t0 s; rs_step := 0; rs_dt := s_dt s |}.
    rewrite RT. cbn [rbind]. rewrite RL. reflexivity.
  Qed.
End BuildFrom.

(** What is read from a solution file. *)
Section Loaded3.
  Context {V : Type} `{N : Num V} (pl : platform V) (dom0 : domain V) (i : Z) (t dt : V) (u : Z -> Z -> Z -> V) (doc : list xml).
  Hypothesis HV : valid_domain3 dom0.
  Hypothesis HX : nx dom0 <= 2147483647.
  Hypothesis HY : ny dom0 <= 2147483647.
  Hypothesis HZ : nz dom0 <= 2147483647.
  Hypothesis HF : is_file3 pl dom0 i t dt u doc.
  Hypothesis HR : readable3 pl dom0 t dt u.
  Hypothesis HI : 0 <= i <= 2147483647.

  Lemma file_time3 r : set_initial_time_step (pl_read pl) doc r = Ok {| rs_t0 := t; rs_step := i; rs_dt := dt |}.
  Proof.
    destruct HF as (d & c & EM & HC & EW). destruct HR as (_ & _ & (T1 & T2) & (D1 & D2)).
    exact (pf_C55_restart V N (pl_show pl) (pl_show6 pl) (pl_read pl) {| fs_iter := i; fs_time := t; fs_dt := dt |} t dt r doc HI T1 T2 D1 D2
      (or_introl (ex_intro _ d (ex_intro _ c EW)))).
  Qed.

  Lemma file_values3 dom d p c0 : valid_domain3 dom -> make3 dom = Ok d -> nx dom = nx dom0 -> ny dom = ny dom0 -> nz dom = nz dom0 -> zlen c0 = cells3 dom ->
    exists c1, initial_values3 pl FromFile (Some doc) p d c0 = Ok c1 /\ holds_inside3 dom c1 u.
  Proof.
    intros HV' EM' E1 E2 E3 L. destruct HF as (d0 & c & EM & HC & EW). destruct HR as (VP & UP & _).
    destruct (make3_inv dom0 d0 HV EM) as (W & ED).
    assert (EX : d3_dx d0 = cell_size dom0) by (rewrite (wf_dx _ W), ED; reflexivity). rewrite <- EX in VP.
    destruct (pf_C55_round_trip_3d V N (pl_show pl) (pl_show6 pl) (pl_read pl) dom0 dom d0 d {| fs_iter := i; fs_time := t; fs_dt := dt |} c c0 u (pl_raw pl))
      as (doc' & EW' & (c1 & ES & HH & _) & _); auto.
    rewrite EW in EW'. injection EW' as <-. exists c1. split; [|exact HH]. unfold initial_values3. rewrite ES. reflexivity.
  Qed.
End Loaded3.

(** What is read from a solution file. *)
Section Loaded2.
  Context {V : Type} `{N : Num V} (pl : platform V) (dom0 : domain V) (i : Z) (t dt : V) (u : Z -> Z -> V) (doc : list xml).
  Hypothesis HV : valid_domain2 dom0.
  Hypothesis HX : nx dom0 <= 2147483647.
  Variable zero : V.
  Hypothesis RZ : pl_read pl "0.0" = Ok zero.
  Hypothesis HF : is_file2 pl dom0 i t dt u doc.
  Hypothesis HR : readable2 pl dom0 t dt u.
  Hypothesis HI : 0 <= i <= 2147483647.

  Lemma file_time2 r : set_initial_time_step (pl_read pl) doc r = Ok {| rs_t0 := t; rs_step := i; rs_dt := dt |}.
  Proof.
    destruct HF as (d & c & EM & HC & EW). destruct HR as (_ & _ & (T1 & T2) & (D1 & D2)).
    exact (pf_C55_restart V N (pl_show pl) (pl_show6 pl) (pl_read pl) {| fs_iter := i; fs_time := t; fs_dt := dt |} t dt r doc HI T1 T2 D1 D2
      (or_intror (ex_intro _ d (ex_intro _ c EW)))).
  Qed.

  Lemma file_values2 dom d p c0 : valid_domain2 dom -> make2 dom = Ok d -> nx dom = nx dom0 -> zlen c0 = cells2 dom ->
    exists c1, initial_values2 pl FromFile (Some doc) p d c0 = Ok c1 /\ holds_inside2 dom c1 u.
  Proof.
    intros HV' EM' E1 L. destruct HF as (d0 & c & EM & HC & EW). destruct HR as (VP & UP & _).
    destruct (make2_inv dom0 d0 HV EM) as (W & ED).
    assert (EX : d2_dx d0 = cell_size dom0) by (rewrite (wf2_dx _ W), ED; reflexivity). rewrite <- EX in VP.
    destruct (pf_C55_round_trip_2d V N (pl_show pl) (pl_show6 pl) (pl_read pl) zero dom0 dom d0 d {| fs_iter := i; fs_time := t; fs_dt := dt |} c c0 u (pl_raw pl))
      as (doc' & EW' & (c1 & ES & HH & _) & _); auto.
    rewrite EW in EW'. injection EW' as <-. exists c1. split; [|exact HH]. unfold initial_values2. rewrite ES. reflexivity.
  Qed.
End Loaded2.

Lemma restart3_rk3 (pl : platform R) fuel fs vts other args opts m vm s bx by_ bz r dom0 i t dt u :
  parse_options (pl_read pl) (pl_lit pl) (pl_eps100 pl) (pl_max100 pl) fs args opts = Ok (Running m vm) ->
  asks m 3 "rk3ssp" r s -> r <> "none" ->
  is_file3 pl dom0 i t dt u (vts r) -> readable3 pl dom0 t dt u -> 
  valid_domain3 dom0 -> 2 <= nx dom0 /\ 2 <= ny dom0 /\ 2 <= nz dom0 -> nx dom0 <= 2147483647 /\ ny dom0 <= 2147483647 /\ nz dom0 <= 2147483647 -> (xbeg dom0 < xend dom0)%R ->
  sound_from s i fuel -> bc_named (s_bc_x s) bx -> bc_named (s_bc_y s) by_ -> bc_named (s_bc_z s) bz ->
  let dom := regrid3 (pl_raw pl) dom0 bx by_ bz in
  exists w, madgicart pl fuel fs vts other args opts = Some (Ok (Finished w)) /\
    story3 pl s dom [] [config_template (pl_showg pl) (pl_lit pl) (pl_eps100 pl) (pl_max100 pl) vm; "Using initial conditions file " ++ r]%string (i, t, dt)
      (fun dt p => p = dt) (ssp3_3 (ch_rate3 dom s)) (ssp3_rate3 (ch_rate3 dom s)) u w.
Proof.
  intros PO A NR HF HR HV0 H2 HB HX SO BX BY BZ dom.
  assert (NE : String.eqb r "none" = false) by (apply String.eqb_neq; exact NR).
  pose proof SO as (S1 & S2 & S3 & S4 & S5).
  assert (HV : valid_domain3 dom) by (unfold valid_domain3 in *; cbn; lia).
  assert (RD : exists dm, read_domain (pl_read pl) (vts r) (pl_raw pl) = Ok (dm, 3) /\ with_bcs dm bx by_ bz = dom).
  { destruct HF as (d0 & c & EM & HC & EW). destruct HR as (VP & _).
    destruct (make3_inv dom0 d0 HV0 EM) as (W & ED).
    assert (EX : d3_dx d0 = cell_size dom0) by (rewrite (wf_dx _ W), ED; reflexivity). rewrite <- EX in VP.
    destruct (pf_C55_domain_3d (pl_show pl) (pl_show6 pl) (pl_read pl) dom0 (pl_raw pl) d0 {| fs_iter := i; fs_time := t; fs_dt := dt |} c u)
      as (doc & EW' & RD); auto; try apply HB.
    rewrite EW in EW'. injection EW' as <-. eexists. split; [exact RD|]. reflexivity. }
  destruct RD as (dm & RD & EDM).
  pose proof (file_time3 pl dom0 i t dt u (vts r) HF HR ltac:(lia) {| rs_t0 := s_t0 s; rs_step := 0; rs_dt := s_dt s |}) as RT.
  destruct (build3_from pl m s bx by_ bz BX BY BZ "rk3ssp" Rk3ssp r (vts r) dm 3 i t dt ltac:(reflexivity) A S1 RD RT ltac:(rewrite EDM; exact HV))
    as (d & EM & B). rewrite EDM in EM.
  pose proof (new_array3_len dom d HV ltac:(cbn; lia) EM) as LA.
  destruct (file_values3 pl dom0 i t dt u (vts r) HV0 ltac:(lia) ltac:(lia) ltac:(lia) HF HR dom d (params_in s) (create_real_array3 d) HV EM eq_refl eq_refl eq_refl LA) as (c1 & EC & HC).
  assert (HA : state_holds 1 (cells3 dom) (P3 dom) [c1] (of3 dom u)).
  { apply state3; [cbn; lia|]. eapply holds_inside3_ext; [exact HC|]. intros i1 j1 k1 I. unfold at3. rewrite of3_slot; [reflexivity|].
    apply inside_padded3; [cbn; lia|exact I]. }
  destruct (whole3_rk3 pl fuel fs vts other args opts m vm PO s r ltac:(lia) S3 dom d FromFile (s_variant s) (params_in s) (options_from s i t dt) c1 (of3 dom u) A)
    as (w0 & w & ST & EW & RN).
  { rewrite NE. exact B. }
  { exact HV. }
  { cbn; lia. }
  { unfold dom, regrid3. cbn [nhalo nx ny nz]. lia. }
  { exact EM. }
  { exact S1. }
  { apply options_from_fit; [exact SO|exact zero_eq]. }
  { rewrite NE. exact EC. }
  { exact HA. }
  exists w. split; [exact EW|].
  destruct (make3_inv dom d HV EM) as (W & ED).
  assert (EX : d3_dx d = spacing dom) by (rewrite (wf_dx _ W), ED; reflexivity).
  assert (OO : story3 pl s dom [] (start_messages (template pl vm) r) (t_initial_step (options_from s i t dt), t_t0 (options_from s i t dt), t_dt_initial (options_from s i t dt))
    (fun dt p => p = dt) (ssp3_3 (ch_rate3 dom s)) (ssp3_rate3 (ch_rate3 dom s)) u w).
  { eapply (outcome3 pl s dom d vm r (options_from s i t dt) eq_refl eq_refl ltac:(cbn; lia) HV EM _ (ssp3_3 (ch_rate3 dom s)) (ssp3_rate3 (ch_rate3 dom s))); [| | |exact ST|exact RN|exact S2].
    - intros t1 dt1 a u1 HA1. rewrite EX. apply rk3_agree3; auto.
    - intros i1 j1 k1 I. unfold at3. rewrite of3_slot; [reflexivity|]. apply inside_padded3; [cbn; lia|exact I].
    - auto. }
  unfold start_messages in OO. rewrite NE in OO. exact OO.
Qed.

Lemma restart3_ode23 (pl : platform R) fuel fs vts other args opts m vm s bx by_ bz r dom0 i t dt u tol lo hi :
  parse_options (pl_read pl) (pl_lit pl) (pl_eps100 pl) (pl_max100 pl) fs args opts = Ok (Running m vm) ->
  asks m 3 "ode23" r s -> given m [("time_rel_err_tol", VDouble tol); ("min_time_step_size", VDouble lo); ("max_time_step_size", VDouble hi)] ->
  r <> "none" ->
  is_file3 pl dom0 i t dt u (vts r) -> readable3 pl dom0 t dt u -> 
  valid_domain3 dom0 -> 2 <= nx dom0 /\ 2 <= ny dom0 /\ 2 <= nz dom0 -> nx dom0 <= 2147483647 /\ ny dom0 <= 2147483647 /\ nz dom0 <= 2147483647 -> (xbeg dom0 < xend dom0)%R ->
  sound_from s i fuel -> bc_named (s_bc_x s) bx -> bc_named (s_bc_y s) by_ -> bc_named (s_bc_z s) bz ->
  let dom := regrid3 (pl_raw pl) dom0 bx by_ bz in
  exists w, madgicart pl fuel fs vts other args opts = Some (Ok (Finished w)) /\
    story3 pl s dom ["time_err"%string] [config_template (pl_showg pl) (pl_lit pl) (pl_eps100 pl) (pl_max100 pl) vm; "Using initial conditions file " ++ r]%string (i, t, dt)
      (within lo hi) (bs_step3 (ch_rate3 dom s)) (bs_rate3 (ch_rate3 dom s)) u w.
Proof.
  intros PO A G NR HF HR HV0 H2 HB HX SO BX BY BZ dom.
  assert (NE : String.eqb r "none" = false) by (apply String.eqb_neq; exact NR).
  pose proof SO as (S1 & S2 & S3 & S4 & S5).
  assert (HV : valid_domain3 dom) by (unfold valid_domain3 in *; cbn; lia).
  assert (RD : exists dm, read_domain (pl_read pl) (vts r) (pl_raw pl) = Ok (dm, 3) /\ with_bcs dm bx by_ bz = dom).
  { destruct HF as (d0 & c & EM & HC & EW). destruct HR as (VP & _).
    destruct (make3_inv dom0 d0 HV0 EM) as (W & ED).
    assert (EX : d3_dx d0 = cell_size dom0) by (rewrite (wf_dx _ W), ED; reflexivity). rewrite <- EX in VP.
    destruct (pf_C55_domain_3d (pl_show pl) (pl_show6 pl) (pl_read pl) dom0 (pl_raw pl) d0 {| fs_iter := i; fs_time := t; fs_dt := dt |} c u)
      as (doc & EW' & RD); auto; try apply HB.
    rewrite EW in EW'. injection EW' as <-. eexists. split; [exact RD|]. reflexivity. }
  destruct RD as (dm & RD & EDM).
  pose proof (file_time3 pl dom0 i t dt u (vts r) HF HR ltac:(lia) {| rs_t0 := s_t0 s; rs_step := 0; rs_dt := s_dt s |}) as RT.
  destruct (build3_from pl m s bx by_ bz BX BY BZ "ode23" Ode23Integrator r (vts r) dm 3 i t dt ltac:(reflexivity) A S1 RD RT ltac:(rewrite EDM; exact HV))
    as (d & EM & B). rewrite EDM in EM.
  pose proof (new_array3_len dom d HV ltac:(cbn; lia) EM) as LA.
  destruct (file_values3 pl dom0 i t dt u (vts r) HV0 ltac:(lia) ltac:(lia) ltac:(lia) HF HR dom d (params_in s) (create_real_array3 d) HV EM eq_refl eq_refl eq_refl LA) as (c1 & EC & HC).
  assert (HA : state_holds 1 (cells3 dom) (P3 dom) [c1] (of3 dom u)).
  { apply state3; [cbn; lia|]. eapply holds_inside3_ext; [exact HC|]. intros i1 j1 k1 I. unfold at3. rewrite of3_slot; [reflexivity|].
    apply inside_padded3; [cbn; lia|exact I]. }
  destruct (whole3_ode23 pl fuel fs vts other args opts m vm PO s r ltac:(lia) S3 dom d FromFile (s_variant s) (params_in s) (options_from s i t dt) c1 (of3 dom u) tol lo hi A G)
    as (w0 & w & ST & EW & RN).
  { rewrite NE. exact B. }
  { exact HV. }
  { cbn; lia. }
  { unfold dom, regrid3. cbn [nhalo nx ny nz]. lia. }
  { exact EM. }
  { exact S1. }
  { apply options_from_fit; [exact SO|exact zero_eq]. }
  { rewrite NE. exact EC. }
  { exact HA. }
  exists w. split; [exact EW|].
  destruct (make3_inv dom d HV EM) as (W & ED).
  assert (EX : d3_dx d = spacing dom) by (rewrite (wf_dx _ W), ED; reflexivity).
  assert (OO : story3 pl s dom ["time_err"%string] (start_messages (template pl vm) r) (t_initial_step (options_from s i t dt), t_t0 (options_from s i t dt), t_dt_initial (options_from s i t dt))
    (within lo hi) (bs_step3 (ch_rate3 dom s)) (bs_rate3 (ch_rate3 dom s)) u w).
  { eapply (outcome3 pl s dom d vm r (options_from s i t dt) eq_refl eq_refl ltac:(cbn; lia) HV EM _ (bs_step3 (ch_rate3 dom s)) (bs_rate3 (ch_rate3 dom s))); [| | |exact ST|exact RN|exact S2].
    - intros t1 dt1 a u1 HA1. rewrite EX. apply bs_agree3; auto.
    - intros i1 j1 k1 I. unfold at3. rewrite of3_slot; [reflexivity|]. apply inside_padded3; [cbn; lia|exact I].
    - apply clamped_within. }
  unfold start_messages in OO. rewrite NE in OO. exact OO.
Qed.

Lemma restart2_rk3 (pl : platform R) fuel fs vts other args opts m vm s bx by_ bz r dom0 i t dt u :
  parse_options (pl_read pl) (pl_lit pl) (pl_eps100 pl) (pl_max100 pl) fs args opts = Ok (Running m vm) ->
  asks m 2 "rk3ssp" r s -> r <> "none" ->
  is_file2 pl dom0 i t dt u (vts r) -> readable2 pl dom0 t dt u -> pl_read pl "0.0" = Ok 0%R ->
  valid_domain2 dom0 -> 2 <= nx dom0 -> nx dom0 <= 2147483647 -> (xbeg dom0 < xend dom0)%R ->
  sound_from s i fuel -> bc_named (s_bc_x s) bx -> bc_named (s_bc_y s) by_ -> bc_named (s_bc_z s) bz ->
  let dom := regrid2 (pl_raw pl) dom0 bx by_ bz in
  exists w, madgicart pl fuel fs vts other args opts = Some (Ok (Finished w)) /\
    story2 pl s dom [] [config_template (pl_showg pl) (pl_lit pl) (pl_eps100 pl) (pl_max100 pl) vm; "Using initial conditions file " ++ r]%string (i, t, dt)
      (fun dt p => p = dt) (ssp3_2 (ch_rate2 dom s)) (ssp3_rate2 (ch_rate2 dom s)) u w.
Proof.
  intros PO A NR HF HR RZ HV0 H2 HB HX SO BX BY BZ dom.
  assert (NE : String.eqb r "none" = false) by (apply String.eqb_neq; exact NR).
  pose proof SO as (S1 & S2 & S3 & S4 & S5).
  assert (HV : valid_domain2 dom) by (unfold valid_domain2 in *; cbn; lia).
  assert (RD : exists dm, read_domain (pl_read pl) (vts r) (pl_raw pl) = Ok (dm, 2) /\ with_bcs dm bx by_ bz = dom).
  { destruct HF as (d0 & c & EM & HC & EW). destruct HR as (VP & _).
    destruct (make2_inv dom0 d0 HV0 EM) as (W & ED).
    assert (EX : d2_dx d0 = cell_size dom0) by (rewrite (wf2_dx _ W), ED; reflexivity). rewrite <- EX in VP.
    destruct (pf_C55_domain_2d (pl_show pl) (pl_show6 pl) (pl_read pl) dom0 (pl_raw pl) d0 {| fs_iter := i; fs_time := t; fs_dt := dt |} c u)
      as (doc & EW' & RD); auto; try apply HB.
    rewrite EW in EW'. injection EW' as <-. eexists. split; [exact RD|]. reflexivity. }
  destruct RD as (dm & RD & EDM).
  pose proof (file_time2 pl dom0 i t dt u (vts r) HF HR ltac:(lia) {| rs_t0 := s_t0 s; rs_step := 0; rs_dt := s_dt s |}) as RT.
  destruct (build2_from pl m s bx by_ bz BX BY BZ "rk3ssp" Rk3ssp r (vts r) dm 2 i t dt ltac:(reflexivity) A RD RT ltac:(rewrite EDM; exact HV))
    as (d & EM & B). rewrite EDM in EM.
  pose proof (new_array2_len dom d HV ltac:(cbn; lia) EM) as LA.
  destruct (file_values2 pl dom0 i t dt u (vts r) HV0 ltac:(lia) 0%R RZ HF HR dom d (params_in s) (create_real_array2 d) HV EM eq_refl LA) as (c1 & EC & HC).
  assert (HA : state_holds 1 (cells2 dom) (P2 dom) [c1] (of2 dom u)).
  { apply state2; [cbn; lia|]. eapply holds_inside2_ext; [exact HC|]. intros i1 j1 I. unfold at2. rewrite of2_slot; [reflexivity|].
    apply inside_padded2; [cbn; lia|exact I]. }
  destruct (whole2_rk3 pl fuel fs vts other args opts m vm PO s r ltac:(lia) S3 dom d FromFile (s_variant s) (params_in s) (options_from s i t dt) c1 (of2 dom u) A)
    as (w0 & w & ST & EW & RN).
  { rewrite NE. exact B. }
  { exact HV. }
  { cbn; lia. }
  { unfold dom, regrid2. cbn [nhalo nx ny nz]. lia. }
  { exact EM. }
  { apply options_from_fit; [exact SO|exact zero_eq]. }
  { rewrite NE. exact EC. }
  { exact HA. }
  exists w. split; [exact EW|].
  destruct (make2_inv dom d HV EM) as (W & ED).
  assert (EX : d2_dx d = spacing dom) by (rewrite (wf2_dx _ W), ED; reflexivity).
  assert (OO : story2 pl s dom [] (start_messages (template pl vm) r) (t_initial_step (options_from s i t dt), t_t0 (options_from s i t dt), t_dt_initial (options_from s i t dt))
    (fun dt p => p = dt) (ssp3_2 (ch_rate2 dom s)) (ssp3_rate2 (ch_rate2 dom s)) u w).
  { eapply (outcome2 pl s dom d vm r (options_from s i t dt) eq_refl eq_refl ltac:(cbn; lia) HV EM ltac:(cbn; lia) _ (ssp3_2 (ch_rate2 dom s)) (ssp3_rate2 (ch_rate2 dom s))); [| | |exact ST|exact RN|exact S2].
    - intros t1 dt1 a u1 HA1. rewrite EX. apply rk3_agree2; auto.
    - intros i1 j1 I. unfold at2. rewrite of2_slot; [reflexivity|]. apply inside_padded2; [cbn; lia|exact I].
    - auto. }
  unfold start_messages in OO. rewrite NE in OO. exact OO.
Qed.

Lemma restart2_ode23 (pl : platform R) fuel fs vts other args opts m vm s bx by_ bz r dom0 i t dt u tol lo hi :
  parse_options (pl_read pl) (pl_lit pl) (pl_eps100 pl) (pl_max100 pl) fs args opts = Ok (Running m vm) ->
  asks m 2 "ode23" r s -> given m [("time_rel_err_tol", VDouble tol); ("min_time_step_size", VDouble lo); ("max_time_step_size", VDouble hi)] ->
  r <> "none" ->
  is_file2 pl dom0 i t dt u (vts r) -> readable2 pl dom0 t dt u -> pl_read pl "0.0" = Ok 0%R ->
  valid_domain2 dom0 -> 2 <= nx dom0 -> nx dom0 <= 2147483647 -> (xbeg dom0 < xend dom0)%R ->
  sound_from s i fuel -> bc_named (s_bc_x s) bx -> bc_named (s_bc_y s) by_ -> bc_named (s_bc_z s) bz ->
  let dom := regrid2 (pl_raw pl) dom0 bx by_ bz in
  exists w, madgicart pl fuel fs vts other args opts = Some (Ok (Finished w)) /\
    story2 pl s dom ["time_err"%string] [config_template (pl_showg pl) (pl_lit pl) (pl_eps100 pl) (pl_max100 pl) vm; "Using initial conditions file " ++ r]%string (i, t, dt)
      (within lo hi) (bs_step2 (ch_rate2 dom s)) (bs_rate2 (ch_rate2 dom s)) u w.
Proof.
  intros PO A G NR HF HR RZ HV0 H2 HB HX SO BX BY BZ dom.
  assert (NE : String.eqb r "none" = false) by (apply String.eqb_neq; exact NR).
  pose proof SO as (S1 & S2 & S3 & S4 & S5).
  assert (HV : valid_domain2 dom) by (unfold valid_domain2 in *; cbn; lia).
  assert (RD : exists dm, read_domain (pl_read pl) (vts r) (pl_raw pl) = Ok (dm, 2) /\ with_bcs dm bx by_ bz = dom).
  { destruct HF as (d0 & c & EM & HC & EW). destruct HR as (VP & _).
    destruct (make2_inv dom0 d0 HV0 EM) as (W & ED).
    assert (EX : d2_dx d0 = cell_size dom0) by (rewrite (wf2_dx _ W), ED; reflexivity). rewrite <- EX in VP.
    destruct (pf_C55_domain_2d (pl_show pl) (pl_show6 pl) (pl_read pl) dom0 (pl_raw pl) d0 {| fs_iter := i; fs_time := t; fs_dt := dt |} c u)
      as (doc & EW' & RD); auto; try apply HB.
    rewrite EW in EW'. injection EW' as <-. eexists. split; [exact RD|]. reflexivity. }
  destruct RD as (dm & RD & EDM).
  pose proof (file_time2 pl dom0 i t dt u (vts r) HF HR ltac:(lia) {| rs_t0 := s_t0 s; rs_step := 0; rs_dt := s_dt s |}) as RT.
  destruct (build2_from pl m s bx by_ bz BX BY BZ "ode23" Ode23Integrator r (vts r) dm 2 i t dt ltac:(reflexivity) A RD RT ltac:(rewrite EDM; exact HV))
    as (d & EM & B). rewrite EDM in EM.
  pose proof (new_array2_len dom d HV ltac:(cbn; lia) EM) as LA.
  destruct (file_values2 pl dom0 i t dt u (vts r) HV0 ltac:(lia) 0%R RZ HF HR dom d (params_in s) (create_real_array2 d) HV EM eq_refl LA) as (c1 & EC & HC).
  assert (HA : state_holds 1 (cells2 dom) (P2 dom) [c1] (of2 dom u)).
  { apply state2; [cbn; lia|]. eapply holds_inside2_ext; [exact HC|]. intros i1 j1 I. unfold at2. rewrite of2_slot; [reflexivity|].
    apply inside_padded2; [cbn; lia|exact I]. }
  destruct (whole2_ode23 pl fuel fs vts other args opts m vm PO s r ltac:(lia) S3 dom d FromFile (s_variant s) (params_in s) (options_from s i t dt) c1 (of2 dom u) tol lo hi A G)
    as (w0 & w & ST & EW & RN).
  { rewrite NE. exact B. }
  { exact HV. }
  { cbn; lia. }
  { unfold dom, regrid2. cbn [nhalo nx ny nz]. lia. }
  { exact EM. }
  { apply options_from_fit; [exact SO|exact zero_eq]. }
  { rewrite NE. exact EC. }
  { exact HA. }
  exists w. split; [exact EW|].
  destruct (make2_inv dom d HV EM) as (W & ED).
  assert (EX : d2_dx d = spacing dom) by (rewrite (wf2_dx _ W), ED; reflexivity).
  assert (OO : story2 pl s dom ["time_err"%string] (start_messages (template pl vm) r) (t_initial_step (options_from s i t dt), t_t0 (options_from s i t dt), t_dt_initial (options_from s i t dt))
    (within lo hi) (bs_step2 (ch_rate2 dom s)) (bs_rate2 (ch_rate2 dom s)) u w).
  { eapply (outcome2 pl s dom d vm r (options_from s i t dt) eq_refl eq_refl ltac:(cbn; lia) HV EM ltac:(cbn; lia) _ (bs_step2 (ch_rate2 dom s)) (bs_rate2 (ch_rate2 dom s))); [| | |exact ST|exact RN|exact S2].
    - intros t1 dt1 a u1 HA1. rewrite EX. apply bs_agree2; auto.
    - intros i1 j1 I. unfold at2. rewrite of2_slot; [reflexivity|]. apply inside_padded2; [cbn; lia|exact I].
    - apply clamped_within. }
  unfold start_messages in OO. rewrite NE in OO. exact OO.
Qed.
