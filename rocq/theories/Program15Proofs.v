(** Runs of the whole program with Poisson's equation. *)
From Coq Require Import String Reals Lra.
From Verif Require Import ModelLogger ModelOptions Outcome ZList ZListProofs Num Gather ModelIndex ModelInt32 ModelDisc3D ModelDisc2D ModelCH ModelObs
  ModelTime ModelRun ModelMon ModelVTK ModelMain ModelProgram SpecGrid SpecField SpecTime SpecRestart SpecMon SpecProgram Disc3DProofs Make3Proofs
  Disc2DProofs Make2Proofs BC3Proofs CHProofs VTK2Proofs SumProofs FieldProofs Time1Proofs Time2Proofs Step1Proofs Mon1Proofs Mon3Proofs Mon4Proofs MonFinal
  RestartProofs RestartFinal ProgramProofs Program2Proofs Program3Proofs Program4Proofs Program5Proofs Program6Proofs Program7Proofs Program11Proofs
  ModelPoisson PoissonFinal ModelMG ModelMGCH ModelImplicit SpecPoissonRun.
From Coq Require Import Lia ZifyBool ZifyNat List.
Local Open Scope string_scope.
Local Open Scope list_scope.
Local Open Scope Z_scope.

(** ** Steps of fields, for any right-hand side *)
Section Field3.
  Variables (dom : domain R) (f : R -> (nat -> Z -> R) -> nat -> Z -> R) (F : (Z -> Z -> Z -> R) -> Z -> Z -> Z -> R).
  Local Notation agree3 := (agree3 dom).
  Hypothesis rate : forall t a u, agree3 a u -> agree3 (f t a) (F u).
  Local Open Scope R_scope.

  Lemma rk3_fields t dt a u : agree3 a u ->
    agree3 (rk3_next f t dt a) (ssp3_3 F dt u) /\ agree3 (rk3_slope f t dt a) (ssp3_rate3 F dt u).
  Proof.
    intros H. pose proof (rate t a u H) as H1.
    assert (A1 : agree3 (fun e i => nadd (a e i) (nmul (nmul dt (nint 1)) (rk3_k1 f t a e i))) (fun i j k => u i j k + dt * F u i j k)).
    { intros i j k I. unfold at3. cbn [nadd nmul nint Num_R]. unfold rk3_k1. specialize (H1 i j k I). specialize (H i j k I). unfold at3 in H1, H. rewrite H, H1. ring. }
    pose proof (rate (nadd t (nmul (nint 1) dt)) _ _ A1) as H2. fold (rk3_k2 f t dt a) in H2.
    assert (A2 : agree3 (fun e i => nadd (a e i) (nmul dt (nadd (nmul (nrat 1 4) (rk3_k1 f t a e i)) (nmul (nrat 1 4) (rk3_k2 f t dt a e i)))))
      (fun i j k => 3 / 4 * u i j k + 1 / 4 * (u i j k + dt * F u i j k + dt * F (fun i j k => u i j k + dt * F u i j k) i j k))).
    { intros i j k I. unfold at3. cbn [nadd nmul nint nrat Num_R]. unfold rk3_k1. specialize (H2 i j k I). specialize (H1 i j k I). specialize (H i j k I).
      unfold at3 in H2, H1, H. rewrite H2, H, H1. field. }
    pose proof (rate (nadd t (nmul (nrat 1 2) dt)) _ _ A2) as H3. fold (rk3_k3 f t dt a) in H3.
    assert (S : agree3 (rk3_slope f t dt a) (ssp3_rate3 F dt u)).
    { intros i j k I. unfold at3, rk3_slope, ssp3_rate3. cbn [nadd nmul nint nrat Num_R]. unfold rk3_k1 at 1.
      specialize (H3 i j k I). specialize (H2 i j k I). specialize (H1 i j k I).
      unfold at3 in H3, H2, H1. rewrite H3, H2, H1. field. }
    split; [|exact S]. intros i j k I. specialize (S i j k I). specialize (H i j k I). unfold at3 in S, H.
    unfold at3, rk3_next. cbn [nadd nmul Num_R]. rewrite S, H. unfold ssp3_3, ssp3_rate3. field.
  Qed.

  Lemma bs_fields t dt a u : agree3 a u ->
    agree3 (bs23 f t dt a) (bs_step3 F dt u) /\ agree3 (slope23 f t dt a) (bs_rate3 F dt u).
  Proof.
    intros H. pose proof (rate t a u H) as H1.
    assert (A1 : agree3 (fun e i => nadd (a e i) (nmul (nmul dt (nrat 1 2)) (f t a e i))) (fun i j k => u i j k + dt / 2 * F u i j k)).
    { intros i j k I. unfold at3. cbn [nadd nmul nint nrat Num_R]. specialize (H1 i j k I). specialize (H i j k I). unfold at3 in H1, H. rewrite H, H1. field. }
    pose proof (rate (nadd t (nmul (nrat 1 2) dt)) _ _ A1) as H2. fold (bs2 f t dt a (f t a)) in H2.
    assert (A2 : agree3 (fun e i => nadd (a e i) (nmul dt (nadd (nmul (nint 0) (f t a e i)) (nmul (nrat 3 4) (bs2 f t dt a (f t a) e i)))))
      (fun i j k => u i j k + 3 / 4 * dt * F (fun i j k => u i j k + dt / 2 * F u i j k) i j k)).
    { intros i j k I. unfold at3. cbn [nadd nmul nint nrat Num_R]. specialize (H2 i j k I). specialize (H1 i j k I). specialize (H i j k I).
      unfold at3 in H2, H1, H. rewrite H2, H, H1. field. }
    pose proof (rate (nadd t (nmul (nrat 3 4) dt)) _ _ A2) as H3. fold (bs3 f t dt a (f t a)) in H3.
    assert (S : agree3 (slope23 f t dt a) (bs_rate3 F dt u)).
    { intros i j k I. unfold at3, slope23, bs_slope, bs_rate3. cbn [nadd nmul nint nrat Num_R].
      specialize (H3 i j k I). specialize (H2 i j k I). specialize (H1 i j k I).
      unfold at3 in H3, H2, H1. rewrite H3, H2, H1. field. }
    split; [|exact S]. intros i j k I. specialize (S i j k I). specialize (H i j k I). unfold at3 in S, H.
    unfold at3, bs23, bs_next. cbn [nadd nmul Num_R]. unfold slope23 in S. rewrite S, H. reflexivity.
  Qed.
End Field3.

(** ** The right-hand side *)
Definition poisson_f (dom : domain R) (t : R) (a : nat -> Z -> R) : nat -> Z -> R := of3 dom (poisson_rate dom (at3 dom a)).

Lemma poisson_extend_ext dom u v : valid_domain3 dom -> (forall i j k, inside3 dom i j k -> u i j k = v i j k) ->
  forall i j k, poisson_extend dom u i j k = poisson_extend dom v i j k.
Proof.
  intros (A & B & C & _) H i j k. unfold poisson_extend. destruct (Z.leb_spec 0 k), (Z.ltb_spec k (nz dom)); cbn [andb]; try reflexivity.
  apply H. repeat split; try lia; apply Z.mod_pos_bound; lia.
Qed.

Lemma poisson_rate_ext dom u v : valid_domain3 dom -> (forall i j k, inside3 dom i j k -> u i j k = v i j k) ->
  forall i j k, poisson_rate dom u i j k = poisson_rate dom v i j k.
Proof.
  intros HV H i j k. unfold poisson_rate. rewrite (Lap3_ext _ _ (poisson_extend dom v)) by (intros; apply poisson_extend_ext; auto). reflexivity.
Qed.

Lemma poisson_fields dom t a u : valid_domain3 dom -> agree3 dom a u -> agree3 dom (poisson_f dom t a) (poisson_rate dom u).
Proof.
  intros HV H i j k I. unfold at3, poisson_f. rewrite of3_slot by (apply inside_padded3; [destruct HV; lia|auto]).
  apply poisson_rate_ext; auto.
Qed.

Theorem poisson_computes dom d : valid_domain3 dom -> 1 <= nhalo dom -> nhalo dom <= nx dom /\ nhalo dom <= ny dom /\ nhalo dom <= nz dom ->
  make3 dom = Ok d ->
  computes (poisson_eval sin cos d) (scratch_fits (cells3 dom)) 1 (cells3 dom) (P3 dom) (poisson_f dom).
Proof.
  intros HV HN HT HM sc s t r u OK HS SR.
  apply one_array in SR as (rhs & -> & LR).
  destruct (proj1 (one_array _ _) (proj1 HS)) as (c & -> & LC).
  assert (NH : 0 <= nhalo dom) by lia.
  pose proof (proj1 (state3 dom c u NH) HS) as HI.
  destruct (pf_C61_rhs dom d c rhs _ HV HN HT HM HI LR) as (c' & r' & E & HC & HR & _).
  unfold poisson_eval. cbn [nth_error of_opt rbind]. rewrite E. cbn [rbind upd].
  do 3 eexists. split; [reflexivity|]. split; [exact OK|]. split.
  - apply state3; auto. split; [apply HC|]. intros i j k I. rewrite (proj2 HC) by (apply inside_padded3; auto). f_equal.
    unfold poisson_extend. destruct I as (I1 & I2 & I3). replace ((0 <=? k) && (k <? nz dom))%bool with true by lia. rewrite !Z.mod_small by lia. reflexivity.
  - apply state3; auto. eapply holds_inside3_ext; [exact HR|]. intros i j k I. unfold at3, poisson_f.
    rewrite of3_slot by (apply inside_padded3; auto). reflexivity.
Qed.

(** ** The program *)
Ltac reads_poisson H := unfold poisson_asks, poisson_asked, poisson_asks_from, poisson_asked_from, asked_with, given in H; cbn [map fst snd] in H;
  repeat (apply Forall_cons_iff in H; let E := fresh "O" in destruct H as (E & H); cbn [fst snd] in E;
          match type of E with context [String.eqb ?a ?b] => let v := eval vm_compute in (String.eqb a b) in change (String.eqb a b) with v in E; cbv iota in E; cbn [fst snd] in E | _ => idtac end); clear H.

Section Build.
  Context {V : Type} `{N : Num V} (pl : platform V) (m : members V).
  Variables (s : settings V) (bx by_ bz : bctype).
  Hypothesis SX : 2 <= s_nx s.
  Hypothesis SY : 2 <= s_ny s <= 2147483647.
  Hypothesis SZ : 2 <= s_nz s <= 2147483647.
  Hypothesis BX : bc_named (s_bc_x s) bx.
  Hypothesis BY : bc_named (s_bc_y s) by_.
  Hypothesis BZ : bc_named (s_bc_z s) bz.

  Lemma build_poisson_ok {rel abs} ti f : reg_lookup integrators ti = Ok f -> poisson_asks m 3 ti s rel abs ->
    exists d, make3 (grid_of s bx by_ bz) = Ok d /\
      build pl m None = Ok (Poisson3 d, ZeroField, s_variant s, params_in s, options_with s rel abs, f).
  Proof.
    intros RL A.
    destruct (make3_ok (grid_of s bx by_ bz)) as (d & E & _). { unfold valid_domain3. cbn [grid_of nx ny nz nhalo]. lia. }
    exists d. split; [exact E|]. unfold build. cbn [rbind].
    reads_poisson A. unfold config_of, far_end, check_variant, params_of, time_options_of, get_int, get_double, get_string, get_bool, get_unsigned.
    repeat match goal with H : m ?n = _ |- context [m ?n] => rewrite H; clear H end. cbn [rbind].
    rewrite !idiv_ok by lia. cbn [rbind].
    unfold geom_factory, geom_domain. cbn [c_bc_x c_bc_y c_bc_z].
    rewrite (proj2 (parse_bc_spec _ _) BX), (proj2 (parse_bc_spec _ _) BY), (proj2 (parse_bc_spec _ _) BZ). cbn [rbind].
    cbn [c_dimension c_nx c_ny c_nz c_xbeg c_xend c_ybeg c_yend c_zbeg c_zend Z.eqb Pos.eqb nx ny nz xbeg xend ybeg yend zbeg zend].
    match goal with |- context [make3 ?x] => change x with (grid_of s bx by_ bz) end.
    rewrite E. cbn [rbind]. unfold rhs_factory, initial_factory, integrator_factory.
    cbn [c_equation c_dimension c_integrator Z.eqb Pos.eqb].
    change (String.eqb "poisson" "cahn-hilliard") with false. change (String.eqb "poisson" "poisson") with true. cbn [rbind].
    cbn [time_options_for]. rewrite RL. reflexivity.
  Qed.


  Lemma build_poisson_flat {rel abs} ti : poisson_asks m 2 ti s rel abs -> build pl m None = Throw.
  Proof.
    intros A.
    destruct (make2_ok (grid_of s bx by_ bz)) as (d & E & _). { unfold valid_domain2. cbn [grid_of nx ny nz nhalo]. lia. }
    unfold build. cbn [rbind].
    reads_poisson A. unfold config_of, far_end, get_int, get_double, get_string.
    repeat match goal with H : m ?n = _ |- context [m ?n] => rewrite H; clear H end. cbn [rbind].
    rewrite !idiv_ok by lia. cbn [rbind].
    unfold geom_factory, geom_domain. cbn [c_bc_x c_bc_y c_bc_z].
    rewrite (proj2 (parse_bc_spec _ _) BX), (proj2 (parse_bc_spec _ _) BY), (proj2 (parse_bc_spec _ _) BZ). cbn [rbind].
    cbn [c_dimension c_nx c_ny c_nz c_xbeg c_xend c_ybeg c_yend c_zbeg c_zend Z.eqb Pos.eqb nx ny nz xbeg xend ybeg yend zbeg zend].
    match goal with |- context [make2 ?x] => change x with (grid_of s bx by_ bz) end.
    rewrite E. reflexivity.
  Qed.
End Build.

Section Program.
  Context {V : Type} `{N : Num V} (pl : platform V) (nsin ncos : V -> V) (fuel : nat) (fs : string -> option string) (vts : string -> list xml)
    (other : members V -> option (res (pworld V))) (args : list string) (opts m : members V) (vm : vmap V).
  Hypothesis PO : parse_options (pl_read pl) (pl_lit pl) (pl_eps100 pl) (pl_max100 pl) fs args opts = Ok (Running m vm).
  Variables (s : settings V).

  Lemma poisson_after {rel abs} d v p o f w' ti : ti <> "bdf1" -> ti <> "steady" -> poisson_asks m 3 ti s rel abs ->
    build pl m None = Ok (Poisson3 d, ZeroField, v, p, o, f) ->
    (forall w0, w_files w0 = [] -> exists w1,
       run_with pl m fuel (scene3 pl (s_max_steps s) d) (create_real_array3 d)
         (poisson_eval nsin ncos d) (constant_initial (nint 0) (d3_interior d)) o f (base_of s) (driver_observers (s_log_every s) (s_save_every s)) w0 (other m)
       = Some (Ok w1) /\ w' w0 w1) ->
    exists w0 w1, started pl vm s "none" w0 /\ madgicart_all pl nsin ncos fuel fs vts other args opts = Some (Ok (Finished w1)) /\ w' w0 w1.
  Proof.
    intros N1 N2 A B R. destruct (start_ok pl (s_log_file s) (start_messages (template pl vm) "none")) as (w0 & E0 & F0 & S0 & P0).
    destruct (R w0 F0) as (w1 & E1 & H1). exists w0, w1. split; [split; [exact F0|split; [exact S0|exact P0]]|]. split; [|exact H1].
    unfold madgicart_all. rewrite PO. cbn [lift]. reads_poisson A.
    unfold get_string, get_int, get_unsigned.
    repeat match goal with H : m ?n = _ |- context [m ?n] => rewrite H; clear H end. cbn [lift].
    change (config_template (pl_showg pl) (pl_lit pl) (pl_eps100 pl) (pl_max100 pl) vm) with (template pl vm).
    rewrite E0. cbn [lift]. change (String.eqb "none" "none") with true. cbv iota. rewrite B. cbn [lift].
    destruct (String.eqb_spec ti "bdf1"); [contradiction|]. destruct (String.eqb_spec ti "steady"); [contradiction|]. cbn [orb].
    change (output_base (s_output s) (s_log_file s)) with (base_of s).
    change (poisson_values pl ZeroField None p d) with (constant_initial (nint 0 : V) (d3_interior d)). rewrite E1. reflexivity.
  Qed.

  Lemma poisson_flat {rel abs} ti : poisson_asks m 2 ti s rel abs -> build pl m None = Throw ->
    madgicart_all pl nsin ncos fuel fs vts other args opts = Some Throw.
  Proof.
    intros A B. destruct (start_ok pl (s_log_file s) (start_messages (template pl vm) "none")) as (w0 & E0 & _).
    unfold madgicart_all. rewrite PO. cbn [lift]. reads_poisson A.
    unfold get_string, get_int, get_unsigned.
    repeat match goal with H : m ?n = _ |- context [m ?n] => rewrite H; clear H end. cbn [lift].
    change (config_template (pl_showg pl) (pl_lit pl) (pl_eps100 pl) (pl_max100 pl) vm) with (template pl vm).
    rewrite E0. cbn [lift]. change (String.eqb "none" "none") with true. cbv iota. rewrite B. reflexivity.
  Qed.
End Program.

Lemma run_poisson_rk3 (pl : platform R) fuel fs vts other args opts m vm s rel abs bx by_ bz :
  parse_options (pl_read pl) (pl_lit pl) (pl_eps100 pl) (pl_max100 pl) fs args opts = Ok (Running m vm) ->
  poisson_asks m 3 "rk3ssp" s rel abs ->
  poisson_sound s fuel -> bc_named (s_bc_x s) bx -> bc_named (s_bc_y s) by_ -> bc_named (s_bc_z s) bz ->
  let dom := grid_of s bx by_ bz in
  exists w, madgicart_all pl sin cos fuel fs vts other args opts = Some (Ok (Finished w)) /\
    story3_with pl s rel abs dom [] [config_template (pl_showg pl) (pl_lit pl) (pl_eps100 pl) (pl_max100 pl) vm] (0, s_t0 s, s_dt s) (fun dt p => p = dt)
      (ssp3_3 (poisson_rate dom)) (ssp3_rate3 (poisson_rate dom)) (fun _ _ _ => 0%R) w.
Proof.
  intros PO A (SX & SY & SZ & SM & SL & SF) BX BY BZ dom.
  assert (HV : valid_domain3 dom) by (unfold valid_domain3; cbn; lia).
  destruct (build_poisson_ok pl m s bx by_ bz ltac:(lia) ltac:(lia) ltac:(lia) BX BY BZ "rk3ssp" Rk3ssp ltac:(reflexivity) A) as (d & EM & B). fold dom in EM.
  pose proof (new_array3_len dom d HV ltac:(cbn; lia) EM) as LA.
  destruct (pf_C60_constant_3d R _ dom d (nint 0) (create_real_array3 d) HV EM LA) as (c & EC & HC & _).
  set (a := of3 dom (fun _ _ _ => 0%R)).
  assert (HA : state_holds 1 (cells3 dom) (P3 dom) [c] a).
  { apply state3; [cbn; lia|]. eapply holds_inside3_ext; [exact HC|]. intros i j k I. unfold at3, a. rewrite of3_slot; [reflexivity|].
    apply inside_padded3; [cbn; lia|exact I]. }
  destruct (@fresh_run R _ fuel other m s ltac:(lia) ltac:(rewrite limit_int; lia) zero_eq rel abs) as (O2 & O3 & O4 & O5 & O6).
  destruct (poisson_after pl sin cos fuel fs vts other args opts m vm PO s d (s_variant s) (params_in s) (options_with s rel abs) Rk3ssp
    (ran3_with pl s dom d [] (fun dt p => p = dt) (rk3_next (poisson_f dom)) (rk3_slope (poisson_f dom)) (options_with s rel abs) a) "rk3ssp"
    ltac:(discriminate) ltac:(discriminate) A B) as (w0 & w & ST & EW & RN).
  { intros w0 _. unfold run_with. apply run_rk3_ok with (c := c).
    - exact SL.
    - intros. apply scene3_name. lia.
    - apply scene3_monitor; [exact HV|cbn; lia|exact EM].
    - apply scene3_write; [exact HV|cbn; lia|exact EM].
    - apply scene3_idx; [exact HV|cbn; lia|exact EM].
    - exact O2.
    - exact O3.
    - split; assumption.
    - apply poisson_computes; [exact HV|cbn; lia|cbn; lia|exact EM].
    - exact LA.
    - exact EC.
    - exact HA.
    - exact O6. }
  exists w. split; [exact EW|].
  eapply (outcome3_with pl s dom d vm "none" (options_with s rel abs) eq_refl eq_refl ltac:(cbn; lia) HV EM _ (ssp3_3 (poisson_rate dom)) (ssp3_rate3 (poisson_rate dom)));
    [| | |exact ST|exact RN|exact SM].
  - intros t dt b u HB. apply rk3_fields; auto. intros. apply poisson_fields; auto.
  - intros i j k I. unfold at3, a. rewrite of3_slot; [reflexivity|]. apply inside_padded3; [cbn; lia|exact I].
  - auto.
Qed.

Lemma run_poisson_ode23 (pl : platform R) fuel fs vts other args opts m vm s rel abs bx by_ bz (tol lo hi : R) :
  parse_options (pl_read pl) (pl_lit pl) (pl_eps100 pl) (pl_max100 pl) fs args opts = Ok (Running m vm) ->
  poisson_asks m 3 "ode23" s rel abs ->
  given m [("time_rel_err_tol", VDouble tol); ("min_time_step_size", VDouble lo); ("max_time_step_size", VDouble hi)] ->
  poisson_sound s fuel -> bc_named (s_bc_x s) bx -> bc_named (s_bc_y s) by_ -> bc_named (s_bc_z s) bz ->
  let dom := grid_of s bx by_ bz in
  exists w, madgicart_all pl sin cos fuel fs vts other args opts = Some (Ok (Finished w)) /\
    story3_with pl s rel abs dom ["time_err"%string] [config_template (pl_showg pl) (pl_lit pl) (pl_eps100 pl) (pl_max100 pl) vm] (0, s_t0 s, s_dt s) (within lo hi)
      (bs_step3 (poisson_rate dom)) (bs_rate3 (poisson_rate dom)) (fun _ _ _ => 0%R) w.
Proof.
  intros PO A G (SX & SY & SZ & SM & SL & SF) BX BY BZ dom.
  assert (HV : valid_domain3 dom) by (unfold valid_domain3; cbn; lia).
  destruct (build_poisson_ok pl m s bx by_ bz ltac:(lia) ltac:(lia) ltac:(lia) BX BY BZ "ode23" Ode23Integrator ltac:(reflexivity) A) as (d & EM & B). fold dom in EM.
  pose proof (new_array3_len dom d HV ltac:(cbn; lia) EM) as LA.
  destruct (pf_C60_constant_3d R _ dom d (nint 0) (create_real_array3 d) HV EM LA) as (c & EC & HC & _).
  set (a := of3 dom (fun _ _ _ => 0%R)).
  assert (HA : state_holds 1 (cells3 dom) (P3 dom) [c] a).
  { apply state3; [cbn; lia|]. eapply holds_inside3_ext; [exact HC|]. intros i j k I. unfold at3, a. rewrite of3_slot; [reflexivity|].
    apply inside_padded3; [cbn; lia|exact I]. }
  destruct (@fresh_run R _ fuel other m s ltac:(lia) ltac:(rewrite limit_int; lia) zero_eq rel abs) as (O2 & O3 & O4 & O5 & O6).
  destruct (poisson_after pl sin cos fuel fs vts other args opts m vm PO s d (s_variant s) (params_in s) (options_with s rel abs) Ode23Integrator
    (ran3_with pl s dom d ["time_err"%string] (clamped lo hi) (bs23 (poisson_f dom)) (slope23 (poisson_f dom)) (options_with s rel abs) a) "ode23"
    ltac:(discriminate) ltac:(discriminate) A B) as (w0 & w & ST & EW & RN).
  { intros w0 _. unfold run_with.
    unfold given in G. repeat (apply Forall_cons_iff in G; let E := fresh "O" in destruct G as (E & G); cbn [fst snd] in E).
    unfold get_double. repeat match goal with H : m ?n = _ |- context [m ?n] => rewrite H; clear H end. cbn [lift].
    apply run_ode23_ok with (c := c).
    - exact SL.
    - intros. apply scene3_name. lia.
    - apply scene3_monitor; [exact HV|cbn; lia|exact EM].
    - apply scene3_write; [exact HV|cbn; lia|exact EM].
    - apply scene3_idx; [exact HV|cbn; lia|exact EM].
    - exact O2.
    - exact O3.
    - split; assumption.
    - apply poisson_computes; [exact HV|cbn; lia|cbn; lia|exact EM].
    - reflexivity.
    - exact LA.
    - exact EC.
    - exact HA.
    - exact O6. }
  exists w. split; [exact EW|].
  eapply (outcome3_with pl s dom d vm "none" (options_with s rel abs) eq_refl eq_refl ltac:(cbn; lia) HV EM _ (bs_step3 (poisson_rate dom)) (bs_rate3 (poisson_rate dom)));
    [| | |exact ST|exact RN|exact SM].
  - intros t dt b u HB. apply bs_fields; auto. intros. apply poisson_fields; auto.
  - intros i j k I. unfold at3, a. rewrite of3_slot; [reflexivity|]. apply inside_padded3; [cbn; lia|exact I].
  - apply clamped_within.
Qed.
