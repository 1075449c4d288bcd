(** Whole runs of Poisson's equation with the implicit integrator. *)
From Coq Require Import String Reals Lra FunctionalExtensionality.
From Verif Require Import ModelLogger ModelOptions Outcome ZList ZListProofs Num Kernel ModelIndex IndexProofs ModelDisc3D ModelDisc2D ModelCH
  SpecGrid Disc3DProofs Make3Proofs BC3Proofs CHProofs Stencil3Proofs Transfer3Proofs TransferFinal SpecField SumProofs FieldProofs ModelTime ModelRun ModelObs SpecTime Time1Proofs Time2Proofs Step1Proofs StepFinal
  ModelMon ModelVTK ModelMain ModelProgram SpecMon SpecVTK SpecRestart RestartProofs Mon1Proofs MonFinal SpecProgram ProgramProofs Program2Proofs Program3Proofs Program4Proofs Program5Proofs
  Program6Proofs Program7Proofs
  ModelMG ModelMGCH SpecMG MG1Proofs MG2Proofs MG3Proofs MG4Proofs MG5Proofs MGFinal ModelImplicit SpecImplicit MG6Proofs Program13Proofs Program14Proofs
  ModelPoisson PoissonFinal SpecPoissonRun Program15Proofs Program18Proofs.
From Coq Require Import Lia ZifyBool ZifyNat List.
Local Open Scope list_scope.
Local Open Scope Z_scope.

Lemma flat_holds size P (st : state R) a b : (forall i, a O i = b O i) -> state_holds 1 size P st a -> state_holds 1 size P st b.
Proof. intros E (H1 & H2). split; [exact H1|]. intros e i He Hi HP. destruct e as [|e]; [|lia]. rewrite <- E. apply H2; auto. Qed.

Section Bdf.
  Variables (pl : platform R) (sn : scene R) (base : string) (nm : string -> Z -> string).
  Variables (L S : Z).
  Variables (q : mg_options R) (d : disc3 R).
  Notation dom := (d3_domain d).
  Notation a0 := (create_real_array3 d).
  Notation rmax := (pl_rmax pl).
  Notation rsum := (red_sum (pl_red pl) (nint 0)).
  Notation pw := (pl_pow pl).
  Variables (g : mg_config R (scratch R)) (b0 : mg_world R (scratch R)).
  Hypothesis HL : L <> 0.
  Hypothesis Hname : forall b i, sn_name sn b i = Ok (nm b i).
  Hypothesis Hmon : forall c, zlen c = cells3 dom -> exists m, sn_monitor sn c = Ok m.
  Hypothesis Hdoc : forall st c, zlen c = cells3 dom -> exists doc, sn_write sn st c = Ok doc.
  Hypothesis Hidx : forall k, In k (sn_idx sn) -> 0 <= k < cells3 dom.
  Variable o : time_options R.
  Hypothesis NC : t_use_cfl o = false.
  Hypothesis HI : 0 <= t_initial_step o < INT_MAX.
  Hypothesis HM : t_max_steps o <> 0 /\ t_max_steps o <= INT_MAX.
  Hypothesis W : wf3 d.
  Hypothesis MK : make3 dom = Ok d.
  Hypothesis HN : 2 <= nhalo dom.
  Hypothesis SC : make_ch3 d 0 = Ok (new_scratch a0).
  Hypothesis INT : q_interp q <> MGOther.
  Hypothesis LA : zlen a0 = cells3 dom.
  Hypothesis TH : thick_at (q_levels q - 1) dom.
  Hypothesis NEW : bdf_new_poisson sin cos q d (new_scratch a0) rmax rsum pw [a0] [a0] = Ok (g, b0).
  Hypothesis NS : 1 <= q_nsmooth q.

  Definition pb_result (t dt : R) (a : nat -> Z -> R) : field R * field R :=
    p_run q d g (smoothing a) t dt (flat a) (p_count q d rsum g (smoothing a) t dt (flat a)).
  Definition pb_next (t dt : R) (a : nat -> Z -> R) (e : nat) (i : Z) : R :=
    match e with
    | 1%nat => if q_max_cycles q <=? 0 then a 1%nat i else g_cfl g (Z.to_nat i)
    | _ => fst (pb_result t dt a) e i
    end.
  Definition pb_slope (t dt : R) (a : nat -> Z -> R) : nat -> Z -> R := snd (pb_result t dt a).

  Definition pb_fits (x : bdf_world R) (a : nat -> Z -> R) : Prop :=
    world_ok q d (i_mg x) /\ state_holds 1 (cells3 dom) (P3 dom) (solution (i_mg x)) a /\
    forall l, (l <= gn q)%nat -> smoothing a l = dt_of g (b_levels (i_mg x)) l.


  Lemma pb_step_fits t dt x a : pb_fits x a -> exists x' r, bdf_do g x t dt = Ok x' /\ pb_fits x' (pb_next t dt a) /\
    i_rest x' = i_rest x /\ bdf_residual (i_mg x') = [r] /\ state_holds 1 (cells3 dom) (P3 dom) [r] (pb_slope t dt a).
  Proof.
    intros (WK & HS & HF).
    assert (SH : shaped 1 (cells3 dom) [a0]) by (apply one_shaped; exact LA).
    destruct (p_cycled q d (new_scratch a0) rmax rsum pw [a0] [a0] g b0 W MK HN INT SH SH TH NEW NS (i_mg x) t dt (flat a) (smoothing a) WK
      (flat_holds _ _ _ a (flat a) (fun _ => eq_refl) HS) HF) as (b' & EB & WK' & HS' & HR' & HD').
    unfold bdf_do. rewrite EB. cbn [rbind].
    change (residual_of_world b') with (bdf_residual b') in HR'. destruct (shaped_one (cells3 dom) _ (proj1 HR')) as (r & ER). rewrite ER in HR'.
    exists {| i_mg := b'; i_rest := i_rest x |}, r. split; [reflexivity|]. cbn [i_mg i_rest].
    split; [|split; [reflexivity|split; [exact ER|exact HR']]].
    split; [exact WK'|]. split; [refine (flat_holds _ _ _ _ (pb_next t dt a) (fun _ => _) HS'); reflexivity|].
    intros l Hl. cbn [i_mg]. rewrite HD' by exact Hl. unfold smoothing, pb_next. rewrite Nat2Z.id. reflexivity.
  Qed.


  Lemma run_pb_ok fuel m set c w0 w : mg_options_of m = Ok q -> set a0 = Ok c -> state_holds 1 (cells3 dom) (P3 dom) [c] w0 ->
    Z.max 1 (t_max_steps o - t_initial_step o) <= Z.of_nat fuel ->
    exists w', run_bdf_poisson pl sin cos m fuel sn d set o base (driver_observers L S) w = Some (Ok w') /\
      run_result_with pl sn base (cells3 dom) (P3 dom) nm L S [] (fun dt p => p = dt) pb_next pb_slope o (bdf_start w0) w w'.
  Proof.
    intros EQ E HC LF. unfold run_bdf_poisson. rewrite EQ. cbn [lift]. rewrite NEW. cbn [lift].
    assert (SH : shaped 1 (cells3 dom) [a0]) by (apply one_shaped; exact LA).
    pose proof NEW as EN. unfold bdf_new_poisson in EN.
    destruct (get_mg_cycle (q_levels q) (q_nsmooth q)) as [cy| | |]; cbn [rbind] in EN; try discriminate EN.
    destruct (make_grids (Z.to_nat (q_levels q - 1)) d) as [ds| | |]; cbn [rbind] in EN; try discriminate EN.
    injection EN as _ Eb. pose proof (f_equal b_levels Eb) as EL. cbn [b_levels] in EL.
    unfold put_initial. rewrite <- EL. cbn [v_u nth_error of_opt rbind]. rewrite E. cbn [rbind lift].
    match goal with |- context [ {| i_mg := ?y; i_rest := w |} ] => set (b1 := y) end.
    set (x := {| i_mg := b1; i_rest := w |}).
    assert (LC : zlen c = cells3 dom) by (apply (proj1 HC) with (e := O); reflexivity).
    assert (R1 : SpecMG.reached g b0 b1).
    { unfold b1. eapply (SpecMG.reached_set g b0 b0 _ _ [c] [a0]); [apply SpecMG.reached_start|rewrite <- Eb; cbn [b_levels]; reflexivity| |]; cbn [v_u v_du map];
        [rewrite LC, LA; reflexivity|reflexivity]. }
    assert (WK : world_ok q d b1).
    { apply (p_reached_ok q d (new_scratch a0) rmax rsum pw [a0] [a0] g b0 W MK HN SC INT SH SH TH NEW NS b1 R1). }
    apply (run_gen pl sn base (cells3 dom) (P3 dom) nm (bdf_do g) (fun x dt => Ok (x, dt)) (fun x => bdf_state (i_mg x)) (fun x => bdf_residual (i_mg x)) (fun _ => []) [] i_rest put_bdf
             (fun _ y b => pb_fits y b) pb_next pb_slope (fun dt p => p = dt)
             ltac:(reflexivity) ltac:(reflexivity) ltac:(reflexivity) ltac:(reflexivity)) with (x := x); auto.
    - intros t y b (H1 & H2 & H3). change (solution (i_mg y)) with (bdf_state (i_mg y)) in H2.
      destruct (shaped_one _ _ (proj1 H2)) as (c' & E'). exists c'. rewrite <- E'. auto.
    - intros t dt y b H. destruct (pb_step_fits t dt y b H) as (x' & r' & Q1 & Q2 & Q3 & Q4 & Q5). exists x', r'. repeat (split; [assumption|]). reflexivity.
    - intros t dt y b H. exists y, dt. split; [reflexivity|]. split; [reflexivity|]. split; [exact H|]. split; reflexivity.
    - split; [exact WK|]. cbn [x i_mg]. split; [refine (flat_holds _ _ _ _ (bdf_start w0) (fun _ => _) HC); reflexivity|].
      intros l Hl. unfold smoothing, bdf_start. symmetry. unfold dt_of.
      destruct (nth_error (b_levels b1) l) as [v|] eqn:EV.
      + pose proof (p_firsts q d (new_scratch a0) rmax rsum pw [a0] [a0] g b0 NEW l) as SF.
        unfold b1 in EV. cbn [b_levels] in EV. destruct l as [|l].
        * injection EV as <-. cbn [v_sm]. apply (SF _ ltac:(rewrite <- Eb; reflexivity)).
        * apply (SF v). rewrite <- Eb. exact EV.
      + apply nth_error_None in EV. destruct WK as ((LB & _) & _). lia.
  Qed.
End Bdf.

Section Fields.
  Variables (q : mg_options R) (d : disc3 R) (sc0 : scratch R)
    (rmax : R -> list R -> R) (rsum : R -> list R -> R) (pw : R -> R -> R) (u0 du0 : state R)
    (g : mg_config R (scratch R)) (b0 : mg_world R (scratch R)).
  Notation dom := (d3_domain d).
  Hypothesis HV : valid_domain3 dom.
  Hypothesis W : wf3 d.
  Hypothesis HN : 2 <= nhalo dom.
  Hypothesis MK : make3 dom = Ok d.
  Hypothesis INT : q_interp q <> MGOther.
  Hypothesis TH : thick_at (q_levels q - 1) dom.
  Hypothesis NEW : bdf_new_poisson sin cos q d sc0 rmax (rsum (nint 0)) pw u0 du0 = Ok (g, b0).
  Hypothesis NS : 1 <= q_nsmooth q.
  Hypothesis HS : sum_reducer rsum.

  Lemma p_steps k : (k <= gn q)%nat -> g_cfl g k = poisson_smoothing (q_cfl q) dom (Z.of_nat k).
  Proof.
    intros Hk.
    destruct (p_facts q d sc0 rmax (rsum (nint 0)) pw u0 du0 g b0 W HN TH NEW) as (LG & _ & GN & G0 & GW & _).
    destruct (p_grids q d sc0 rmax (rsum (nint 0)) pw u0 du0 g b0 NEW) as (EG & GE & _).
    rewrite GE. cbn [g_cfl mg_poisson]. rewrite GN by exact Hk. unfold poisson_scale3. fold (gdom q d k).
    assert (GD : gdom q d k = coarse_dom dom (Z.of_nat k)). { unfold gdom. apply (grids_dom _ _ _ W EG). apply GN. exact Hk. }
    rewrite GD. unfold poisson_smoothing, spacing_at, coarse_dom. cbn [xend xbeg nx]. num. ring.
  Qed.

  Lemma p_run_cycles first' first t dt u n : (forall l, (l <= gn q)%nat -> first' l = first (Z.of_nat l)) ->
    implicit_cycles q dom (poisson_levels q dom (prol_of q)) (poisson_smoothing (q_cfl q) dom) first t dt u n =
    (cells_of dom (fst (p_run q d g first' t dt (table_of dom u) n)), cells_of dom (snd (p_run q d g first' t dt (table_of dom u) n))).
  Proof.
    intros HF. unfold implicit_cycles, p_run. cbv zeta.
    destruct (p_facts q d sc0 rmax (rsum (nint 0)) pw u0 du0 g b0 W HN TH NEW) as (LG & _ & GN & G0 & GW & _).
    destruct (p_grids q d sc0 rmax (rsum (nint 0)) pw u0 du0 g b0 NEW) as (EG & GE & _).
    assert (GD : forall k, (k <= gn q)%nat -> gdom q d k = coarse_dom dom (Z.of_nat k)).
    { intros k Hk. unfold gdom. apply (grids_dom _ _ _ W EG). apply GN. exact Hk. }
    assert (GF : forall k, (k <= gn q)%nat -> prate q d k =
       fun _ => onto3 (coarse_dom dom (Z.of_nat k)) (coarse_dom dom (Z.of_nat k)) (poisson_rate (coarse_dom dom (Z.of_nat k)))).
    { intros k Hk. unfold prate. rewrite GD by exact Hk. reflexivity. }
    assert (RF : forall x y z (v : Z -> Z -> Z -> R), restrict_expr3 v x y z = average8 v x y z).
    { intros x y z v. rewrite restrict_expr3_R. unfold average8, sum3, sum2, sum1, Rsum. change (zrange 0 2) with [0; 1].
      cbn [map fold_right]. rewrite !Z.add_0_r. field. }
    assert (GR : forall k, (1 <= k <= gn q)%nat -> grest q d k = onto3 (coarse_dom dom (Z.of_nat k - 1)) (coarse_dom dom (Z.of_nat k)) average8).
    { intros k Hk. unfold grest, rest3. rewrite !GD by lia. replace (Z.of_nat (k - 1)) with (Z.of_nat k - 1) by lia.
      extensionality v. extensionality e. extensionality z. unfold onto3, of3, table_of.
      destruct (getIJK _ _ _ _) as [[i j] l]. apply RF. }
    assert (GP : forall k, (1 <= k <= gn q)%nat -> gprol q d k = onto3 (coarse_dom dom (Z.of_nat k)) (coarse_dom dom (Z.of_nat k - 1)) (prol_of q)).
    { intros k Hk. unfold gprol, prol3. rewrite !GD by lia. replace (Z.of_nat (k - 1)) with (Z.of_nat k - 1) by lia.
      unfold prol_of. destruct (q_interp q); reflexivity. }
    assert (GXT : forall k, (k <= gn q)%nat -> pext q d k =
       onto3 (coarse_dom dom (Z.of_nat k)) (coarse_dom dom (Z.of_nat k)) (poisson_extend (coarse_dom dom (Z.of_nat k)))).
    { intros k Hk. unfold pext. rewrite GD by exact Hk. reflexivity. }
    rewrite <- (p_ext0 q d sc0 rmax (rsum (nint 0)) pw u0 du0 g b0 W HN TH NEW),
      <- (p_f0 q d sc0 rmax (rsum (nint 0)) pw u0 du0 g b0 W HN TH NEW).
    rewrite (p_steps 0%nat), (GF 0%nat), (GXT 0%nat), (HF 0%nat) by lia.
    cbn [l_f l_ext poisson_levels]. change (Z.of_nat 0) with 0.
    match goal with |- context [map (gl ?A ?B ?C ?D ?E ?F) (seq 1 (gn q))] =>
      replace (map (gl A B C D E F) (seq 1 (gn q))) with
        (map (fun l => poisson_levels q dom (prol_of q) first (Z.of_nat l)) (seq 1 (Z.to_nat (q_levels q - 1)))); [reflexivity|] end.
    change (gn q) with (Z.to_nat (q_levels q - 1)).
    apply map_ext_in. intros k Hk. apply in_seq in Hk. fold (gn q) in Hk. unfold gl, poisson_levels.
    rewrite GF, GR, GP, GXT, p_steps, HF by lia. reflexivity.
  Qed.

  Notation stands := (stands q d).
  Let result t dt a := p_run q d g (smoothing a) t dt (flat a) (p_count q d (rsum (nint 0)) g (smoothing a) t dt (flat a)).
  Let next t dt (a : nat -> Z -> R) (e : nat) (i : Z) : R :=
    match e with 1%nat => if q_max_cycles q <=? 0 then a 1%nat i else g_cfl g (Z.to_nat i) | _ => fst (result t dt a) e i end.

  Lemma p_stands_step t dt a u first : stands a u first ->
    implicit_step q dom (poisson_levels q dom (prol_of q)) (poisson_smoothing (q_cfl q) dom) first t dt u (cells_of dom (next t dt a)) (cells_of dom (snd (result t dt a))) /\
    stands (next t dt a) (cells_of dom (next t dt a)) (poisson_smoothing (q_cfl q) dom).
  Proof.
    intros (EU & HF). split.
    - unfold implicit_step. cbv zeta. unfold result. set (n := p_count q d (rsum (nint 0)) g (smoothing a) t dt (flat a)).
      assert (RC : forall k, (k <= Z.to_nat (q_max_cycles q))%nat -> implicit_cycles q dom (poisson_levels q dom (prol_of q)) (poisson_smoothing (q_cfl q) dom) first t dt u k =
        (cells_of dom (fst (p_run q d g (smoothing a) t dt (flat a) k)), cells_of dom (snd (p_run q d g (smoothing a) t dt (flat a) k)))).
      { intros k Hk. rewrite <- EU. destruct HF as [HF|HF]; [|apply p_run_cycles; exact HF].
        replace k with 0%nat by lia.
        rewrite (p_run_cycles (fun l => first (Z.of_nat l)) first) by reflexivity. reflexivity. }
      unfold p_count in n.
      destruct (stop_at_spec (Z.to_nat (q_max_cycles q)) (fun j => nleb (ndiv (ch_measured d (rsum (nint 0)) (snd (p_run q d g (smoothing a) t dt (flat a) j)))
         (ch_measured d (rsum (nint 0)) (snd (p_run q d g (smoothing a) t dt (flat a) 0)))) (q_tol q))) as (H1 & H2 & H3).
      fold n in H1, H2, H3.
      exists n. split; [exact H1|]. split; [intros MC; apply stop_at_pos; lia|]. split; [exact (RC n H1)|]. intros _. split.
      + intros k Hk. specialize (H2 k Hk). rewrite !(measured_rms d rsum W HS) in H2. rewrite !RC by lia. cbn [snd].
        apply Rnot_le_lt. intros L. apply nleb_R in L. cbn [ndiv Num_R] in H2. congruence.
      + destruct H3 as [H3|(H3 & H4)]; [left; exact H3|]. right. split; [exact H3|]. rewrite !RC by lia. cbn [snd].
        rewrite !(measured_rms d rsum W HS) in H4. apply nleb_R in H4. exact H4.
    - split; [rewrite table_cells by exact HV; reflexivity|].
      destruct (Z.leb_spec (q_max_cycles q) 0) as [M|M]; [left; exact M|]. right. intros l Hl. unfold smoothing, next.
      replace (q_max_cycles q <=? 0) with false by lia. rewrite Nat2Z.id. apply p_steps. exact Hl.
  Qed.

  Lemma p_stands_course : forall steps k a b u first, stands a u first ->
    exists rated, implicit_course q dom (poisson_levels q dom (prol_of q)) (poisson_smoothing (q_cfl q) dom) first k u steps rated /\
      Forall2 (fun x y => let '(i, t, dt, z) := x in let '(i', t', dt', z') := y in i = i' /\ t = t' /\ dt = dt' /\ pairs d z z')
        (SpecProgram.reached (both next (fun t dt a => snd (result t dt a))) k (a, b) steps) rated.
  Proof.
    induction steps as [|(t, dt) steps IH]; intros k a b u first H; cbn [SpecProgram.reached both].
    - exists []. split; constructor.
    - destruct (p_stands_step t dt a u first H) as (H1 & H2).
      destruct (IH (k + 1) (next t dt a) (snd (result t dt a)) _ _ H2) as (rated & C & F).
      eexists. split; [eapply course_step; [exact H1|exact C]|]. constructor; [|exact F].
      cbn [fst snd]. do 3 (split; [reflexivity|]). split; intros i j l _; reflexivity.
  Qed.
End Fields.


Lemma poisson_mg_read {V} `{N : Num V} (m : members V) q dim s rel abs : mg_asks m q -> poisson_asks m dim (integrator_name q) s rel abs -> mg_options_of m = Ok q.
Proof.
  intros M A. assert (T : m "time_integrator"%string = VString (integrator_name q)). { reads_poisson A. assumption. }
  clear A. reads M. unfold mg_options_of, get_int, get_double, get_string.
  repeat match goal with H : m ?n = _ |- context [m ?n] => rewrite H; clear H end. cbn [rbind].
  destruct q as [a1 a2 a3 a4 a5 a6 a7 i st]. unfold integrator_name. cbn [q_levels q_nsmooth q_max_cycles q_tol q_cfl q_relax q_coarse_relax q_interp q_steady].
  destruct i, st; reflexivity.
Qed.

Lemma poisson_started (q : mg_options R) d sc rmax rsum pw u du g b : bdf_new q d 0 p0 sc rmax rsum pw u du = Ok (g, b) ->
  exists g', bdf_new_poisson sin cos q d sc rmax rsum pw u du = Ok (g', b).
Proof.
  unfold bdf_new, bdf_new_poisson. destruct (get_mg_cycle _ _) as [cy| | |]; cbn [rbind]; try discriminate.
  destruct (make_grids _ _) as [ds| | |]; cbn [rbind]; try discriminate. rewrite poisson_levels_same. cbn [rbind].
  intros H. injection H as _ <-. eexists. reflexivity.
Qed.

Local Open Scope string_scope.
Local Open Scope Z_scope.
Local Open Scope list_scope.

Section Program.
  Context {V : Type} `{N : Num V} (pl : platform V) (nsin ncos : V -> V) (fuel : nat) (fs : string -> option string) (vts : string -> list xml)
    (other : members V -> option (res (pworld V))) (args : list string) (opts m : members V) (vm : vmap V).
  Hypothesis PO : parse_options (pl_read pl) (pl_lit pl) (pl_eps100 pl) (pl_max100 pl) fs args opts = Ok (Running m vm).
  Variables (s : settings V) (q : mg_options V).

  Lemma poisson_all_after {rel abs} d v p o f w' : poisson_asks m 3 (integrator_name q) s rel abs ->
    build pl m None = Ok (Poisson3 d, ZeroField, v, p, o, f) ->
    (forall w0, w_files w0 = [] -> exists w1,
       run_bdf_poisson pl nsin ncos m fuel (scene3 pl (s_max_steps s) d) d (constant_initial (nint 0) (d3_interior d)) o (base_of s)
         (driver_observers (s_log_every s) (s_save_every s)) w0 = Some (Ok w1) /\ w' w0 w1) ->
    exists w0 w1, started pl vm s "none" w0 /\ madgicart_all pl nsin ncos fuel fs vts other args opts = Some (Ok (Finished w1)) /\ w' w0 w1.
  Proof.
    intros A B R. destruct (start_ok pl (s_log_file s) (start_messages (template pl vm) "none")) as (w0 & E0 & F0 & S0 & P0).
    destruct (R w0 F0) as (w1 & E1 & H1). exists w0, w1. split; [split; [exact F0|split; [exact S0|exact P0]]|]. split; [|exact H1].
    unfold madgicart_all. rewrite PO. cbn [lift]. reads_poisson A.
    unfold get_string, get_int, get_unsigned.
    repeat match goal with H : m ?n = _ |- context [m ?n] => rewrite H; clear H end. cbn [lift].
    change (config_template (pl_showg pl) (pl_lit pl) (pl_eps100 pl) (pl_max100 pl) vm) with (template pl vm).
    rewrite E0. cbn [lift]. change (String.eqb "none" "none") with true. cbv iota. rewrite B. cbn [lift].
    replace (String.eqb (integrator_name q) "bdf1" || String.eqb (integrator_name q) "steady")%bool with true
      by (unfold integrator_name; destruct (q_steady q); reflexivity). cbv iota.
    change (output_base (s_output s) (s_log_file s)) with (base_of s).
    change (poisson_values pl ZeroField None p d) with (constant_initial (nint 0 : V) (d3_interior d)). rewrite E1. reflexivity.
  Qed.
End Program.

Lemma run_poisson_implicit (pl : platform R) fuel fs vts other args opts m vm s q bx by_ bz :
  parse_options (pl_read pl) (pl_lit pl) (pl_eps100 pl) (pl_max100 pl) fs args opts = Ok (Running m vm) ->
  poisson_asks m 3 (integrator_name q) s 0%R 0%R -> mg_asks m q ->
  poisson_sound s fuel -> mg_sound q s -> reduces pl -> bc_named (s_bc_x s) bx -> bc_named (s_bc_y s) by_ -> bc_named (s_bc_z s) bz ->
  let dom := grid_of s bx by_ bz in
  exists w, madgicart_all pl sin cos fuel fs vts other args opts = Some (Ok (Finished w)) /\
    implicit_story pl q s dom (poisson_levels q dom) (poisson_smoothing (q_cfl q) dom)
      [config_template (pl_showg pl) (pl_lit pl) (pl_eps100 pl) (pl_max100 pl) vm] (0, s_t0 s, s_dt s) (fun _ _ _ => 0%R) w.
Proof.
  intros PO A MQ (SX & SY & SZ & SM & SL & SF) (QL & (X1 & X2) & (Y1 & Y2) & (Z1 & Z2) & NS & INT) RD BX BY BZ dom.
  assert (HV : valid_domain3 dom) by (unfold valid_domain3; cbn; lia).
  assert (LN : 2 <= nhalo dom) by (cbn; lia).
  assert (TH : thick_at (q_levels q - 1) dom).
  { assert (0 < 2 ^ (q_levels q - 1)) by (apply Z.pow_pos_nonneg; lia).
    unfold thick_at. cbn [dom grid_of nhalo nx ny nz].
    pose proof (Z.div_mod (s_nx s) (2 ^ (q_levels q - 1)) ltac:(lia)). pose proof (Z.div_mod (s_ny s) (2 ^ (q_levels q - 1)) ltac:(lia)).
    pose proof (Z.div_mod (s_nz s) (2 ^ (q_levels q - 1)) ltac:(lia)). repeat split; nia. }
  assert (RL : exists f, reg_lookup integrators (integrator_name q) = Ok f) by (unfold integrator_name; destruct (q_steady q); eexists; reflexivity).
  destruct RL as (f & RL).
  destruct (build_poisson_ok pl m s bx by_ bz ltac:(lia) ltac:(lia) ltac:(lia) BX BY BZ (integrator_name q) f RL A) as (d & EM & B). fold dom in EM.
  pose proof (new_array3_len dom d HV ltac:(cbn; lia) EM) as LA.
  destruct (pf_C60_constant_3d R _ dom d (nint 0) (create_real_array3 d) HV EM LA) as (c & EC & HC & _).
  destruct (make3_inv dom d HV EM) as (W & ED).
  set (u0 := fun _ _ _ : Z => 0%R).
  assert (SC : make_ch3 d 0 = Ok (new_scratch (create_real_array3 d))) by reflexivity.
  destruct (proj1 (pf_C51_constructor R _ q dom d 0 p0 (new_scratch (create_real_array3 d)) (pl_rmax pl) (red_sum (pl_red pl) (nint 0)) (pl_pow pl)
    [create_real_array3 d] [create_real_array3 d] HV EM SC ltac:(lia))) as (g1 & b0 & NEW1 & _).
  { cbn [dom grid_of nx ny nz]. auto. }
  destruct (poisson_started _ _ _ _ _ _ _ _ _ _ NEW1) as (g & NEW).
  assert (HA : state_holds 1 (cells3 dom) (P3 dom) [c] (of3 dom u0)).
  { apply state3; [cbn; lia|]. eapply holds_inside3_ext; [exact HC|]. intros i j k I. unfold at3. rewrite of3_slot; [reflexivity|].
    apply inside_padded3; [cbn; lia|exact I]. }
  assert (OM : t_max_steps (options_with s 0%R 0%R) = s_max_steps s)
    by (cbn; unfold int_of_unsigned, ModelInt32.int_max; replace (s_max_steps s <=? 2147483647)%Z with true by lia; reflexivity).
  assert (OR : options_run fuel (options_with s 0%R 0%R)).
  { unfold options_run. rewrite OM. split; [reflexivity|]. cbn [options_with t_initial_step]. unfold INT_MAX. lia. }
  destruct OR as (O2 & O3 & O4 & O5 & O6).
  destruct (poisson_all_after pl sin cos fuel fs vts other args opts m vm PO s q d (s_variant s) (params_in s) (options_with s 0%R 0%R) f
    (run_result_with pl (scene3 pl (s_max_steps s) d) (base_of s) (cells3 dom) (P3 dom) (name3 s) (s_log_every s) (s_save_every s)
       [] (fun dt p => p = dt) (pb_next pl q d g) (pb_slope pl q d g) (options_with s 0%R 0%R) (bdf_start (of3 dom u0))) A B)
    as (w0 & w & ST & EW & RN).
  { intros w0 _. subst dom. rewrite <- ED in *.
    apply (run_pb_ok pl (scene3 pl (s_max_steps s) d) (base_of s) (name3 s) (s_log_every s) (s_save_every s) q d g b0 SL
      ltac:(intros; apply scene3_name; lia) (scene3_monitor pl _ d (s_max_steps s) HV ltac:(lia) EM) (scene3_write pl _ d (s_max_steps s) HV ltac:(lia) EM)
      (scene3_idx pl _ d (s_max_steps s) HV ltac:(lia) EM) (options_with s 0%R 0%R) O2 O3 (conj O4 O5) W EM LN SC INT LA TH NEW NS fuel m
      (constant_initial (nint 0) (d3_interior d)) c (of3 (d3_domain d) u0) w0 (poisson_mg_read m q 3 s _ _ MQ A) EC HA O6). }
  exists w. split; [exact EW|].
  apply Program3Proofs.plain in RN; [|split; exact zero_eq].
  destruct RN as (steps & e & tr & docs & fin & MA & TR & SFL & WF & LAST & LOG).
  rewrite OM in MA.
  subst dom. rewrite <- ED in *. set (dom := d3_domain d) in *.
  destruct (p_stands_course q d (new_scratch (create_real_array3 d)) (pl_rmax pl) (red_sum (pl_red pl)) (pl_pow pl) [create_real_array3 d] [create_real_array3 d] g b0
     HV W LN INT TH NEW (proj1 RD) steps 0 (bdf_start (of3 dom u0)) (bdf_start (of3 dom u0)) u0 (fun _ => 1 / 1000000)%R) as (rated & CO & FR).
  { split; [reflexivity|]. right. intros l _. reflexivity. }
  assert (TF : Forall2 (traced_field3 dom []) tr rated).
  { eapply forall2_comp; [|exact TR|exact FR].
    intros (((((i, t), dt), cc), r), ex) (((i', t'), dt'), (u, v)) (((i'', t''), dt''), (u', v')) (E1 & E2 & E3 & H1 & H2 & H9) (E4 & E5 & E6 & H3 & H4).
    cbn [fst snd] in H3, H4. repeat split; try congruence.
    + apply state3 in H1; [|lia]. eapply holds_inside3_ext in H1; [exact (proj1 H1)|exact H3].
    + apply state3 in H1; [|lia]. eapply holds_inside3_ext in H1; [exact (proj2 H1)|exact H3].
    + apply state3 in H2; [|lia]. eapply holds_inside3_ext in H2; [exact (proj1 H2)|exact H4].
    + apply state3 in H2; [|lia]. eapply holds_inside3_ext in H2; [exact (proj2 H2)|exact H4]. }
  destruct (told_list3 pl s dom d vm "none" ltac:(lia) HV EM [] (fun _ u => u) (fun _ u => u) w0 w e tr docs fin rated ST TF SFL WF LAST LOG) as (T1 & T2 & T3 & T4).
  exists (prol_of q), steps, e, rated, docs, fin. split; [apply prol_ok; exact INT|]. split; [exact MA|]. split; [exact CO|]. split; [exact T1|]. split; [exact T2|]. split; [exact T3|].
  exact (T4 RD).
Qed.
