(** Runs of the whole program: the grids, the construction from the options, and the program as a
    whole. *)
From Coq Require Import String.
From Verif Require Import ModelLogger ModelOptions Outcome ZList ZListProofs Num Gather ModelIndex ModelInt32 ModelDisc3D ModelDisc2D ModelCH ModelObs
  ModelTime ModelRun ModelMon ModelVTK ModelMain ModelProgram SpecGrid SpecField SpecTime SpecRestart SpecProgram Disc3DProofs Make3Proofs
  Disc2DProofs Make2Proofs VTK2Proofs Time2Proofs Step1Proofs
  RestartProofs RestartFinal ProgramProofs Program2Proofs Program3Proofs.
From Coq Require Import Lia ZifyBool ZifyNat List.
Local Open Scope string_scope.
Local Open Scope list_scope.
Local Open Scope Z_scope.

Section Scenes.
  Context {V : Type} `{N : Num V} (pl : platform V).

  Lemma slope_total n (h v : V) i fwd bwd : (exists a, fwd = Ok a) -> (exists a, bwd = Ok a) -> exists a, slope n h v i fwd bwd = Ok a.
  Proof.
    intros (a & ->) (b & ->). unfold slope. cbn [rbind].
    destruct (i =? 0); [eauto|]. destruct (i =? n - 1); eauto.
  Qed.

  Section D3.
    Variables (dom : domain V) (d : disc3 V) (maxs : Z).
    Hypothesis HV : valid_domain3 dom.
    Hypothesis HN : 1 <= nhalo dom.
    Hypothesis HM : make3 dom = Ok d.
    Hypothesis HS : 0 < maxs.

    Lemma scene3_name b i : sn_name (scene3 pl maxs d) b i = Ok (vts_name3 b (Z.max (ndigits maxs) 4) i).
    Proof. cbn. unfold iter_width3. replace (maxs <=? 0) with false by lia. reflexivity. Qed.

    Lemma scene3_idx q : In q (sn_idx (scene3 pl maxs d)) -> 0 <= q < cells3 dom.
    Proof.
      destruct (make3_inv dom d HV HM) as (W & D). cbn. rewrite (wf_interior _ W), D. intros H.
      apply in_map_iff in H as ([[i j] k] & <- & H). apply in_box3 in H. apply slot3_range, inside_padded3; [lia|exact H].
    Qed.

    Lemma scene3_monitor c : zlen c = cells3 dom -> exists m, sn_monitor (scene3 pl maxs d) c = Ok m.
    Proof.
      intros LC. destruct (make3_inv dom d HV HM) as (W & D). cbn. unfold solution_monitor3.
      destruct (collect_total (monitor_cell3 d c) (zrange 0 (zlen (d3_interior d)))) as (l & E).
      - intros ii Hi. apply in_zrange in Hi. destruct (zget_some (d3_interior d) ii ltac:(lia)) as (q & Eq).
        unfold monitor_cell3. rewrite Eq. cbn [of_opt rbind].
        apply zget_in in Eq. rewrite (wf_interior _ W) in Eq.
        apply in_map_iff in Eq as ([[i j] k] & <- & H). apply in_box3 in H.
        assert (I : inside3 (d3_domain d) i j k) by exact H. rewrite getIJK3_slot by auto.
        assert (RD : forall a b e, padded3 dom a b e -> exists v, of_opt (zget c (ix3 d a b e)) = Ok v).
        { intros a b e P. rewrite ix3_slot by auto. rewrite D. destruct (zget_some c (slot3 dom a b e)) as (v & Ev);
            [rewrite LC; apply slot3_range; exact P|]. rewrite Ev. exists v. reflexivity. }
        rewrite D in I. unfold inside3 in I.
        destruct (RD i j k) as (v & ->); [unfold padded3; lia|]. cbn [rbind].
        edestruct slope_total as (g1 & ->); [apply RD; unfold padded3; lia..|]. cbn [rbind].
        edestruct slope_total as (g2 & ->); [apply RD; unfold padded3; lia..|]. cbn [rbind].
        edestruct slope_total as (g3 & ->); [apply RD; unfold padded3; lia..|]. cbn [rbind]. eauto.
      - rewrite E. eexists. reflexivity.
    Qed.

    Lemma scene3_write st c : zlen c = cells3 dom -> exists doc, sn_write (scene3 pl maxs d) st c = Ok doc.
    Proof.
      intros LC. destruct (holds3_exists dom c HV LC) as (u & HU). eexists. cbn.
      apply (write3_ok _ _ dom d st c u HV HM). split; [exact LC|]. intros i j k I. apply HU. apply inside_padded3; [lia|auto].
    Qed.

    Lemma new_array3_len : zlen (create_real_array3 d) = cells3 dom.
    Proof.
      destruct (make3_inv dom d HV HM) as (W & D). destruct HV as (A & B & C & E).
      unfold create_real_array3, storage3D. rewrite zlen_new_array, (wf_ni _ W), (wf_nj _ W), (wf_nk _ W), (wf_nh _ W), D.
      - reflexivity.
      - rewrite (wf_ni _ W), (wf_nj _ W), (wf_nk _ W), (wf_nh _ W), D. apply Z.mul_nonneg_nonneg; [apply Z.mul_nonneg_nonneg|]; lia.
    Qed.
  End D3.

  Section D2.
    Variables (dom : domain V) (d : disc2 V) (maxs : Z).
    Hypothesis HV : valid_domain2 dom.
    Hypothesis HN : 1 <= nhalo dom.
    Hypothesis HM : make2 dom = Ok d.
    Hypothesis HS : 0 < maxs.

    Lemma scene2_name b i : sn_name (scene2 pl maxs d) b i = Ok (vts_name2 b (ndigits maxs) i).
    Proof. cbn. unfold iter_width2. replace (maxs <=? 0) with false by lia. reflexivity. Qed.

    Lemma scene2_idx q : In q (sn_idx (scene2 pl maxs d)) -> 0 <= q < cells2 dom.
    Proof.
      destruct (make2_inv dom d HV HM) as (W & D). cbn. rewrite (wf2_interior _ W), D. intros H.
      apply in_map_iff in H as ([i j] & <- & H). apply in_box2 in H. apply slot2_range, inside_padded2; [lia|exact H].
    Qed.

    Lemma scene2_monitor c : zlen c = cells2 dom -> exists m, sn_monitor (scene2 pl maxs d) c = Ok m.
    Proof.
      intros LC. destruct (make2_inv dom d HV HM) as (W & D). cbn. unfold solution_monitor2.
      destruct (collect_total (monitor_cell2 d c) (zrange 0 (zlen (d2_interior d)))) as (l & E).
      - intros ii Hi. apply in_zrange in Hi. destruct (zget_some (d2_interior d) ii ltac:(lia)) as (q & Eq).
        unfold monitor_cell2. rewrite Eq. cbn [of_opt rbind].
        apply zget_in in Eq. rewrite (wf2_interior _ W) in Eq.
        apply in_map_iff in Eq as ([i j] & <- & H). apply in_box2 in H. unfold pslot2. cbn [fst snd].
        assert (I : inside2 (d2_domain d) i j) by exact H. rewrite getIJ2_slot by auto.
        assert (RD : forall a b, padded2 dom a b -> exists v, of_opt (zget c (ix2 d a b)) = Ok v).
        { intros a b P. rewrite ix2_slot by auto. rewrite D. destruct (zget_some c (slot2 dom a b)) as (v & Ev);
            [rewrite LC; apply slot2_range; exact P|]. rewrite Ev. exists v. reflexivity. }
        rewrite D in I. unfold inside2 in I.
        destruct (RD i j) as (v & ->); [unfold padded2; lia|]. cbn [rbind].
        edestruct slope_total as (g1 & ->); [apply RD; unfold padded2; lia..|]. cbn [rbind].
        edestruct slope_total as (g2 & ->); [apply RD; unfold padded2; lia..|]. cbn [rbind]. eauto.
      - rewrite E. eexists. reflexivity.
    Qed.

    Lemma scene2_write st c : zlen c = cells2 dom -> exists doc, sn_write (scene2 pl maxs d) st c = Ok doc.
    Proof.
      intros LC. destruct (holds2_exists dom c HV LC) as (u & HU). eexists. cbn.
      apply (write2_ok _ _ (nint 0) dom d st c u HV HM). split; [exact LC|]. intros i j I. apply HU. apply inside_padded2; [lia|auto].
    Qed.

    Lemma new_array2_len : zlen (create_real_array2 d) = cells2 dom.
    Proof.
      destruct (make2_inv dom d HV HM) as (W & D). destruct HV as (A & E).
      unfold create_real_array2, storage2D. rewrite zlen_new_array, (wf2_ni _ W), (wf2_nh _ W), D.
      - reflexivity.
      - rewrite (wf2_ni _ W), (wf2_nh _ W), D. apply Z.mul_nonneg_nonneg; lia.
    Qed.
  End D2.
End Scenes.

Section Build.
  Context {V : Type} `{N : Num V} (pl : platform V).

  Ltac reads H := unfold given in H; repeat (apply Forall_cons_iff in H; let E := fresh "O" in destruct H as (E & H); cbn [fst snd] in E); clear H.

  Lemma idiv_ok a b : 1 <= b -> 0 <= a <= 2147483647 -> idiv a b = Ok (a / b).
  Proof.
    intros B A. unfold idiv. replace (b =? 0) with false by lia. rewrite Z.quot_div_nonneg by lia.
    assert (0 <= a / b <= a). { split; [apply Z.div_pos; lia|]. apply Z.div_le_upper_bound; nia. }
    unfold chk, fits32, int_min, int_max. replace (_ && _) with true by lia. reflexivity.
  Qed.

  Variables (m : members V) (s : settings V) (bx by_ bz : bctype).
  Hypothesis SX : 1 <= s_nx s.
  Hypothesis SY : 1 <= s_ny s <= 2147483647.
  Hypothesis SZ : 1 <= s_nz s <= 2147483647.
  Hypothesis BX : bc_named (s_bc_x s) bx.
  Hypothesis BY : bc_named (s_bc_y s) by_.
  Hypothesis BZ : bc_named (s_bc_z s) bz.

  Definition options_with (rel abs : V) : time_options V :=
    {| t_t0 := s_t0 s; t_tfinal := s_tfinal s; t_dt_initial := s_dt s; t_use_cfl := false;
       t_max_steps := int_of_unsigned (s_max_steps s); t_initial_step := 0; t_rel_tol := rel; t_abs_tol := abs |}.
  Definition options_of : time_options V := options_with (nint 0) (nint 0).
  Definition params_in : ch_params V := {| ch_m := s_m s; ch_sigma := s_sigma s; ch_eps2 := s_eps2 s |}.

  Ltac fetch := repeat (unfold get_int, get_double, get_string, get_unsigned, get_bool;
    match goal with H : m ?n = _ |- context [m ?n] => rewrite H; clear H end; cbn [rbind]).

  Lemma config_ok {rel abs} dim ti : asks_with m dim ti "none" s rel abs ->
    config_of m true = Ok {| c_dimension := dim; c_nx := s_nx s; c_ny := s_ny s; c_nz := s_nz s;
      c_xbeg := s_xbeg s; c_xend := s_xend s; c_ybeg := s_ybeg s; c_yend := yend (grid_of s bx by_ bz);
      c_zbeg := s_zbeg s; c_zend := zend (grid_of s bx by_ bz); c_bc_x := s_bc_x s; c_bc_y := s_bc_y s; c_bc_z := s_bc_z s;
      c_equation := "cahn-hilliard"; c_integrator := ti |}.
  Proof.
    intros A. unfold asks_with, asked_with in A. reads A. unfold config_of, far_end. unfold get_int, get_double, get_string.
    repeat match goal with H : m ?n = _ |- context [m ?n] => rewrite H; clear H end. cbn [rbind].
    rewrite !idiv_ok by lia. reflexivity.
  Qed.

  Lemma time_ok {rel abs} dim ti r : asks_with m dim ti r s rel abs -> time_options_of m = Ok (options_with rel abs).
  Proof.
    intros A. unfold asks_with, asked_with in A. reads A. unfold time_options_of, get_double, get_bool, get_unsigned.
    repeat match goal with H : m ?n = _ |- context [m ?n] => rewrite H; clear H end. reflexivity.
  Qed.
  Lemma params_ok {rel abs} dim ti r : asks_with m dim ti r s rel abs -> params_of m = Ok params_in.
  Proof.
    intros A. unfold asks_with, asked_with in A. reads A. unfold params_of, get_double.
    repeat match goal with H : m ?n = _ |- context [m ?n] => rewrite H; clear H end. reflexivity.
  Qed.
  Lemma variant_ok {rel abs} dim ti r : asks_with m dim ti r s rel abs -> get_int m "kernel_variant" = Ok (s_variant s).
  Proof.
    intros A. unfold asks_with, asked_with in A. reads A. unfold get_int.
    repeat match goal with H : m ?n = _ |- context [m ?n] => rewrite H; clear H end. reflexivity.
  Qed.

  Lemma build3_ok {rel abs} ti f : reg_lookup integrators ti = Ok f -> asks_with m 3 ti "none" s rel abs -> 0 <= s_variant s <= 2 ->
    exists d, make3 (grid_of s bx by_ bz) = Ok d /\
      build pl m None = Ok (CahnHilliard3 d, RandomField, s_variant s, params_in, options_with rel abs, f).
  Proof.
    intros RL A VR.
    destruct (make3_ok (grid_of s bx by_ bz)) as (d & E & _). { unfold valid_domain3. cbn [grid_of nx ny nz nhalo]. lia. }
    exists d. split; [exact E|]. unfold build. cbn [rbind]. rewrite (config_ok 3 ti A). cbn [rbind].
    unfold geom_factory, geom_domain. cbn [c_bc_x c_bc_y c_bc_z].
    rewrite (proj2 (parse_bc_spec _ _) BX), (proj2 (parse_bc_spec _ _) BY), (proj2 (parse_bc_spec _ _) BZ). cbn [rbind].
    cbn [c_dimension c_nx c_ny c_nz c_xbeg c_xend c_ybeg c_yend c_zbeg c_zend Z.eqb Pos.eqb nx ny nz xbeg xend ybeg yend zbeg zend].
    change ({| nx := s_nx s; ny := s_ny s; nz := s_nz s; xbeg := s_xbeg s; xend := s_xend s;
      ybeg := s_ybeg s; yend := _; zbeg := s_zbeg s; zend := _; xbc := bx; ybc := by_; zbc := bz; nhalo := 2 |})
      with (grid_of s bx by_ bz).
    rewrite E. cbn [rbind]. unfold rhs_factory, initial_factory, integrator_factory.
    cbn [c_equation c_dimension c_integrator Z.eqb Pos.eqb].
    change (String.eqb "cahn-hilliard" "cahn-hilliard") with true. cbn [rbind].
    unfold check_variant. rewrite (variant_ok 3 ti "none" A). cbn [rbind].
    replace ((0 <=? s_variant s) && (s_variant s <=? 2)) with true by lia. cbn [rbind].
    rewrite (params_ok 3 ti "none" A), (time_ok 3 ti "none" A). cbn [rbind time_options_for]. rewrite RL. reflexivity.
  Qed.

  Lemma build2_ok {rel abs} ti f : reg_lookup integrators ti = Ok f -> asks_with m 2 ti "none" s rel abs ->
    exists d, make2 (grid_of s bx by_ bz) = Ok d /\
      build pl m None = Ok (CahnHilliard2 d, RandomField, s_variant s, params_in, options_with rel abs, f).
  Proof.
    intros RL A.
    destruct (make2_ok (grid_of s bx by_ bz)) as (d & E & _). { unfold valid_domain2. cbn [grid_of nx ny nz nhalo]. lia. }
    exists d. split; [exact E|]. unfold build. cbn [rbind]. rewrite (config_ok 2 ti A). cbn [rbind].
    unfold geom_factory, geom_domain. cbn [c_bc_x c_bc_y c_bc_z].
    rewrite (proj2 (parse_bc_spec _ _) BX), (proj2 (parse_bc_spec _ _) BY), (proj2 (parse_bc_spec _ _) BZ). cbn [rbind].
    cbn [c_dimension c_nx c_ny c_nz c_xbeg c_xend c_ybeg c_yend c_zbeg c_zend Z.eqb Pos.eqb nx ny nz xbeg xend ybeg yend zbeg zend].
    change ({| nx := s_nx s; ny := s_ny s; nz := s_nz s; xbeg := s_xbeg s; xend := s_xend s;
      ybeg := s_ybeg s; yend := _; zbeg := s_zbeg s; zend := _; xbc := bx; ybc := by_; zbc := bz; nhalo := 2 |})
      with (grid_of s bx by_ bz).
    rewrite E. cbn [rbind]. unfold rhs_factory, initial_factory, integrator_factory.
    cbn [c_equation c_dimension c_integrator Z.eqb Pos.eqb].
    change (String.eqb "cahn-hilliard" "cahn-hilliard") with true. cbn [rbind].
    unfold check_variant. rewrite (variant_ok 2 ti "none" A). cbn [rbind].
    rewrite (params_ok 2 ti "none" A), (time_ok 2 ti "none" A). cbn [rbind time_options_for]. rewrite RL. reflexivity.
  Qed.
End Build.
