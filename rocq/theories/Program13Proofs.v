(** Runs of the whole program with the implicit integrator. *)
From Coq Require Import String.
From Verif Require Import ModelLogger ModelOptions Outcome ZList ZListProofs Num Kernel ModelIndex IndexProofs ModelDisc3D ModelDisc2D ModelCH
  SpecGrid Disc3DProofs Make3Proofs SpecField ModelTime ModelRun ModelObs SpecTime Time1Proofs Step1Proofs
  ModelMon ModelVTK ModelMain ModelProgram SpecMon SpecVTK SpecProgram ProgramProofs Program2Proofs Program3Proofs Program4Proofs Program5Proofs
  ModelMG ModelMGCH SpecMG MG1Proofs MG2Proofs MG3Proofs MG4Proofs MG5Proofs ModelImplicit SpecImplicit MG6Proofs.
From Coq Require Import Lia Reals List.
Local Open Scope list_scope.
Local Open Scope Z_scope.

Section Bdf.
  Context {V : Type} `{N : Num V} (pl : platform V) (sn : scene V) (base : string) (nm : string -> Z -> string).
  Variables (L S : Z).
  Variables (q : mg_options V) (d : disc3 V) (variant : Z) (p : ch_params V).
  Notation dom := (d3_domain d).
  Notation a0 := (create_real_array3 d).
  Notation rmax := (pl_rmax pl).
  Notation rsum := (red_sum (pl_red pl) (nint 0)).
  Notation pw := (pl_pow pl).
  Variables (g : mg_config V (scratch V)) (b0 : mg_world V (scratch V)).
  Hypothesis HL : L <> 0.
  Hypothesis Hname : forall b i, sn_name sn b i = Ok (nm b i).
  Hypothesis Hmon : forall c, zlen c = cells3 dom -> exists m, sn_monitor sn c = Ok m.
  Hypothesis Hdoc : forall st c, zlen c = cells3 dom -> exists doc, sn_write sn st c = Ok doc.
  Hypothesis Hidx : forall k, In k (sn_idx sn) -> 0 <= k < cells3 dom.
  Variable o : time_options V.
  Hypothesis NC : t_use_cfl o = false.
  Hypothesis HI : 0 <= t_initial_step o < INT_MAX.
  Hypothesis HM : t_max_steps o <> 0 /\ t_max_steps o <= INT_MAX.
  Hypothesis W : wf3 d.
  Hypothesis HN : 2 <= nhalo dom.
  Hypothesis SC : make_ch3 d variant = Ok (new_scratch a0).
  Hypothesis INT : q_interp q <> MGOther.
  Hypothesis LA : zlen a0 = cells3 dom.
  Hypothesis TH : thick_at (q_levels q - 1) dom.
  Hypothesis NEW : bdf_new q d variant p (new_scratch a0) rmax rsum pw [a0] [a0] = Ok (g, b0).
  Hypothesis NS : 1 <= q_nsmooth q.

  (** The steps of the smoothers are kept in the second component. *)
  Definition smoothing (a : nat -> Z -> V) (l : nat) : V := a 1%nat (Z.of_nat l).
  Definition flat (a : nat -> Z -> V) : nat -> Z -> V := fun _ => a O.
  Definition bdf_result (t dt : V) (a : nat -> Z -> V) : field V * field V :=
    ch_run q d variant p g (smoothing a) t dt (flat a) (ch_count q d variant p rsum g (smoothing a) t dt (flat a)).
  Definition bdf_next (t dt : V) (a : nat -> Z -> V) (e : nat) (i : Z) : V :=
    match e with
    | 1%nat => if q_max_cycles q <=? 0 then a 1%nat i else g_cfl g (Z.to_nat i)
    | _ => fst (bdf_result t dt a) e i
    end.
  Definition bdf_slope (t dt : V) (a : nat -> Z -> V) : nat -> Z -> V := snd (bdf_result t dt a).

  Definition bdf_fits (x : bdf_world V) (a : nat -> Z -> V) : Prop :=
    world_ok q d (i_mg x) /\ state_holds 1 (cells3 dom) (P3 dom) (solution (i_mg x)) a /\
    forall l, (l <= gn q)%nat -> smoothing a l = dt_of g (b_levels (i_mg x)) l.

  Lemma holds_flat size P (st : state V) a b : (forall i, a O i = b O i) -> state_holds 1 size P st a -> state_holds 1 size P st b.
  Proof. intros E (H1 & H2). split; [exact H1|]. intros e i He Hi HP. destruct e as [|e]; [|lia]. rewrite <- E. apply H2; auto. Qed.

  Definition put_bdf (x : bdf_world V) (w : pworld V) : bdf_world V := {| i_mg := i_mg x; i_rest := w |}.

  Lemma bdf_step_fits t dt x a : bdf_fits x a -> exists x' r, bdf_do g x t dt = Ok x' /\ bdf_fits x' (bdf_next t dt a) /\
    i_rest x' = i_rest x /\ bdf_residual (i_mg x') = [r] /\ state_holds 1 (cells3 dom) (P3 dom) [r] (bdf_slope t dt a).
  Proof.
    intros (WK & HS & HF).
    assert (SH : shaped 1 (cells3 dom) [a0]) by (apply one_shaped; exact LA).
    destruct (ch_cycled q d variant p (new_scratch a0) rmax rsum pw [a0] [a0] g b0 W HN SC INT SH SH TH NEW NS (i_mg x) t dt (flat a) (smoothing a) WK
      (holds_flat _ _ _ a (flat a) (fun _ => eq_refl) HS) HF) as (b' & EB & WK' & HS' & HR' & HD').
    unfold bdf_do. rewrite EB. cbn [rbind].
    change (residual_of_world b') with (bdf_residual b') in HR'. destruct (shaped_one (cells3 dom) _ (proj1 HR')) as (r & ER). rewrite ER in HR'.
    exists {| i_mg := b'; i_rest := i_rest x |}, r. split; [reflexivity|]. cbn [i_mg i_rest].
    split; [|split; [reflexivity|split; [exact ER|exact HR']]].
    split; [exact WK'|]. split; [refine (holds_flat _ _ _ _ (bdf_next t dt a) (fun _ => _) HS'); reflexivity|].
    intros l Hl. cbn [i_mg]. rewrite HD' by exact Hl. unfold smoothing, bdf_next. rewrite Nat2Z.id. reflexivity.
  Qed.

  (** Where a run starts. *)
  Definition bdf_start (w0 : nat -> Z -> V) : nat -> Z -> V := fun e i => match e with O => w0 O i | _ => nrat 1 1000000 end.

  Lemma run_bdf_ok fuel m set c w0 w : mg_options_of m = Ok q -> set a0 = Ok c -> state_holds 1 (cells3 dom) (P3 dom) [c] w0 ->
    Z.max 1 (t_max_steps o - t_initial_step o) <= Z.of_nat fuel ->
    exists w', run_bdf pl m fuel sn d variant p set o base (driver_observers L S) w = Some (Ok w') /\
      run_result_with pl sn base (cells3 dom) (P3 dom) nm L S [] (fun dt p => p = dt) bdf_next bdf_slope o (bdf_start w0) w w'.
  Proof.
    intros EQ E HC LF. unfold run_bdf. rewrite EQ. cbn [lift]. rewrite NEW. cbn [lift].
    assert (SH : shaped 1 (cells3 dom) [a0]) by (apply one_shaped; exact LA).
    pose proof NEW as EN. unfold bdf_new in EN.
    destruct (get_mg_cycle (q_levels q) (q_nsmooth q)) as [cy| | |]; cbn [rbind] in EN; try discriminate EN.
    destruct (make_grids (Z.to_nat (q_levels q - 1)) d) as [ds| | |]; cbn [rbind] in EN; try discriminate EN.
    destruct (new_coarse_levels variant d (tl ds)) as [vs| | |] eqn:X3; cbn [rbind] in EN; try discriminate EN.
    injection EN as _ Eb. pose proof (f_equal b_levels Eb) as EL. cbn [b_levels] in EL.
    unfold put_initial. rewrite <- EL. cbn [v_u nth_error of_opt rbind]. rewrite E. cbn [rbind lift].
    match goal with |- context [ {| i_mg := ?y; i_rest := w |} ] => set (b1 := y) end.
    set (x := {| i_mg := b1; i_rest := w |}).
    assert (LC : zlen c = cells3 dom) by (apply (proj1 HC) with (e := O); reflexivity).
    assert (R1 : SpecMG.reached g b0 b1).
    { unfold b1. eapply (SpecMG.reached_set g b0 b0 _ _ [c] [a0]); [apply SpecMG.reached_start|rewrite <- Eb; cbn [b_levels]; reflexivity| |]; cbn [v_u v_du map];
        [rewrite LC, LA; reflexivity|reflexivity]. }
    assert (WK : world_ok q d b1).
    { apply (reached_ok q d variant p (new_scratch a0) rmax rsum pw [a0] [a0] g b0 W HN SC INT SH SH TH NEW NS b1 R1). }
    apply (run_gen pl sn base (cells3 dom) (P3 dom) nm (bdf_do g) (fun x dt => Ok (x, dt)) (fun x => bdf_state (i_mg x)) (fun x => bdf_residual (i_mg x)) (fun _ => []) [] i_rest put_bdf
             (fun _ y b => bdf_fits y b) bdf_next bdf_slope (fun dt p => p = dt)
             ltac:(reflexivity) ltac:(reflexivity) ltac:(reflexivity) ltac:(reflexivity)) with (x := x); auto.
    - intros t y b (H1 & H2 & H3). change (solution (i_mg y)) with (bdf_state (i_mg y)) in H2.
      destruct (shaped_one _ _ (proj1 H2)) as (c' & E'). exists c'. rewrite <- E'. auto.
    - intros t dt y b H. destruct (bdf_step_fits t dt y b H) as (x' & r' & Q1 & Q2 & Q3 & Q4 & Q5). exists x', r'. repeat (split; [assumption|]). reflexivity.
    - intros t dt y b H. exists y, dt. split; [reflexivity|]. split; [reflexivity|]. split; [exact H|]. split; reflexivity.
    - split; [exact WK|]. cbn [x i_mg]. split; [refine (holds_flat _ _ _ _ (bdf_start w0) (fun _ => _) HC); reflexivity|].
      intros l Hl. unfold smoothing, bdf_start. symmetry. unfold dt_of.
      destruct (nth_error (b_levels b1) l) as [v|] eqn:EV.
      + pose proof (start_firsts q d variant p (new_scratch a0) rmax rsum pw [a0] [a0] g b0 NEW l) as SF.
        unfold b1 in EV. cbn [b_levels] in EV. destruct l as [|l].
        * injection EV as <-. cbn [v_sm]. apply (SF _ ltac:(rewrite <- Eb; reflexivity)).
        * apply (SF v). rewrite <- Eb. exact EV.
      + apply nth_error_None in EV. destruct WK as ((LB & _) & _). lia.
  Qed.
End Bdf.
