(** What the implicit integrator cannot be made with and what it leaves alone, for Poisson's equation. *)
From Coq Require Import String Reals Lra.
From Verif Require Import ModelLogger ModelOptions Outcome ZList Num ModelIndex ModelDisc3D ModelDisc2D ModelCH SpecGrid Disc3DProofs Make3Proofs ModelTime ModelRun ModelObs
  ModelMon ModelVTK ModelMain ModelProgram SpecMon SpecRestart RestartProofs SpecProgram ProgramProofs Program2Proofs Program3Proofs Program4Proofs Program5Proofs
  SpecTime Time1Proofs Time2Proofs Step1Proofs StepFinal BC3Proofs ModelMG ModelMGCH SpecMG MG1Proofs MG2Proofs MG3Proofs MG4Proofs MG5Proofs MGFinal ModelImplicit SpecImplicit Program14Proofs ModelPoisson SpecPoissonRun Program15Proofs Program18Proofs Program19Proofs.
From Coq Require Import Lia ZifyBool ZifyNat List.
Import ListNotations.
Local Open Scope string_scope.
Local Open Scope Z_scope.
Local Open Scope list_scope.

Lemma poisson_stopped {V} `{N : Num V} nsin ncos (q : mg_options V) d p sc rmax rsum pw u du :
  (bdf_new q d 0 p sc rmax rsum pw u du = Throw -> bdf_new_poisson nsin ncos q d sc rmax rsum pw u du = Throw) /\
  (bdf_new q d 0 p sc rmax rsum pw u du = Fatal -> bdf_new_poisson nsin ncos q d sc rmax rsum pw u du = Fatal).
Proof.
  unfold bdf_new, bdf_new_poisson. destruct (get_mg_cycle _ _) as [cy| | |]; cbn [rbind]; try (split; congruence).
  destruct (make_grids _ _) as [ds| | |]; cbn [rbind]; try (split; congruence). rewrite poisson_levels_same. cbn [rbind]. split; discriminate.
Qed.

Section Program.
  Context {V : Type} `{N : Num V} (pl : platform V) (nsin ncos : V -> V) (fs : string -> option string) (vts : string -> list xml)
    (other : members V -> option (res (pworld V))) (args : list string) (opts m : members V) (vm : vmap V).
  Hypothesis PO : parse_options (pl_read pl) (pl_lit pl) (pl_eps100 pl) (pl_max100 pl) fs args opts = Ok (Running m vm).
  Variables (s : settings V) (q : mg_options V).

  Lemma poisson_all_fails {rel abs} d v p o f : poisson_asks m 3 (integrator_name q) s rel abs ->
    build pl m None = Ok (Poisson3 d, ZeroField, v, p, o, f) -> mg_asks m q ->
    let a := create_real_array3 d in let r := bdf_new_poisson nsin ncos q d (new_scratch a) (pl_rmax pl) (red_sum (pl_red pl) (nint 0)) (pl_pow pl) [a] [a] in
    (r = Throw -> forall fuel, madgicart_all pl nsin ncos fuel fs vts other args opts = Some Throw) /\
    (r = Fatal -> forall fuel, madgicart_all pl nsin ncos fuel fs vts other args opts = Some Fatal).
  Proof.
    intros A B M a r. pose proof (poisson_mg_read m q 3 s _ _ M A) as EQ.
    destruct (start_ok pl (s_log_file s) (start_messages (template pl vm) "none")) as (w0 & E0 & _).
    assert (G : forall fuel, madgicart_all pl nsin ncos fuel fs vts other args opts =
      after (run_bdf_poisson pl nsin ncos m fuel (scene3 pl (s_max_steps s) d) d (constant_initial (nint 0) (d3_interior d)) o (base_of s)
         (driver_observers (s_log_every s) (s_save_every s)) w0) (fun w => Ok (Finished w))).
    { intros fuel. unfold madgicart_all. rewrite PO. cbn [lift]. reads_poisson A. clear M.
      unfold get_string, get_int, get_unsigned.
      repeat match goal with H : m ?n = _ |- context [m ?n] => rewrite H; clear H end. cbn [lift].
      change (config_template (pl_showg pl) (pl_lit pl) (pl_eps100 pl) (pl_max100 pl) vm) with (template pl vm).
      rewrite E0. cbn [lift]. change (String.eqb "none" "none") with true. cbv iota. rewrite B. cbn [lift].
      replace (String.eqb (integrator_name q) "bdf1" || String.eqb (integrator_name q) "steady")%bool with true
        by (unfold integrator_name; destruct (q_steady q); reflexivity). cbv iota.
      change (output_base (s_output s) (s_log_file s)) with (base_of s). reflexivity. }
    split; intros E fuel; rewrite G; unfold run_bdf_poisson; rewrite EQ; cbn [lift]; fold a; fold r; rewrite E; reflexivity.
  Qed.
End Program.

Section Fixed.
  Variables (q : mg_options R) (d : disc3 R) (sc0 : scratch R)
    (rmax : R -> list R -> R) (rsum : list R -> R) (pw : R -> R -> R) (u0 du0 : state R)
    (g : mg_config R (scratch R)) (b0 : mg_world R (scratch R)).
  Notation dom := (d3_domain d).
  Hypothesis W : wf3 d.
  Hypothesis HN : 2 <= nhalo dom.
  Hypothesis TH : thick_at (q_levels q - 1) dom.
  Hypothesis NEW : bdf_new_poisson sin cos q d sc0 rmax rsum pw u0 du0 = Ok (g, b0).
  Notation zero := (fun (_ : nat) (_ : Z) => 0%R).
  Notation TW' := (TW q d sc0 rmax rsum pw u0 du0 g b0 NEW).
  Notation facts := (p_facts q d sc0 rmax rsum pw u0 du0 g b0 W HN TH NEW).

  Lemma pextQ k u w : same_on 1 (gsize q d k) (gP q d k) u w -> same_on 1 (gsize q d k) (gQ q d k) (pext q d k u) (pext q d k w).
  Proof.
    destruct facts as (_ & _ & _ & _ & HW & H2 & _). destruct (H2 k) as (H3 & _). unfold gsize, gP, gQ, pext, pext3.
    rewrite same3, same3_pad by (unfold gdom in *; lia). intros H i j l I. unfold at3. rewrite !of3_slot by exact I.
    apply poisson_extend_ext; [exact (wf_valid _ (HW k))|exact H].
  Qed.
  Lemma prateP k : respects 1 (gsize q d) (gP q d) k (prate q d k).
  Proof.
    destruct facts as (_ & _ & _ & _ & HW & H2 & _). destruct (H2 k) as (H3 & _). intros t u w. unfold gsize, gP, prate, poisson_f.
    rewrite !same3 by (unfold gdom in *; lia). intros H i j l I. unfold at3. rewrite !of3_slot by (apply inside_padded3; [unfold gdom in *; lia|exact I]).
    apply poisson_rate_ext; [exact (wf_valid _ (HW k))|exact H].
  Qed.

  Lemma p_fixed ns k t F relax crelax d0 (dts : nat -> R) c u :
    respects 1 (gsize q d) (gP q d) 0 F -> (forall s, same_on 1 (gsize q d 0) (gP q d 0) (F s u) zero) ->
    same_on 1 (gsize q d 0) (gP q d 0) (vcycles k ns t F (pext q d 0) d0 c relax crelax
       (map (gl g (pext q d) (prate q d) (grest q d) (gprol q d) dts) (seq 1 (gn q))) u) u.
  Proof.
    intros HF H0.
    exact (vcycles_fixed 1 (gsize q d) (gP q d) (gQ q d) (pext q d) (prate q d) (grest q d) (gprol q d) (g_cfl g) (gn q)
      (p_PQ q d sc0 rmax rsum pw u0 du0 g b0 W HN TH NEW) pextQ (fun k _ => prateP k)
      (grestP q d 0 p0 sc0 rmax rsum pw u0 du0 _ b0 W HN TH TW') (grest0 q d 0 p0 sc0 rmax rsum pw u0 du0 _ b0 W HN TH TW')
      (gprolQ q d 0 p0 sc0 rmax rsum pw u0 du0 _ b0 W HN TH TW') (gprol0 q d 0 p0 sc0 rmax rsum pw u0 du0 _ b0 W HN TH TW')
      (fun k t t' u _ e i _ _ _ => eq_refl) ns t crelax F relax c HF k dts d0 u H0).
  Qed.
End Fixed.

Lemma poisson_keeps (q : mg_options R) dom d rmax rsum pw (u du : state R) g b0 b w time dt :
  valid_domain3 dom -> 2 <= nhalo dom -> thick_at (q_levels q - 1) dom ->
  make3 dom = Ok d -> 1 <= q_nsmooth q -> q_interp q <> MGOther ->
  shaped 1 (cells3 dom) u -> shaped 1 (cells3 dom) du ->
  bdf_new_poisson sin cos q d (new_scratch (create_real_array3 d)) rmax rsum pw u du = Ok (g, b0) -> SpecMG.reached g b0 b ->
  state_inside3 dom (solution b) w ->
  (forall i j k, inside3 dom i j k -> poisson_rate dom w i j k = 0%R) ->
  exists b', bdf_step g b time dt = Ok b' /\ state_inside3 dom (solution b') w.
Proof.
  intros HV HN TH HM NS INT SU SD NEW RE HW EQ.
  destruct (make3_inv dom d HV HM) as (W & <-). assert (NH : 0 <= nhalo (d3_domain d)) by lia.
  set (sc := new_scratch (create_real_array3 d)) in *.
  assert (SC : make_ch3 d 0 = Ok sc) by reflexivity.
  pose proof (p_reached_ok q d sc rmax rsum pw u du g b0 W HM HN SC INT SU SD TH NEW NS b RE) as WK.
  apply holds_state3 in HW; auto.
  destruct (p_step_first q d sc rmax rsum pw u du g b0 W HM HN INT SU SD TH NEW NS b time dt _ WK HW)
    as (b' & k & E & _ & _ & _ & HS & _).
  exists b'. split; [exact E|]. apply holds_state3; auto.
  pose proof (p_size0 q d sc rmax rsum pw u du g b0 W HN TH NEW) as GS.
  pose proof (p_P0 q d sc rmax rsum pw u du g b0 W HN TH NEW) as GP.
  pose proof (p_ext0 q d sc rmax rsum pw u du g b0 W HN TH NEW) as GE.
  eapply holds_same; [exact HS|]. rewrite <- GE, <- GS, <- GP.
  assert (RF : respects 1 (gsize q d) (gP q d) 0 (poisson_f (d3_domain d))).
  { rewrite <- (p_f0 q d sc rmax rsum pw u du g b0 W HN TH NEW). apply (prateP q d sc rmax rsum pw u du g b0 W HN TH NEW). }
  apply (p_fixed q d sc rmax rsum pw u du g b0 W HN TH NEW).
  - intros t x y H. unfold implicit_rhs. destruct (q_steady q); [apply RF; exact H|].
    intros e i He Hi HP. rewrite (RF t x y H e i He Hi HP), (H e i He Hi HP). reflexivity.
  - intros s. rewrite GS, GP. apply same3; auto. intros i j l I.
    assert (Z : at3 (d3_domain d) (poisson_f (d3_domain d) s (of3 (d3_domain d) w)) i j l = 0%R).
    { unfold at3, poisson_f. rewrite of3_slot by (apply inside_padded3; auto). rewrite <- (EQ i j l I).
      apply poisson_rate_ext; auto. intros a b'' c I'. unfold at3. rewrite of3_slot by (apply inside_padded3; auto). reflexivity. }
    unfold implicit_rhs. destruct (q_steady q); [exact Z|]. unfold at3 in *. cbn [nsub nmul ndiv nint Num_R]. rewrite Z. ring.
Qed.
