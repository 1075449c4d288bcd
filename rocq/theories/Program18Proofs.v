(** The multigrid integrator for Poisson's equation, and whole runs with it. *)
From Coq Require Import String Reals Lra FunctionalExtensionality.
From Verif Require Import ModelLogger ModelOptions Outcome ZList ZListProofs Num Kernel ModelIndex IndexProofs ModelDisc3D ModelDisc2D ModelCH
  SpecGrid Disc3DProofs Make3Proofs BC3Proofs CHProofs Stencil3Proofs Transfer3Proofs TransferFinal SpecField SumProofs FieldProofs ModelTime ModelRun ModelObs SpecTime Time1Proofs Time2Proofs Step1Proofs StepFinal
  ModelMon ModelVTK ModelMain ModelProgram SpecMon SpecVTK SpecRestart RestartProofs Mon1Proofs MonFinal SpecProgram ProgramProofs Program2Proofs Program3Proofs Program4Proofs Program5Proofs
  Program6Proofs Program7Proofs
  ModelMG ModelMGCH SpecMG MG1Proofs MG2Proofs MG3Proofs MG4Proofs MG5Proofs MGFinal ModelImplicit SpecImplicit MG6Proofs Program13Proofs Program14Proofs
  ModelPoisson PoissonFinal SpecPoissonRun Program15Proofs.
From Coq Require Import Lia ZifyBool ZifyNat List.
Local Open Scope list_scope.
Local Open Scope Z_scope.

Definition pext3 (dom : domain R) (u : field R) : field R := of3 dom (poisson_extend dom (at3 dom u)).

Lemma poisson_computes_ext dom d : valid_domain3 dom -> 1 <= nhalo dom -> thick dom -> make3 dom = Ok d ->
  computes_ext (poisson_eval sin cos d) (scratch_fits (cells3 dom)) 1 (cells3 dom) (P3 dom) (Q3 dom) (pext3 dom) (poisson_f dom).
Proof.
  intros HV HN HT HM sc s t r u OK HS SR.
  apply one_array in SR as (rhs & -> & LR).
  destruct (proj1 (one_array _ _) (proj1 HS)) as (c & -> & LC).
  assert (NH : 0 <= nhalo dom) by lia.
  pose proof (proj1 (state3 dom c u NH) HS) as HI.
  destruct (pf_C61_rhs dom d c rhs _ HV HN HT HM HI LR) as (c' & r' & E & HC & HR & _).
  unfold poisson_eval. cbn [nth_error of_opt rbind]. rewrite E. cbn [rbind upd].
  do 3 eexists. split; [reflexivity|]. split; [exact OK|]. split; [|split].
  - apply state3; auto. split; [apply HC|]. intros i j k I. rewrite (proj2 HC) by (apply inside_padded3; auto). f_equal.
    unfold poisson_extend. destruct I as (I1 & I2 & I3). replace ((0 <=? k) && (k <? nz dom))%bool with true by lia. rewrite !Z.mod_small by lia. reflexivity.
  - apply state3_pad; auto. split; [apply HC|]. intros i j k I. rewrite (proj2 HC) by auto. f_equal.
    unfold at3 at 2, pext3. rewrite of3_slot by auto. reflexivity.
  - apply state3; auto. eapply holds_inside3_ext; [exact HR|]. intros i j k I. unfold at3, poisson_f.
    rewrite of3_slot by (apply inside_padded3; auto). reflexivity.
Qed.

Lemma pext3_same dom u : 0 <= nhalo dom -> same_on 1 (cells3 dom) (P3 dom) (pext3 dom u) u.
Proof.
  intros H e z He Hz (i & j & k & I & ->). destruct e; [|lia]. unfold pext3.
  rewrite of3_slot by (apply inside_padded3; auto). unfold poisson_extend. destruct I as (I1 & I2 & I3).
  replace ((0 <=? k) && (k <? nz dom))%bool with true by lia. rewrite !Z.mod_small by lia. reflexivity.
Qed.

(** The coarse levels are those of the Cahn-Hilliard equation. *)
Lemma poisson_levels_same {V} `{N : Num V} : forall ds (df : disc3 V), new_coarse_levels 0 df ds = Ok (new_poisson_levels df ds).
Proof. induction ds as [|dc ds IH]; intros df; [reflexivity|]. cbn [new_coarse_levels]. rewrite IH. reflexivity. Qed.

Definition p0 : ch_params R := {| ch_m := 0%R; ch_sigma := 0%R; ch_eps2 := 0%R |}.

Section Levels.
  Variables (q : mg_options R) (d : disc3 R) (sc0 : scratch R)
    (rmax : R -> list R -> R) (rsum : list R -> R) (pw : R -> R -> R) (u0 du0 : state R)
    (g : mg_config R (scratch R)) (b0 : mg_world R (scratch R)).
  Hypothesis W : wf3 d.
  Hypothesis MK : make3 (d3_domain d) = Ok d.
  Hypothesis HN : 2 <= nhalo (d3_domain d).
  Hypothesis SC : make_ch3 d 0 = Ok sc0.
  Hypothesis INT : q_interp q <> MGOther.
  Hypothesis U0 : shaped 1 (cells3 (d3_domain d)) u0.
  Hypothesis DU0 : shaped 1 (cells3 (d3_domain d)) du0.
  Hypothesis TH : thick_at (q_levels q - 1) (d3_domain d).
  Hypothesis NEW : bdf_new_poisson sin cos q d sc0 rmax rsum pw u0 du0 = Ok (g, b0).

  Notation dom := (d3_domain d).
  Notation ns := (Z.to_nat (q_nsmooth q)).
  Definition twin_g : mg_config R (scratch R) := mg_ch3 q 0 p0 (g_cycle g) rmax rsum pw (grids q d).

  Lemma p_grids : make_grids (gn q) d = Ok (grids q d) /\ g = mg_poisson sin cos q (g_cycle g) rmax rsum pw (grids q d) /\
    bdf_new q d 0 p0 sc0 rmax rsum pw u0 du0 = Ok (twin_g, b0).
  Proof.
    pose proof NEW as E. unfold bdf_new_poisson in E. unfold bdf_new, twin_g, grids, gn.
    destruct (get_mg_cycle _ _) as [cy| | |] eqn:X1; cbn [rbind] in E; try discriminate.
    destruct (make_grids _ _) as [ds| | |] eqn:X2; cbn [rbind] in E; try discriminate.
    injection E as Eg Eb. cbn [rbind]. rewrite poisson_levels_same. cbn [rbind].
    rewrite <- Eg, <- Eb. cbn [g_cycle mg_poisson]. split; [reflexivity|]. split; reflexivity.
  Qed.
  Lemma TW : bdf_new q d 0 p0 sc0 rmax rsum pw u0 du0 = Ok (twin_g, b0).
  Proof. exact (proj2 (proj2 p_grids)). Qed.

  Lemma p_facts : length (grids q d) = (1 + gn q)%nat /\ nth_error (grids q d) 0 = Some d /\
    (forall k, (k <= gn q)%nat -> nth_error (grids q d) k = Some (grid q d k)) /\ grid q d 0 = d /\
    (forall k, wf3 (grid q d k)) /\ (forall k, 2 <= nhalo (gdom q d k) /\ thick (gdom q d k)) /\
    (forall k, (k < gn q)%nat -> halves3 (gdom q d (1 + k)) (gdom q d k) /\ coarsen3 (grid q d k) = Ok (grid q d (1 + k))).
  Proof. exact (grids_facts q d 0 p0 sc0 rmax rsum pw u0 du0 twin_g b0 W HN TH TW). Qed.

  Lemma p_made k : (k <= gn q)%nat -> make3 (gdom q d k) = Ok (grid q d k).
  Proof.
    destruct p_facts as (_ & _ & _ & G0 & HW & _ & HH). unfold gdom. destruct k as [|k]; intros Hk; [rewrite G0; exact MK|].
    destruct (HH k Hk) as (_ & EC). cbn [Nat.add] in EC. pose proof EC as EC'. unfold coarsen3 in EC. destruct (_ || _) eqn:EB in EC; [discriminate|].
    pose proof (wf_valid _ (HW k)) as VF. pose proof (wf_valid _ (HW (S k))) as VC.
    assert (ED : d3_domain (grid q d (S k)) = {| nx := Z.quot (nx (d3_domain (grid q d k))) 2; ny := Z.quot (ny (d3_domain (grid q d k))) 2; nz := Z.quot (nz (d3_domain (grid q d k))) 2;
                  xbeg := xbeg (d3_domain (grid q d k)); xend := xend (d3_domain (grid q d k)); ybeg := ybeg (d3_domain (grid q d k)); yend := yend (d3_domain (grid q d k));
                  zbeg := zbeg (d3_domain (grid q d k)); zend := zend (d3_domain (grid q d k));
                  xbc := xbc (d3_domain (grid q d k)); ybc := ybc (d3_domain (grid q d k)); zbc := zbc (d3_domain (grid q d k)); nhalo := nhalo (d3_domain (grid q d k)) |}).
    { apply make3_inv; [|exact EC]. unfold valid_domain3 in *. cbn [nx ny nz nhalo].
      pose proof (proj1 (HH k Hk)) as HV2. cbn [Nat.add] in HV2. unfold gdom in HV2. destruct VF as (F1 & F2 & F3 & F4). 
      rewrite !Z.quot_div_nonneg by lia. destruct (negb_false_iff (Z.rem (nx (d3_domain (grid q d k))) 2 =? 0)) as (N1 & _).
      apply orb_false_iff in EB as (EB & E3). apply orb_false_iff in EB as (E1 & E2). apply negb_false_iff, Z.eqb_eq in E1, E2, E3.
      rewrite Z.rem_mod_nonneg in E1, E2, E3 by lia. lia. }
    rewrite ED. exact EC.
  Qed.

  Definition pext (k : nat) : field R -> field R := pext3 (gdom q d k).
  Definition prate (k : nat) : R -> field R -> field R := poisson_f (gdom q d k).

  Lemma p_PQ k u : same_on 1 (gsize q d k) (gP q d k) (pext k u) u.
  Proof. apply pext3_same. destruct p_facts as (_ & _ & _ & _ & _ & H & _). destruct (H k). lia. Qed.
  Lemma p_PQ' k i : gP q d k i -> gQ q d k i.
  Proof. exact (gPQ' q d 0 p0 sc0 rmax rsum pw u0 du0 twin_g b0 W HN TH TW k i). Qed.

  Lemma p_CE k : (k <= gn q)%nat -> computes_ext (g_eval g k) (gok q d k) 1 (gsize q d k) (gP q d k) (gQ q d k) (pext k) (prate k).
  Proof.
    intros Hk. destruct p_grids as (_ & EG & _). rewrite EG. cbn [g_eval mg_poisson].
    destruct p_facts as (_ & _ & NT & _ & HW & HT & _). rewrite (NT k Hk). destruct (HT k) as (H2 & H3).
    exact (poisson_computes_ext (gdom q d k) (grid q d k) (wf_valid _ (HW k)) ltac:(lia) H3 (p_made k Hk)).
  Qed.

  Lemma p_CR k : (k < gn q)%nat ->
    transfers (g_restrict g (1 + k)) 1 (gsize q d k) (gP q d k) (gsize q d (1 + k)) (gP q d (1 + k)) (grest q d (1 + k)).
  Proof. destruct p_grids as (_ & EG & _). rewrite EG. exact (gCR q d 0 p0 sc0 rmax rsum pw u0 du0 twin_g b0 W HN TH TW k). Qed.
  Lemma p_CP k : (k < gn q)%nat ->
    transfers (g_prolong g (1 + k)) 1 (gsize q d (1 + k)) (gQ q d (1 + k)) (gsize q d k) (gP q d k) (gprol q d (1 + k)).
  Proof. destruct p_grids as (_ & EG & _). rewrite EG. exact (gCP q d 0 p0 sc0 rmax rsum pw u0 du0 twin_g b0 W HN INT TH TW k). Qed.
  Lemma p_IN i : In i (g_interior g) -> 0 <= i < gsize q d 0.
  Proof. destruct p_grids as (_ & EG & _). rewrite EG. exact (gIN q d 0 p0 sc0 rmax rsum pw u0 du0 twin_g b0 W HN TH TW i). Qed.

  Lemma p_world : world_ok q d b0.
  Proof. exact (world_ok_new q d 0 p0 sc0 rmax rsum pw u0 du0 twin_g b0 W HN SC U0 DU0 TH TW). Qed.
  Lemma p_firsts k v : nth_error (b_levels b0) k = Some v -> m_dt (v_sm v) = nrat 1 1000000.
  Proof. exact (start_firsts q d 0 p0 sc0 rmax rsum pw u0 du0 twin_g b0 TW k v). Qed.

  Hypothesis NS : 1 <= q_nsmooth q.

  Lemma p_params : g_steady g = q_steady q /\ g_relax g = q_relax q /\ g_coarse_relax g = q_coarse_relax q /\
    g_max_cycles g = q_max_cycles q /\ g_cycle g = cyc (S (ns - 1)) (gn q).
  Proof.
    destruct p_grids as (_ & EG & _). destruct (g_params q d 0 p0 sc0 rmax rsum pw u0 du0 twin_g b0 TW NS) as (_ & _ & _ & _ & EC).
    split; [rewrite EG; reflexivity|]. split; [rewrite EG; reflexivity|]. split; [rewrite EG; reflexivity|]. split; [rewrite EG; reflexivity|]. exact EC.
  Qed.

  Lemma p_grid0 : grid q d 0 = d.
  Proof. apply p_facts. Qed.
  Lemma p_size0 : gsize q d 0 = cells3 dom.
  Proof. unfold gsize, gdom. rewrite p_grid0. reflexivity. Qed.
  Lemma p_P0 : gP q d 0 = P3 dom.
  Proof. unfold gP, gdom. rewrite p_grid0. reflexivity. Qed.
  Lemma p_ext0 : pext 0 = pext3 dom.
  Proof. unfold pext, gdom. rewrite p_grid0. reflexivity. Qed.
  Lemma p_f0 : prate 0 = poisson_f dom.
  Proof. unfold prate, gdom. rewrite p_grid0. reflexivity. Qed.

  Notation wok := (world_ok q d).
  Notation glv vs := (map (gl g pext prate (grest q d) (gprol q d) (dt_of g vs)) (seq 1 (gn q))).

  Lemma p_wok_shaped b : wok b -> shaped 1 (cells3 dom) (solution b).
  Proof.
    intros (LO & _). destruct (level0 _ _ _ _ _ LO) as (v & E0 & (_ & S0 & _) & _). rewrite p_size0 in S0.
    unfold solution. destruct (b_levels b); [discriminate|]. injection E0 as ->. exact S0.
  Qed.

  Lemma p_shaped_exists b : wok b -> exists u, state_holds 1 (cells3 dom) (P3 dom) (solution b) u.
  Proof.
    intros WK. pose proof (p_wok_shaped b WK) as S0.
    destruct (proj1 (one_array _ _) S0) as (c & E & L). rewrite E.
    destruct (holds3_exists dom c (wf_valid d W) L) as (w & HW). exists (of3 dom w).
    assert (NH : 0 <= nhalo dom) by lia. apply state3; auto. split; auto. intros i j k I.
    unfold at3. rewrite of3_slot by (apply inside_padded3; auto). apply HW. apply inside_padded3; auto.
  Qed.

  (** The steps of the smoothers. *)
  Lemma p_step_first b time dt u : wok b -> state_holds 1 (cells3 dom) (P3 dom) (solution b) u ->
    let F := implicit_rhs (q_steady q) (poisson_f dom) dt u in
    exists b' k, bdf_step g b time dt = Ok b' /\ wok b' /\ (k <= Z.to_nat (q_max_cycles q))%nat /\
      (b_ncycles b' = 0 /\ k = Z.to_nat (q_max_cycles q) \/ b_ncycles b' = Z.of_nat k /\ (0 < k)%nat) /\
      state_holds 1 (cells3 dom) (P3 dom) (solution b')
        (vcycles k ns time F (pext3 dom) (dt_of g (b_levels b) 0) (g_cfl g 0) (q_relax q) (q_coarse_relax q) (glv (b_levels b)) u) /\
      (Z.to_nat (q_max_cycles q) <> O /\ all_settled g (b_levels b') \/
       Z.to_nat (q_max_cycles q) = O /\ forall k x', nth_error (b_levels b') k = Some x' ->
         exists x, nth_error (b_levels b) k = Some x /\ m_dt (v_sm x) = m_dt (v_sm x')).
  Proof.
    intros (LO & SR) HU F. destruct p_params as (EP1 & EP2 & EP3 & EP4 & EP5).
    destruct (level0 (gok q d) 1 (gsize q d) (gn q) _ LO) as (v & E0 & _).
    assert (SV : solution b = v_u v)
      by (unfold solution; destruct (b_levels b); [discriminate|]; injection E0 as ->; reflexivity).
    rewrite SV in HU. rewrite <- p_size0, <- p_P0 in *.
    destruct (bdf_step_spec g (gok q d) 1 (gsize q d) (gP q d) (gQ q d) (pext) (prate) (grest q d) (gprol q d)
      (gn q) (ns - 1)
      p_PQ
      p_PQ'
      p_CE
      p_CR
      p_CP
      EP5 p_IN Nat.lt_0_1
      b v time dt u LO SR E0 HU) as (b' & k & v' & E & A1 & A2 & A3 & A4 & A5 & A6).
    pose proof (step_settled g (gok q d) 1 (gsize q d) (gP q d) (gQ q d) (pext) (prate) (grest q d) (gprol q d)
      (gn q) (ns - 1)
      p_PQ
      p_PQ'
      p_CE
      p_CR
      p_CP
      EP5 p_IN Nat.lt_0_1
      b b' v time dt u LO SR E0 HU E) as ST.
    exists b', k. split; [exact E|]. split; [split; [exact A1|exact A2]|].
    rewrite EP4 in A4, A5, ST. split; [exact A4|]. split; [exact A5|]. split; [|exact ST].
    assert (SV' : solution b' = v_u v')
      by (unfold solution; destruct (b_levels b'); [discriminate|]; injection A3 as ->; reflexivity).
    rewrite SV'. rewrite EP1, EP2, EP3, p_ext0, p_f0 in A6. replace (S (ns - 1)) with ns in A6 by lia.
    unfold dt_of at 1. rewrite E0. exact A6.
  Qed.

  Lemma p_reached_ok b : reached g b0 b -> wok b.
  Proof.
    intros R. induction R as [|b b' t dt R IH E|b v vs u du R IH EL E1 E2].
    - exact p_world.
    - destruct (p_shaped_exists b IH) as (u & HU). destruct (p_step_first b t dt u IH HU) as (b1 & k & E1 & W1 & _).
      rewrite E in E1. injection E1 as <-. exact W1.
    - destruct IH as ((L & H) & SR). rewrite EL in L, H. split; [|exact SR]. cbn [b_levels]. split; [exact L|].
      intros [|k] x Hx; [|exact (H (S k) x Hx)]. injection Hx as <-.
      destruct (H 0%nat v eq_refl) as (A1 & A2 & A3 & A4 & A5).
      split; [exact A1|]. split; [exact (shaped_zlen _ _ _ _ A2 E1)|]. split; [exact (shaped_zlen _ _ _ _ A3 E2)|].
      split; [exact A4|exact A5].
  Qed.

  (** State and residual after k cycles of a step from u, and the number of cycles the step makes. *)
  Definition p_run (first : nat -> R) (t dt : R) (u : field R) (k : nat) : field R * field R :=
    let F := implicit_rhs (q_steady q) (poisson_f dom) dt u in
    cycled k ns t F (pext3 dom) (first O) (g_cfl g 0) (q_relax q) (q_coarse_relax q)
      (map (gl g (pext) (prate) (grest q d) (gprol q d) first) (seq 1 (gn q))) u (F t u).
  Definition p_count (first : nat -> R) (t dt : R) (u : field R) : nat :=
    stop_at (Z.to_nat (q_max_cycles q))
      (fun j => nleb (ndiv (ch_measured d rsum (snd (p_run first t dt u j))) (ch_measured d rsum (snd (p_run first t dt u 0)))) (q_tol q)).

  Lemma p_run_ext first first' t dt u k : (forall l, (l <= gn q)%nat -> first l = first' l) -> p_run first t dt u k = p_run first' t dt u k.
  Proof.
    intros H. unfold p_run. rewrite (H O) by lia. f_equal. apply map_ext_in. intros l Hl. apply in_seq in Hl. unfold gl. rewrite H by lia. reflexivity.
  Qed.
  Lemma p_count_ext first first' t dt u : (forall l, (l <= gn q)%nat -> first l = first' l) -> p_count first t dt u = p_count first' t dt u.
  Proof. intros H. apply stop_at_ext. intros j. rewrite !(p_run_ext first first') by exact H. reflexivity. Qed.


  Lemma p_cycled b time dt u first : world_ok q d b -> state_holds 1 (cells3 dom) (P3 dom) (solution b) u ->
    (forall l, (l <= gn q)%nat -> first l = dt_of g (b_levels b) l) ->
    let z := p_run first time dt u (p_count first time dt u) in
    exists b', bdf_step g b time dt = Ok b' /\ world_ok q d b' /\
      state_holds 1 (cells3 dom) (P3 dom) (solution b') (fst z) /\ state_holds 1 (cells3 dom) (P3 dom) (residual_of_world b') (snd z) /\
      (forall l, (l <= gn q)%nat -> dt_of g (b_levels b') l = if (q_max_cycles q <=? 0)%Z then first l else g_cfl g l).
  Proof.
    intros WK HU HF z. pose proof WK as (LO & SR).
    destruct p_params as (EP1 & EP2 & EP3 & EP4 & EP5).
    destruct (level0 (gok q d) 1 (gsize q d) (gn q) _ LO) as (v & E0 & _).
    assert (SV : solution b = v_u v)
      by (unfold solution; destruct (b_levels b); [discriminate|]; injection E0 as ->; reflexivity).
    pose proof HU as HU1. rewrite SV in HU.
    pose proof p_size0 as GS0.
    pose proof p_P0 as GP0.
    pose proof p_ext0 as GE0.
    pose proof p_f0 as GF0.
    destruct p_grids as (EGR & EG & _).
    assert (GI : g_interior g = d3_interior d /\ g_reduce_sum g = rsum /\ g_tol g = q_tol q).
    { rewrite EG. cbn [g_interior g_reduce_sum g_tol mg_poisson]. split; [|split; reflexivity].
      destruct p_facts as (_ & _ & GN & G0 & _).
      specialize (GN O ltac:(lia)). rewrite G0 in GN. destruct (grids q d); [discriminate|]. injection GN as ->. reflexivity. }
    destruct GI as (GI1 & GI2 & GI3).
    rewrite <- GS0, <- GP0 in HU.
    destruct (bdf_step_cycled g (gok q d) 1 (gsize q d) (gP q d) (gQ q d) (pext) (prate) (grest q d) (gprol q d)
      (gn q) (ns - 1)
      p_PQ
      p_PQ'
      p_CE
      p_CR
      p_CP
      EP5 p_IN) with (b := b) (v := v) (time := time) (dt := dt) (w := u)
      as (b' & v' & E & A3 & A6 & A7); auto.
    { intros i Hi. rewrite GI1 in Hi. rewrite GP0. apply (in_interior_slot d i W) in Hi as (a & c & e & I & ->). exists a, c, e. split; [exact I|reflexivity]. }
    assert (SR1 : forall k, step_run g (pext) (prate) (grest q d) (gprol q d) (gn q) (ns - 1) (dt_of g (b_levels b)) time dt u k = p_run first time dt u k).
    { intros k. rewrite (p_run_ext first (dt_of g (b_levels b))) by exact HF. unfold step_run, p_run. rewrite EP1, EP2, EP3, GE0, GF0.
      replace (S (ns - 1)) with ns by lia. reflexivity. }
    assert (CN : step_count g (pext) (prate) (grest q d) (gprol q d) (gn q) (ns - 1) (dt_of g (b_levels b)) time dt u = p_count first time dt u).
    { unfold step_count, p_count. rewrite EP4. apply stop_at_ext. intros j. rewrite !SR1. unfold meets, measured, ch_measured. rewrite GI1, GI2, GI3. reflexivity. }
    rewrite SR1, CN in A6, A7. fold z in A6, A7. rewrite GS0, GP0 in A6, A7.
    destruct (p_step_first b time dt u WK HU1)
      as (b1 & k1 & EB & WK1 & _ & _ & _ & ST). rewrite E in EB. injection EB as <-.
    exists b'. split; [exact E|]. split; [exact WK1|].
    assert (SV' : solution b' = v_u v' /\ residual_of_world b' = v_du v')
      by (unfold solution, residual_of_world; destruct (b_levels b'); [discriminate|]; injection A3 as ->; split; reflexivity).
    destruct SV' as (-> & ->). split; [exact A6|]. split; [exact A7|].
    intros l Hl. assert (exists x, nth_error (b_levels b') l = Some x) as (x & EX).
    { destruct WK1 as ((LB & _) & _). destruct (nth_error (b_levels b') l) eqn:EN; [eauto|]. apply nth_error_None in EN. lia. }
    destruct ST as [(M & D)|(M & D)].
    - replace (q_max_cycles q <=? 0) with false by lia. unfold dt_of. rewrite EX. exact (D _ _ EX).
    - replace (q_max_cycles q <=? 0) with true by lia. unfold dt_of at 1. rewrite EX. destruct (D l x EX) as (y & EY & ED). rewrite HF by exact Hl.
      unfold dt_of. rewrite EY. symmetry. exact ED.
  Qed.
End Levels.
