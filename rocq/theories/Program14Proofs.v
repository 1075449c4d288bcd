(** Runs with the implicit integrator in exact arithmetic: from the values in memory to fields. *)
From Coq Require Import String Reals Lra FunctionalExtensionality.
From Verif Require Import ModelLogger ModelOptions Outcome ZList ZListProofs Num Kernel ModelIndex IndexProofs ModelDisc3D ModelDisc2D ModelCH
  SpecGrid Disc3DProofs Make3Proofs BC3Proofs CHProofs Stencil3Proofs Transfer3Proofs TransferFinal SpecField SumProofs FieldProofs ModelTime ModelRun ModelObs SpecTime Time1Proofs Time2Proofs Step1Proofs StepFinal
  ModelMon ModelVTK ModelMain ModelProgram SpecMon SpecVTK SpecRestart RestartProofs Mon1Proofs MonFinal SpecProgram ProgramProofs Program2Proofs Program3Proofs Program4Proofs Program5Proofs
  Program6Proofs Program7Proofs
  ModelMG ModelMGCH SpecMG MG1Proofs MG2Proofs MG3Proofs MG4Proofs MG5Proofs MGFinal ModelImplicit SpecImplicit MG6Proofs Program13Proofs.
From Coq Require Import Lia ZifyBool ZifyNat List.
Local Open Scope list_scope.
Local Open Scope Z_scope.

Section Tables.
  Variables (dom : domain R).
  Hypothesis HV : valid_domain3 dom.

  Lemma slot_back z : let '(i, j, k) := getIJK z (nhalo dom) (ny dom + 2 * nhalo dom) (nz dom + 2 * nhalo dom) in slot3 dom i j k = z.
  Proof.
    destruct HV as (HX & HY & HZ & HH). unfold getIJK, slot3. set (a := ny dom + 2 * nhalo dom). set (b := nz dom + 2 * nhalo dom).
    assert (A : a <> 0) by lia. assert (B : b <> 0) by lia.
    rewrite Z.mul_comm with (n := a) (m := b). rewrite <- Z.quot_quot by lia.
    pose proof (Z.quot_rem' z b). pose proof (Z.quot_rem' (Z.quot z b) a). nia.
  Qed.

  Lemma table_cells (w : field R) : table_of dom (cells_of dom w) = fun _ => w O.
  Proof.
    extensionality e. extensionality z. unfold table_of, cells_of. pose proof (slot_back z) as E.
    destruct (getIJK _ _ _ _) as ((i, j), k). rewrite E. reflexivity.
  Qed.
End Tables.

Lemma cycled_state {V} `{N : Num V} : forall n ns (t : V) f ext dt cfl relax crelax coarser u r,
  fst (cycled n ns t f ext dt cfl relax crelax coarser u r) = vcycles n ns t f ext dt cfl relax crelax coarser u.
Proof. induction n as [|n IH]; intros; cbn [cycled vcycles]; [reflexivity|]. rewrite IH. reflexivity. Qed.

Section Fields.
  Variables (s : settings R) (q : mg_options R) (d : disc3 R) (variant : Z) (sc0 : scratch R)
    (rmax : R -> list R -> R) (rsum : R -> list R -> R) (pw : R -> R -> R) (u0 du0 : state R)
    (g : mg_config R (scratch R)) (b0 : mg_world R (scratch R)).
  Notation dom := (d3_domain d).
  Notation p := (params_in s).
  Hypothesis HV : valid_domain3 dom.
  Hypothesis W : wf3 d.
  Hypothesis HN : 2 <= nhalo dom.
  Hypothesis SC : make_ch3 d variant = Ok sc0.
  Hypothesis INT : q_interp q <> MGOther.
  Hypothesis TH : thick_at (q_levels q - 1) dom.
  Hypothesis NEW : bdf_new q d variant p sc0 rmax (rsum (nint 0)) pw u0 du0 = Ok (g, b0).
  Hypothesis NS : 1 <= q_nsmooth q.
  Hypothesis HS : sum_reducer rsum.

  Definition prol_of : (Z -> Z -> Z -> R) -> Z -> Z -> Z -> R :=
    match q_interp q with MGLinear => prolong_linear_expr3 | _ => fun v i j k => v (i / 2) (j / 2) (k / 2) end.

  Lemma prol_ok : prolongs (q_interp q) prol_of.
  Proof.
    unfold prolongs, prol_of. destruct (q_interp q); [reflexivity| |congruence].
    intros v a c e LIN i j k. unfold prolong_linear_expr3.
    assert (PJ : IZR j = (2 * IZR ((j - 1) / 2) + 1 + IZR ((j - 1) mod 2))%R).
    { rewrite <- mult_IZR, <- plus_IZR, <- plus_IZR. f_equal. lia. }
    assert (PK : IZR k = (2 * IZR ((k - 1) / 2) + 1 + IZR ((k - 1) mod 2))%R).
    { rewrite <- mult_IZR, <- plus_IZR, <- plus_IZR. f_equal. lia. }
    rewrite PJ, PK. clear PJ PK. set (pi := (i - 1) / 2). set (pj := (j - 1) / 2). set (pk := (k - 1) / 2).
    pattern ((i - 1) mod 2), ((j - 1) mod 2), ((k - 1) mod 2).
    apply lin_parity; try (apply Z.mod_pos_bound; lia);
      cbn [lin_weights find lin_table fst snd Z.eqb andb lin8 nadd nmul nrat Num_R Pos.eqb];
      rewrite !LIN; rewrite ?plus_IZR; field.
  Qed.

  Lemma g_steps k : (k <= gn q)%nat -> g_cfl g k = smoothing_step (q_cfl q) dom (Z.of_nat k).
  Proof.
    intros Hk.
    destruct (grids_facts q d variant p sc0 rmax (rsum (nint 0)) pw u0 du0 g b0 W HN TH NEW) as (LG & _ & GN & G0 & GW & _).
    destruct (grids_eq q d variant p sc0 rmax (rsum (nint 0)) pw u0 du0 g b0 NEW) as (EG & GE & _).
    rewrite GE. cbn [g_cfl mg_ch3]. rewrite GN by exact Hk. unfold cfl_scale3. fold (gdom q d k).
    assert (GD : gdom q d k = coarse_dom dom (Z.of_nat k)). { unfold gdom. apply (grids_dom _ _ _ W EG). apply GN. exact Hk. }
    rewrite GD. unfold smoothing_step, spacing_at, coarse_dom. cbn [xend xbeg nx]. num. ring.
  Qed.

  Lemma run_cycles first' first t dt u n : (forall l, (l <= gn q)%nat -> first' l = first (Z.of_nat l)) ->
    implicit_cycles q dom (ch_levels q s dom prol_of) (smoothing_step (q_cfl q) dom) first t dt u n =
    (cells_of dom (fst (ch_run q d variant p g first' t dt (table_of dom u) n)), cells_of dom (snd (ch_run q d variant p g first' t dt (table_of dom u) n))).
  Proof.
    intros HF. unfold implicit_cycles, ch_run, ch_levels. cbv zeta.
    destruct (grids_facts q d variant p sc0 rmax (rsum (nint 0)) pw u0 du0 g b0 W HN TH NEW) as (LG & _ & GN & G0 & GW & _).
    destruct (grids_eq q d variant p sc0 rmax (rsum (nint 0)) pw u0 du0 g b0 NEW) as (EG & GE & _).
    assert (GD : forall k, (k <= gn q)%nat -> gdom q d k = coarse_dom dom (Z.of_nat k)).
    { intros k Hk. unfold gdom. apply (grids_dom _ _ _ W EG). apply GN. exact Hk. }
    assert (GX : forall k, (k <= gn q)%nat -> d3_dx (grid q d k) = spacing_at dom (Z.of_nat k)).
    { intros k Hk. rewrite (wf_dx _ (GW k)). fold (gdom q d k). rewrite GD by exact Hk. reflexivity. }
    assert (GF : forall k, (k <= gn q)%nat -> gf q d variant p k =
       fun _ => onto3 (coarse_dom dom (Z.of_nat k)) (coarse_dom dom (Z.of_nat k))
         (fun v => CH3 (spacing_at dom (Z.of_nat k)) (ch_m p) (ch_sigma p) (ch_eps2 p) (extend3 (coarse_dom dom (Z.of_nat k)) v))).
    { intros k Hk. unfold gf, ch_f3. rewrite GX, GD by exact Hk.
      extensionality t'. extensionality v. extensionality e. extensionality z. unfold onto3, of3, table_of.
      destruct (getIJK _ _ _ _) as [[i j] l]. apply ch_expr3_R. }
    assert (RF : forall x y z (v : Z -> Z -> Z -> R), restrict_expr3 v x y z = average8 v x y z).
    { intros x y z v. rewrite restrict_expr3_R. unfold average8, sum3, sum2, sum1, Rsum. change (zrange 0 2) with [0; 1].
      cbn [map fold_right]. rewrite !Z.add_0_r. field. }
    assert (GR : forall k, (1 <= k <= gn q)%nat -> grest q d k = onto3 (coarse_dom dom (Z.of_nat k - 1)) (coarse_dom dom (Z.of_nat k)) average8).
    { intros k Hk. unfold grest, rest3. rewrite !GD by lia. replace (Z.of_nat (k - 1)) with (Z.of_nat k - 1) by lia.
      extensionality v. extensionality e. extensionality z. unfold onto3, of3, table_of.
      destruct (getIJK _ _ _ _) as [[i j] l]. apply RF. }
    assert (GP : forall k, (1 <= k <= gn q)%nat -> gprol q d k = onto3 (coarse_dom dom (Z.of_nat k)) (coarse_dom dom (Z.of_nat k - 1)) prol_of).
    { intros k Hk. unfold gprol, prol3. rewrite !GD by lia. replace (Z.of_nat (k - 1)) with (Z.of_nat k - 1) by lia.
      unfold prol_of. destruct (q_interp q); reflexivity. }
    assert (GXT : forall k, (k <= gn q)%nat -> gext q d k =
       onto3 (coarse_dom dom (Z.of_nat k)) (coarse_dom dom (Z.of_nat k)) (extend3 (coarse_dom dom (Z.of_nat k)))).
    { intros k Hk. unfold gext. rewrite GD by exact Hk. reflexivity. }
    rewrite <- (gext0 q d variant p sc0 rmax (rsum (nint 0)) pw u0 du0 g b0 W HN TH NEW),
      <- (gf0 q d variant p sc0 rmax (rsum (nint 0)) pw u0 du0 g b0 W HN TH NEW).
    rewrite (g_steps 0%nat), (GF 0%nat), (GXT 0%nat), (HF 0%nat) by lia.
    cbn [l_f l_ext ch_level3 params_in ch_m ch_sigma ch_eps2]. change (Z.of_nat 0) with 0.
    match goal with |- context [map (gl ?A ?B ?C ?D ?E ?F) (seq 1 (gn q))] =>
      replace (map (gl A B C D E F) (seq 1 (gn q))) with
        (map (fun l => ch_level3 prol_of (s_m s) (s_sigma s) (s_eps2 s) (q_cfl q) first dom (Z.of_nat l)) (seq 1 (Z.to_nat (q_levels q - 1)))); [reflexivity|] end.
    change (gn q) with (Z.to_nat (q_levels q - 1)).
    apply map_ext_in. intros k Hk. apply in_seq in Hk. fold (gn q) in Hk. unfold gl, ch_level3.
    rewrite GF, GR, GP, GXT, g_steps, HF by lia. reflexivity.
  Qed.

  Lemma measured_rms r : ch_measured d (rsum (nint 0)) r = rms3 dom (cells_of dom r).
  Proof.
    unfold ch_measured, rms3, mean3. cbn [nsqrt ndiv nint Num_R]. f_equal. rewrite rsum_eq by exact HS.
    rewrite (zlen_interior_3 d W). rewrite !mult_IZR. f_equal.
    rewrite (Rsum_interior3 d (fun i => npow2 (r O i)) W). apply sum3_ext. intros i j k _ _ _. unfold cells_of. cbn. ring.
  Qed.

  Lemma nleb_R (x y : R) : nleb x y = true <-> (x <= y)%R.
  Proof.
    unfold nleb. cbn [nltb neqb Num_R]. unfold Rltb, Reqb. destruct (Rlt_dec x y) as [L|L]; cbn [orb]; [split; [lra|reflexivity]|].
    destruct (Req_EM_T x y) as [E|E]; split; intros H; try reflexivity; try lra; try discriminate.
  Qed.

  (** The values in memory and the step of the next smoothing are those of the field. *)
  Definition stands (a : nat -> Z -> R) (u : Z -> Z -> Z -> R) (first : Z -> R) : Prop :=
    table_of dom u = flat a /\ (q_max_cycles q <= 0 \/ forall l, (l <= gn q)%nat -> smoothing a l = first (Z.of_nat l)).

  Let result t dt a := ch_run q d variant p g (smoothing a) t dt (flat a) (ch_count q d variant p (rsum (nint 0)) g (smoothing a) t dt (flat a)).
  Let next t dt (a : nat -> Z -> R) (e : nat) (i : Z) : R :=
    match e with 1%nat => if q_max_cycles q <=? 0 then a 1%nat i else g_cfl g (Z.to_nat i) | _ => fst (result t dt a) e i end.

  Lemma stands_step t dt a u first : stands a u first ->
    implicit_step q dom (ch_levels q s dom prol_of) (smoothing_step (q_cfl q) dom) first t dt u (cells_of dom (next t dt a)) (cells_of dom (snd (result t dt a))) /\
    stands (next t dt a) (cells_of dom (next t dt a)) (smoothing_step (q_cfl q) dom).
  Proof.
    intros (EU & HF). split.
    - unfold implicit_step. cbv zeta. unfold result. set (n := ch_count q d variant p (rsum (nint 0)) g (smoothing a) t dt (flat a)).
      assert (RC : forall k, (k <= Z.to_nat (q_max_cycles q))%nat -> implicit_cycles q dom (ch_levels q s dom prol_of) (smoothing_step (q_cfl q) dom) first t dt u k =
        (cells_of dom (fst (ch_run q d variant p g (smoothing a) t dt (flat a) k)), cells_of dom (snd (ch_run q d variant p g (smoothing a) t dt (flat a) k)))).
      { intros k Hk. rewrite <- EU. destruct HF as [HF|HF]; [|apply run_cycles; exact HF].
        replace k with 0%nat by lia.
        rewrite (run_cycles (fun l => first (Z.of_nat l)) first) by reflexivity. reflexivity. }
      unfold ch_count in n.
      destruct (stop_at_spec (Z.to_nat (q_max_cycles q)) (fun j => nleb (ndiv (ch_measured d (rsum (nint 0)) (snd (ch_run q d variant p g (smoothing a) t dt (flat a) j)))
         (ch_measured d (rsum (nint 0)) (snd (ch_run q d variant p g (smoothing a) t dt (flat a) 0)))) (q_tol q))) as (H1 & H2 & H3).
      fold n in H1, H2, H3.
      exists n. split; [exact H1|]. split; [intros MC; apply stop_at_pos; lia|]. split; [exact (RC n H1)|]. intros _. split.
      + intros k Hk. specialize (H2 k Hk). rewrite !measured_rms in H2. rewrite !RC by lia. cbn [snd].
        apply Rnot_le_lt. intros L. apply nleb_R in L. cbn [ndiv Num_R] in H2. congruence.
      + destruct H3 as [H3|(H3 & H4)]; [left; exact H3|]. right. split; [exact H3|]. rewrite !RC by lia. cbn [snd].
        rewrite !measured_rms in H4. apply nleb_R in H4. exact H4.
    - split; [rewrite table_cells by exact HV; reflexivity|].
      destruct (Z.leb_spec (q_max_cycles q) 0) as [M|M]; [left; exact M|]. right. intros l Hl. unfold smoothing, next.
      replace (q_max_cycles q <=? 0) with false by lia. rewrite Nat2Z.id. apply g_steps. exact Hl.
  Qed.

  Definition pairs (x : (nat -> Z -> R) * (nat -> Z -> R)) (y : (Z -> Z -> Z -> R) * (Z -> Z -> Z -> R)) : Prop :=
    agree3 dom (fst x) (fst y) /\ agree3 dom (snd x) (snd y).

  Lemma stands_course : forall steps k a b u first, stands a u first ->
    exists rated, implicit_course q dom (ch_levels q s dom prol_of) (smoothing_step (q_cfl q) dom) first k u steps rated /\
      Forall2 (fun x y => let '(i, t, dt, z) := x in let '(i', t', dt', z') := y in i = i' /\ t = t' /\ dt = dt' /\ pairs z z')
        (SpecProgram.reached (both next (fun t dt a => snd (result t dt a))) k (a, b) steps) rated.
  Proof.
    induction steps as [|(t, dt) steps IH]; intros k a b u first H; cbn [SpecProgram.reached both].
    - exists []. split; constructor.
    - destruct (stands_step t dt a u first H) as (H1 & H2).
      destruct (IH (k + 1) (next t dt a) (snd (result t dt a)) _ _ H2) as (rated & C & F).
      eexists. split; [eapply course_step; [exact H1|exact C]|]. constructor; [|exact F].
      cbn [fst snd]. do 3 (split; [reflexivity|]). split; intros i j l _; reflexivity.
  Qed.
  (** Without a Neumann boundary the mean stays what it is. *)
  Hypothesis AP : xbc dom <> Neumann /\ ybc dom <> Neumann /\ zbc dom <> Neumann.

  Lemma step_mean first t dt u u' v : implicit_step q dom (ch_levels q s dom prol_of) (smoothing_step (q_cfl q) dom) first t dt u u' v -> mean3 dom u = s_m s -> mean3 dom u' = s_m s.
  Proof.
    intros (n & _ & _ & EZ & _) HM. rewrite (run_cycles (fun l => first (Z.of_nat l)) first t dt u n) in EZ by reflexivity.
    injection EZ as EU _. subst u'. rewrite <- HM. unfold mean3. apply (f_equal (fun x => x / _)%R).
    unfold ch_run. rewrite cycled_state.
    pose proof (gext0 q d variant p sc0 rmax (rsum (nint 0)) pw u0 du0 g b0 W HN TH NEW) as GE.
    pose proof (gf0 q d variant p sc0 rmax (rsum (nint 0)) pw u0 du0 g b0 W HN TH NEW) as GF.
    assert (GD : gdom q d 0 = dom) by (unfold gdom; rewrite (grid0 q d variant p sc0 rmax (rsum (nint 0)) pw u0 du0 g b0 W HN TH NEW); reflexivity).
    rewrite <- (T3_of dom u) by auto. change (table_of dom u) with (of3 dom u).
    match goal with |- total3 dom (cells_of dom ?w) = _ => change (T3 dom w = T3 dom (of3 dom u)) end.
    rewrite <- GE, <- GF.
    pose proof (ch_conserved q d variant p sc0 rmax (rsum (nint 0)) pw u0 du0 g b0 W HN TH NEW AP (Z.to_nat (q_nsmooth q)) n t
      (implicit_rhs (q_steady q) (gf q d variant p 0) dt (of3 dom u)) (q_relax q) (q_coarse_relax q) (first (Z.of_nat 0))
      (fun l => first (Z.of_nat l)) (g_cfl g 0) (of3 dom u) (T3 (gdom q d 0) (of3 dom u))) as CO.
    rewrite GD in CO. apply CO; [|reflexivity].
    rewrite <- GD at 2.
    apply (implicit_keeps 1 (gsize q d) (gP q d) (gQ q d) (gext q d) (gf q d variant p) (grest q d) (gprol q d) (g_cfl g) (gn q)
      (gPQ q d variant p sc0 rmax (rsum (nint 0)) pw u0 du0 g b0 W HN TH NEW) (fun k => T3 (gdom q d k)) (- ch_sigma p)%R
      (fun k => ch_sigma p * ch_m p * cells_inside3 (gdom q d k))%R (1 / 8)%R
      (gTsame q d variant p sc0 rmax (rsum (nint 0)) pw u0 du0 g b0 W HN TH NEW)
      (gTlin q d)
      (fun k t u _ => gTf q d variant p sc0 rmax (rsum (nint 0)) pw u0 du0 g b0 W HN TH NEW AP k t u)
      (gTrest q d variant p sc0 rmax (rsum (nint 0)) pw u0 du0 g b0 W HN TH NEW)
      (gTprol q d variant p sc0 rmax (rsum (nint 0)) pw u0 du0 g b0 W HN TH NEW AP)).
    rewrite GD. rewrite T3_of by auto. rewrite (mean3_total _ _ _ HV HM). cbn [params_in ch_sigma ch_m]. ring.
  Qed.

  Lemma course_mean first k u steps rated : implicit_course q dom (ch_levels q s dom prol_of) (smoothing_step (q_cfl q) dom) first k u steps rated -> mean3 dom u = s_m s ->
    Forall (fun x => mean3 dom (fst (snd x)) = s_m s) rated.
  Proof.
    induction 1 as [|first k u t dt u' v steps l H HC IH]; intros HM; constructor.
    - cbn [fst snd]. eapply step_mean; eauto.
    - apply IH. eapply step_mean; eauto.
  Qed.
End Fields.

Local Open Scope string_scope.
Local Open Scope Z_scope.
Local Open Scope list_scope.
Ltac reads H := unfold mg_asks, asks_with, asked_with, asks, asked, given in H; repeat (apply Forall_cons_iff in H; let E := fresh "O" in destruct H as (E & H); cbn [fst snd] in E); clear H.

Lemma mg_read {V} `{N : Num V} (m : members V) q dim r s rel abs : mg_asks m q -> asks_with m dim (integrator_name q) r s rel abs -> mg_options_of m = Ok q.
Proof.
  intros M A. assert (T : m "time_integrator" = VString (integrator_name q)). { reads A. assumption. }
  clear A. reads M. unfold mg_options_of, get_int, get_double, get_string.
  repeat match goal with H : m ?n = _ |- context [m ?n] => rewrite H; clear H end. cbn [rbind].
  destruct q as [a1 a2 a3 a4 a5 a6 a7 i st]. unfold integrator_name. cbn [q_levels q_nsmooth q_max_cycles q_tol q_cfl q_relax q_coarse_relax q_interp q_steady].
  destruct i, st; reflexivity.
Qed.

Lemma rbind_ok {A B} (r : res A) (k : A -> res B) b : rbind r k = Ok b -> exists a, r = Ok a /\ k a = Ok b.
Proof. destruct r; try discriminate. intros H. eexists. split; [reflexivity|exact H]. Qed.

Lemma build_poisson {V} `{N : Num V} (pl : platform V) m file d i v p o f :
  build pl m file = Ok (Poisson3 d, i, v, p, o, f) -> m "equation_type" = VString "poisson".
Proof.
  intros H. unfold build in H. apply rbind_ok in H as (from & _ & H). apply rbind_ok in H as (cfg & HC & H).
  apply rbind_ok in H as (g & _ & H). apply rbind_ok in H as (e & HE & H).
  assert (e = Poisson3 d).
  { repeat (apply rbind_ok in H as (? & _ & H)). congruence. }
  subst e. unfold config_of in HC. repeat (apply rbind_ok in HC as (? & ? & HC)). injection HC as <-.
  unfold rhs_factory in HE. cbn [c_equation c_dimension] in HE.
  match goal with E : get_string m "equation_type" = Ok ?q |- _ => unfold get_string in E; destruct (m "equation_type") as [eq| | | |] eqn:EM; try discriminate E; injection E as -> end.
  destruct (String.eqb _ "cahn-hilliard"); [repeat match type of HE with context [if ?b then _ else _] => destruct b end; destruct g; discriminate|].
  match type of HE with context [String.eqb ?q "poisson"] => destruct (String.eqb_spec q "poisson"); [congruence|discriminate] end.
Qed.

Section Program.
  Context {V : Type} `{N : Num V} (pl : platform V) (nsin ncos : V -> V) (fuel : nat) (fs : string -> option string) (vts : string -> list xml)
    (other : members V -> option (res (pworld V))) (args : list string) (opts m : members V) (vm : vmap V).
  Hypothesis PO : parse_options (pl_read pl) (pl_lit pl) (pl_eps100 pl) (pl_max100 pl) fs args opts = Ok (Running m vm).
  Variables (s : settings V) (q : mg_options V).

  Lemma all_after {rel abs} d i v p o f w' : asks_with m 3 (integrator_name q) "none" s rel abs ->
    build pl m None = Ok (CahnHilliard3 d, i, v, p, o, f) ->
    (forall w0, w_files w0 = [] -> exists w1,
       run_bdf pl m fuel (scene3 pl (s_max_steps s) d) d v p (initial_values3 pl i None p d) o (base_of s)
         (driver_observers (s_log_every s) (s_save_every s)) w0 = Some (Ok w1) /\ w' w0 w1) ->
    exists w0 w1, started pl vm s "none" w0 /\ madgicart_all pl nsin ncos fuel fs vts other args opts = Some (Ok (Finished w1)) /\ w' w0 w1.
  Proof.
    intros A B R. destruct (start_ok pl (s_log_file s) (start_messages (template pl vm) "none")) as (w0 & E0 & F0 & S0 & P0).
    destruct (R w0 F0) as (w1 & E1 & H1). exists w0, w1. split; [split; [exact F0|split; [exact S0|exact P0]]|]. split; [|exact H1].
    unfold madgicart_all. rewrite PO. cbn [lift]. reads A.
    unfold get_string, get_int, get_unsigned.
    repeat match goal with H : m ?n = _ |- context [m ?n] => rewrite H; clear H end. cbn [lift].
    change (config_template (pl_showg pl) (pl_lit pl) (pl_eps100 pl) (pl_max100 pl) vm) with (template pl vm).
    rewrite E0. cbn [lift]. change (String.eqb "none" "none") with true. cbv iota. rewrite B. cbn [lift].
    replace (String.eqb (integrator_name q) "bdf1" || String.eqb (integrator_name q) "steady")%bool with true
      by (unfold integrator_name; destruct (q_steady q); reflexivity). cbv iota.
    change (output_base (s_output s) (s_log_file s)) with (base_of s). rewrite E1. reflexivity.
  Qed.
End Program.

Lemma run_implicit (pl : platform R) nsin ncos fuel fs vts other args opts m vm s q bx by_ bz :
  parse_options (pl_read pl) (pl_lit pl) (pl_eps100 pl) (pl_max100 pl) fs args opts = Ok (Running m vm) ->
  asks m 3 (integrator_name q) "none" s -> mg_asks m q ->
  sound s fuel -> mg_sound q s -> reduces pl -> bc_named (s_bc_x s) bx -> bc_named (s_bc_y s) by_ -> bc_named (s_bc_z s) bz ->
  let dom := grid_of s bx by_ bz in
  exists w, madgicart_all pl nsin ncos fuel fs vts other args opts = Some (Ok (Finished w)) /\
    implicit_story pl q s dom (ch_levels q s dom) (smoothing_step (q_cfl q) dom) [config_template (pl_showg pl) (pl_lit pl) (pl_eps100 pl) (pl_max100 pl) vm] (0, s_t0 s, s_dt s)
      (random3 dom (pl_draw pl) (s_m s)) w /\
    (bx <> Neumann -> by_ <> Neumann -> bz <> Neumann ->
     Forall (fun f => exists i t dt u, is_file3 pl dom i t dt u (snd f) /\ mean3 dom u = s_m s) (w_files w)).
Proof.
  intros PO A MQ (SX & SY & SZ & SV & SM & SL & SF) (QL & (X1 & X2) & (Y1 & Y2) & (Z1 & Z2) & NS & INT) RD BX BY BZ dom.
  assert (HV : valid_domain3 dom) by (unfold valid_domain3; cbn; lia).
  assert (LN : 2 <= nhalo dom) by (cbn; lia).
  assert (TH : thick_at (q_levels q - 1) dom).
  { assert (0 < 2 ^ (q_levels q - 1)) by (apply Z.pow_pos_nonneg; lia).
    unfold thick_at. cbn [dom grid_of nhalo nx ny nz].
    pose proof (Z.div_mod (s_nx s) (2 ^ (q_levels q - 1)) ltac:(lia)). pose proof (Z.div_mod (s_ny s) (2 ^ (q_levels q - 1)) ltac:(lia)).
    pose proof (Z.div_mod (s_nz s) (2 ^ (q_levels q - 1)) ltac:(lia)). repeat split; nia. }
  assert (RL : exists f, reg_lookup integrators (integrator_name q) = Ok f) by (unfold integrator_name; destruct (q_steady q); eexists; reflexivity).
  destruct RL as (f & RL).
  destruct (build3_ok pl m s bx by_ bz ltac:(lia) ltac:(lia) ltac:(lia) BX BY BZ (integrator_name q) f RL A SV) as (d & EM & B). fold dom in EM.
  pose proof (new_array3_len dom d HV ltac:(lia) EM) as LA.
  destruct (random_initial_total (pl_draw pl) (s_m s) (d3_interior d) (create_real_array3 d)) as (c & EC & LC).
  { intros k Hk. rewrite LA. apply (scene3_idx pl dom d 1 HV ltac:(cbn; lia) EM). exact Hk. }
  pose proof (random_field3 dom d (pl_draw pl) (s_m s) c HV ltac:(cbn; lia) EM EC) as HC.
  destruct (make3_inv dom d HV EM) as (W & ED).
  set (u0 := random3 dom (pl_draw pl) (s_m s)) in *.
  assert (SC : make_ch3 d (s_variant s) = Ok (new_scratch (create_real_array3 d))).
  { unfold make_ch3. match goal with |- context [if ?b then _ else _] => destruct b eqn:EB end; [reflexivity|lia]. }
  destruct (proj1 (pf_C51_constructor R _ q dom d (s_variant s) (params_in s) (new_scratch (create_real_array3 d)) (pl_rmax pl) (red_sum (pl_red pl) (nint 0)) (pl_pow pl)
    [create_real_array3 d] [create_real_array3 d] HV EM SC ltac:(lia))) as (g & b0 & NEW & _).
  { cbn [dom grid_of nx ny nz]. auto. }
  assert (HA : state_holds 1 (cells3 dom) (P3 dom) [c] (of3 dom u0)).
  { apply state3; [cbn; lia|]. eapply holds_inside3_ext; [exact HC|]. intros i j k I. unfold at3. rewrite of3_slot; [reflexivity|].
    apply inside_padded3; [cbn; lia|exact I]. }
  assert (OM : t_max_steps (options_of s) = s_max_steps s)
    by (cbn; unfold int_of_unsigned, ModelInt32.int_max; replace (s_max_steps s <=? 2147483647)%Z with true by lia; reflexivity).
  assert (OR : options_run fuel (options_of s)).
  { unfold options_run. rewrite OM. split; [reflexivity|]. cbn [options_of options_with t_initial_step]. unfold INT_MAX. lia. }
  destruct OR as (O2 & O3 & O4 & O5 & O6).
  destruct (all_after pl nsin ncos fuel fs vts other args opts m vm PO s q d RandomField (s_variant s) (params_in s) (options_of s) f
    (run_result_with pl (scene3 pl (s_max_steps s) d) (base_of s) (cells3 dom) (P3 dom) (name3 s) (s_log_every s) (s_save_every s)
       [] (fun dt p => p = dt) (bdf_next pl q d (s_variant s) (params_in s) g) (bdf_slope pl q d (s_variant s) (params_in s) g) (options_of s) (bdf_start (of3 dom u0))) A B)
    as (w0 & w & ST & EW & RN).
  { intros w0 _. subst dom. rewrite <- ED in *.
    apply (run_bdf_ok pl (scene3 pl (s_max_steps s) d) (base_of s) (name3 s) (s_log_every s) (s_save_every s) q d (s_variant s) (params_in s) g b0 SL
      ltac:(intros; apply scene3_name; lia) (scene3_monitor pl _ d (s_max_steps s) HV ltac:(lia) EM) (scene3_write pl _ d (s_max_steps s) HV ltac:(lia) EM)
      (scene3_idx pl _ d (s_max_steps s) HV ltac:(lia) EM) (options_of s) O2 O3 (conj O4 O5) W LN SC INT LA TH NEW NS fuel m
      (initial_values3 pl RandomField None (params_in s) d) c (of3 (d3_domain d) u0) w0 (mg_read m q 3 "none" s _ _ MQ A) EC HA O6). }
  exists w. split; [exact EW|].
  apply Program3Proofs.plain in RN; [|split; exact zero_eq].
  destruct RN as (steps & e & tr & docs & fin & MA & TR & SFL & WF & LAST & LOG).
  rewrite OM in MA.
  subst dom. rewrite <- ED in *. set (dom := d3_domain d) in *.
  destruct (stands_course s q d (s_variant s) (new_scratch (create_real_array3 d)) (pl_rmax pl) (red_sum (pl_red pl)) (pl_pow pl) [create_real_array3 d] [create_real_array3 d] g b0
     HV W LN INT TH NEW (proj1 RD) steps 0 (bdf_start (of3 dom u0)) (bdf_start (of3 dom u0)) u0 (fun _ => 1 / 1000000)%R) as (rated & CO & FR).
  { split; [reflexivity|]. right. intros l _. reflexivity. }
  assert (TF : Forall2 (traced_field3 dom []) tr rated).
  { eapply forall2_comp; [|exact TR|exact FR].
    intros (((((i, t), dt), cc), r), ex) (((i', t'), dt'), (u, v)) (((i'', t''), dt''), (u', v')) (E1 & E2 & E3 & H1 & H2 & H9) (E4 & E5 & E6 & H3 & H4).
    cbn [fst snd] in H3, H4. repeat split; try congruence.
    + apply state3 in H1; [|lia]. eapply holds_inside3_ext in H1; [exact (proj1 H1)|exact H3].
    + apply state3 in H1; [|lia]. eapply holds_inside3_ext in H1; [exact (proj2 H1)|exact H3].
    + apply state3 in H2; [|lia]. eapply holds_inside3_ext in H2; [exact (proj1 H2)|exact H4].
    + apply state3 in H2; [|lia]. eapply holds_inside3_ext in H2; [exact (proj2 H2)|exact H4]. }
  destruct (told_list3 pl s dom d vm "none" ltac:(lia) HV EM [] (fun _ u => u) (fun _ u => u) w0 w e tr docs fin rated ST TF SFL WF LAST LOG) as (T1 & T2 & T3 & T4).
  split.
  2:{ intros NX NY NZ. assert (ED' : d3_domain d = grid_of s bx by_ bz) by exact ED.
    assert (RM : Forall (fun x => mean3 dom (fst (snd x)) = s_m s) rated).
    { eapply (course_mean s q d (s_variant s) (new_scratch (create_real_array3 d)) (pl_rmax pl) (red_sum (pl_red pl)) (pl_pow pl) [create_real_array3 d] [create_real_array3 d] g b0
        HV W LN INT TH NEW); [|exact CO|].
      - rewrite ED'. auto.
      - apply mean_off3; [exact HV|]. unfold u0, dom. rewrite ED'. apply random_off3. rewrite <- ED'. exact HV. }
    assert (RO : Forall (fun x => mean3 dom (snd x) = s_m s) (map (fun z => let '(i, t, dt, p) := z in (i, t, dt, fst p)) rated)).
    { clear - RM. induction RM as [|(((i, t), dt), y) l H HF IH]; constructor; auto. }
    rewrite T2. apply Forall_app. split.
    - rewrite every_pick. apply pick_forall. clear - T1 RO.
      induction T1 as [|(((i, t), dt), u) f l l' H HF IH]; [constructor|].
      inversion RO as [|? ? R1 R2]; subst. constructor; auto. exists i, t, dt, u. split; [apply H|exact R1].
    - constructor; [|constructor]. destruct T3 as (bef & i & t & dt & u & ER & SF'). rewrite ER in RO.
      apply Forall_app in RO as (_ & RO). inversion RO as [|? ? R1 _]; subst. exists i, t, e, u. split; [apply SF'|exact R1]. }
  exists (prol_of q), steps, e, rated, docs, fin. split; [apply prol_ok; exact INT|]. split; [exact MA|]. split; [exact CO|]. split; [exact T1|]. split; [exact T2|]. split; [exact T3|].
  exact (T4 RD).
Qed.

Section Fails.
  Context {V : Type} `{N : Num V} (pl : platform V) (nsin ncos : V -> V) (fs : string -> option string) (vts : string -> list xml)
    (other : members V -> option (res (pworld V))) (args : list string) (opts m : members V) (vm : vmap V).
  Hypothesis PO : parse_options (pl_read pl) (pl_lit pl) (pl_eps100 pl) (pl_max100 pl) fs args opts = Ok (Running m vm).
  Variables (s : settings V) (q : mg_options V).

  Lemma all_fails {rel abs} d i v p o f : asks_with m 3 (integrator_name q) "none" s rel abs ->
    build pl m None = Ok (CahnHilliard3 d, i, v, p, o, f) -> mg_asks m q ->
    let a := create_real_array3 d in let r := bdf_new q d v p (new_scratch a) (pl_rmax pl) (red_sum (pl_red pl) (nint 0)) (pl_pow pl) [a] [a] in
    (r = Throw -> forall fuel, madgicart_all pl nsin ncos fuel fs vts other args opts = Some Throw) /\
    (r = Fatal -> forall fuel, madgicart_all pl nsin ncos fuel fs vts other args opts = Some Fatal).
  Proof.
    intros A B M a r. pose proof (mg_read m q 3 "none" s _ _ M A) as EQ.
    destruct (start_ok pl (s_log_file s) (start_messages (template pl vm) "none")) as (w0 & E0 & _).
    assert (G : forall fuel, madgicart_all pl nsin ncos fuel fs vts other args opts =
      after (run_bdf pl m fuel (scene3 pl (s_max_steps s) d) d v p (initial_values3 pl i None p d) o (base_of s)
         (driver_observers (s_log_every s) (s_save_every s)) w0) (fun w => Ok (Finished w))).
    { intros fuel. unfold madgicart_all. rewrite PO. cbn [lift]. reads A. clear M.
      unfold get_string, get_int, get_unsigned.
      repeat match goal with H : m ?n = _ |- context [m ?n] => rewrite H; clear H end. cbn [lift].
      change (config_template (pl_showg pl) (pl_lit pl) (pl_eps100 pl) (pl_max100 pl) vm) with (template pl vm).
      rewrite E0. cbn [lift]. change (String.eqb "none" "none") with true. cbv iota. rewrite B. cbn [lift].
      replace (String.eqb (integrator_name q) "bdf1" || String.eqb (integrator_name q) "steady")%bool with true
        by (unfold integrator_name; destruct (q_steady q); reflexivity). cbv iota.
      change (output_base (s_output s) (s_log_file s)) with (base_of s). reflexivity. }
    split; intros E fuel; rewrite G; unfold run_bdf; rewrite EQ; cbn [lift]; fold a; fold r; rewrite E; reflexivity.
  Qed.

  Lemma all_flat {rel abs} d i v p o f : asks_with m 2 (integrator_name q) "none" s rel abs ->
    build pl m None = Ok (CahnHilliard2 d, i, v, p, o, f) -> mg_asks m q ->
    forall fuel, madgicart_all pl nsin ncos fuel fs vts other args opts = Some (if q_nsmooth q <? 0 then Throw else Fatal).
  Proof.
    intros A B M fuel. pose proof (mg_read m q 2 "none" s _ _ M A) as EQ.
    destruct (start_ok pl (s_log_file s) (start_messages (template pl vm) "none")) as (w0 & E0 & _).
    unfold madgicart_all. rewrite PO. cbn [lift]. reads A. clear M.
    unfold get_string, get_int, get_unsigned.
    repeat match goal with H : m ?n = _ |- context [m ?n] => rewrite H; clear H end. cbn [lift].
    change (config_template (pl_showg pl) (pl_lit pl) (pl_eps100 pl) (pl_max100 pl) vm) with (template pl vm).
    rewrite E0. cbn [lift]. change (String.eqb "none" "none") with true. cbv iota. rewrite B. cbn [lift].
    replace (String.eqb (integrator_name q) "bdf1" || String.eqb (integrator_name q) "steady")%bool with true
      by (unfold integrator_name; destruct (q_steady q); reflexivity). cbv iota.
    unfold run_bdf_flat. rewrite EQ. cbn [lift]. unfold get_mg_cycle. destruct (q_nsmooth q <? 0); [reflexivity|].
    repeat match goal with |- context [match ?z with _ => _ end] => is_var z; destruct z end.
    destruct (q_levels q) as [|l|l]; try reflexivity.
    do 3 (destruct l as [l|l|]; try reflexivity).
  Qed.
End Fails.
