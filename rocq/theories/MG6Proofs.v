(** What a step of the multigrid integrator leaves in the solver's state and residual, and when its cycles end. *)
From Verif Require Import ModelLogger ModelOptions Outcome ZList ZListProofs Num Kernel ModelIndex IndexProofs ModelDisc3D ModelCH
  SpecGrid Disc3DProofs BC3Proofs Make3Proofs Stencil3Proofs CHProofs SpecField SumProofs FieldProofs
  Transfer3Proofs TransferFinal ModelTime ModelRun SpecTime Time1Proofs Time2Proofs Time3Proofs Step1Proofs
  ModelMG ModelMGCH SpecMG MG1Proofs MG2Proofs MG3Proofs MG4Proofs MG5Proofs SpecImplicit.
From Coq Require Import Lia Reals Lra List.
Local Open Scope Z_scope.

(** The number of cycles: the first that meets the test, at most m. *)
Fixpoint stop_at (m : nat) (good : nat -> bool) : nat :=
  match m with
  | O => O
  | S m => if good 1%nat then 1%nat else S (stop_at m (fun j => good (S j)))
  end.

Lemma stop_at_spec : forall m good, (stop_at m good <= m)%nat /\
  (forall j, (0 < j < stop_at m good)%nat -> good j = false) /\
  (stop_at m good = m \/ (0 < stop_at m good)%nat /\ good (stop_at m good) = true).
Proof.
  induction m as [|m IH]; intros good; cbn [stop_at]; [split; [lia|]; split; [lia|left; reflexivity]|].
  destruct (good 1%nat) eqn:E.
  - split; [lia|]. split; [lia|]. right. split; [lia|exact E].
  - destruct (IH (fun j => good (S j))) as (H1 & H2 & H3). split; [lia|]. split.
    + intros [|[|j]] H; [lia|exact E|]. apply H2. lia.
    + destruct H3 as [H3|(H3 & H4)]; [left; congruence|]. right. split; [lia|exact H4].
Qed.
Lemma stop_at_pos : forall m good, (0 < m)%nat -> (0 < stop_at m good)%nat.
Proof. intros [|m] good H; [lia|]. cbn [stop_at]. destruct (good 1%nat); lia. Qed.
Lemma stop_at_ext : forall m g h, (forall j, g j = h j) -> stop_at m g = stop_at m h.
Proof.
  induction m as [|m IH]; intros g h E; [reflexivity|]. cbn [stop_at]. rewrite E. destruct (h 1%nat); [reflexivity|].
  f_equal. apply IH. intros j. apply E.
Qed.

Section Step.
  Context {V : Type} `{N : Num V} {S : Type}.
  Local Open Scope num_scope.
  Variables (g : mg_config V S) (ok : nat -> S -> Prop) (nv : nat) (size : nat -> Z) (P Q : nat -> Z -> Prop)
    (ext : nat -> field V -> field V) (f : nat -> V -> field V -> field V)
    (rest prol : nat -> field V -> field V) (n ns : nat).
  Hypothesis PQ : forall k u, same_on nv (size k) (P k) (ext k u) u.
  Hypothesis PQ' : forall k i, P k i -> Q k i.
  Hypothesis CE : forall k, (k <= n)%nat -> computes_ext (g_eval g k) (ok k) nv (size k) (P k) (Q k) (ext k) (f k).
  Hypothesis CR : forall k, (k < n)%nat ->
    transfers (g_restrict g (1 + k)) nv (size k) (P k) (size (1 + k)) (P (1 + k)) (rest (1 + k)).
  Hypothesis CP : forall k, (k < n)%nat ->
    transfers (g_prolong g (1 + k)) nv (size (1 + k)) (Q (1 + k)) (size k) (P k) (prol (1 + k)).
  Hypothesis CY : g_cycle g = cyc (Datatypes.S ns) n.
  Hypothesis IN : forall i, In i (g_interior g) -> 0 <= i < size 0.
  Hypothesis IP : forall i, In i (g_interior g) -> P 0 i.
  Hypothesis NV : (0 < nv)%nat.

  Notation lok := (level_ok ok nv size).
  Notation glv vs := (map (gl g ext f rest prol (dt_of g vs)) (seq 1 n)).
  Notation lvs := (levels_ok ok nv size n).

  (** The residual the solver measures, of a field. *)
  Definition measured (r : field V) : V :=
    nsqrt (g_reduce_sum g (map (fun i => npow2 (r O i)) (g_interior g)) / nint (zlen (g_interior g))).

  Lemma collect_field (a : list V) (r : Z -> V) l : (forall i, In i l -> zget a i = Some (r i)) ->
    collect (rms_cell a) l = Ok (map (fun i => npow2 (r i)) l).
  Proof.
    induction l as [|i l IH]; intros H; [reflexivity|]. cbn [collect]. unfold rms_cell at 1.
    rewrite (H i (or_introl eq_refl)). cbn [of_opt rbind]. rewrite IH by (intros; apply H; right; auto). reflexivity.
  Qed.

  Lemma residual0_field vs v r : lvs vs -> nth_error vs 0 = Some v -> state_holds nv (size 0) (P 0) (v_du v) r ->
    residual0 g vs = Ok (measured r).
  Proof.
    intros LO E HR. destruct (residual0_ok g ok nv size P Q ext f rest prol n ns PQ PQ' CE CR CP IN NV vs LO) as (x & EX). rewrite EX. f_equal.
    unfold residual0 in EX. rewrite E in EX. cbn [of_opt rbind] in EX.
    destruct HR as ((L & HL) & H). destruct (v_du v) as [|a s] eqn:ED; [simpl in L; lia|].
    cbn [reduce_residual] in EX. unfold rms in EX. rewrite (collect_field a (r O)) in EX.
    - cbn [rbind] in EX. destruct (reduce_residual g s) as [rs| | |]; cbn [rbind] in EX; try discriminate.
      cbn [nth_error of_opt] in EX. injection EX as <-. reflexivity.
    - intros i Hi. exact (H O i NV (IN i Hi) (IP i Hi)).
  Qed.

  Notation run k t F dt vs u r := (cycled k (Datatypes.S ns) t F (ext 0) dt (g_cfl g 0) (g_relax g) (g_coarse_relax g) (glv vs) u r).
  Definition meets (res0 : V) (r : field V) : bool := nleb (measured r / res0) (g_tol g).

  Lemma loop_cycled time dt old w res0 :
    state_holds nv (size 0) (P 0) old w ->
    let F := implicit_rhs (g_steady g) (f 0) dt w in
    forall m ic resN vs v u r, lvs vs -> nth_error vs 0 = Some v -> state_holds nv (size 0) (P 0) (v_u v) u ->
    state_holds nv (size 0) (P 0) (v_du v) r ->
    let k := stop_at m (fun j => meets res0 (snd (run j time F (m_dt (v_sm v)) vs u r))) in
    exists vs' nc rate v', mg_loop g time dt old res0 resN m ic vs = Ok (vs', nc, rate) /\
      lvs vs' /\ nth_error vs' 0 = Some v' /\
      state_holds nv (size 0) (P 0) (v_u v') (fst (run k time F (m_dt (v_sm v)) vs u r)) /\
      state_holds nv (size 0) (P 0) (v_du v') (snd (run k time F (m_dt (v_sm v)) vs u r)).
  Proof.
    intros HO F. induction m as [|m IH]; intros ic resN vs v u r LO E HU HR k.
    - cbn [mg_loop]. exists vs, 0%Z, (g_pow g (resN / res0) (nint 1 / nint (g_max_cycles g))), v.
      split; [reflexivity|]. split; [exact LO|]. split; [exact E|]. split; [exact HU|exact HR].
    - cbn [mg_loop].
      destruct (pass_spec g ok nv size P Q ext f rest prol n ns PQ PQ' CE CR CP CY NV time dt old w vs v u HO LO E HU)
        as (vs1 & v1 & E1 & L1 & D1 & N1 & H1 & H2).
      rewrite E1. cbn [rbind]. rewrite (residual0_field vs1 v1 _ L1 N1 H2). cbn [rbind].
      fold F in H1, H2 |- *.
      set (pre := vcycle_pre (Datatypes.S ns) time F (ext 0) (m_dt (v_sm v)) (g_cfl g 0) (g_relax g) (g_coarse_relax g) (glv vs) u) in *.
      assert (HP : state_holds nv (size 0) (P 0) (v_u v1) (smooth F (ext 0) time (g_cfl g 0) pre)).
      { split; [exact (proj1 H1)|]. intros e i He Hi HPi. apply H1; auto. }
      assert (RS : forall j, run (Datatypes.S j) time F (m_dt (v_sm v)) vs u r =
        run j time F (m_dt (v_sm v1)) vs1 (smooth F (ext 0) time (g_cfl g 0) pre) (SpecMG.slope F time (g_cfl g 0) pre)).
      { intros j. cbn [cycled]. fold pre. rewrite (D1 _ _ N1). rewrite (settled_levels g ok nv size ext f rest prol n vs vs1 L1 D1). reflexivity. }
      unfold k. cbn [stop_at]. match goal with |- context [if meets ?a ?b then _ else _] => change (meets a b) with (nleb (measured (SpecMG.slope F time (g_cfl g 0) pre) / res0) (g_tol g)) end.
      destruct (nleb _ _) eqn:EB.
      + do 4 eexists. split; [reflexivity|]. split; [exact L1|]. split; [exact N1|]. split; [exact HP|exact H2].
      + match goal with |- context [mg_loop g time dt old res0 ?r1 m ?i1 vs1] => destruct (IH i1 r1 vs1 v1 _ _ L1 N1 HP H2)
          as (vs' & nc & rate & v' & E2 & A1 & A2 & A3 & A4) end.
        exists vs', nc, rate, v'. split; [exact E2|]. split; [exact A1|]. split; [exact A2|].
        rewrite RS. erewrite stop_at_ext by (intros j; rewrite RS; reflexivity). split; [exact A3|exact A4].
  Qed.

  (** The cycles of one time step from the field u, where [first] gives the steps of the first smoothings. *)
  Definition step_run (first : nat -> V) (t dt : V) (u : field V) (k : nat) : field V * field V :=
    let F := implicit_rhs (g_steady g) (f 0) dt u in
    cycled k (Datatypes.S ns) t F (ext 0) (first O) (g_cfl g 0) (g_relax g) (g_coarse_relax g) (map (gl g ext f rest prol first) (seq 1 n)) u (F t u).
  Definition step_count (first : nat -> V) (t dt : V) (u : field V) : nat :=
    stop_at (Z.to_nat (g_max_cycles g)) (fun j => meets (measured (snd (step_run first t dt u 0))) (snd (step_run first t dt u j))).

  Theorem bdf_step_cycled (b : mg_world V S) v time dt w :
    lvs (b_levels b) -> shaped nv (size 0) (b_res0 b) ->
    nth_error (b_levels b) 0 = Some v -> state_holds nv (size 0) (P 0) (v_u v) w ->
    let z := step_run (dt_of g (b_levels b)) time dt w (step_count (dt_of g (b_levels b)) time dt w) in
    exists b' v', bdf_step g b time dt = Ok b' /\ nth_error (b_levels b') 0 = Some v' /\
      state_holds nv (size 0) (P 0) (v_u v') (fst z) /\ state_holds nv (size 0) (P 0) (v_du v') (snd z).
  Proof.
    intros LO SR E HU z. unfold bdf_step. rewrite E. cbn [of_opt rbind]. rewrite (holds_len _ _ _ _ _ HU).
    assert (SZ : shaped nv (size 0%nat) (map (map (fun _ => nint 0)) (v_u v))).
    { destruct HU as ((L & Z) & _). split; [rewrite map_length; auto|]. intros e a H.
      rewrite nth_error_map in H. destruct (nth_error (v_u v) e) as [x|] eqn:X; [|discriminate]. injection H as <-.
      unfold zlen. rewrite map_length. exact (Z _ _ X). }
    destruct (copy_holds nv (size 0%nat) (P 0%nat) _ (v_u v) w SZ HU) as (old & Eo & Ho). rewrite Eo. cbn [rbind].
    destruct (level0 ok nv size n _ LO) as (v0 & E0 & L0 & C0). rewrite E in E0. injection E0 as <-.
    pose proof L0 as (M1 & M2 & M3 & M4 & M5).
    destruct (CE 0 (Nat.le_0_l n) (v_sc v) old time (b_res0 b) w M1 Ho SR) as (sc & old' & r0 & E1 & O1 & HO' & _ & HR0).
    rewrite E1. cbn [rbind].
    assert (BL : (0 < length (b_levels b))%nat) by (apply nth_error_Some; congruence).
    unfold time_step_cycle. rewrite nth_error_upd_same by auto. cbn [of_opt rbind v_c v_sc v_u v_du v_sm].
    rewrite C0. cbn [level_eval].
    destruct (fine_computes g ok nv size P Q ext f n CE dt old' w HO' sc (v_u v) time (v_du v) w O1 HU M3)
      as (sc2 & u2 & du2 & E2 & O2 & HU2 & _ & HD2).
    rewrite E2. cbn [rbind].
    match goal with |- context [residual0 g ?x] => set (vb := x) in * end.
    match type of vb with _ => match (eval unfold vb in vb) with upd _ _ ?y => set (v1 := y) in * end end.
    assert (HB : lvs vb).
    { destruct LO as (LN & LO). split; [unfold vb; rewrite !upd_length; auto|]. intros [|k] x X; unfold vb in X.
      - rewrite nth_error_upd_same in X by (rewrite upd_length; auto). injection X as <-.
        split; [exact O2|]. split; [exact (proj1 HU2)|]. split; [exact (proj1 HD2)|]. split; [exact M4|exact I].
      - rewrite !nth_error_upd_other in X by lia. auto. }
    assert (NB : nth_error vb 0 = Some v1) by (unfold vb; apply nth_error_upd_same; rewrite upd_length; auto).
    rewrite (residual0_field vb v1 _ HB NB HD2). cbn [rbind].
    match goal with |- context [mg_loop g time dt old' ?r0 _ ?m ?i vb] =>
      destruct (loop_cycled time dt old' w r0 HO' m i r0 vb v1 w _ HB NB HU2 HD2) as (vs' & nc & rate & v' & EL & A1 & A2 & A3 & A4) end.
    rewrite EL. cbn [rbind]. eexists _, v'. split; [reflexivity|]. cbn [b_levels]. split; [exact A2|].
    assert (EG : glv vb = glv (b_levels b)).
    { apply map_ext_in. intros j Hj. apply in_seq in Hj. unfold gl, dt_of, vb. rewrite !nth_error_upd_other by lia. reflexivity. }
    assert (ED : dt_of g (b_levels b) 0 = m_dt (v_sm v1)) by (unfold dt_of; rewrite E; reflexivity).
    unfold z, step_count, step_run. cbv zeta. rewrite ED, <- EG. split; [exact A3|exact A4].
  Qed.
End Step.

Section CH.
  Context {V : Type} `{N : Num V}.
  Variables (q : mg_options V) (d : disc3 V) (variant : Z) (p : ch_params V) (sc0 : scratch V)
    (rmax : V -> list V -> V) (rsum : list V -> V) (pw : V -> V -> V) (u0 du0 : state V)
    (g : mg_config V (scratch V)) (b0 : mg_world V (scratch V)).
  Hypothesis W : wf3 d.
  Hypothesis HN : 2 <= nhalo (d3_domain d).
  Hypothesis SC : make_ch3 d variant = Ok sc0.
  Hypothesis INT : q_interp q <> MGOther.
  Hypothesis U0 : shaped 1 (cells3 (d3_domain d)) u0.
  Hypothesis DU0 : shaped 1 (cells3 (d3_domain d)) du0.
  Hypothesis TH : thick_at (q_levels q - 1) (d3_domain d).
  Hypothesis NEW : bdf_new q d variant p sc0 rmax rsum pw u0 du0 = Ok (g, b0).
  Hypothesis NS : 1 <= q_nsmooth q.

  Notation dom := (d3_domain d).
  Notation ns := (Z.to_nat (q_nsmooth q)).

  (** State and residual after k cycles of a step from u, and the number of cycles the step makes. *)
  Definition ch_run (first : nat -> V) (t dt : V) (u : field V) (k : nat) : field V * field V :=
    let F := implicit_rhs (q_steady q) (ch_f3 dom variant p (d3_dx d)) dt u in
    cycled k ns t F (ext3 dom) (first O) (g_cfl g 0) (q_relax q) (q_coarse_relax q)
      (map (gl g (gext q d) (gf q d variant p) (grest q d) (gprol q d) first) (seq 1 (gn q))) u (F t u).
  Definition ch_measured (r : field V) : V :=
    nsqrt (ndiv (rsum (map (fun i => npow2 (r O i)) (d3_interior d))) (nint (zlen (d3_interior d)))).
  Definition ch_count (first : nat -> V) (t dt : V) (u : field V) : nat :=
    stop_at (Z.to_nat (q_max_cycles q))
      (fun j => nleb (ndiv (ch_measured (snd (ch_run first t dt u j))) (ch_measured (snd (ch_run first t dt u 0)))) (q_tol q)).

  Lemma ch_run_ext first first' t dt u k : (forall l, (l <= gn q)%nat -> first l = first' l) -> ch_run first t dt u k = ch_run first' t dt u k.
  Proof.
    intros H. unfold ch_run. rewrite (H O) by lia. f_equal. apply map_ext_in. intros l Hl. apply in_seq in Hl. unfold gl. rewrite H by lia. reflexivity.
  Qed.
  Lemma ch_count_ext first first' t dt u : (forall l, (l <= gn q)%nat -> first l = first' l) -> ch_count first t dt u = ch_count first' t dt u.
  Proof. intros H. apply stop_at_ext. intros j. rewrite !(ch_run_ext first first') by exact H. reflexivity. Qed.

  Definition residual_of_world (b : mg_world V (scratch V)) : state V := match b_levels b with v :: _ => v_du v | [] => [] end.

  Lemma ch_cycled b time dt u first : world_ok q d b -> state_holds 1 (cells3 dom) (P3 dom) (solution b) u ->
    (forall l, (l <= gn q)%nat -> first l = dt_of g (b_levels b) l) ->
    let z := ch_run first time dt u (ch_count first time dt u) in
    exists b', bdf_step g b time dt = Ok b' /\ world_ok q d b' /\
      state_holds 1 (cells3 dom) (P3 dom) (solution b') (fst z) /\ state_holds 1 (cells3 dom) (P3 dom) (residual_of_world b') (snd z) /\
      (forall l, (l <= gn q)%nat -> dt_of g (b_levels b') l = if (q_max_cycles q <=? 0)%Z then first l else g_cfl g l).
  Proof.
    intros WK HU HF z. pose proof WK as (LO & SR).
    destruct (g_params q d variant p sc0 rmax rsum pw u0 du0 g b0 NEW NS) as (EP1 & EP2 & EP3 & EP4 & EP5).
    destruct (level0 (gok q d) 1 (gsize q d) (gn q) _ LO) as (v & E0 & _).
    assert (SV : solution b = v_u v)
      by (unfold solution; destruct (b_levels b); [discriminate|]; injection E0 as ->; reflexivity).
    pose proof HU as HU1. rewrite SV in HU.
    pose proof (gsize0 q d variant p sc0 rmax rsum pw u0 du0 g b0 W HN TH NEW) as GS0.
    pose proof (gP0 q d variant p sc0 rmax rsum pw u0 du0 g b0 W HN TH NEW) as GP0.
    pose proof (gext0 q d variant p sc0 rmax rsum pw u0 du0 g b0 W HN TH NEW) as GE0.
    pose proof (gf0 q d variant p sc0 rmax rsum pw u0 du0 g b0 W HN TH NEW) as GF0.
    destruct (grids_eq q d variant p sc0 rmax rsum pw u0 du0 g b0 NEW) as (EGR & EG & _).
    assert (GI : g_interior g = d3_interior d /\ g_reduce_sum g = rsum /\ g_tol g = q_tol q).
    { rewrite EG. cbn [g_interior g_reduce_sum g_tol mg_ch3]. split; [|split; reflexivity].
      destruct (grids_facts q d variant p sc0 rmax rsum pw u0 du0 g b0 W HN TH NEW) as (_ & _ & GN & G0 & _).
      specialize (GN O ltac:(lia)). rewrite G0 in GN. destruct (grids q d); [discriminate|]. injection GN as ->. reflexivity. }
    destruct GI as (GI1 & GI2 & GI3).
    rewrite <- GS0, <- GP0 in HU.
    destruct (bdf_step_cycled g (gok q d) 1 (gsize q d) (gP q d) (gQ q d) (gext q d) (gf q d variant p) (grest q d) (gprol q d)
      (gn q) (ns - 1)
      (gPQ q d variant p sc0 rmax rsum pw u0 du0 g b0 W HN TH NEW)
      (gPQ' q d variant p sc0 rmax rsum pw u0 du0 g b0 W HN TH NEW)
      (gCE q d variant p sc0 rmax rsum pw u0 du0 g b0 W HN SC TH NEW)
      (gCR q d variant p sc0 rmax rsum pw u0 du0 g b0 W HN TH NEW)
      (gCP q d variant p sc0 rmax rsum pw u0 du0 g b0 W HN INT TH NEW)
      EP5 (gIN q d variant p sc0 rmax rsum pw u0 du0 g b0 W HN TH NEW)) with (b := b) (v := v) (time := time) (dt := dt) (w := u)
      as (b' & v' & E & A3 & A6 & A7); auto.
    { intros i Hi. rewrite GI1 in Hi. rewrite GP0. apply (in_interior_slot d i W) in Hi as (a & c & e & I & ->). exists a, c, e. split; [exact I|reflexivity]. }
    assert (SR1 : forall k, step_run g (gext q d) (gf q d variant p) (grest q d) (gprol q d) (gn q) (ns - 1) (dt_of g (b_levels b)) time dt u k = ch_run first time dt u k).
    { intros k. rewrite (ch_run_ext first (dt_of g (b_levels b))) by exact HF. unfold step_run, ch_run. rewrite EP1, EP2, EP3, GE0, GF0.
      replace (S (ns - 1)) with ns by lia. reflexivity. }
    assert (CN : step_count g (gext q d) (gf q d variant p) (grest q d) (gprol q d) (gn q) (ns - 1) (dt_of g (b_levels b)) time dt u = ch_count first time dt u).
    { unfold step_count, ch_count. rewrite EP4. apply stop_at_ext. intros j. rewrite !SR1. unfold meets, measured, ch_measured. rewrite GI1, GI2, GI3. reflexivity. }
    rewrite SR1, CN in A6, A7. fold z in A6, A7. rewrite GS0, GP0 in A6, A7.
    destruct (ch_step_first q d variant p sc0 rmax rsum pw u0 du0 g b0 W HN SC INT U0 DU0 TH NEW NS b time dt u WK HU1)
      as (b1 & k1 & EB & WK1 & _ & _ & _ & ST). rewrite E in EB. injection EB as <-.
    exists b'. split; [exact E|]. split; [exact WK1|].
    assert (SV' : solution b' = v_u v' /\ residual_of_world b' = v_du v')
      by (unfold solution, residual_of_world; destruct (b_levels b'); [discriminate|]; injection A3 as ->; split; reflexivity).
    destruct SV' as (-> & ->). split; [exact A6|]. split; [exact A7|].
    intros l Hl. assert (exists x, nth_error (b_levels b') l = Some x) as (x & EX).
    { destruct WK1 as ((LB & _) & _). destruct (nth_error (b_levels b') l) eqn:EN; [eauto|]. apply nth_error_None in EN. lia. }
    destruct ST as [(M & D)|(M & D)].
    - replace (q_max_cycles q <=? 0) with false by lia. unfold dt_of. rewrite EX. exact (D _ _ EX).
    - replace (q_max_cycles q <=? 0) with true by lia. unfold dt_of at 1. rewrite EX. destruct (D l x EX) as (y & EY & ED). rewrite HF by exact Hl.
      unfold dt_of. rewrite EY. symmetry. exact ED.
  Qed.
End CH.
