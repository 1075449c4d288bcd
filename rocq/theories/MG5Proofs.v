(** The multigrid steps of the 3D Cahn-Hilliard equation: what they compute, their fixed points
    and the total they conserve. *)
From Verif Require Import Outcome ZList ZListProofs Num Kernel ModelIndex IndexProofs ModelDisc3D ModelCH
  SpecGrid Disc3DProofs BC3Proofs Make3Proofs Stencil3Proofs CHProofs SpecField SumProofs FieldProofs
  Transfer3Proofs TransferFinal ModelTime ModelRun SpecTime Time1Proofs Step1Proofs
  ModelMG ModelMGCH SpecMG MG1Proofs MG2Proofs MG3Proofs MG4Proofs.
From Coq Require Import Lia Reals Lra.
Local Open Scope Z_scope.

Section Steps.
  Context {V : Type} `{N : Num V}.
  Variables (q : mg_options V) (d : disc3 V) (variant : Z) (p : ch_params V) (sc0 : scratch V)
    (rmax : V -> list V -> V) (rsum : list V -> V) (pw : V -> V -> V) (u0 du0 : state V)
    (g : mg_config V (scratch V)) (b0 : mg_world V (scratch V)).
  Hypothesis W : wf3 d.
  Hypothesis HN : 2 <= nhalo (d3_domain d).
  Hypothesis SC : make_ch3 d variant = Ok sc0.
  Hypothesis INT : q_interp q <> MGOther.
  Hypothesis U0 : shaped 1 (cells3 (d3_domain d)) u0.
  Hypothesis DU0 : shaped 1 (cells3 (d3_domain d)) du0.
  Hypothesis TH : thick_at (q_levels q - 1) (d3_domain d).
  Hypothesis NEW : bdf_new q d variant p sc0 rmax rsum pw u0 du0 = Ok (g, b0).
  Hypothesis NS : 1 <= q_nsmooth q.

  Notation dom := (d3_domain d).
  Notation ns := (Z.to_nat (q_nsmooth q)).
  Notation glv vs := (map (gl g (gext q d) (gf q d variant p) (grest q d) (gprol q d) (dt_of g vs)) (seq 1 (gn q))).

  Lemma g_params : g_steady g = q_steady q /\ g_relax g = q_relax q /\ g_coarse_relax g = q_coarse_relax q /\
    g_max_cycles g = q_max_cycles q /\ g_cycle g = cyc (S (ns - 1)) (gn q).
  Proof.
    destruct (grids_eq q d variant p sc0 rmax rsum pw u0 du0 g b0 NEW) as (_ & EG & EC). rewrite EG.
    cbn [g_steady g_relax g_coarse_relax g_max_cycles mg_ch3]. repeat split.
    cbn [g_cycle mg_ch3]. rewrite EC. f_equal. lia.
  Qed.

  Lemma grid0 : grid q d 0 = d.
  Proof. destruct (grids_facts q d variant p sc0 rmax rsum pw u0 du0 g b0 W HN TH NEW) as (_ & _ & _ & H & _). exact H. Qed.
  Lemma gsize0 : gsize q d 0 = cells3 dom.
  Proof. unfold gsize, gdom. rewrite grid0. reflexivity. Qed.
  Lemma gP0 : gP q d 0 = P3 dom.
  Proof. unfold gP, gdom. rewrite grid0. reflexivity. Qed.
  Lemma gext0 : gext q d 0 = ext3 dom.
  Proof. unfold gext, gdom. rewrite grid0. reflexivity. Qed.
  Lemma gf0 : gf q d variant p 0 = ch_f3 dom variant p (d3_dx d).
  Proof. unfold gf, gdom. rewrite grid0. reflexivity. Qed.

  Notation wok := (world_ok q d).

  Lemma ch_cycle time dt old wo vs u :
    state_holds 1 (cells3 dom) (P3 dom) old wo -> levels_ok (gok q d) 1 (gsize q d) (gn q) vs ->
    state_holds 1 (cells3 dom) (P3 dom) (solution_of vs) u ->
    let F := implicit_rhs (q_steady q) (ch_f3 dom variant p (d3_dx d)) dt wo in
    exists vs' nc rate k dt0, time_step_cycle g time dt old vs = Ok (vs', nc, rate) /\
      levels_ok (gok q d) 1 (gsize q d) (gn q) vs' /\ (k <= Z.to_nat (q_max_cycles q))%nat /\
      (nc = 0 /\ k = Z.to_nat (q_max_cycles q) \/ nc = Z.of_nat k /\ (0 < k)%nat) /\
      state_holds 1 (cells3 dom) (P3 dom) (solution_of vs')
        (vcycles k ns time F (ext3 dom) dt0 (g_cfl g 0) (q_relax q) (q_coarse_relax q) (glv vs) u).
  Proof.
    intros HO LO HU F. destruct g_params as (EP1 & EP2 & EP3 & EP4 & EP5).
    destruct (level0 (gok q d) 1 (gsize q d) (gn q) vs LO) as (v & E0 & _).
    assert (SV : solution_of vs = v_u v) by (destruct vs; [discriminate|]; injection E0 as ->; reflexivity).
    rewrite SV in HU. rewrite <- gsize0, <- gP0 in *.
    destruct (cycle_spec g (gok q d) 1 (gsize q d) (gP q d) (gQ q d) (gext q d) (gf q d variant p) (grest q d) (gprol q d)
      (gn q) (ns - 1)
      (gPQ q d variant p sc0 rmax rsum pw u0 du0 g b0 W HN TH NEW)
      (gPQ' q d variant p sc0 rmax rsum pw u0 du0 g b0 W HN TH NEW)
      (gCE q d variant p sc0 rmax rsum pw u0 du0 g b0 W HN SC TH NEW)
      (gCR q d variant p sc0 rmax rsum pw u0 du0 g b0 W HN TH NEW)
      (gCP q d variant p sc0 rmax rsum pw u0 du0 g b0 W HN INT TH NEW)
      EP5 (gIN q d variant p sc0 rmax rsum pw u0 du0 g b0 W HN TH NEW) Nat.lt_0_1
      time dt old wo vs v u HO LO E0 HU) as (vs' & nc & rate & k & v' & E & A1 & A2 & A3 & A4 & A5).
    exists vs', nc, rate, k, (m_dt (v_sm v)). split; [exact E|]. split; [exact A1|].
    rewrite EP4 in A3, A4. split; [exact A3|]. split; [exact A4|].
    assert (SV' : solution_of vs' = v_u v') by (destruct vs'; [discriminate|]; injection A2 as ->; reflexivity).
    rewrite SV'. rewrite EP1, EP2, EP3, gext0, gf0 in A5. replace (S (ns - 1)) with ns in A5 by lia. exact A5.
  Qed.

  Lemma ch_step b time dt u : wok b -> state_holds 1 (cells3 dom) (P3 dom) (solution b) u ->
    let F := implicit_rhs (q_steady q) (ch_f3 dom variant p (d3_dx d)) dt u in
    exists b' k dt0, bdf_step g b time dt = Ok b' /\ wok b' /\ (k <= Z.to_nat (q_max_cycles q))%nat /\
      (b_ncycles b' = 0 /\ k = Z.to_nat (q_max_cycles q) \/ b_ncycles b' = Z.of_nat k /\ (0 < k)%nat) /\
      state_holds 1 (cells3 dom) (P3 dom) (solution b')
        (vcycles k ns time F (ext3 dom) dt0 (g_cfl g 0) (q_relax q) (q_coarse_relax q) (glv (b_levels b)) u).
  Proof.
    intros (LO & SR) HU F. destruct g_params as (EP1 & EP2 & EP3 & EP4 & EP5).
    destruct (level0 (gok q d) 1 (gsize q d) (gn q) _ LO) as (v & E0 & _).
    assert (SV : solution b = v_u v)
      by (unfold solution; destruct (b_levels b); [discriminate|]; injection E0 as ->; reflexivity).
    rewrite SV in HU. rewrite <- gsize0, <- gP0 in *.
    destruct (bdf_step_spec g (gok q d) 1 (gsize q d) (gP q d) (gQ q d) (gext q d) (gf q d variant p) (grest q d) (gprol q d)
      (gn q) (ns - 1)
      (gPQ q d variant p sc0 rmax rsum pw u0 du0 g b0 W HN TH NEW)
      (gPQ' q d variant p sc0 rmax rsum pw u0 du0 g b0 W HN TH NEW)
      (gCE q d variant p sc0 rmax rsum pw u0 du0 g b0 W HN SC TH NEW)
      (gCR q d variant p sc0 rmax rsum pw u0 du0 g b0 W HN TH NEW)
      (gCP q d variant p sc0 rmax rsum pw u0 du0 g b0 W HN INT TH NEW)
      EP5 (gIN q d variant p sc0 rmax rsum pw u0 du0 g b0 W HN TH NEW) Nat.lt_0_1
      b v time dt u LO SR E0 HU) as (b' & k & v' & E & A1 & A2 & A3 & A4 & A5 & A6).
    exists b', k, (m_dt (v_sm v)). split; [exact E|]. split; [split; [exact A1|exact A2]|].
    rewrite EP4 in A4, A5. split; [exact A4|]. split; [exact A5|].
    assert (SV' : solution b' = v_u v')
      by (unfold solution; destruct (b_levels b'); [discriminate|]; injection A3 as ->; reflexivity).
    rewrite SV'. rewrite EP1, EP2, EP3, gext0, gf0 in A6. replace (S (ns - 1)) with ns in A6 by lia. exact A6.
  Qed.

  Lemma wok_shaped b : wok b -> shaped 1 (cells3 dom) (solution b).
  Proof.
    intros (LO & _). destruct (level0 _ _ _ _ _ LO) as (v & E0 & (_ & S0 & _) & _). rewrite gsize0 in S0.
    unfold solution. destruct (b_levels b); [discriminate|]. injection E0 as ->. exact S0.
  Qed.

  Lemma shaped_exists b : wok b -> exists u, state_holds 1 (cells3 dom) (P3 dom) (solution b) u.
  Proof.
    intros WK. pose proof (wok_shaped b WK) as S0.
    destruct (proj1 (one_array _ _) S0) as (c & E & L). rewrite E.
    destruct (holds3_exists dom c (wf_valid d W) L) as (w & HW). exists (of3 dom w).
    assert (NH : 0 <= nhalo dom) by lia. apply state3; auto. split; auto. intros i j k I.
    unfold at3. rewrite of3_slot by (apply inside_padded3; auto). apply HW. apply inside_padded3; auto.
  Qed.

  Lemma shaped_zlen nv size (s s' : state V) : shaped nv size s -> map zlen s' = map zlen s -> shaped nv size s'.
  Proof.
    intros (L & H) E. assert (length s' = length s) by (rewrite <- (map_length zlen s'), E, map_length; auto).
    split; [congruence|]. intros e a HA. pose proof (map_nth_error zlen e s' HA) as HM. rewrite E in HM.
    rewrite nth_error_map in HM. destruct (nth_error s e) as [x|] eqn:X; [|discriminate]. injection HM as <-.
    exact (H e x X).
  Qed.

  Lemma reached_ok b : reached g b0 b -> wok b.
  Proof.
    intros R. induction R as [|b b' t dt R IH E|b v vs u du R IH EL E1 E2].
    - exact (world_ok_new q d variant p sc0 rmax rsum pw u0 du0 g b0 W HN SC U0 DU0 TH NEW).
    - destruct (shaped_exists b IH) as (u & HU). destruct (ch_step b t dt u IH HU) as (b1 & k & dt0 & E1 & W1 & _).
      rewrite E in E1. injection E1 as <-. exact W1.
    - destruct IH as ((L & H) & SR). rewrite EL in L, H. split; [|exact SR]. cbn [b_levels]. split; [exact L|].
      intros [|k] x Hx; [|exact (H (S k) x Hx)]. injection Hx as <-.
      destruct (H 0%nat v eq_refl) as (A1 & A2 & A3 & A4 & A5).
      split; [exact A1|]. split; [exact (shaped_zlen _ _ _ _ A2 E1)|]. split; [exact (shaped_zlen _ _ _ _ A3 E2)|].
      split; [exact A4|exact A5].
  Qed.

  (** The steps of the smoothers. *)
  Lemma ch_step_first b time dt u : wok b -> state_holds 1 (cells3 dom) (P3 dom) (solution b) u ->
    let F := implicit_rhs (q_steady q) (ch_f3 dom variant p (d3_dx d)) dt u in
    exists b' k, bdf_step g b time dt = Ok b' /\ wok b' /\ (k <= Z.to_nat (q_max_cycles q))%nat /\
      (b_ncycles b' = 0 /\ k = Z.to_nat (q_max_cycles q) \/ b_ncycles b' = Z.of_nat k /\ (0 < k)%nat) /\
      state_holds 1 (cells3 dom) (P3 dom) (solution b')
        (vcycles k ns time F (ext3 dom) (dt_of g (b_levels b) 0) (g_cfl g 0) (q_relax q) (q_coarse_relax q) (glv (b_levels b)) u) /\
      (Z.to_nat (q_max_cycles q) <> O /\ all_settled g (b_levels b') \/
       Z.to_nat (q_max_cycles q) = O /\ forall k x', nth_error (b_levels b') k = Some x' ->
         exists x, nth_error (b_levels b) k = Some x /\ m_dt (v_sm x) = m_dt (v_sm x')).
  Proof.
    intros (LO & SR) HU F. destruct g_params as (EP1 & EP2 & EP3 & EP4 & EP5).
    destruct (level0 (gok q d) 1 (gsize q d) (gn q) _ LO) as (v & E0 & _).
    assert (SV : solution b = v_u v)
      by (unfold solution; destruct (b_levels b); [discriminate|]; injection E0 as ->; reflexivity).
    rewrite SV in HU. rewrite <- gsize0, <- gP0 in *.
    destruct (bdf_step_spec g (gok q d) 1 (gsize q d) (gP q d) (gQ q d) (gext q d) (gf q d variant p) (grest q d) (gprol q d)
      (gn q) (ns - 1)
      (gPQ q d variant p sc0 rmax rsum pw u0 du0 g b0 W HN TH NEW)
      (gPQ' q d variant p sc0 rmax rsum pw u0 du0 g b0 W HN TH NEW)
      (gCE q d variant p sc0 rmax rsum pw u0 du0 g b0 W HN SC TH NEW)
      (gCR q d variant p sc0 rmax rsum pw u0 du0 g b0 W HN TH NEW)
      (gCP q d variant p sc0 rmax rsum pw u0 du0 g b0 W HN INT TH NEW)
      EP5 (gIN q d variant p sc0 rmax rsum pw u0 du0 g b0 W HN TH NEW) Nat.lt_0_1
      b v time dt u LO SR E0 HU) as (b' & k & v' & E & A1 & A2 & A3 & A4 & A5 & A6).
    pose proof (step_settled g (gok q d) 1 (gsize q d) (gP q d) (gQ q d) (gext q d) (gf q d variant p) (grest q d) (gprol q d)
      (gn q) (ns - 1)
      (gPQ q d variant p sc0 rmax rsum pw u0 du0 g b0 W HN TH NEW)
      (gPQ' q d variant p sc0 rmax rsum pw u0 du0 g b0 W HN TH NEW)
      (gCE q d variant p sc0 rmax rsum pw u0 du0 g b0 W HN SC TH NEW)
      (gCR q d variant p sc0 rmax rsum pw u0 du0 g b0 W HN TH NEW)
      (gCP q d variant p sc0 rmax rsum pw u0 du0 g b0 W HN INT TH NEW)
      EP5 (gIN q d variant p sc0 rmax rsum pw u0 du0 g b0 W HN TH NEW) Nat.lt_0_1
      b b' v time dt u LO SR E0 HU E) as ST.
    exists b', k. split; [exact E|]. split; [split; [exact A1|exact A2]|].
    rewrite EP4 in A4, A5, ST. split; [exact A4|]. split; [exact A5|]. split; [|exact ST].
    assert (SV' : solution b' = v_u v')
      by (unfold solution; destruct (b_levels b'); [discriminate|]; injection A3 as ->; reflexivity).
    rewrite SV'. rewrite EP1, EP2, EP3, gext0, gf0 in A6. replace (S (ns - 1)) with ns in A6 by lia.
    unfold dt_of at 1. rewrite E0. exact A6.
  Qed.

  Lemma new_firsts : forall ds vs df, new_coarse_levels variant df ds = Ok vs ->
    forall k v, nth_error vs k = Some v -> m_dt (v_sm v) = nrat 1 1000000.
  Proof.
    induction ds as [|dc ds IH]; intros vs df E; cbn [new_coarse_levels] in E.
    - injection E as <-. intros [|k] v H; discriminate.
    - unfold new_coarse_level in E. destruct (make_ch3 dc variant) as [sc| | |]; cbn [rbind] in E; try discriminate.
      destruct (new_coarse_levels variant dc ds) as [vs'| | |] eqn:EL; cbn [rbind] in E; try discriminate.
      injection E as <-. intros [|k] v H; [injection H as <-; reflexivity|]. exact (IH _ _ EL k v H).
  Qed.
  Lemma start_firsts k v : nth_error (b_levels b0) k = Some v -> m_dt (v_sm v) = nrat 1 1000000.
  Proof.
    pose proof NEW as E. unfold bdf_new in E.
    destruct (get_mg_cycle _ _) as [cy| | |]; cbn [rbind] in E; try discriminate.
    destruct (make_grids _ _) as [ds| | |]; cbn [rbind] in E; try discriminate.
    destruct (new_coarse_levels _ _ _) as [vs| | |] eqn:X3; cbn [rbind] in E; try discriminate.
    injection E as Eg Eb. rewrite <- Eb. cbn [b_levels].
    destruct k as [|k]; intros H; [injection H as <-; reflexivity|]. exact (new_firsts _ _ _ X3 k v H).
  Qed.
  Lemma reached_firsts b : reached g b0 b -> forall k v, nth_error (b_levels b) k = Some v ->
    m_dt (v_sm v) = nrat 1 1000000 \/ m_dt (v_sm v) = g_cfl g k.
  Proof.
    intros R. induction R as [|b b' t dt R IH E|b v vs u du R IH EL E1 E2]; intros k x Hx.
    - left. exact (start_firsts k x Hx).
    - pose proof (reached_ok b R) as WK. destruct (shaped_exists b WK) as (u & HU).
      destruct (ch_step_first b t dt u WK HU) as (b1 & n & E1 & _ & _ & _ & _ & ST). rewrite E in E1. injection E1 as <-.
      destruct ST as [(_ & D)|(_ & D)]; [right; exact (D k x Hx)|]. destruct (D k x Hx) as (y & Hy & <-). exact (IH k y Hy).
    - cbn [b_levels] in Hx. rewrite EL in IH. destruct k as [|k]; [|exact (IH (S k) x Hx)].
      injection Hx as <-. exact (IH 0%nat v eq_refl).
  Qed.
End Steps.

(** * Exact arithmetic *)
Section ExactCH.
  Local Open Scope R_scope.
  Variables (q : mg_options R) (d : disc3 R) (variant : Z) (p : ch_params R) (sc0 : scratch R)
    (rmax : R -> list R -> R) (rsum : list R -> R) (pw : R -> R -> R) (u0 du0 : state R)
    (g : mg_config R (scratch R)) (b0 : mg_world R (scratch R)).
  Hypothesis W : wf3 d.
  Hypothesis HN : (2 <= nhalo (d3_domain d))%Z.
  Hypothesis TH : thick_at (q_levels q - 1) (d3_domain d).
  Hypothesis NEW : bdf_new q d variant p sc0 rmax rsum pw u0 du0 = Ok (g, b0).
  Notation dom := (d3_domain d).
  Notation zero := (fun (_ : nat) (_ : Z) => 0).
  Notation n := (gn q).
  Notation facts := (grids_facts q d variant p sc0 rmax rsum pw u0 du0 g b0 W HN TH NEW).
  Notation sameP k := (same_on 1 (gsize q d k) (gP q d k)).
  Notation sameQ k := (same_on 1 (gsize q d k) (gQ q d k)).

  Lemma gvalid k : valid_domain3 (gdom q d k).
  Proof. destruct facts as (_ & _ & _ & _ & HW & _). apply (wf_valid _ (HW k)). Qed.
  Lemma gnh k : (2 <= nhalo (gdom q d k))%Z.
  Proof. destruct facts as (_ & _ & _ & _ & _ & H & _). apply H. Qed.
  Lemma gnh0 k : (0 <= nhalo (gdom q d k))%Z.
  Proof. pose proof (gnh k). lia. Qed.
  Lemma ghalves k : (k < n)%nat -> halves3 (gdom q d (1 + k)) (gdom q d k).
  Proof. destruct facts as (_ & _ & _ & _ & _ & _ & H). intros Hk. apply H; auto. Qed.

  Lemma gextQ k u w : sameP k u w -> sameQ k (gext q d k u) (gext q d k w).
  Proof. intros H e i _ _ _. apply ext3_ext; auto. apply gvalid. Qed.

  Lemma gfP k t u w : sameP k u w -> sameP k (gf q d variant p k t u) (gf q d variant p k t w).
  Proof. intros H e i _ _ _. apply ch_f3_ext; auto. apply gvalid. Qed.

  Lemma inside_fine k i j l a b c : (k < n)%nat -> inside3 (gdom q d (1 + k)) i j l ->
    (0 <= a <= 1 -> 0 <= b <= 1 -> 0 <= c <= 1 -> inside3 (gdom q d k) (2 * i + a) (2 * j + b) (2 * l + c))%Z.
  Proof. intros Hk (I1 & I2 & I3) Ha Hb Hc. destruct (ghalves k Hk) as (A & B & C & _). unfold inside3. lia. Qed.

  Lemma grestP k u w : (k < n)%nat -> sameP k u w -> sameP (1 + k) (grest q d (1 + k) u) (grest q d (1 + k) w).
  Proof.
    intros Hk H. unfold gsize, gP in *. rewrite same3 in * by apply gnh0. intros i j l I.
    unfold at3 at 1 2. unfold grest. replace (1 + k - 1)%nat with k by lia. unfold rest3.
    rewrite !of3_slot by (apply inside_padded3; [apply gnh0|exact I]).
    rewrite !restrict_expr3_R.
    assert (X : forall a b c, (0 <= a <= 1)%Z -> (0 <= b <= 1)%Z -> (0 <= c <= 1)%Z ->
       at3 (gdom q d k) u (2 * i + a) (2 * j + b) (2 * l + c) = at3 (gdom q d k) w (2 * i + a) (2 * j + b) (2 * l + c)).
    { intros a b c Ha Hb Hc. apply H. apply inside_fine; auto. }
    pose proof (X 0 0 0)%Z as X0. pose proof (X 1 0 0)%Z as X1. pose proof (X 0 1 0)%Z as X2. pose proof (X 1 1 0)%Z as X3.
    pose proof (X 0 0 1)%Z as X4. pose proof (X 1 0 1)%Z as X5. pose proof (X 0 1 1)%Z as X6. pose proof (X 1 1 1)%Z as X7.
    rewrite !Z.add_0_r in *. rewrite X0, X1, X2, X3, X4, X5, X6, X7 by lia. reflexivity.
  Qed.

  Lemma grest0 k : (k < n)%nat -> sameP (1 + k) (grest q d (1 + k) zero) zero.
  Proof.
    intros Hk. unfold gsize, gP in *. rewrite same3 in * by apply gnh0. intros i j l I.
    unfold at3, grest. unfold rest3. rewrite !of3_slot by (apply inside_padded3; [apply gnh0|exact I]).
    rewrite !restrict_expr3_R. unfold at3. field.
  Qed.

  Lemma near_inside k i j l a b c : (k < n)%nat -> inside3 (gdom q d k) i j l ->
    (0 <= a <= 1 -> 0 <= b <= 1 -> 0 <= c <= 1 -> padded3 (gdom q d (1 + k)) ((i - 1) / 2 + a) ((j - 1) / 2 + b) ((l - 1) / 2 + c))%Z.
  Proof.
    intros Hk (I1 & I2 & I3) Ha Hb Hc. destruct (ghalves k Hk) as (A & B & C & _). pose proof (gnh (1 + k)).
    unfold padded3. lia.
  Qed.

  Lemma lin8_ext w (u v : Z -> Z -> Z -> R) i j k :
    (forall a b c, (0 <= a <= 1)%Z -> (0 <= b <= 1)%Z -> (0 <= c <= 1)%Z -> u (i + a)%Z (j + b)%Z (k + c)%Z = v (i + a)%Z (j + b)%Z (k + c)%Z) ->
    lin8 w u i j k = lin8 w v i j k.
  Proof.
    intros X. unfold lin8.
    pose proof (X 0 0 0)%Z as X0. pose proof (X 1 0 0)%Z as X1. pose proof (X 0 1 0)%Z as X2. pose proof (X 1 1 0)%Z as X3.
    pose proof (X 0 0 1)%Z as X4. pose proof (X 1 0 1)%Z as X5. pose proof (X 0 1 1)%Z as X6. pose proof (X 1 1 1)%Z as X7.
    rewrite !Z.add_0_r in *. rewrite X0, X1, X2, X3, X4, X5, X6, X7 by lia. reflexivity.
  Qed.

  Lemma lin8_zero w i j k : lin8 w (fun _ _ _ => 0) i j k = 0.
  Proof.
    unfold lin8. repeat (destruct w as [|? w]; try (cbn [nint Num_R]; reflexivity)).
    cbn [nadd nmul Num_R]. ring.
  Qed.

  Lemma gprolQ k u w : (k < n)%nat -> sameQ (1 + k) u w -> sameP k (gprol q d (1 + k) u) (gprol q d (1 + k) w).
  Proof.
    intros Hk H. unfold gsize, gP, gQ in *. rewrite same3 by apply gnh0. rewrite same3_pad in H by apply gnh0. intros i j l I.
    unfold at3, gprol, prol3. replace (1 + k - 1)%nat with k by lia.
    destruct (q_interp q); rewrite !of3_slot by (apply inside_padded3; [apply gnh0|exact I]).
    1, 3: apply H; destruct I as (I1 & I2 & I3); destruct (ghalves k Hk) as (A & B & C & _); pose proof (gnh (1 + k));
      unfold padded3; lia.
    unfold prolong_linear_expr3. apply lin8_ext. intros a b c Ha Hb Hc. apply H. apply near_inside; auto.
  Qed.

  Lemma gprol0 k : (k < n)%nat -> sameP k (gprol q d (1 + k) zero) zero.
  Proof.
    intros Hk. unfold gsize, gP, gQ in *. rewrite same3 by apply gnh0. intros i j l I.
    unfold at3, gprol, prol3. replace (1 + k - 1)%nat with k by lia.
    destruct (q_interp q); rewrite !of3_slot by (apply inside_padded3; [apply gnh0|exact I]); auto.
    unfold prolong_linear_expr3. apply lin8_zero.
  Qed.

  Lemma gauto k t t' u : sameP k (gf q d variant p k t u) (gf q d variant p k t' u).
  Proof. intros e i _ _ _. reflexivity. Qed.

  (** ** Fixed points *)
  Lemma ch_fixed ns k t F relax crelax d0 (dts : nat -> R) c u :
    respects 1 (gsize q d) (gP q d) 0 F -> (forall s, sameP 0 (F s u) zero) ->
    sameP 0 (vcycles k ns t F (gext q d 0) d0 c relax crelax
       (map (gl g (gext q d) (gf q d variant p) (grest q d) (gprol q d) dts) (seq 1 n)) u) u.
  Proof.
    intros HF H0.
    exact (vcycles_fixed 1 (gsize q d) (gP q d) (gQ q d) (gext q d) (gf q d variant p) (grest q d) (gprol q d) (g_cfl g) n
      (gPQ q d variant p sc0 rmax rsum pw u0 du0 g b0 W HN TH NEW) gextQ (fun k _ => gfP k)
      grestP grest0 gprolQ gprol0 (fun k t t' u _ => gauto k t t' u) ns t crelax F relax c HF k dts d0 u H0).
  Qed.
End ExactCH.

Section ConserveCH.
  Local Open Scope R_scope.
  Variables (q : mg_options R) (d : disc3 R) (variant : Z) (p : ch_params R) (sc0 : scratch R)
    (rmax : R -> list R -> R) (rsum : list R -> R) (pw : R -> R -> R) (u0 du0 : state R)
    (g : mg_config R (scratch R)) (b0 : mg_world R (scratch R)).
  Hypothesis W : wf3 d.
  Hypothesis HN : (2 <= nhalo (d3_domain d))%Z.
  Hypothesis TH : thick_at (q_levels q - 1) (d3_domain d).
  Hypothesis NEW : bdf_new q d variant p sc0 rmax rsum pw u0 du0 = Ok (g, b0).
  Hypothesis AP : all_periodic (d3_domain d).
  Notation dom := (d3_domain d).
  Notation n := (gn q).
  Notation facts := (grids_facts q d variant p sc0 rmax rsum pw u0 du0 g b0 W HN TH NEW).
  Notation gvalid' := (gvalid q d variant p sc0 rmax rsum pw u0 du0 g b0 W HN TH NEW).
  Notation gnh' := (gnh0 q d variant p sc0 rmax rsum pw u0 du0 g b0 W HN TH NEW).
  Notation ghalves' := (ghalves q d variant p sc0 rmax rsum pw u0 du0 g b0 W HN TH NEW).
  Notation sameP k := (same_on 1 (gsize q d k) (gP q d k)).
  Notation T k := (T3 (gdom q d k)).

  Lemma gperiodic k : all_periodic (gdom q d k).
  Proof.
    destruct facts as (LN & _ & NT & G0 & HW & _ & HH). induction k as [|k IH].
    - unfold gdom. rewrite G0. exact AP.
    - destruct (le_lt_dec n k) as [L|L].
      + unfold gdom, grid. rewrite nth_overflow by lia. exact AP.
      + destruct (HH k L) as ((A & B & C & _) & E). pose proof (gvalid' (1 + k)) as (V1 & V2 & V3 & _).
        fold (gdom q d k) (gdom q d (1 + k)) in *.
        destruct (coarsen3_ok (grid q d k) (HW k)) as (dc & E' & _ & _ & EQ); try (fold (gdom q d k); lia).
        rewrite E in E'. injection E' as <-. cbn [Nat.add] in *. unfold all_periodic, gdom in *. rewrite EQ. exact IH.
  Qed.

  Lemma gTsame k u w : sameP k u w -> T k u = T k w.
  Proof.
    intros H. unfold gsize, gP in H. rewrite same3 in H by apply gnh'. unfold T3, total3. apply sum3_ext.
    intros i j l Hi Hj Hl. apply H. repeat split; lia.
  Qed.

  Lemma gTlin k a b u w : T k (fun e i => a * u e i + b * w e i) = a * T k u + b * T k w.
  Proof. unfold T3, total3, at3. rewrite sum3_plus, !sum3_scal. reflexivity. Qed.

  Lemma gTf k t u : T k (gf q d variant p k t u) = - ch_sigma p * T k u + ch_sigma p * ch_m p * cells_inside3 (gdom q d k).
  Proof. unfold gf. rewrite T3_source by (apply gvalid' || apply gperiodic). ring. Qed.

  Lemma gTrest k u : (k < n)%nat -> T (1 + k)%nat (grest q d (1 + k) u) = 1 / 8 * T k u.
  Proof.
    intros Hk. unfold T3 at 2.
    rewrite (restrict_total (gdom q d k) (gdom q d (1 + k)) _ (gvalid' (1 + k)) (ghalves' k Hk)).
    replace (total3 (gdom q d (1 + k)) (restrict_expr3 (at3 (gdom q d k) u))) with (T (1 + k)%nat (grest q d (1 + k) u)); [lra|].
    unfold T3, total3. apply sum3_ext. intros i j l Hi Hj Hl. unfold at3 at 1, grest, rest3.
    replace (1 + k - 1)%nat with k by lia.
    rewrite of3_slot by (apply inside_padded3; [apply gnh'|repeat split; lia]). reflexivity.
  Qed.

  (** The total of a prolonged periodic field. *)
  Lemma nearest_total (domf domc : domain R) (u : Z -> Z -> Z -> R) :
    valid_domain3 domc -> halves3 domc domf ->
    total3 domf (fun i j k => u (i / 2)%Z (j / 2)%Z (k / 2)%Z) = 8 * total3 domc u.
  Proof.
    intros (H1 & H2 & H3 & H4) HH. rewrite (restrict_total domf domc) by (auto; repeat split; auto). f_equal.
    unfold total3. apply sum3_ext. intros i j k Hi Hj Hk. rewrite restrict_expr3_R.
    replace ((2 * i) / 2)%Z with i by lia. replace ((2 * i + 1) / 2)%Z with i by lia.
    replace ((2 * j) / 2)%Z with j by lia. replace ((2 * j + 1) / 2)%Z with j by lia.
    replace ((2 * k) / 2)%Z with k by lia. replace ((2 * k + 1) / 2)%Z with k by lia. field.
  Qed.

  Lemma linear_total (domf domc : domain R) (u v : Z -> Z -> Z -> R) :
    valid_domain3 domc -> halves3 domc domf ->
    (forall i j k, v i j k = u (i mod nx domc)%Z (j mod ny domc)%Z (k mod nz domc)%Z) ->
    total3 domf (prolong_linear_expr3 v) = 8 * total3 domc u.
  Proof.
    intros (H1 & H2 & H3 & H4) HH HV. rewrite (restrict_total domf domc) by (auto; repeat split; auto). f_equal.
    set (S := fun a b c => total3 domc (fun i j k => v (i + a)%Z (j + b)%Z (k + c)%Z)).
    assert (HS : forall a b c, S a b c = total3 domc u).
    { intros a b c. unfold S, total3. rewrite <- (sum3_shift _ _ _ a b c u). apply sum3_ext. intros. apply HV. }
    assert (E : forall i j k, (0 <= i < nx domc)%Z -> (0 <= j < ny domc)%Z -> (0 <= k < nz domc)%Z ->
      restrict_expr3 (prolong_linear_expr3 v) i j k =
      (lin8 (lin_weights 1 1 1) v (i - 1) (j - 1) (k - 1) + lin8 (lin_weights 0 1 1) v i (j - 1) (k - 1)
       + lin8 (lin_weights 1 0 1) v (i - 1) j (k - 1) + lin8 (lin_weights 0 0 1) v i j (k - 1)
       + lin8 (lin_weights 1 1 0) v (i - 1) (j - 1) k + lin8 (lin_weights 0 1 0) v i (j - 1) k
       + lin8 (lin_weights 1 0 0) v (i - 1) j k + lin8 (lin_weights 0 0 0) v i j k) / 8).
    { intros i j k Hi Hj Hk. rewrite restrict_expr3_R. unfold prolong_linear_expr3.
      replace ((2 * i - 1) mod 2)%Z with 1%Z by lia. replace ((2 * i + 1 - 1) mod 2)%Z with 0%Z by lia.
      replace ((2 * j - 1) mod 2)%Z with 1%Z by lia. replace ((2 * j + 1 - 1) mod 2)%Z with 0%Z by lia.
      replace ((2 * k - 1) mod 2)%Z with 1%Z by lia. replace ((2 * k + 1 - 1) mod 2)%Z with 0%Z by lia.
      replace ((2 * i - 1) / 2)%Z with (i - 1)%Z by lia. replace ((2 * i + 1 - 1) / 2)%Z with i by lia.
      replace ((2 * j - 1) / 2)%Z with (j - 1)%Z by lia. replace ((2 * j + 1 - 1) / 2)%Z with j by lia.
      replace ((2 * k - 1) / 2)%Z with (k - 1)%Z by lia. replace ((2 * k + 1 - 1) / 2)%Z with k by lia.
      reflexivity. }
    assert (L8 : forall pa pb pc a b c, (pa = 0 \/ pa = 1)%Z -> (pb = 0 \/ pb = 1)%Z -> (pc = 0 \/ pc = 1)%Z ->
       total3 domc (fun i j k => lin8 (lin_weights pa pb pc) v (i + a)%Z (j + b)%Z (k + c)%Z) = total3 domc u).
    { assert (G : forall w0 w1 w2 w3 w4 w5 w6 w7 a b c, (w0 + w1 + w2 + w3 + w4 + w5 + w6 + w7 = 64)%Z ->
        total3 domc (fun i j k => lin8 [w0; w1; w2; w3; w4; w5; w6; w7] v (i + a)%Z (j + b)%Z (k + c)%Z) = total3 domc u).
      { intros w0 w1 w2 w3 w4 w5 w6 w7 a b c HW.
        transitivity (total3 domc (fun i j k =>
           IZR w0 / 64 * v (i + (a + 1))%Z (j + (b + 1))%Z (k + c)%Z + IZR w1 / 64 * v (i + (a + 1))%Z (j + (b + 1))%Z (k + (c + 1))%Z
         + IZR w2 / 64 * v (i + (a + 1))%Z (j + b)%Z (k + c)%Z + IZR w3 / 64 * v (i + (a + 1))%Z (j + b)%Z (k + (c + 1))%Z
         + IZR w4 / 64 * v (i + a)%Z (j + (b + 1))%Z (k + c)%Z + IZR w5 / 64 * v (i + a)%Z (j + (b + 1))%Z (k + (c + 1))%Z
         + IZR w6 / 64 * v (i + a)%Z (j + b)%Z (k + c)%Z + IZR w7 / 64 * v (i + a)%Z (j + b)%Z (k + (c + 1))%Z)).
        { unfold total3. apply sum3_ext. intros i j k _ _ _. unfold lin8. cbn [nadd nmul nrat Num_R].
          rewrite !Z.add_assoc. reflexivity. }
        unfold total3. rewrite !sum3_plus, !sum3_scal. fold (total3 domc u).
        pose proof HS as HS'. unfold S, total3 in HS'. rewrite !HS'. fold (total3 domc u).
        apply (f_equal IZR) in HW. rewrite !plus_IZR in HW.
        replace (IZR w0 / 64 * total3 domc u + IZR w1 / 64 * total3 domc u + IZR w2 / 64 * total3 domc u
          + IZR w3 / 64 * total3 domc u + IZR w4 / 64 * total3 domc u + IZR w5 / 64 * total3 domc u
          + IZR w6 / 64 * total3 domc u + IZR w7 / 64 * total3 domc u)
          with ((IZR w0 + IZR w1 + IZR w2 + IZR w3 + IZR w4 + IZR w5 + IZR w6 + IZR w7) / 64 * total3 domc u) by field.
        rewrite HW. field. }
      intros pa pb pc a b c [->| ->] [->| ->] [->| ->]; apply G; reflexivity. }
    transitivity (total3 domc (fun i j k => 1 / 8 * (
        lin8 (lin_weights 1 1 1) v (i + -1) (j + -1) (k + -1) + lin8 (lin_weights 0 1 1) v (i + 0) (j + -1) (k + -1)
       + lin8 (lin_weights 1 0 1) v (i + -1) (j + 0) (k + -1) + lin8 (lin_weights 0 0 1) v (i + 0) (j + 0) (k + -1)
       + lin8 (lin_weights 1 1 0) v (i + -1) (j + -1) (k + 0) + lin8 (lin_weights 0 1 0) v (i + 0) (j + -1) (k + 0)
       + lin8 (lin_weights 1 0 0) v (i + -1) (j + 0) (k + 0) + lin8 (lin_weights 0 0 0) v (i + 0) (j + 0) (k + 0)))).
    { unfold total3. apply sum3_ext. intros i j k Hi Hj Hk. rewrite E by auto.
      rewrite !Z.add_0_r. unfold Z.sub. change (- (1))%Z with (-1)%Z. field. }
    unfold total3. rewrite sum3_scal, !sum3_plus. pose proof L8 as L8'. unfold total3 in L8'. rewrite !L8' by auto. field.
  Qed.

  Lemma gTprol k u w : (k < n)%nat -> T (1 + k)%nat u = T (1 + k)%nat w ->
    T k (gprol q d (1 + k) (fun e i => gext q d (1 + k) u e i - gext q d (1 + k) w e i)) = 0.
  Proof.
    intros Hk E. pose proof (gvalid' (1 + k)) as HV. pose proof (ghalves' k Hk) as HH. pose proof (gnh' (1 + k)) as NH.
    pose proof (gnh' k) as NH0.
    set (dc := gdom q d (1 + k)) in *. set (df := gdom q d k) in *.
    set (v := fun e i => gext q d (1 + k) u e i - gext q d (1 + k) w e i).
    assert (PT : forall i j l, padded3 dc i j l -> at3 dc v i j l =
      (fun i j l => at3 dc u (i mod nx dc)%Z (j mod ny dc)%Z (l mod nz dc)%Z - at3 dc w (i mod nx dc)%Z (j mod ny dc)%Z (l mod nz dc)%Z) i j l).
    { intros i j l PD. unfold at3 at 1, v, gext. fold dc. unfold ext3. rewrite !of3_slot by auto.
      pose proof (gperiodic (1 + k)) as AC. fold dc in AC.
      unfold extend3. rewrite !(extend3_periodic dc) by exact AC. reflexivity. }
    assert (TD : total3 dc (fun i j l => at3 dc u i j l - at3 dc w i j l) = 0).
    { unfold total3. rewrite sum3_minus. unfold T3, total3 in E. fold dc in E. lra. }
    destruct HH as (A & B & C & D0). assert (HH : halves3 dc df) by (repeat split; auto).
    assert (H2 : (2 <= nhalo dc)%Z) by (unfold dc; apply (gnh q d variant p sc0 rmax rsum pw u0 du0 g b0 W HN TH NEW)).
    unfold gprol, prol3. replace (1 + k - 1)%nat with k by lia. fold df dc. unfold T3.
    destruct (q_interp q).
    1, 3: transitivity (total3 df (fun i j l => (fun i j l => at3 dc u i j l - at3 dc w i j l) (i / 2)%Z (j / 2)%Z (l / 2)%Z));
      [|rewrite (nearest_total df dc (fun i j l => at3 dc u i j l - at3 dc w i j l)) by auto; rewrite TD; ring];
      unfold total3; apply sum3_ext; intros i j l Hi Hj Hl; unfold at3 at 1;
      rewrite of3_slot by (apply inside_padded3; [exact NH0|repeat split; lia]);
      rewrite PT by (apply inside_padded3; [exact NH|repeat split; lia]); cbn beta;
      rewrite !Z.mod_small by lia; reflexivity.
    transitivity (total3 df (prolong_linear_expr3 (fun i j l => at3 dc u (i mod nx dc)%Z (j mod ny dc)%Z (l mod nz dc)%Z
        - at3 dc w (i mod nx dc)%Z (j mod ny dc)%Z (l mod nz dc)%Z))).
    - unfold total3. apply sum3_ext. intros i j l Hi Hj Hl. unfold at3 at 1.
      rewrite of3_slot by (apply inside_padded3; [exact NH0|repeat split; lia]).
      unfold prolong_linear_expr3. apply lin8_ext. intros a b c Ha Hb Hc. rewrite PT; [reflexivity|]. unfold padded3. lia.
    - rewrite (linear_total df dc (fun i j l => at3 dc u i j l - at3 dc w i j l)) by auto. rewrite TD. ring.
  Qed.

  Lemma ch_conserved ns k t F relax crelax d0 (dts : nat -> R) c u tau :
    keeps (fun k => T k) 0 F tau -> T 0%nat u = tau ->
    T 0%nat (vcycles k ns t F (gext q d 0) d0 c relax crelax
       (map (gl g (gext q d) (gf q d variant p) (grest q d) (gprol q d) dts) (seq 1 n)) u) = tau.
  Proof.
    intros HK HU.
    exact (vcycles_keep 1 (gsize q d) (gP q d) (gQ q d) (gext q d) (gf q d variant p) (grest q d) (gprol q d) (g_cfl g) n
      (gPQ q d variant p sc0 rmax rsum pw u0 du0 g b0 W HN TH NEW) (fun k => T k) (- ch_sigma p)
      (fun k => ch_sigma p * ch_m p * cells_inside3 (gdom q d k)) (1 / 8) gTsame gTlin (fun k t u _ => gTf k t u)
      gTrest gTprol ns t crelax F relax c tau HK k dts d0 u HU).
  Qed.
End ConserveCH.
