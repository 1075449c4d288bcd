(** Proofs of the Poisson properties. *)
From Verif Require Import Outcome ZList ZListProofs Num Kernel KernelProofs Gather Loop
  ModelIndex IndexProofs ModelDisc3D ModelCH SpecGrid Disc3DProofs Stencil3Proofs Make3Proofs
  BC3Proofs CHProofs SpecField SumProofs FieldProofs Step1Proofs ExampleNum
  ModelPoisson ModelReduce ModelMon SpecMon Mon4Proofs PoissonProofs.
From Coq Require Import Reals Lra Lia ZArith List.
Import ListNotations.
Local Open Scope list_scope.
Local Open Scope Z_scope.

Lemma dx_spacing (d : disc3 R) : wf3 d -> d3_dx d = spacing (d3_domain d).
Proof. intros W. rewrite (wf_dx _ W). reflexivity. Qed.

Lemma pf_C61_rhs :
  forall (dom : domain R) (d : disc3 R) (c rhs : list R) (u : Z -> Z -> Z -> R),
  valid_domain3 dom -> 1 <= nhalo dom -> nhalo dom <= nx dom /\ nhalo dom <= ny dom /\ nhalo dom <= nz dom ->
  make3 dom = Ok d -> holds_inside3 dom c u -> zlen rhs = cells3 dom ->
  exists c' rhs', poisson_rhs sin cos d c rhs = Ok (c', rhs') /\
    holds3 dom c' (poisson_extend dom u) /\
    holds_inside3 dom rhs' (fun i j k => Lap3 (spacing dom) (poisson_extend dom u) i j k + 3 * poisson_at dom i j k)%R /\
    same_halo3 dom rhs rhs'.
Proof.
  intros dom d c rhs u0 HV HN HT HM HC0 HR.
  destruct (make3_centres dom d HV HM) as (W & D & HX & HY & HZ). subst dom.
  destruct (holds3_exists (d3_domain d) c HV (proj1 HC0)) as (u & HC).
  assert (EU : forall i j k, inside3 (d3_domain d) i j k -> u i j k = u0 i j k).
  { intros i j k I. pose proof (proj2 HC0 i j k I).
    pose proof (proj2 HC i j k (inside_padded3 _ _ _ _ (proj2 (proj2 (proj2 HV))) I)). congruence. }
  pose proof (dx_spacing d W) as DX.
  destruct (apply_periodic3_full d c u W HT HC) as (c1 & E1 & H1 & _).
  destruct (apply_dirichlet_full sin cos d c1 _ _ _ _ W H1 HX HY HZ) as (c2 & E2 & H2 & _).
  assert (H2' : holds3 (d3_domain d) c2 (poisson_extend (d3_domain d) u0)).
  { apply (holds3_ext _ _ _ (poisson_extend (d3_domain d) u0) H2). intros i j k P. unfold poisson_extend, halo_z.
    destruct (Z.leb_spec 0 k), (Z.ltb_spec k (nz (d3_domain d))), (Z.ltb_spec k 0), (Z.leb_spec (nz (d3_domain d)) k); cbn [andb orb]; try lia.
    - unfold periodic3. rewrite (Z.mod_small k) by lia. apply EU. destruct HV as (A & B & C & _).
      repeat split; try lia; apply Z.mod_pos_bound; lia.
    - unfold poisson_at, poisson_exact, cx, cy, cz. rewrite DX. reflexivity.
    - unfold poisson_at, poisson_exact, cx, cy, cz. rewrite DX. reflexivity. }
  destruct (laplacian3_full d c2 rhs _ W HN H2' HR) as (r1 & E3 & H3 & S3 & _).
  destruct (add_source_full sin cos d r1 _ _ _ _ W H3 HX HY HZ) as (r2 & E4 & H4 & S4 & _).
  exists c2, r2. split; [|split; [|split]].
  - unfold poisson_rhs. rewrite E1. cbn [rbind]. rewrite E2. cbn [rbind]. rewrite E3. cbn [rbind]. rewrite E4. reflexivity.
  - exact H2'.
  - apply (holds_inside3_ext _ _ _ _ H4). intros i j k I. cbn [nadd nmul nint Num_R]. rewrite lap_expr3_R, DX.
    unfold poisson_at, poisson_exact, cx, cy, cz. ring.
  - split; [destruct S3 as (L3 & _); destruct S4 as (L4 & _); congruence|].
    intros i j k P I. rewrite (proj2 S3 i j k P I). apply (proj2 S4 i j k P I).
Qed.

Definition poisson_box : domain R :=
  {| nx := 4; ny := 8; nz := 3; xbeg := 0; xend := 2 * PI; ybeg := 1; yend := 1; zbeg := -1; zend := 1;
     xbc := Periodic; ybc := Periodic; zbc := Periodic; nhalo := 2 |}%R.
Lemma poisson_box_ok : valid_domain3 poisson_box /\ 1 <= nhalo poisson_box /\
  (nhalo poisson_box <= nx poisson_box /\ nhalo poisson_box <= ny poisson_box /\ nhalo poisson_box <= nz poisson_box) /\
  exists d, make3 poisson_box = Ok d.
Proof.
  assert (V : valid_domain3 poisson_box) by (unfold valid_domain3; cbn; lia).
  split; auto. split; [cbn; lia|]. split; [cbn; lia|]. destruct (make3_ok poisson_box V) as (d & E & _). eauto.
Qed.
Lemma poisson_box_arrays : exists c rhs : list R, holds_inside3 poisson_box c (poisson_at poisson_box) /\ zlen rhs = cells3 poisson_box.
Proof.
  destruct poisson_box_ok as (V & _). destruct (array3 poisson_box (poisson_at poisson_box) V) as (c & Hc).
  exists c, c. split; [apply holds3_inside; auto; apply V|apply Hc].
Qed.

Lemma poisson_periodic (dom : domain R) a b i j k : valid_domain3 dom ->
  (xend dom - xbeg dom = 2 * IZR a * PI)%R -> (IZR (ny dom) * spacing dom = 2 * IZR b * PI)%R ->
  poisson_at dom (i mod nx dom) (j mod ny dom) k = poisson_at dom i j k.
Proof.
  intros (A & B & C & _) EA EB. unfold poisson_at, poisson_exact.
  assert (NX : (IZR (nx dom) <> 0)%R) by (apply not_0_IZR; lia).
  assert (EX : (IZR (nx dom) * spacing dom = 2 * IZR a * PI)%R) by (rewrite <- EA; unfold spacing; field; auto).
  pose proof (Z.div_mod i (nx dom) ltac:(lia)) as DI. pose proof (Z.div_mod j (ny dom) ltac:(lia)) as DJ.
  f_equal. f_equal.
  - rewrite <- (PoissonProofs.sin_shift (xbeg dom + spacing dom * (IZR (i mod nx dom) + / 2)) (a * (i / nx dom))). f_equal.
    replace (IZR i) with (IZR (nx dom * (i / nx dom) + i mod nx dom)) by (f_equal; symmetry; exact DI). rewrite plus_IZR, !mult_IZR.
    transitivity (xbeg dom + spacing dom * (IZR (i mod nx dom) + / 2) + (2 * IZR a * PI) * IZR (i / nx dom))%R; [ring|].
    rewrite <- EX. ring.
  - rewrite <- (PoissonProofs.cos_shift (ybeg dom + spacing dom * (IZR (j mod ny dom) + / 2)) (b * (j / ny dom))). f_equal.
    replace (IZR j) with (IZR (ny dom * (j / ny dom) + j mod ny dom)) by (f_equal; symmetry; exact DJ). rewrite plus_IZR, !mult_IZR.
    transitivity (ybeg dom + spacing dom * (IZR (j mod ny dom) + / 2) + (2 * IZR b * PI) * IZR (j / ny dom))%R; [ring|].
    rewrite <- EB. ring.
Qed.

Lemma Lap3_poisson (dom : domain R) i j k : (spacing dom <> 0)%R ->
  (Lap3 (spacing dom) (poisson_at dom) i j k = poisson_at dom i j k * (6 * (cos (spacing dom) - 1) / (spacing dom * spacing dom)))%R.
Proof.
  intros H. unfold Lap3, dxx3, dyy3, dzz3, poisson_at, poisson_exact. rewrite !plus_IZR, !minus_IZR. set (h := spacing dom) in *.
  set (x := (xbeg dom + h * (IZR i + / 2))%R). set (y := (ybeg dom + h * (IZR j + / 2))%R). set (z := (zbeg dom + h * (IZR k + / 2))%R).
  replace (xbeg dom + h * (IZR i + 1 + / 2))%R with (x + h)%R by (unfold x; ring).
  replace (xbeg dom + h * (IZR i - 1 + / 2))%R with (x - h)%R by (unfold x; ring).
  replace (ybeg dom + h * (IZR j + 1 + / 2))%R with (y + h)%R by (unfold y; ring).
  replace (ybeg dom + h * (IZR j - 1 + / 2))%R with (y - h)%R by (unfold y; ring).
  replace (zbeg dom + h * (IZR k + 1 + / 2))%R with (z + h)%R by (unfold z; ring).
  replace (zbeg dom + h * (IZR k - 1 + / 2))%R with (z - h)%R by (unfold z; ring).
  rewrite !sin_plus, !sin_minus, !cos_plus, !cos_minus. field. auto.
Qed.

Lemma pf_C61_exact :
  forall (dom : domain R) (d : disc3 R) (c rhs : list R) (a b : Z),
  valid_domain3 dom -> 1 <= nhalo dom -> nhalo dom <= nx dom /\ nhalo dom <= ny dom /\ nhalo dom <= nz dom ->
  make3 dom = Ok d ->
  (xend dom - xbeg dom = 2 * IZR a * PI)%R -> (IZR (ny dom) * spacing dom = 2 * IZR b * PI)%R -> a <> 0 ->
  holds_inside3 dom c (poisson_at dom) -> zlen rhs = cells3 dom ->
  exists c' rhs' factor, poisson_rhs sin cos d c rhs = Ok (c', rhs') /\
    holds3 dom c' (poisson_at dom) /\
    factor = (3 + 6 * (cos (spacing dom) - 1) / (spacing dom * spacing dom))%R /\
    holds_inside3 dom rhs' (fun i j k => poisson_at dom i j k * factor)%R /\
    (0 <= factor <= spacing dom * spacing dom / 4)%R.
Proof.
  intros dom d c rhs a b HV HN HT HM EA EB NA HC HR.
  destruct (pf_C61_rhs dom d c rhs _ HV HN HT HM HC HR) as (c' & rhs' & E & H1 & H2 & _).
  assert (SP : (spacing dom <> 0)%R).
  { unfold spacing. rewrite EA. apply Rmult_integral_contrapositive_currified.
    - apply Rmult_integral_contrapositive_currified; [|apply PI_neq0].
      apply Rmult_integral_contrapositive_currified; [lra|]. apply not_0_IZR; auto.
    - apply Rinv_neq_0_compat, not_0_IZR. destruct HV; lia. }
  assert (EX : forall i j k, poisson_extend dom (poisson_at dom) i j k = poisson_at dom i j k).
  { intros i j k. unfold poisson_extend. destruct (_ && _); auto. apply (poisson_periodic dom a b); auto. }
  exists c', rhs', (3 + 6 * (cos (spacing dom) - 1) / (spacing dom * spacing dom))%R.
  split; auto. split; [apply (holds3_ext _ _ _ _ H1); intros; apply EX|]. split; auto. split.
  - apply (holds_inside3_ext _ _ _ _ H2). intros i j k I.
    rewrite (Lap3_ext (spacing dom) _ (poisson_at dom)) by (intros; apply EX).
    rewrite Lap3_poisson by auto. ring.
  - apply factor_bound; auto.
Qed.

Lemma poisson_box_periods : (xend poisson_box - xbeg poisson_box = 2 * IZR 1 * PI)%R /\
  (IZR (ny poisson_box) * spacing poisson_box = 2 * IZR 2 * PI)%R.
Proof. unfold spacing, poisson_box. cbn [nx ny xend xbeg]. split; [ring|field]. Qed.

