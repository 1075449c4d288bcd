(** Proofs of the multigrid properties. *)
From Coq Require Import ZArith List Bool Lia Reals Lra SpecFloat FloatOps FunctionalExtensionality.
From Verif Require Import Outcome ZList ZListProofs Num Kernel ModelIndex IndexProofs ModelDisc3D ModelCH
  SpecGrid Disc3DProofs BC3Proofs Make3Proofs Stencil3Proofs CHProofs SpecField SumProofs FieldProofs
  Transfer3Proofs TransferFinal ModelTime ModelRun SpecTime Time1Proofs Step1Proofs StepFinal
  ModelMG ModelMGCH SpecMG MG1Proofs MG2Proofs MG3Proofs MG4Proofs MG5Proofs.
Import ListNotations.
Local Open Scope Z_scope.
Local Open Scope list_scope.

Lemma pf_C51_cycle :
  forall nlevels nsmooth, 0 <= nsmooth ->
  (1 <= nlevels <= 6 ->
     exists cycle, get_mg_cycle nlevels nsmooth = Ok cycle /\
       (forall z, In z cycle -> z = -1 \/ z = 0 \/ z = 1) /\
       (forall l, In l (levels_visited 0 cycle) <-> 0 <= l < nlevels) /\
       last (levels_visited 0 cycle) 0 = 0 /\
       (forall l, 0 <= l < nlevels -> smoothings l 0 cycle = (2 * Z.to_nat nsmooth)%nat)) /\
  (~ 1 <= nlevels <= 6 -> get_mg_cycle nlevels nsmooth = Fatal).
Proof.
  intros n ns H. split.
  - intros R. exists (cyc (Z.to_nat ns) (Z.to_nat (n - 1))). split; [apply get_mg_cycle_cyc; auto|].
    split; [apply cyc_entries|]. split; [intros l; rewrite cyc_visits; lia|].
    split; [rewrite last_visited, cyc_total; reflexivity|]. intros l Hl. apply cyc_smoothings. lia.
  - intros R. apply get_mg_cycle_rejects; auto.
Qed.

Lemma pf_C51_negative_smoothings :
  forall nlevels nsmooth, nsmooth < 0 -> get_mg_cycle nlevels nsmooth = Throw.
Proof. exact get_mg_cycle_throws. Qed.

(** ** The constructor *)
Section New.
  Context {V : Type} `{N : Num V}.

  Lemma pow_div_chain m k : 0 <= k -> m mod 2 ^ (Z.succ k) = 0 -> m mod 2 = 0 /\ (m / 2) mod 2 ^ k = 0.
  Proof.
    intros Hk H. rewrite Z.pow_succ_r in H by lia. pose proof (Z.pow_pos_nonneg 2 k ltac:(lia) Hk) as HP.
    assert (D : exists y, m = (2 * 2 ^ k) * y) by (exists (m / (2 * 2 ^ k)); pose proof (Z.div_mod m (2 * 2 ^ k)); lia).
    destruct D as (y & ->). split.
    - replace (2 * 2 ^ k * y) with (2 ^ k * y * 2) by ring. apply Z_mod_mult.
    - replace (2 * 2 ^ k * y / 2) with (y * 2 ^ k) by (replace (2 * 2 ^ k * y) with (y * 2 ^ k * 2) by ring; rewrite Z_div_mult; lia).
      apply Z_mod_mult.
  Qed.

  Lemma pow_div_chain_inv m k : 0 <= k -> m mod 2 = 0 -> (m / 2) mod 2 ^ k = 0 -> m mod 2 ^ (Z.succ k) = 0.
  Proof.
    intros Hk H0 H. rewrite Z.pow_succ_r by lia. pose proof (Z.pow_pos_nonneg 2 k ltac:(lia) Hk) as HP.
    assert (D : exists y, m / 2 = (2 ^ k) * y) by (exists (m / 2 / 2 ^ k); pose proof (Z.div_mod (m / 2) (2 ^ k)); lia).
    destruct D as (y & E). replace m with (y * (2 * 2 ^ k)) by (pose proof (Z.div_mod m 2); lia). apply Z_mod_mult.
  Qed.

  Definition dom_divides (k : Z) (dom : domain V) : Prop :=
    nx dom mod 2 ^ k = 0 /\ ny dom mod 2 ^ k = 0 /\ nz dom mod 2 ^ k = 0.

  Lemma dom_divides_dec k dom : dom_divides k dom \/ ~ dom_divides k dom.
  Proof. unfold dom_divides. lia. Qed.

  Lemma make_grids_iff n : forall d, wf3 d ->
    (dom_divides (Z.of_nat n) (d3_domain d) -> exists ds, make_grids n d = Ok ds) /\
    (~ dom_divides (Z.of_nat n) (d3_domain d) -> make_grids n d = Fatal).
  Proof.
    induction n as [|n IH]; intros d W; cbn [make_grids].
    - split; [eauto|]. intros H. exfalso. apply H. change (2 ^ Z.of_nat 0) with 1. unfold dom_divides.
      change (2 ^ Z.of_nat 0) with 1. rewrite !Z.mod_1_r. auto.
    - assert (D : (nx (d3_domain d) mod 2 = 0 /\ ny (d3_domain d) mod 2 = 0 /\ nz (d3_domain d) mod 2 = 0) \/
        ~ (nx (d3_domain d) mod 2 = 0 /\ ny (d3_domain d) mod 2 = 0 /\ nz (d3_domain d) mod 2 = 0)) by lia.
      unfold dom_divides. rewrite Nat2Z.inj_succ.
      destruct D as [(A & B & C)|D].
      + destruct (coarsen3_ok d W A B C) as (dc & E & Wc & _ & EQ). rewrite E. cbn [rbind].
        destruct (IH dc Wc) as (I1 & I2). unfold dom_divides in I1, I2. rewrite EQ in I1, I2. cbn [nx ny nz] in I1, I2.
        split.
        * intros (H1 & H2 & H3). 
          apply pow_div_chain in H1 as (_ & H1); [|lia]. apply pow_div_chain in H2 as (_ & H2); [|lia]. apply pow_div_chain in H3 as (_ & H3); [|lia].
          destruct I1 as (ds & ->); auto. cbn [rbind]. eauto.
        * intros H. rewrite I2; auto. intros (H1 & H2 & H3). apply H.
          split; [|split]; (apply pow_div_chain_inv; [apply Nat2Z.is_nonneg| |]; assumption).
      + split.
        * intros (H1 & H2 & H3). exfalso. apply D.
          pose proof (pow_div_chain _ _ (Nat2Z.is_nonneg n) H1). pose proof (pow_div_chain _ _ (Nat2Z.is_nonneg n) H2). pose proof (pow_div_chain _ _ (Nat2Z.is_nonneg n) H3). tauto.
        * intros _. rewrite (coarsen3_odd d W D). reflexivity.
  Qed.

  Lemma coarse_levels_exist variant : forall ds df, 0 <= variant <= 2 -> exists vs,
    new_coarse_levels variant df ds = Ok vs /\ length vs = length ds.
  Proof.
    induction ds as [|dc ds IH]; intros df HV; cbn [new_coarse_levels]; [exists []; auto|].
    unfold new_coarse_level, make_ch3.
    destruct ((0 <=? variant) && (variant <=? 2)) eqn:B; [|lia]. cbn [rbind].
    destruct (IH dc HV) as (vs & -> & L). cbn [rbind]. eexists. split; [reflexivity|]. cbn [length]. congruence.
  Qed.

  Lemma thick_at_mono m dom : 0 <= m -> 0 <= nhalo dom -> thick_at (V:=V) m dom -> thick dom.
  Proof. apply thick_of. Qed.

  Lemma grids_dom n d ds : wf3 d -> make_grids n d = Ok ds ->
    forall k x, nth_error ds k = Some x -> d3_domain x = coarse_dom (d3_domain d) (Z.of_nat k).
  Proof.
    intros W E. destruct (make_grids_inv n d ds W E) as (L & E0 & HW & HH). induction k as [|k IH]; intros x Hx.
    - rewrite E0 in Hx. injection Hx as <-. unfold coarse_dom. change (2 ^ Z.of_nat 0) with 1.
      rewrite !Z.div_1_r. destruct (d3_domain d); reflexivity.
    - assert (KL : (S k < length ds)%nat) by (apply nth_error_Some; congruence).
      destruct (nth_error ds k) as [y|] eqn:EY; [|apply nth_error_None in EY; lia].
      specialize (IH y eq_refl). destruct (HH k y x EY Hx) as (HA & EC). pose proof (wf_valid _ (HW _ _ Hx)) as VX.
      destruct HA as (H1 & H2 & H3 & _). destruct VX as (V1 & V2 & V3 & _).
      destruct (coarsen3_ok y (HW k y EY)) as (dc & E' & _ & _ & EQ); try lia.
      rewrite EC in E'. injection E' as <-. rewrite EQ, IH. unfold coarse_dom. cbn [nx ny nz xbeg xend ybeg yend zbeg zend xbc ybc zbc nhalo].
      rewrite Nat2Z.inj_succ, Z.pow_succ_r by lia. rewrite !Z.div_div by lia. rewrite (Z.mul_comm 2). reflexivity.
  Qed.
End New.

Lemma pf_C51_constructor :
  forall (V : Type) (N : Num V) (q : mg_options V) (dom : domain V) (d : disc3 V) (variant : Z) (p : ch_params V)
    (sc : scratch V) rmax rsum pw (u du : state V),
  valid_domain3 dom -> make3 dom = Ok d -> make_ch3 d variant = Ok sc -> 0 <= q_nsmooth q ->
  let ok := 1 <= q_levels q <= 6 /\ nx dom mod 2 ^ (q_levels q - 1) = 0 /\ ny dom mod 2 ^ (q_levels q - 1) = 0 /\
            nz dom mod 2 ^ (q_levels q - 1) = 0 in
  (ok -> exists g b, bdf_new q d variant p sc rmax rsum pw u du = Ok (g, b) /\
     Z.of_nat (length (b_levels b)) = q_levels q /\ solution b = u) /\
  (~ ok -> bdf_new q d variant p sc rmax rsum pw u du = Fatal).
Proof.
  intros V N q dom d variant p sc rmax rsum pw u du HV HM HC HS ok.
  destruct (make3_inv dom d HV HM) as (W & <-). destruct (make_ch3_inv d variant sc W HC) as (VR & _). unfold bdf_new.
  destruct (Z_le_dec 1 (q_levels q)) as [L1|L1], (Z_le_dec (q_levels q) 6) as [L2|L2];
    try (rewrite get_mg_cycle_rejects by lia; split; [intros (X & _); lia|reflexivity]).
  rewrite get_mg_cycle_cyc by lia. cbn [rbind].
  destruct (make_grids_iff (Z.to_nat (q_levels q - 1)) d W) as (G1 & G2). unfold dom_divides in *.
  rewrite Z2Nat.id in G1, G2 by lia. split.
  - intros (_ & H). destruct (G1 H) as (ds & ED). rewrite ED. cbn [rbind].
    destruct (coarse_levels_exist variant (tl ds) d VR) as (vs & EV & LV). rewrite EV. cbn [rbind].
    do 2 eexists. split; [reflexivity|]. split; [|reflexivity]. cbn [b_levels length].
    destruct (make_grids_inv _ d ds W ED) as (LD & _). destruct ds; cbn [tl length] in *; lia.
  - intros H. rewrite G2; [reflexivity|]. intros H'. apply H. split; [lia|exact H'].
Qed.

Lemma CH3_ext h m s e2 f g i j k : (forall i j k, f i j k = g i j k) -> CH3 h m s e2 f i j k = CH3 h m s e2 g i j k.
Proof.
  intros E. unfold CH3, Lap3, dxx3, dyy3, dzz3. rewrite !E. reflexivity.
Qed.

Lemma zget_const {A} (a : A) n i : 0 <= i < n -> zget (new_array a n) i = Some a.
Proof.
  intros H. unfold new_array. destruct (zget_some (repeat a (Z.to_nat n)) i) as (v & E).
  - unfold zlen. rewrite repeat_length. lia.
  - rewrite E. f_equal. apply zget_in in E. apply repeat_spec in E. exact E.
Qed.

(** ** Examples: a periodic 8 x 4 x 4 box with two levels. *)
Definition mg_dom : domain R :=
  {| nx := 8; ny := 4; nz := 4; xbeg := 0; xend := 8; ybeg := 0; yend := 4; zbeg := 0; zend := 4;
     xbc := Periodic; ybc := Periodic; zbc := Periodic; nhalo := 2 |}%R.
Definition mg_opts : mg_options R :=
  {| q_levels := 2; q_nsmooth := 1; q_max_cycles := 3; q_tol := 1 / 10; q_cfl := 1 / 20; q_relax := 1; q_coarse_relax := 1;
     q_interp := MGLinear; q_steady := false |}%R.
Definition mg_par : ch_params R := {| ch_m := 1 / 4; ch_sigma := 3; ch_eps2 := 1 / 100 |}%R.

Lemma mg_dom_valid : valid_domain3 mg_dom.
Proof. repeat split; cbn; lia. Qed.
Lemma mg_dom_thick : thick_at (q_levels mg_opts - 1) mg_dom.
Proof. repeat split; cbn; lia. Qed.

Lemma mg_example_new : exists d sc g b, make3 mg_dom = Ok d /\ make_ch3 d 1 = Ok sc /\
  bdf_new mg_opts d 1 mg_par sc (fun i _ => i) (fun _ => 0%R) (fun x _ => x) (new_state3 d) (new_state3 d) = Ok (g, b) /\
  length (b_levels b) = 2%nat /\ shaped 1 (cells3 mg_dom) (new_state3 d) /\ b_levels b <> [].
Proof.
  destruct (make3_ok mg_dom mg_dom_valid) as (d & EM & W & ED & _).
  assert (exists sc, make_ch3 d 1 = Ok sc) as (sc & ES) by (eexists; reflexivity).
  destruct (pf_C51_constructor R _ mg_opts mg_dom d 1 mg_par sc (fun i _ => i) (fun _ => 0%R) (fun x _ => x)
    (new_state3 d) (new_state3 d) mg_dom_valid EM ES) as ((g & b & E & L & _) & _).
  - cbn. lia.
  - cbn. repeat split; lia.
  - exists d, sc, g, b. split; auto. split; auto. split; auto. cbn in L. split; [lia|]. split.
    + apply one_array. exists (create_real_array3 d). split; auto. unfold create_real_array3.
      rewrite zlen_new_array; rewrite (wf_ni _ W), (wf_nj _ W), (wf_nk _ W), (wf_nh _ W), ED.
      * reflexivity.
      * cbn. lia.
    + intros X. rewrite X in L. discriminate.
Qed.

Lemma mg_example_built : exists d sc g b, make3 mg_dom = Ok d /\ make_ch3 d 1 = Ok sc /\
  bdf_new mg_opts d 1 mg_par sc (fun i _ => i) (fun _ => 0%R) (fun x _ => x) (new_state3 d) (new_state3 d) = Ok (g, b) /\
  length (b_levels b) = 2%nat.
Proof. destruct mg_example_new as (d & sc & g & b & A & B & C & D & _). eauto 8. Qed.

(** The same solver with its state overwritten by a constant. *)
Definition const3 (d : disc3 R) (a : R) : state R := [new_array a (storage3D (d3_ni d) (d3_nj d) (d3_nk d) (d3_nhalo d))].
Lemma mg_example_const : forall a, exists d sc g b0 b, make3 mg_dom = Ok d /\ make_ch3 d 1 = Ok sc /\
  shaped 1 (cells3 mg_dom) (new_state3 d) /\
  bdf_new mg_opts d 1 mg_par sc (fun i _ => i) (fun _ => 0%R) (fun x _ => x) (new_state3 d) (new_state3 d) = Ok (g, b0) /\
  reached g b0 b /\ solution b = const3 d a /\
  forall x, state_inside3 mg_dom (const3 d x) (fun _ _ _ => x).
Proof.
  intros a. destruct mg_example_new as (d & sc & g & b & A & B & C & D & E & F).
  destruct (make3_inv mg_dom d mg_dom_valid A) as (W & ED).
  destruct (pf_C51_constructor R _ mg_opts mg_dom d 1 mg_par sc (fun i _ => i) (fun _ => 0%R) (fun x _ => x)
    (new_state3 d) (new_state3 d) mg_dom_valid A B) as ((g' & b' & E' & L' & SB) & _); [cbn; lia|cbn; repeat split; lia|].
  rewrite C in E'. injection E' as <- <-.
  assert (ST : 0 <= storage3D (d3_ni d) (d3_nj d) (d3_nk d) (d3_nhalo d) /\
     storage3D (d3_ni d) (d3_nj d) (d3_nk d) (d3_nhalo d) = cells3 mg_dom).
  { rewrite (wf_ni _ W), (wf_nj _ W), (wf_nk _ W), (wf_nh _ W), ED. cbn. lia. }
  destruct ST as (ST & SE).
  destruct (b_levels b) as [|v vs] eqn:EL; [contradiction|].
  assert (SU : v_u v = new_state3 d) by (unfold solution in SB; rewrite EL in SB; exact SB).
  eexists d, sc, g, b, _. split; auto. split; auto. split; auto. split; auto. split; [|split].
  - eapply (reached_set g b b v vs (const3 d a) (v_du v)); [constructor|exact EL| |reflexivity].
    rewrite SU. unfold const3, new_state3, create_real_array3. cbn [map]. rewrite !zlen_new_array by exact ST. reflexivity.
  - reflexivity.
  - intros x. unfold const3. eexists. split; [reflexivity|]. split; [rewrite zlen_new_array; auto|].
    intros i j k I. apply zget_const. rewrite SE.
    apply slot3_range, inside_padded3; [cbn; lia|exact I].
Qed.

Lemma mg_example_instance :
  forall (V : Type) (N : Num V) (q : mg_options V) (dom : domain V) (d : disc3 V) (variant : Z) (p : ch_params V)
    (sc : scratch V) rmax rsum pw (u du : state V) (g : mg_config V (scratch V)) (b0 : mg_world V (scratch V)),
  valid_domain3 dom -> 2 <= nhalo dom -> thick_at (q_levels q - 1) dom ->
  make3 dom = Ok d -> make_ch3 d variant = Ok sc -> 1 <= q_nsmooth q -> q_interp q <> MGOther ->
  shaped 1 (cells3 dom) u -> shaped 1 (cells3 dom) du ->
  bdf_new q d variant p sc rmax rsum pw u du = Ok (g, b0) ->
  exists (ok : nat -> scratch V -> Prop) (size : nat -> Z) (P Q : nat -> Z -> Prop) (ext : nat -> field V -> field V)
    (f : nat -> V -> field V -> field V) (rest prol : nat -> field V -> field V),
  (forall k u, same_on 1 (size k) (P k) (ext k u) u) /\ (forall k i, P k i -> Q k i) /\
  (forall k, Z.of_nat k < q_levels q -> computes_ext (g_eval g k) (ok k) 1 (size k) (P k) (Q k) (ext k) (f k)) /\
  (forall k, Z.of_nat (1 + k) < q_levels q ->
     transfers (g_restrict g (1 + k)) 1 (size k) (P k) (size (1 + k)%nat) (P (1 + k)%nat) (rest (1 + k)%nat) /\
     transfers (g_prolong g (1 + k)) 1 (size (1 + k)%nat) (Q (1 + k)%nat) (size k) (P k) (prol (1 + k)%nat)) /\
  get_mg_cycle (q_levels q) (q_nsmooth q) = Ok (g_cycle g) /\ 1 <= q_levels q <= 6 /\
  (forall i, In i (g_interior g) -> 0 <= i < size 0%nat) /\
  (forall b, reached g b0 b -> Z.of_nat (length (b_levels b)) = q_levels q /\
     (forall k v, nth_error (b_levels b) k = Some v -> level_fits (ok k) 1 size k v) /\ shaped 1 (size 0%nat) (b_res0 b)) /\
  (forall z, P 0%nat z <-> exists i j k, inside3 dom i j k /\ z = slot3 dom i j k).
Proof.
  intros V N q dom d variant p sc rmax rsum pw u du g b0 HV HN TH HM SC NS INT SU SD NEW.
  destruct (make3_inv dom d HV HM) as (W & <-).
  destruct (new_range q d variant p sc rmax rsum pw u du g b0 NEW) as (R1 & R2).
  exists (gok q d), (gsize q d), (gP q d), (gQ q d), (gext q d), (gf q d variant p), (grest q d), (gprol q d).
  split; [exact (gPQ q d variant p sc rmax rsum pw u du g b0 W HN TH NEW)|].
  split; [exact (gPQ' q d variant p sc rmax rsum pw u du g b0 W HN TH NEW)|].
  split; [intros k Hk; apply (gCE q d variant p sc rmax rsum pw u du g b0 W HN SC TH NEW); unfold gn; lia|].
  split. { intros k Hk. split; [apply (gCR q d variant p sc rmax rsum pw u du g b0 W HN TH NEW)|
    apply (gCP q d variant p sc rmax rsum pw u du g b0 W HN INT TH NEW)]; unfold gn; lia. }
  split; [destruct (new_inv q d variant p sc rmax rsum pw u du g b0 NEW) as (ds & vs & E & _); exact E|].
  split; [exact R1|]. split; [exact (gIN q d variant p sc rmax rsum pw u du g b0 W HN TH NEW)|].
  split.
  - intros b RE. destruct (reached_ok q d variant p sc rmax rsum pw u du g b0 W HN SC INT SU SD TH NEW NS b RE) as ((L & H) & SR).
    split; [rewrite L; unfold gn; lia|]. split; [exact H|exact SR].
  - intros z. rewrite (gP0 q d variant p sc rmax rsum pw u du g b0 W HN TH NEW). reflexivity.
Qed.

Lemma uniform_CH3 h m s e2 (x : R) dom i j k : h <> 0%R ->
  CH3 h m s e2 (extend3 dom (fun _ _ _ => x)) i j k = (- s * (x - m))%R.
Proof.
  intros H. assert (E : forall a b c, extend3 dom (fun _ _ _ => x) a b c = x) by (intros; reflexivity).
  unfold CH3, Lap3, dxx3, dyy3, dzz3. rewrite !E. field. exact H.
Qed.

Lemma mg_example_dx d : make3 mg_dom = Ok d -> d3_dx d <> 0%R.
Proof.
  intros E. destruct (make3_inv mg_dom d mg_dom_valid E) as (W & ED). rewrite (wf_dx d W), ED. cbn. lra.
Qed.

Lemma mg_example_solution : exists d sc g b0 b, valid_domain3 mg_dom /\ 2 <= nhalo mg_dom /\
  thick_at (q_levels mg_opts - 1) mg_dom /\ make3 mg_dom = Ok d /\ make_ch3 d 1 = Ok sc /\
  shaped 1 (cells3 mg_dom) (new_state3 d) /\
  bdf_new mg_opts d 1 mg_par sc (fun i _ => i) (fun _ => 0%R) (fun x _ => x) (new_state3 d) (new_state3 d) = Ok (g, b0) /\
  reached g b0 b /\ state_inside3 mg_dom (solution b) (fun _ _ _ => 1 / 2)%R /\
  state_inside3 mg_dom (const3 d (1 / 2 + 2 * (3 / 4))) (fun _ _ _ => 1 / 2 + 2 * (3 / 4))%R /\
  (forall i j k, CH3 (d3_dx d) (ch_m mg_par) (ch_sigma mg_par) (ch_eps2 mg_par) (extend3 mg_dom (fun _ _ _ => 1 / 2)%R) i j k =
     ((1 / 2) * (1 / 2 - (1 / 2 + 2 * (3 / 4))))%R).
Proof.
  destruct (mg_example_const (1 / 2)) as (d & sc & g & b0 & b & A & B & C & D & E & F & G).
  exists d, sc, g, b0, b. split; [exact mg_dom_valid|]. split; [cbn; lia|]. split; [exact mg_dom_thick|].
  split; [exact A|]. split; [exact B|]. split; [exact C|]. split; [exact D|]. split; [exact E|]. split; [rewrite F; apply G|].
  split; [apply G|]. intros i j k. rewrite uniform_CH3 by (apply mg_example_dx; exact A). cbn. lra.
Qed.

Lemma mg_example_steady : exists d sc g b0 b, valid_domain3 mg_dom /\ 2 <= nhalo mg_dom /\
  thick_at (q_levels mg_opts - 1) mg_dom /\ make3 mg_dom = Ok d /\ make_ch3 d 1 = Ok sc /\
  shaped 1 (cells3 mg_dom) (new_state3 d) /\
  bdf_new mg_opts d 1 mg_par sc (fun i _ => i) (fun _ => 0%R) (fun x _ => x) (new_state3 d) (new_state3 d) = Ok (g, b0) /\
  reached g b0 b /\ state_inside3 mg_dom (solution b) (fun _ _ _ => 1 / 4)%R /\
  (forall i j k, CH3 (d3_dx d) (ch_m mg_par) (ch_sigma mg_par) (ch_eps2 mg_par) (extend3 mg_dom (fun _ _ _ => 1 / 4)%R) i j k = 0%R).
Proof.
  destruct (mg_example_const (1 / 4)) as (d & sc & g & b0 & b & A & B & C & D & E & F & G).
  exists d, sc, g, b0, b. split; [exact mg_dom_valid|]. split; [cbn; lia|]. split; [exact mg_dom_thick|].
  split; [exact A|]. split; [exact B|]. split; [exact C|]. split; [exact D|]. split; [exact E|]. split; [rewrite F; apply G|].
  intros i j k. rewrite uniform_CH3 by (apply mg_example_dx; exact A). cbn. lra.
Qed.

(** An array holding any function of the cell indices. *)
Lemma mg_array (f : Z -> Z -> Z -> R) : exists s, state_inside3 mg_dom s f /\ map zlen s = [cells3 mg_dom].
Proof.
  exists [map (fun z => of3 mg_dom f 0%nat z) (zrange 0 (cells3 mg_dom))]. split.
  - eexists. split; [reflexivity|]. split; [unfold zlen; rewrite map_length; fold (zlen (zrange 0 (cells3 mg_dom))); rewrite zlen_zrange; reflexivity|].
    intros i j k I. rewrite zget_map. pose proof (slot3_range mg_dom i j k (inside_padded3 mg_dom i j k ltac:(cbn; lia) I)) as SR.
    rewrite zget_zrange by lia. cbn [option_map Z.add]. rewrite of3_slot by (apply inside_padded3; [cbn; lia|exact I]). reflexivity.
  - cbn [map]. apply (f_equal (fun x => [x])). unfold zlen. rewrite map_length. fold (zlen (zrange 0 (cells3 mg_dom))). rewrite zlen_zrange; reflexivity.
Qed.

Lemma mg_example_field (f : Z -> Z -> Z -> R) : exists d sc g b0 b, make3 mg_dom = Ok d /\ make_ch3 d 1 = Ok sc /\
  shaped 1 (cells3 mg_dom) (new_state3 d) /\
  bdf_new mg_opts d 1 mg_par sc (fun i _ => i) (fun _ => 0%R) (fun x _ => x) (new_state3 d) (new_state3 d) = Ok (g, b0) /\
  reached g b0 b /\ state_inside3 mg_dom (solution b) f /\ length (b_levels b) = 2%nat.
Proof.
  destruct mg_example_new as (d & sc & g & b & A & B & C & D & E & F).
  destruct (pf_C51_constructor R _ mg_opts mg_dom d 1 mg_par sc (fun i _ => i) (fun _ => 0%R) (fun x _ => x)
    (new_state3 d) (new_state3 d) mg_dom_valid A B) as ((g' & b' & E' & L' & SB) & _); [cbn; lia|cbn; repeat split; lia|].
  rewrite C in E'. injection E' as <- <-.
  destruct (b_levels b) as [|v vs] eqn:EL; [contradiction|].
  assert (SU : v_u v = new_state3 d) by (unfold solution in SB; rewrite EL in SB; exact SB).
  destruct (mg_array f) as (s & HS & LS).
  destruct (proj1 (one_array _ _) E) as (c & EC & LC).
  eexists d, sc, g, b, _. split; [exact A|]. split; [exact B|]. split; [exact E|]. split; [exact C|]. split; [|split].
  - eapply (reached_set g b b v vs s (v_du v)); [constructor|exact EL| |reflexivity].
    rewrite SU, LS, EC. cbn [map]. rewrite LC. reflexivity.
  - exact HS.
  - exact D.
Qed.

Lemma mg_example_coarse : exists d sc g b0 b v s, valid_domain3 mg_dom /\ 2 <= nhalo mg_dom /\
  thick_at (q_levels mg_opts - 1) mg_dom /\ make3 mg_dom = Ok d /\ make_ch3 d 1 = Ok sc /\
  shaped 1 (cells3 mg_dom) (new_state3 d) /\
  bdf_new mg_opts d 1 mg_par sc (fun i _ => i) (fun _ => 0%R) (fun x _ => x) (new_state3 d) (new_state3 d) = Ok (g, b0) /\
  reached g b0 b /\ nth_error (b_levels b) 1 = Some v /\
  state_inside3 (coarse_dom mg_dom (Z.of_nat 1 - 1)) s (fun i j k => IZR (i * i + j - k)).
Proof.
  destruct (mg_example_field (fun i j k => IZR (i * i + j - k))) as (d & sc & g & b0 & b & A & B & C & D & E & F & L).
  destruct (nth_error (b_levels b) 1) as [v|] eqn:EV; [|apply nth_error_None in EV; lia].
  exists d, sc, g, b0, b, v, (solution b). split; [exact mg_dom_valid|]. split; [cbn; lia|]. split; [exact mg_dom_thick|].
  split; [exact A|]. split; [exact B|]. split; [exact C|]. split; [exact D|]. split; [exact E|]. split; [exact EV|exact F].
Qed.

Lemma mg_example_mean : exists d sc g b0 b, valid_domain3 mg_dom /\ 2 <= nhalo mg_dom /\
  thick_at (q_levels mg_opts - 1) mg_dom /\ (xbc mg_dom <> Neumann /\ ybc mg_dom <> Neumann /\ zbc mg_dom <> Neumann) /\
  make3 mg_dom = Ok d /\ make_ch3 d 1 = Ok sc /\
  shaped 1 (cells3 mg_dom) (new_state3 d) /\
  bdf_new mg_opts d 1 mg_par sc (fun i _ => i) (fun _ => 0%R) (fun x _ => x) (new_state3 d) (new_state3 d) = Ok (g, b0) /\
  reached g b0 b /\ state_inside3 mg_dom (solution b) (fun i j k => 1 / 4 + IZR (2 * i - 7))%R /\
  mean3 mg_dom (fun i j k => 1 / 4 + IZR (2 * i - 7))%R = ch_m mg_par.
Proof.
  destruct (mg_example_field (fun i j k => 1 / 4 + IZR (2 * i - 7))%R) as (d & sc & g & b0 & b & A & B & C & D & E & F & L).
  exists d, sc, g, b0, b. split; [exact mg_dom_valid|]. split; [cbn; lia|]. split; [exact mg_dom_thick|].
  split; [cbn; repeat split; discriminate|].
  split; [exact A|]. split; [exact B|]. split; [exact C|]. split; [exact D|]. split; [exact E|]. split; [exact F|].
  unfold mean3, total3, sum3, sum2, sum1, Rsum. cbn [mg_dom nx ny nz mg_par ch_m].
  change (zrange 0 8) with [0; 1; 2; 3; 4; 5; 6; 7]. change (zrange 0 4) with [0; 1; 2; 3]. cbn [map fold_right].
  rewrite !minus_IZR, !mult_IZR.
  lra.
Qed.

Lemma mg_example_step : exists d sc g b0 b', make3 mg_dom = Ok d /\ make_ch3 d 1 = Ok sc /\
  bdf_new mg_opts d 1 mg_par sc (fun i _ => i) (fun _ => 0%R) (fun x _ => x) (new_state3 d) (new_state3 d) = Ok (g, b0) /\
  bdf_step g b0 0%R 1%R = Ok b'.
Proof.
  destruct mg_example_new as (d & sc & g & b & A & B & C & D & E & F).
  destruct (make3_inv mg_dom d mg_dom_valid A) as (W & ED).
  assert (HN : 2 <= nhalo (d3_domain d)) by (rewrite ED; cbn; lia).
  assert (TH : thick_at (q_levels mg_opts - 1) (d3_domain d)) by (rewrite ED; exact mg_dom_thick).
  assert (NS : 1 <= q_nsmooth mg_opts) by (cbn; lia).
  assert (INT : q_interp mg_opts <> MGOther) by discriminate.
  assert (E' : shaped 1 (cells3 (d3_domain d)) (new_state3 d)) by (rewrite ED; exact E).
  pose proof (reached_ok mg_opts d 1 mg_par sc _ _ _ _ _ g b W HN B INT E' E' TH C NS b (reached_start g b)) as WK.
  destruct (shaped_exists mg_opts d 1 mg_par sc _ _ _ _ _ g b W HN TH C b WK) as (u & HU).
  destruct (ch_step mg_opts d 1 mg_par sc _ _ _ _ _ g b W HN B INT E' E' TH C NS b 0%R 1%R u WK HU) as (b' & _ & _ & EB & _).
  exists d, sc, g, b, b'. auto.
Qed.

(** The smallest multigrid solver: one cell, one level, u' = 0. *)
Definition mg_tiny : mg_config f64 unit :=
  {| g_eval := fun _ sc s _ r => Ok (sc, s, [[S754_zero false]]);
     g_restrict := fun _ _ _ => Throw; g_prolong := fun _ _ _ => Throw;
     g_cfl := fun _ => f64_int 1; g_steady := true; g_relax := f64_int 1; g_coarse_relax := f64_int 1;
     g_cycle := [0; 0]; g_max_cycles := 2; g_tol := f64_int 1; g_interior := [0];
     g_reduce_max := fun i _ => i; g_reduce_sum := fun l => fold_left f64_add l (S754_zero false); g_pow := fun x _ => x |}.
Definition mg_tiny_level : level f64 unit :=
  let a := [[f64_int 2]] in
  {| v_sc := tt; v_u := a; v_du := a;
     v_sm := {| m_k1 := a; m_k2 := a; m_k3 := a; m_k4 := a; m_stage := a; m_dt := f64_int 1; m_err := f64_int 1 |};
     v_c := None |}.
Lemma mg_tiny_ex :
  let g := mg_tiny in let v := mg_tiny_level in
  level_eval (N:=Num_f64) g (f64_int 1) [[f64_int 2]] 0 (v_c v) (v_sc v) (v_u v) (f64_int 0) (v_du v) =
    Ok (tt, [[f64_int 2]], [[S754_zero false]]) /\
  rms_of (N:=Num_f64) g [S754_zero false] (S754_zero false) /\ g_tol g <> S754_infinity false /\
  exists vs' rate, time_step_cycle (N:=Num_f64) g (f64_int 0) (f64_int 1) [[f64_int 2]] [v] = Ok (vs', 0, rate).
Proof.
  split; [reflexivity|]. split; [exists [S754_zero false]; split; [repeat constructor|reflexivity]|].
  split; [discriminate|]. do 2 eexists. vm_compute. reflexivity.
Qed.

Lemma implicit_at dom steady (f : R -> field R -> field R) dt w t u i j k :
  at3 dom (implicit_rhs steady f dt w t u) i j k =
  if steady then at3 dom (f t u) i j k else (at3 dom (f t u) i j k - (1 / dt) * (at3 dom u i j k - at3 dom w i j k))%R.
Proof. destruct steady; reflexivity. Qed.

(** ** Statements about reached worlds *)
Lemma holds_state3 {V} `{N : Num V} dom (s : state V) (u : Z -> Z -> Z -> V) : 0 <= nhalo dom ->
  state_inside3 dom s u <-> state_holds 1 (cells3 dom) (P3 dom) s (of3 dom u).
Proof.
  intros NH.
  assert (A : forall c, holds_inside3 dom c (at3 dom (of3 dom u)) <-> holds_inside3 dom c u).
  { intros c. split; intros (L & H); split; auto; intros i j k I; specialize (H i j k I).
    - unfold at3 in H. rewrite of3_slot in H by (apply inside_padded3; auto). exact H.
    - unfold at3. rewrite of3_slot by (apply inside_padded3; auto). exact H. }
  split.
  - intros (c & -> & H). apply state3; auto. apply A. exact H.
  - intros H. destruct (proj1 (one_array _ _) (proj1 H)) as (c & -> & _). exists c. split; auto. apply A.
    apply state3; auto.
Qed.

Lemma holds_state3_at {V} `{N : Num V} dom (s : state V) (u : field V) : 0 <= nhalo dom ->
  state_holds 1 (cells3 dom) (P3 dom) s u -> state_inside3 dom s (at3 dom u).
Proof.
  intros NH H. destruct (proj1 (one_array _ _) (proj1 H)) as (c & -> & _). exists c. split; auto. apply state3; auto.
Qed.

Lemma state_inside3_ext {V} `{N : Num V} dom (s : state V) (u w : Z -> Z -> Z -> V) :
  state_inside3 dom s u -> (forall i j k, inside3 dom i j k -> u i j k = w i j k) -> state_inside3 dom s w.
Proof.
  intros (c & -> & L & H) E. exists c. split; auto. split; auto. intros i j k I. rewrite <- E by auto. auto.
Qed.

Lemma state_inside3_fun {V} `{N : Num V} dom (s : state V) (u w : Z -> Z -> Z -> V) :
  state_inside3 dom s u -> state_inside3 dom s w -> forall i j k, inside3 dom i j k -> u i j k = w i j k.
Proof.
  intros (c & -> & L & H) (c' & E & L' & H') i j k I. injection E as <-. specialize (H i j k I). specialize (H' i j k I). congruence.
Qed.

Lemma pf_C52_step_is_vcycles :
  forall (V : Type) (N : Num V) (S : Type) (g : mg_config V S) (ok : nat -> S -> Prop) (nv : nat) (size : nat -> Z)
    (P Q : nat -> Z -> Prop) (ext : nat -> field V -> field V) (f : nat -> V -> field V -> field V)
    (rest prol : nat -> field V -> field V) (nlevels nsmooth : Z) (b : mg_world V S) (w : field V) (time dt : V),
  (* the objects of every level implement these functions *)
  (forall k u, same_on nv (size k) (P k) (ext k u) u) -> (forall k i, P k i -> Q k i) ->
  (forall k, Z.of_nat k < nlevels -> computes_ext (g_eval g k) (ok k) nv (size k) (P k) (Q k) (ext k) (f k)) ->
  (forall k, Z.of_nat (1 + k) < nlevels ->
     transfers (g_restrict g (1 + k)) nv (size k) (P k) (size (1 + k)%nat) (P (1 + k)%nat) (rest (1 + k)%nat) /\
     transfers (g_prolong g (1 + k)) nv (size (1 + k)%nat) (Q (1 + k)%nat) (size k) (P k) (prol (1 + k)%nat)) ->
  get_mg_cycle nlevels nsmooth = Ok (g_cycle g) -> 1 <= nsmooth -> 1 <= nlevels <= 6 ->
  (forall i, In i (g_interior g) -> 0 <= i < size 0%nat) -> (0 < nv)%nat ->
  (* the levels' arrays have the sizes their constructors give them *)
  Z.of_nat (length (b_levels b)) = nlevels ->
  (forall k v, nth_error (b_levels b) k = Some v -> level_fits (ok k) nv size k v) -> shaped nv (size 0%nat) (b_res0 b) ->
  state_holds nv (size 0%nat) (P 0%nat) (solution b) w ->
  exists b' k dt0 dts, bdf_step g b time dt = Ok b' /\ (k <= Z.to_nat (g_max_cycles g))%nat /\
    (b_ncycles b' = 0 /\ k = Z.to_nat (g_max_cycles g) \/ b_ncycles b' = Z.of_nat k /\ (0 < k)%nat) /\
    state_holds nv (size 0%nat) (P 0%nat) (solution b')
      (vcycles k (Z.to_nat nsmooth) time (implicit_rhs (g_steady g) (f 0%nat) dt w) (ext 0%nat) dt0 (g_cfl g 0) (g_relax g)
         (g_coarse_relax g)
         (map (fun k => {| l_f := f k; l_ext := ext k; l_rest := rest k; l_prol := prol k; l_cfl := g_cfl g k; l_dt := dts k |})
            (seq 1 (Z.to_nat (nlevels - 1)))) w).
Proof.
  intros V N S g ok nv size P Q ext f rest prol nl nsm b w time dt PQ PQ' CE TR CY NS NL IN NV LB LF SR HW.
  rewrite get_mg_cycle_cyc in CY by lia. injection CY as CY.
  assert (LO : levels_ok ok nv size (Z.to_nat (nl - 1)) (b_levels b)).
  { split; [lia|]. intros k v Hv. exact (LF k v Hv). }
  destruct (level0 _ _ _ _ _ LO) as (v & E0 & _).
  assert (SV : solution b = v_u v) by (unfold solution; destruct (b_levels b); [discriminate|]; injection E0 as ->; reflexivity).
  rewrite SV in HW.
  destruct (bdf_step_spec g ok nv size P Q ext f rest prol (Z.to_nat (nl - 1)) (Z.to_nat nsm - 1) PQ PQ') with (b := b) (v := v) (time := time) (dt := dt) (w := w)
    as (b' & k & v' & E & A1 & A2 & A3 & A4 & A5 & A6); auto.
  - intros k Hk. apply CE. lia.
  - intros k Hk. apply TR. lia.
  - intros k Hk. apply TR. lia.
  - rewrite <- CY. f_equal. lia.
  - exists b', k, (m_dt (v_sm v)), (dt_of g (b_levels b)). split; [exact E|]. split; [exact A4|]. split; [exact A5|].
    assert (SV' : solution b' = v_u v') by (unfold solution; destruct (b_levels b'); [discriminate|]; injection A3 as ->; reflexivity).
    rewrite SV'. replace (Datatypes.S (Z.to_nat nsm - 1)) with (Z.to_nat nsm) in A6 by lia. exact A6.
Qed.

(** ** Fixed points *)
Lemma ch_f3_R dom variant p h t u i j k : valid_domain3 dom -> inside3 dom i j k ->
  at3 dom (ch_f3 dom variant p h t u) i j k = CH3 h (ch_m p) (ch_sigma p) (ch_eps2 p) (extend3 dom (at3 dom u)) i j k.
Proof.
  intros HV I. unfold at3 at 1, ch_f3. rewrite of3_slot by (apply inside_padded3; auto; apply HV). apply ch_expr3_R.
Qed.

Section Fix.
  Local Open Scope R_scope.
  Lemma implicit_respects dom steady variant p h dt wo : valid_domain3 dom -> forall t (u w : field R),
    same_on 1 (cells3 dom) (P3 dom) u w ->
    same_on 1 (cells3 dom) (P3 dom) (implicit_rhs steady (ch_f3 dom variant p h) dt wo t u)
      (implicit_rhs steady (ch_f3 dom variant p h) dt wo t w).
  Proof.
    intros HV t u w H. unfold implicit_rhs. destruct steady; intros e i He Hi HP.
    - apply ch_f3_ext; auto.
    - rewrite (ch_f3_ext dom variant p h t u w HV H), (H e i) by auto. reflexivity.
  Qed.
End Fix.

Lemma pf_C52_cycles_keep_solution :
  forall (q : mg_options R) (dom : domain R) (d : disc3 R) (variant : Z) (p : ch_params R) (sc : scratch R)
    rmax rsum pw (u du : state R) (g : mg_config R (scratch R)) (b0 b : mg_world R (scratch R))
    (old : state R) (w wo : Z -> Z -> Z -> R) (time dt : R),
  valid_domain3 dom -> 2 <= nhalo dom -> thick_at (q_levels q - 1) dom ->
  make3 dom = Ok d -> make_ch3 d variant = Ok sc -> 1 <= q_nsmooth q -> q_interp q <> MGOther ->
  shaped 1 (cells3 dom) u -> shaped 1 (cells3 dom) du ->
  bdf_new q d variant p sc rmax rsum pw u du = Ok (g, b0) -> reached g b0 b ->
  state_inside3 dom (solution b) w -> state_inside3 dom old wo ->
  (forall i j k, inside3 dom i j k ->
     CH3 (d3_dx d) (ch_m p) (ch_sigma p) (ch_eps2 p) (extend3 dom w) i j k =
     if q_steady q then 0%R else ((1 / dt) * (w i j k - wo i j k))%R) ->
  exists vs' ncycles rate, time_step_cycle g time dt old (b_levels b) = Ok (vs', ncycles, rate) /\
    state_inside3 dom (solution_of vs') w.
Proof.
  intros q dom d variant p sc rmax rsum pw u du g b0 b old w wo time dt HV HN TH HM SC NS INT SU SD NEW RE HW HO EQ.
  destruct (make3_inv dom d HV HM) as (W & <-). assert (NH : 0 <= nhalo (d3_domain d)) by lia.
  pose proof (reached_ok q d variant p sc rmax rsum pw u du g b0 W HN SC INT SU SD TH NEW NS b RE) as (LO & _).
  apply holds_state3 in HW, HO; auto.
  destruct (ch_cycle q d variant p sc rmax rsum pw u du g b0 W HN SC INT SU SD TH NEW NS time dt old _ _ _ HO LO HW)
    as (vs' & nc & rate & k & dt0 & E & _ & _ & _ & HS).
  exists vs', nc, rate. split; [exact E|]. apply holds_state3; auto.
  pose proof (gsize0 q d variant p sc rmax rsum pw u du g b0 W HN TH NEW) as GS.
  pose proof (gP0 q d variant p sc rmax rsum pw u du g b0 W HN TH NEW) as GP.
  pose proof (gext0 q d variant p sc rmax rsum pw u du g b0 W HN TH NEW) as GE.
  eapply holds_same; [exact HS|]. rewrite <- GE, <- GS, <- GP.
  apply (ch_fixed q d variant p sc rmax rsum pw u du g b0 W HN TH NEW); rewrite ?GS, ?GP.
  - intros t x y H. rewrite GS, GP in *. apply implicit_respects; auto.
  - intros s. apply same3; auto. intros i j l I.
    unfold implicit_rhs. destruct (q_steady q).
    + rewrite ch_f3_R by auto. rewrite <- (EQ i j l I).
      apply CH3_ext. intros. apply extend3_inside_ext; auto. intros a b' c I'. unfold at3. rewrite of3_slot by (apply inside_padded3; auto). reflexivity.
    + unfold at3. change (ch_f3 (d3_domain d) variant p (d3_dx d) s (of3 (d3_domain d) w) 0%nat (slot3 (d3_domain d) i j l))
        with (at3 (d3_domain d) (ch_f3 (d3_domain d) variant p (d3_dx d) s (of3 (d3_domain d) w)) i j l).
      rewrite ch_f3_R by auto. rewrite !of3_slot by (apply inside_padded3; auto). num.
      rewrite <- (EQ i j l I).
      match goal with |- (?x - ?y)%R = _ => replace y with x; [lra|] end.
      apply CH3_ext. intros. apply extend3_inside_ext; auto. intros a b' c I'. unfold at3. rewrite of3_slot by (apply inside_padded3; auto). reflexivity.
Qed.

Lemma pf_C52_step_keeps_steady_state :
  forall (q : mg_options R) (dom : domain R) (d : disc3 R) (variant : Z) (p : ch_params R) (sc : scratch R)
    rmax rsum pw (u du : state R) (g : mg_config R (scratch R)) (b0 b : mg_world R (scratch R))
    (w : Z -> Z -> Z -> R) (time dt : R),
  valid_domain3 dom -> 2 <= nhalo dom -> thick_at (q_levels q - 1) dom ->
  make3 dom = Ok d -> make_ch3 d variant = Ok sc -> 1 <= q_nsmooth q -> q_interp q <> MGOther ->
  shaped 1 (cells3 dom) u -> shaped 1 (cells3 dom) du ->
  bdf_new q d variant p sc rmax rsum pw u du = Ok (g, b0) -> reached g b0 b ->
  state_inside3 dom (solution b) w ->
  (forall i j k, inside3 dom i j k ->
     CH3 (d3_dx d) (ch_m p) (ch_sigma p) (ch_eps2 p) (extend3 dom w) i j k = 0%R) ->
  exists b', bdf_step g b time dt = Ok b' /\ state_inside3 dom (solution b') w.
Proof.
  intros q dom d variant p sc rmax rsum pw u du g b0 b w time dt HV HN TH HM SC NS INT SU SD NEW RE HW EQ.
  destruct (make3_inv dom d HV HM) as (W & <-). assert (NH : 0 <= nhalo (d3_domain d)) by lia.
  pose proof (reached_ok q d variant p sc rmax rsum pw u du g b0 W HN SC INT SU SD TH NEW NS b RE) as WK.
  apply holds_state3 in HW; auto.
  destruct (ch_step q d variant p sc rmax rsum pw u du g b0 W HN SC INT SU SD TH NEW NS b time dt _ WK HW)
    as (b' & k & dt0 & E & _ & _ & _ & HS).
  exists b'. split; [exact E|]. apply holds_state3; auto.
  pose proof (gsize0 q d variant p sc rmax rsum pw u du g b0 W HN TH NEW) as GS.
  pose proof (gP0 q d variant p sc rmax rsum pw u du g b0 W HN TH NEW) as GP.
  pose proof (gext0 q d variant p sc rmax rsum pw u du g b0 W HN TH NEW) as GE.
  eapply holds_same; [exact HS|]. rewrite <- GE, <- GS, <- GP.
  apply (ch_fixed q d variant p sc rmax rsum pw u du g b0 W HN TH NEW); rewrite ?GS, ?GP.
  - intros t x y H. rewrite GS, GP in *. apply implicit_respects; auto.
  - intros s. apply same3; auto. intros i j l I.
    rewrite implicit_at. rewrite ch_f3_R by auto.
    replace (CH3 _ _ _ _ (extend3 (d3_domain d) (at3 (d3_domain d) (of3 (d3_domain d) w))) i j l) with 0%R.
    + destruct (q_steady q); unfold at3; [reflexivity|ring].
    + rewrite <- (EQ i j l I).
      apply CH3_ext. intros. apply extend3_inside_ext; auto. intros a b'' c I'. unfold at3. rewrite of3_slot by (apply inside_padded3; auto). reflexivity.
Qed.

Lemma pf_C52_step_3d :
  forall (q : mg_options R) (dom : domain R) (d : disc3 R) (variant : Z) (p : ch_params R) (sc : scratch R)
    rmax rsum pw (u du : state R) (g : mg_config R (scratch R)) (b0 b : mg_world R (scratch R))
    (w : Z -> Z -> Z -> R) (time dt : R),
  valid_domain3 dom -> 2 <= nhalo dom -> thick_at (q_levels q - 1) dom ->
  make3 dom = Ok d -> make_ch3 d variant = Ok sc -> 1 <= q_nsmooth q -> q_interp q <> MGOther ->
  shaped 1 (cells3 dom) u -> shaped 1 (cells3 dom) du ->
  bdf_new q d variant p sc rmax rsum pw u du = Ok (g, b0) -> reached g b0 b ->
  state_inside3 dom (solution b) w ->
  exists (b' : mg_world R (scratch R)) (n : nat) (first : Z -> R) (prol : (Z -> Z -> Z -> R) -> Z -> Z -> Z -> R),
    let L := ch_level3 prol (ch_m p) (ch_sigma p) (ch_eps2 p) (q_cfl q) first dom in
    bdf_step g b time dt = Ok b' /\ (n <= Z.to_nat (q_max_cycles q))%nat /\
    state_inside3 dom (solution b') (cells_of dom
      (vcycles n (Z.to_nat (q_nsmooth q)) time
        (implicit_rhs (q_steady q) (l_f (L 0)) dt (table_of dom w)) (l_ext (L 0))
        (first 0) (smoothing_step (q_cfl q) dom 0) (q_relax q) (q_coarse_relax q)
        (map (fun l => L (Z.of_nat l)) (seq 1 (Z.to_nat (q_levels q - 1)))) (table_of dom w))) /\
    (forall l, 0 <= l < q_levels q -> first l = (1 / 1000000)%R \/ first l = smoothing_step (q_cfl q) dom l) /\
    (b = b0 -> forall l, 0 <= l < q_levels q -> first l = (1 / 1000000)%R) /\
    (forall b1 t1 dt1, reached g b0 b1 -> bdf_step g b1 t1 dt1 = Ok b -> 1 <= q_max_cycles q ->
       forall l, 0 <= l < q_levels q -> first l = smoothing_step (q_cfl q) dom l) /\
    (q_interp q = MGNearest -> forall v i j k, prol v i j k = v (i / 2) (j / 2) (k / 2)) /\
    (q_interp q = MGLinear -> forall v a c e,
       (forall i j k, v i j k = a + c * (2 * IZR j + 1) + e * (2 * IZR k + 1))%R ->
       forall i j k, (prol v i j k = a + c * (IZR j + 1 / 2) + e * (IZR k + 1 / 2))%R).
Proof.
  intros q dom d variant p sc rmax rsum pw u du g b0 b w time dt HV HN TH HM SC NS INT SU SD NEW RE HW.
  destruct (make3_inv dom d HV HM) as (W & <-). assert (NH : 0 <= nhalo (d3_domain d)) by lia.
  pose proof (reached_ok q d variant p sc rmax rsum pw u du g b0 W HN SC INT SU SD TH NEW NS b RE) as WK.
  apply holds_state3 in HW; auto.
  destruct (ch_step_first q d variant p sc rmax rsum pw u du g b0 W HN SC INT SU SD TH NEW NS b time dt _ WK HW)
    as (b' & n & E & _ & Hn & _ & HS & _).
  destruct (grids_facts q d variant p sc rmax rsum pw u du g b0 W HN TH NEW) as (LG & _ & GN & G0 & GW & _).
  destruct (grids_eq q d variant p sc rmax rsum pw u du g b0 NEW) as (EG & GE & _).
  destruct (new_range q d variant p sc rmax rsum pw u du g b0 NEW) as (QL & _).
  assert (GD : forall k, (k <= gn q)%nat -> gdom q d k = coarse_dom (d3_domain d) (Z.of_nat k)).
  { intros k Hk. unfold gdom. apply (grids_dom _ _ _ W EG). apply GN. exact Hk. }
  assert (GX : forall k, (k <= gn q)%nat -> d3_dx (grid q d k) = spacing_at (d3_domain d) (Z.of_nat k)).
  { intros k Hk. rewrite (wf_dx _ (GW k)). fold (gdom q d k). rewrite GD by exact Hk. reflexivity. }
  assert (GC : forall k, (k <= gn q)%nat -> g_cfl g k = smoothing_step (q_cfl q) (d3_domain d) (Z.of_nat k)).
  { intros k Hk. rewrite GE. cbn [g_cfl mg_ch3]. rewrite GN by exact Hk. unfold cfl_scale3. fold (gdom q d k).
    rewrite GD by exact Hk. unfold smoothing_step, spacing_at, coarse_dom. cbn [xend xbeg nx]. num. ring. }
  set (prol := match q_interp q with MGLinear => prolong_linear_expr3 | _ => fun v i j k => v (i / 2) (j / 2) (k / 2) end
     : (Z -> Z -> Z -> R) -> Z -> Z -> Z -> R).
  assert (GF : forall k, (k <= gn q)%nat -> gf q d variant p k =
     fun _ => onto3 (coarse_dom (d3_domain d) (Z.of_nat k)) (coarse_dom (d3_domain d) (Z.of_nat k))
       (fun v => CH3 (spacing_at (d3_domain d) (Z.of_nat k)) (ch_m p) (ch_sigma p) (ch_eps2 p) (extend3 (coarse_dom (d3_domain d) (Z.of_nat k)) v))).
  { intros k Hk. unfold gf, ch_f3. rewrite GX, GD by exact Hk.
    extensionality t. extensionality v. extensionality e. extensionality z. unfold onto3, of3, table_of.
    destruct (getIJK _ _ _ _) as [[i j] l]. apply ch_expr3_R. }
  assert (RF : forall x y z (v : Z -> Z -> Z -> R), restrict_expr3 v x y z = average8 v x y z).
  { intros x y z v. rewrite restrict_expr3_R. unfold average8, sum3, sum2, sum1, Rsum. change (zrange 0 2) with [0; 1].
    cbn [map fold_right]. rewrite !Z.add_0_r. field. }
  assert (GR : forall k, (1 <= k <= gn q)%nat -> grest q d k =
     onto3 (coarse_dom (d3_domain d) (Z.of_nat k - 1)) (coarse_dom (d3_domain d) (Z.of_nat k)) average8).
  { intros k Hk. unfold grest, rest3. rewrite !GD by lia. replace (Z.of_nat (k - 1)) with (Z.of_nat k - 1) by lia.
    extensionality v. extensionality e. extensionality z. unfold onto3, of3, table_of.
    destruct (getIJK _ _ _ _) as [[i j] l]. apply RF. }
  assert (GP : forall k, (1 <= k <= gn q)%nat -> gprol q d k =
     onto3 (coarse_dom (d3_domain d) (Z.of_nat k)) (coarse_dom (d3_domain d) (Z.of_nat k - 1)) prol).
  { intros k Hk. unfold gprol, prol3. rewrite !GD by lia. replace (Z.of_nat (k - 1)) with (Z.of_nat k - 1) by lia.
    unfold prol. destruct (q_interp q); reflexivity. }
  assert (GXT : forall k, (k <= gn q)%nat -> gext q d k =
     onto3 (coarse_dom (d3_domain d) (Z.of_nat k)) (coarse_dom (d3_domain d) (Z.of_nat k)) (extend3 (coarse_dom (d3_domain d) (Z.of_nat k)))).
  { intros k Hk. unfold gext. rewrite GD by exact Hk. reflexivity. }
  assert (LV : forall x, world_ok q d x -> forall l, 0 <= l < q_levels q -> exists v,
     nth_error (b_levels x) (Z.to_nat l) = Some v /\ dt_of g (b_levels x) (Z.to_nat l) = m_dt (v_sm v)).
  { intros x ((LB & _) & _) l Hl. destruct (nth_error (b_levels x) (Z.to_nat l)) as [v|] eqn:EV.
    - exists v. split; [reflexivity|]. unfold dt_of. rewrite EV. reflexivity.
    - apply nth_error_None in EV. unfold gn in LB. lia. }
  assert (NQ : forall l, 0 <= l < q_levels q -> (Z.to_nat l <= gn q)%nat) by (intros l Hl; unfold gn; lia).
  exists b', n, (fun l => dt_of g (b_levels b) (Z.to_nat l)), prol. cbv zeta.
  split; [exact E|]. split; [exact Hn|]. split.
  { apply holds_state3_at in HS; [|exact NH]. rewrite (GC 0%nat) in HS by lia.
    rewrite <- (gext0 q d variant p sc rmax rsum pw u du g b0 W HN TH NEW),
      <- (gf0 q d variant p sc rmax rsum pw u du g b0 W HN TH NEW) in HS.
    rewrite (GF 0%nat), (GXT 0%nat) in HS by lia.
    cbn [l_f l_ext ch_level3]. change (Z.of_nat 0) with 0 in HS. change (Z.to_nat 0) with 0%nat. unfold gn in HS.
    match type of HS with context [map ?F ?S] => match goal with |- context [map ?G S] =>
      replace (map G S) with (map F S); [exact HS|] end end.
    apply map_ext_in. intros k Hk. apply in_seq in Hk. fold (gn q) in Hk. unfold gl, ch_level3.
    rewrite GF, GR, GP, GXT, GC, Nat2Z.id by lia. reflexivity. }
  split.
  { intros l Hl. destruct (LV b WK l Hl) as (v & EV & ->). rewrite <- (Z2Nat.id l) by lia.
    rewrite <- GC by (apply NQ; exact Hl).
    exact (reached_firsts q d variant p sc rmax rsum pw u du g b0 W HN SC INT SU SD TH NEW NS b RE _ _ EV). }
  split.
  { intros -> l Hl. destruct (LV b0 WK l Hl) as (v & EV & ->).
    exact (start_firsts q d variant p sc rmax rsum pw u du g b0 NEW _ _ EV). }
  split.
  { intros b1 t1 dt1 R1 E1 MC l Hl. destruct (LV b WK l Hl) as (v & EV & ->). rewrite <- (Z2Nat.id l) by lia.
    rewrite <- GC by (apply NQ; exact Hl).
    pose proof (reached_ok q d variant p sc rmax rsum pw u du g b0 W HN SC INT SU SD TH NEW NS b1 R1) as WK1.
    destruct (shaped_exists q d variant p sc rmax rsum pw u du g b0 W HN TH NEW b1 WK1) as (x & HX).
    destruct (ch_step_first q d variant p sc rmax rsum pw u du g b0 W HN SC INT SU SD TH NEW NS b1 t1 dt1 _ WK1 HX)
      as (b2 & n2 & E2 & _ & _ & _ & _ & ST). rewrite E1 in E2. injection E2 as <-.
    destruct ST as [(_ & D)|(D & _)]; [exact (D _ _ EV)|lia]. }
  split.
  { intros EQ v i j k. unfold prol. rewrite EQ. reflexivity. }
  intros EQ v a c e LIN i j k. unfold prol. rewrite EQ. unfold prolong_linear_expr3.
  assert (PJ : IZR j = (2 * IZR ((j - 1) / 2) + 1 + IZR ((j - 1) mod 2))%R).
  { rewrite <- mult_IZR, <- plus_IZR, <- plus_IZR. f_equal. lia. }
  assert (PK : IZR k = (2 * IZR ((k - 1) / 2) + 1 + IZR ((k - 1) mod 2))%R).
  { rewrite <- mult_IZR, <- plus_IZR, <- plus_IZR. f_equal. lia. }
  rewrite PJ, PK. clear PJ PK. set (pi := (i - 1) / 2). set (pj := (j - 1) / 2). set (pk := (k - 1) / 2).
  pattern ((i - 1) mod 2), ((j - 1) mod 2), ((k - 1) mod 2).
  apply lin_parity; try (apply Z.mod_pos_bound; lia);
    cbn [lin_weights find lin_table fst snd Z.eqb andb lin8 nadd nmul nrat Num_R Pos.eqb];
    rewrite !LIN; rewrite ?plus_IZR; field.
Qed.

Lemma pf_C53_coarse_equation :
  forall (q : mg_options R) (dom : domain R) (d : disc3 R) (variant : Z) (p : ch_params R) (sc : scratch R)
    rmax rsum pw (u du : state R) (g : mg_config R (scratch R)) (b0 b : mg_world R (scratch R))
    (l : nat) (v : level R (scratch R)) (fine_state fine_res : state R) (w r : Z -> Z -> Z -> R) (time : R),
  valid_domain3 dom -> 2 <= nhalo dom -> thick_at (q_levels q - 1) dom ->
  make3 dom = Ok d -> make_ch3 d variant = Ok sc -> 1 <= q_nsmooth q -> q_interp q <> MGOther ->
  shaped 1 (cells3 dom) u -> shaped 1 (cells3 dom) du ->
  bdf_new q d variant p sc rmax rsum pw u du = Ok (g, b0) -> reached g b0 b ->
  (1 <= l)%nat -> nth_error (b_levels b) l = Some v ->
  state_inside3 (coarse_dom dom (Z.of_nat l - 1)) fine_state w ->
  state_inside3 (coarse_dom dom (Z.of_nat l - 1)) fine_res r ->
  exists v', set_coarse g l fine_state fine_res time v = Ok v' /\
    state_inside3 (coarse_dom dom (Z.of_nat l)) (v_u v') (average8 w) /\
    forall dt old t r0, shaped 1 (cells3 (coarse_dom dom (Z.of_nat l))) r0 ->
    exists sc' u' r', level_eval g dt old l (v_c v') (v_sc v') (v_u v') t r0 = Ok (sc', u', r') /\
      state_inside3 (coarse_dom dom (Z.of_nat l)) r' (average8 r).
Proof.
  intros q dom d variant p sc rmax rsum pw u du g b0 b l v fs fr w r time HV HN TH HM SC NS INT SU SD NEW RE L1 Hv HW HR.
  destruct (make3_inv dom d HV HM) as (W & <-).
  pose proof (reached_ok q d variant p sc rmax rsum pw u du g b0 W HN SC INT SU SD TH NEW NS b RE) as ((LB & LO) & _).
  destruct l as [|l]; [lia|]. clear L1.
  assert (KL : (Datatypes.S l < length (b_levels b))%nat) by (apply nth_error_Some; congruence).
  assert (LN : (l < gn q)%nat) by lia.
  assert (GD : forall k, (k <= gn q)%nat -> gdom q d k = coarse_dom (d3_domain d) (Z.of_nat k)).
  { intros k Hk. destruct (grids_facts q d variant p sc rmax rsum pw u du g b0 W HN TH NEW) as (LG & _).
    destruct (grids_eq q d variant p sc rmax rsum pw u du g b0 NEW) as (EG & _ & _).
    unfold gdom. apply (grids_dom _ _ _ W EG). unfold grid. apply nth_error_nth'. lia. }
  replace (Z.of_nat (Datatypes.S l) - 1) with (Z.of_nat l) in * by lia.
  rewrite <- (GD l) in * by lia. rewrite <- (GD (Datatypes.S l)) in * by lia.
  pose proof (gnh0 q d variant p sc rmax rsum pw u du g b0 W HN TH NEW) as NH.
  pose proof (ghalves q d variant p sc rmax rsum pw u du g b0 W HN TH NEW l LN) as HH.
  apply holds_state3 in HW, HR; auto.
  destruct (coarse_spec g (gok q d) 1 (gsize q d) (gP q d) (gQ q d) (gext q d) (gf q d variant p) (grest q d)
    (gPQ q d variant p sc rmax rsum pw u du g b0 W HN TH NEW) (gn q)
    (gCE q d variant p sc rmax rsum pw u du g b0 W HN SC TH NEW)
    (gCR q d variant p sc rmax rsum pw u du g b0 W HN TH NEW) l v fs fr _ _ time LN (LO _ _ Hv) HW HR)
    as (v' & c' & E & OK & EC & HU & HS).
  exists v'. split; [exact E|].
  assert (AVG : forall x, same_on 1 (gsize q d (1 + l)) (gP q d (1 + l)) (grest q d (1 + l) (of3 (gdom q d l) x))
     (of3 (gdom q d (1 + l)) (average8 x))).
  { intros x. unfold gsize, gP. rewrite same3 by apply NH. intros i j k I.
    unfold at3 at 1 2, grest, rest3. replace (1 + l - 1)%nat with l by lia.
    rewrite !of3_slot by (apply inside_padded3; [apply NH|exact I]). rewrite restrict_expr3_R. unfold average8, sum3, sum2, sum1, Rsum.
    change (zrange 0 2) with [0; 1]. cbn [map fold_right].
    assert (X : forall a b c, (0 <= a <= 1)%Z -> (0 <= b <= 1)%Z -> (0 <= c <= 1)%Z ->
      at3 (gdom q d l) (of3 (gdom q d l) x) (2 * i + a) (2 * j + b) (2 * k + c) = x (2 * i + a) (2 * j + b) (2 * k + c)).
    { intros a b' c Ha Hb Hc. unfold at3. apply of3_slot. apply inside_padded3; [apply NH|].
      destruct I as (I1 & I2 & I3). destruct HH as (A & B & C & _). unfold inside3. cbn [Nat.add] in *. lia. }
    pose proof (X 0 0 0) as X0. pose proof (X 1 0 0) as X1. pose proof (X 0 1 0) as X2. pose proof (X 1 1 0) as X3.
    pose proof (X 0 0 1) as X4. pose proof (X 1 0 1) as X5. pose proof (X 0 1 1) as X6. pose proof (X 1 1 1) as X7.
    rewrite !Z.add_0_r in *. rewrite X0, X1, X2, X3, X4, X5, X6, X7 by lia. field. }
  split.
  - apply holds_state3; [apply NH|]. eapply holds_same; [exact HU|]. intros e i He Hi HP.
    rewrite (gPQ q d variant p sc rmax rsum pw u du g b0 W HN TH NEW (1 + l)%nat) by auto. apply AVG; auto.
  - intros dt old t r0 Hr. rewrite EC. cbn [level_eval].
    destruct (coarse_computes g (gok q d) 1 (gsize q d) (gP q d) (gQ q d) (gext q d) (gf q d variant p) (gn q)
      (gCE q d variant p sc rmax rsum pw u du g b0 W HN SC TH NEW) (1 + l)%nat (c_src c') _ LN HS (v_sc v') (v_u v') t r0 _
      (proj1 OK) HU Hr) as (sc' & s' & r' & E' & _ & _ & _ & HRR).
    exists sc', s', r'. split; [exact E'|]. apply holds_state3; [apply NH|]. eapply holds_same; [exact HRR|].
    intros e i He Hi HP. cbn beta. rewrite (gauto q d variant p (1 + l) t time) by auto.
    rewrite <- (AVG r) by auto. num. ring.
Qed.

Lemma pf_C17_implicit_3d :
  forall (q : mg_options R) (dom : domain R) (d : disc3 R) (variant : Z) (p : ch_params R) (sc : scratch R)
    rmax rsum pw (u du : state R) (g : mg_config R (scratch R)) (b0 b : mg_world R (scratch R))
    (w : Z -> Z -> Z -> R) (time dt : R),
  valid_domain3 dom -> 2 <= nhalo dom -> thick_at (q_levels q - 1) dom ->
  xbc dom <> Neumann /\ ybc dom <> Neumann /\ zbc dom <> Neumann ->
  make3 dom = Ok d -> make_ch3 d variant = Ok sc -> 1 <= q_nsmooth q -> q_interp q <> MGOther ->
  shaped 1 (cells3 dom) u -> shaped 1 (cells3 dom) du ->
  bdf_new q d variant p sc rmax rsum pw u du = Ok (g, b0) -> reached g b0 b ->
  state_inside3 dom (solution b) w -> (ch_sigma p = 0%R \/ mean3 dom w = ch_m p) ->
  exists b' w', bdf_step g b time dt = Ok b' /\ state_inside3 dom (solution b') w' /\ mean3 dom w' = mean3 dom w.
Proof.
  intros q dom d variant p sc rmax rsum pw u du g b0 b w time dt HV HN TH AP HM SC NS INT SU SD NEW RE HW SM.
  destruct (make3_inv dom d HV HM) as (W & <-). assert (NH : 0 <= nhalo (d3_domain d)) by lia.
  pose proof (reached_ok q d variant p sc rmax rsum pw u du g b0 W HN SC INT SU SD TH NEW NS b RE) as WK.
  apply holds_state3 in HW; auto.
  destruct (ch_step q d variant p sc rmax rsum pw u du g b0 W HN SC INT SU SD TH NEW NS b time dt _ WK HW)
    as (b' & k & dt0 & E & _ & _ & _ & HS).
  exists b'. eexists. split; [exact E|]. split; [apply holds_state3_at; [exact NH|exact HS]|].
  unfold mean3. apply (f_equal (fun x => x / _)%R).
  pose proof (gext0 q d variant p sc rmax rsum pw u du g b0 W HN TH NEW) as GE.
  pose proof (gf0 q d variant p sc rmax rsum pw u du g b0 W HN TH NEW) as GF.
  assert (GD : gdom q d 0 = d3_domain d) by (unfold gdom; rewrite (grid0 q d variant p sc rmax rsum pw u du g b0 W HN TH NEW); reflexivity).
  rewrite <- (T3_of (d3_domain d) w) by auto.
  fold (T3 (d3_domain d) (vcycles k (Z.to_nat (q_nsmooth q)) time
    (implicit_rhs (q_steady q) (ch_f3 (d3_domain d) variant p (d3_dx d)) dt (of3 (d3_domain d) w))
    (ext3 (d3_domain d)) dt0 (g_cfl g 0) (q_relax q) (q_coarse_relax q)
    (map (gl g (gext q d) (gf q d variant p) (grest q d) (gprol q d) (dt_of g (b_levels b))) (seq 1 (gn q))) (of3 (d3_domain d) w))).
  rewrite <- GE, <- GF.
  pose proof (ch_conserved q d variant p sc rmax rsum pw u du g b0 W HN TH NEW AP (Z.to_nat (q_nsmooth q)) k time
    (implicit_rhs (q_steady q) (gf q d variant p 0) dt (of3 (d3_domain d) w)) (q_relax q) (q_coarse_relax q) dt0
    (dt_of g (b_levels b)) (g_cfl g 0) (of3 (d3_domain d) w) (T3 (gdom q d 0) (of3 (d3_domain d) w))) as CO.
  rewrite <- GD at 1. rewrite <- GD at 4. rewrite CO; [rewrite !GD; reflexivity| |reflexivity].
  apply (implicit_keeps 1 (gsize q d) (gP q d) (gQ q d) (gext q d) (gf q d variant p) (grest q d) (gprol q d) (g_cfl g) (gn q)
      (gPQ q d variant p sc rmax rsum pw u du g b0 W HN TH NEW) (fun k => T3 (gdom q d k)) (- ch_sigma p)%R
      (fun k => ch_sigma p * ch_m p * cells_inside3 (gdom q d k))%R (1 / 8)%R
      (gTsame q d variant p sc rmax rsum pw u du g b0 W HN TH NEW)
      (gTlin q d)
      (fun k t u _ => gTf q d variant p sc rmax rsum pw _ du g b0 W HN TH NEW AP k t u)
      (gTrest q d variant p sc rmax rsum pw u du g b0 W HN TH NEW)
      (gTprol q d variant p sc rmax rsum pw u du g b0 W HN TH NEW AP)).
  rewrite GD. rewrite T3_of by auto. destruct SM as [S0|S0]; [rewrite S0; ring|].
  rewrite (mean3_total _ _ _ HV S0). ring.
Qed.

Lemma pf_C54_report :
  forall (V : Type) (N : Num V) (S : Type) (g : mg_config V S) (b b' : mg_world V S) (time dt : V),
  bdf_step g b time dt = Ok b' ->
  exists old v sc sc' u du res0 rs,
    nth_error (b_levels b) 0 = Some v /\
    level_eval g dt old 0 (v_c v) sc (v_u v) time (v_du v) = Ok (sc', u, du) /\
    let vs0 := {| v_sc := sc'; v_u := u; v_du := du; v_sm := v_sm v; v_c := v_c v |} :: tl (b_levels b) in
    residual_is g vs0 res0 /\ passes (one_pass g time dt old) (residual_is g) vs0 rs (b_levels b') /\
    let reaches := fun r => nltb (ndiv r res0) (g_tol g) || neqb (ndiv r res0) (g_tol g) in
    (b_ncycles b' = 0 /\ Z.of_nat (length rs) = Z.max 0 (g_max_cycles g) /\ Forall (fun r => reaches r = false) rs \/
     b_ncycles b' = Z.of_nat (length rs) /\ 1 <= b_ncycles b' <= g_max_cycles g /\
     exists rs' r, rs = rs' ++ [r] /\ Forall (fun r => reaches r = false) rs' /\ reaches r = true).
Proof.
  intros V N S g b b' time dt E. unfold bdf_step in E.
  destruct (nth_error (b_levels b) 0) as [v|] eqn:E0; cbn [of_opt rbind] in E; [|discriminate].
  destruct (for_vecs _ _ _ _) as [old0| | |]; cbn [rbind] in E; try discriminate.
  destruct (g_eval g 0 (v_sc v) old0 time (b_res0 b)) as [[[sc old] r0]| | |]; cbn [rbind] in E; try discriminate.
  destruct (b_levels b) as [|v1 vs] eqn:EB; [discriminate|]. injection E0 as ->. cbn [upd] in E.
  unfold time_step_cycle in E. cbn [nth_error of_opt rbind v_c v_sc v_u v_du v_sm] in E.
  destruct (level_eval g dt old 0 (v_c v) sc (v_u v) time (v_du v)) as [[[sc' u] du]| | |] eqn:EV; cbn [rbind] in E; try discriminate.
  cbn [upd] in E.
  destruct (residual0 g _) as [res0| | |] eqn:ER; cbn [rbind] in E; try discriminate.
  destruct (mg_loop _ _ _ _ _ _ _ _ _) as [[[vs' nc] rate]| | |] eqn:EL; cbn [rbind] in E; try discriminate.
  injection E as <-. cbn [b_levels b_ncycles tl].
  exists old, v, sc, sc', u, du, res0.
  destruct (mg_loop_report g time dt old res0 (Z.to_nat (g_max_cycles g)) 0 res0 _ vs' nc rate ltac:(lia) ltac:(lia) EL)
    as (rs & PS & H). exists rs. split; [reflexivity|]. split; [exact EV|]. split; [apply residual0_is; exact ER|]. split; [exact PS|].
  destruct H as [(A1 & A2 & A3 & _)|(A1 & A2 & rs' & r & A3 & A4 & A5 & _)].
  - left. split; [exact A1|]. split; [lia|exact A3].
  - right. assert (length rs = (length rs' + 1)%nat) by (rewrite A3, app_length; reflexivity).
    split; [lia|]. split; [lia|]. exists rs', r. split; [exact A3|]. split; [exact A4|exact A5].
Qed.

(** Ratios to a zero residual never reach a finite tolerance. *)
Lemma round_positive mx ex lx : exists m e, binary_round_aux 53 1024 false mx ex lx = S754_nan \/
  binary_round_aux 53 1024 false mx ex lx = S754_zero false \/
  binary_round_aux 53 1024 false mx ex lx = S754_infinity false \/
  binary_round_aux 53 1024 false mx ex lx = S754_finite false m e.
Proof.
  unfold binary_round_aux. destruct (shr_fexp 53 1024 mx ex lx) as [r e'].
  destruct (shr_fexp 53 1024 (round_nearest_even (shr_m r) (loc_of_shr_record r)) e' loc_Exact) as [r2 e2].
  exists (Z.to_pos (shr_m r2)), e2. destruct (shr_m r2); auto. destruct (e2 <=? 1024 - 53); auto.
Qed.

Lemma zero_ratio (x tol : spec_float) : tol <> S754_infinity false ->
  nleb (N:=Num_f64) (ndiv (Num:=Num_f64) (nsqrt (Num:=Num_f64) x) (S754_zero false)) tol = false.
Proof.
  intros H. unfold nleb.
  assert (D : ndiv (Num:=Num_f64) (nsqrt (Num:=Num_f64) x) (S754_zero false) = S754_nan \/
              ndiv (Num:=Num_f64) (nsqrt (Num:=Num_f64) x) (S754_zero false) = S754_infinity false).
  { cbn [ndiv nsqrt Num_f64]. unfold f64_div, f64_sqrt.
    destruct x as [s|s| |s m e]; try destruct s; cbn [SFsqrt]; auto.
    destruct (SFsqrt_core_binary 53 1024 (Z.pos m) e) as [[mz ez] lz].
    destruct (round_positive mz ez lz) as (m' & e' & [E|[E|[E|E]]]); rewrite E; cbn; auto. }
  destruct D as [-> | ->].
  - destruct tol as [s|s| |s m e]; reflexivity.
  - destruct tol as [s|[]| |[] m e]; try reflexivity; congruence.
Qed.

Lemma pf_C54_zero_residual :
  forall (S : Type) (g : mg_config f64 S) (time dt : f64) (old : state f64) (v : level f64 S) vs sc u du a vs' n rate,
  level_eval (N:=Num_f64) g dt old 0 (v_c v) (v_sc v) (v_u v) time (v_du v) = Ok (sc, u, a :: du) ->
  rms_of (N:=Num_f64) g a (S754_zero false) -> g_tol g <> S754_infinity false ->
  time_step_cycle (N:=Num_f64) g time dt old (v :: vs) = Ok (vs', n, rate) ->
  n = 0.
Proof.
  intros S g time dt old v vs sc u du a vs' n rate EV RM TOL E. unfold time_step_cycle in E.
  cbn [nth_error of_opt rbind] in E. rewrite EV in E. cbn [rbind upd] in E.
  destruct (residual0 g _) as [res0| | |] eqn:ER; cbn [rbind] in E; try discriminate.
  apply residual0_is in ER. destruct ER as (v1 & a1 & X1 & X2 & X3). injection X1 as <-. cbn [v_du] in X2. injection X2 as <-.
  assert (R0 : res0 = S754_zero false).
  { destruct RM as (xs & F1 & ->). destruct X3 as (ys & F2 & ->).
    assert (XY : xs = ys); [|subst; reflexivity].
    clear - F1 F2. revert ys F2. induction F1 as [|i x is xs H F1 IH]; intros ys F2; inversion F2; subst; auto.
    f_equal; [congruence|auto]. }
  subst res0.
  apply mg_loop_report in E; [|lia|lia]. destruct E as (rs & PS & [(A1 & _)|(A1 & A2 & rs' & r & A3 & A4 & A5 & _)]); [exact A1|].
  exfalso. assert (In r rs) as HI by (rewrite A3; apply in_or_app; right; left; reflexivity).
  assert (HR : exists x, r = nsqrt (Num:=Num_f64) x).
  { clear - PS HI. induction PS as [|x y z r0 rs P1 (v2 & a2 & _ & _ & xs & _ & ->) PS IH]; [contradiction|].
    destruct HI as [<-|HI]; [eexists; reflexivity|auto]. }
  destruct HR as (x & ->). rewrite zero_ratio in A5 by exact TOL. discriminate.
Qed.

