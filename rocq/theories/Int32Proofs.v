(** The 32-bit index arithmetic is exact whenever the padded cell count fits. *)
From Verif Require Import Outcome ZList ModelIndex IndexProofs ModelDisc3D ModelInt32 SpecGrid.
From Coq Require Import Lia ZifyBool.

Lemma chk_ok z : int_min <= z <= int_max -> chk z = Ok z.
Proof. intros H. unfold chk, fits32. replace ((int_min <=? z) && (z <=? int_max)) with true by lia. reflexivity. Qed.

Lemma chk_inv z v : chk z = Ok v -> v = z /\ int_min <= z <= int_max.
Proof. unfold chk, fits32. destruct ((int_min <=? z) && (z <=? int_max)) eqn:E; [|discriminate]. intros H. injection H as <-. lia. Qed.

Lemma idiv_ok a b : 0 < b -> 0 <= a <= int_max -> idiv a b = Ok (Z.quot a b) /\ 0 <= Z.quot a b <= a.
Proof.
  intros Hb Ha. unfold idiv. destruct (Z.eqb_spec b 0); [lia|].
  assert (0 <= Z.quot a b <= a).
  { rewrite Z.quot_div_nonneg by lia. split; [apply Z.div_pos; lia|apply Z.div_le_upper_bound; nia]. }
  rewrite chk_ok; [auto|unfold int_min, int_max in *; lia].
Qed.

Lemma irem_ok a b : 0 < b -> 0 <= a <= int_max -> irem a b = Ok (Z.rem a b) /\ 0 <= Z.rem a b <= a.
Proof.
  intros Hb Ha. unfold irem. destruct (Z.eqb_spec b 0); [lia|].
  assert (0 <= Z.quot a b <= a).
  { rewrite Z.quot_div_nonneg by lia. split; [apply Z.div_pos; lia|apply Z.div_le_upper_bound; nia]. }
  assert (0 <= Z.rem a b <= a).
  { rewrite Z.rem_mod_nonneg by lia. split; [apply Z.mod_pos_bound; lia|apply Z.mod_le; lia]. }
  unfold fits32. replace ((int_min <=? Z.quot a b) && (Z.quot a b <=? int_max)) with true by (unfold int_min, int_max in *; lia).
  rewrite chk_ok; [auto|unfold int_min, int_max in *; lia].
Qed.

Section I32.
  Context {V : Type}.
  Variable dom : domain V.

  Lemma index3_exact i j k :
    valid_domain3 dom -> cells3 dom <= int_max -> padded3 dom i j k ->
    get1DindexFrom3D32 i j k (nhalo dom) (ny dom + 2 * nhalo dom) (nz dom + 2 * nhalo dom) =
    Ok (slot3 dom i j k).
  Proof.
    intros (V1 & V2 & V3 & Hh) HC (Hi & Hj & Hk). unfold cells3 in HC.
    set (A := nx dom + 2 * nhalo dom) in *. set (B := ny dom + 2 * nhalo dom) in *.
    set (C := nz dom + 2 * nhalo dom) in *. set (nh := nhalo dom) in *.
    assert (HA : 1 <= A) by lia. assert (HB : 1 <= B) by lia. assert (HCC : 1 <= C) by lia.
    assert (P1 : 0 < B * C) by (apply Z.mul_pos_pos; lia).
    assert (EQ : A * B * C = A * (B * C)) by ring.
    assert (P2 : B * C <= A * (B * C)) by (rewrite <- (Z.mul_1_l (B * C)) at 1; apply Z.mul_le_mono_nonneg_r; lia).
    assert (P3 : C <= B * C) by (rewrite <- (Z.mul_1_l C) at 1; apply Z.mul_le_mono_nonneg_r; lia).
    assert (P4 : (i + nh) * (B * C) <= (A - 1) * (B * C)) by (apply Z.mul_le_mono_nonneg_r; lia).
    assert (P5 : 0 <= (i + nh) * (B * C)) by (apply Z.mul_nonneg_nonneg; lia).
    assert (P6 : (j + nh) * C <= (B - 1) * C) by (apply Z.mul_le_mono_nonneg_r; lia).
    assert (P7 : 0 <= (j + nh) * C) by (apply Z.mul_nonneg_nonneg; lia).
    assert (P8 : A <= A * (B * C)) by (rewrite <- (Z.mul_1_r A) at 1; apply Z.mul_le_mono_nonneg_l; lia).
    assert (P9 : B <= B * C) by (rewrite <- (Z.mul_1_r B) at 1; apply Z.mul_le_mono_nonneg_l; lia).
    unfold get1DindexFrom3D32, iadd, imul. unfold int_max, int_min in *.
    rewrite (chk_ok (i + nh)) by (unfold int_max, int_min; lia). cbn [rbind].
    rewrite (chk_ok (B * C)) by (unfold int_max, int_min; lia). cbn [rbind].
    rewrite chk_ok by (unfold int_max, int_min; lia). cbn [rbind].
    rewrite (chk_ok (j + nh)) by (unfold int_max, int_min; lia). cbn [rbind].
    rewrite chk_ok by (unfold int_max, int_min; lia). cbn [rbind].
    rewrite chk_ok by (unfold int_max, int_min; lia). cbn [rbind].
    rewrite (chk_ok (k + nh)) by (unfold int_max, int_min; lia). cbn [rbind].
    rewrite chk_ok by (unfold int_max, int_min; lia).
    f_equal. unfold slot3. fold nh B C. ring.
  Qed.

  Lemma recover3_exact i j k :
    valid_domain3 dom -> cells3 dom <= int_max -> padded3 dom i j k ->
    getIJK32 (slot3 dom i j k) (nhalo dom) (ny dom + 2 * nhalo dom) (nz dom + 2 * nhalo dom) = Ok (i, j, k).
  Proof.
    intros (V1 & V2 & V3 & Hh) HC HP. pose proof HP as (Hi & Hj & Hk).
    assert (EQ : slot3 dom i j k = get1DindexFrom3D i j k (nhalo dom) (ny dom + 2 * nhalo dom) (nz dom + 2 * nhalo dom))
      by (rewrite get3_eq; reflexivity).
    pose proof (get3_range (nx dom) (ny dom) (nz dom) (nhalo dom) i j k Hi Hj Hk) as R.
    change (storage3D (nx dom) (ny dom) (nz dom) (nhalo dom)) with (cells3 dom) in R.
    pose proof (getIJK_get3 (ny dom) (nz dom) (nhalo dom) i j k ltac:(lia) Hj Hk) as G.
    rewrite <- EQ in R, G. clear EQ. set (q := slot3 dom i j k) in *. unfold getIJK in G.
    apply pair_equal_spec in G as (G & G3). apply pair_equal_spec in G as (G1 & G2).
    revert G1 G2 G3.
    unfold cells3 in *.
    set (A := nx dom + 2 * nhalo dom) in *. set (B := ny dom + 2 * nhalo dom) in *.
    set (C := nz dom + 2 * nhalo dom) in *. set (nh := nhalo dom) in *.
    assert (HA : 1 <= A) by lia. assert (HB : 1 <= B) by lia. assert (HCC : 1 <= C) by lia.
    assert (P1 : 0 < B * C) by (apply Z.mul_pos_pos; lia).
    assert (EQ : A * B * C = A * (B * C)) by ring.
    assert (P2 : B * C <= A * (B * C)) by (rewrite <- (Z.mul_1_l (B * C)) at 1; apply Z.mul_le_mono_nonneg_r; lia).
    assert (P3 : C <= B * C) by (rewrite <- (Z.mul_1_l C) at 1; apply Z.mul_le_mono_nonneg_r; lia).
    assert (P8 : A <= A * (B * C)) by (rewrite <- (Z.mul_1_r A) at 1; apply Z.mul_le_mono_nonneg_l; lia).
    assert (P9 : B <= B * C) by (rewrite <- (Z.mul_1_r B) at 1; apply Z.mul_le_mono_nonneg_l; lia).
    assert (IR : forall x y, 0 <= x < A \/ 0 <= x < B \/ 0 <= x < C -> y = x - nh -> chk y = Ok y)
      by (intros x y Hx ->; apply chk_ok; unfold int_max, int_min in *; lia).
    unfold getIJK32, imul, isub.
    rewrite (chk_ok (B * C)) by (unfold int_max, int_min in *; lia). cbn [rbind].
    destruct (idiv_ok q (B * C) ltac:(lia) ltac:(lia)) as (-> & D1). cbn [rbind].
    destruct (idiv_ok q C ltac:(lia) ltac:(lia)) as (-> & D2).
    destruct (irem_ok (Z.quot q C) B ltac:(lia) ltac:(lia)) as (E3 & D3).
    destruct (irem_ok q C ltac:(lia) ltac:(lia)) as (-> & D4).
    revert D1 D2 E3 D3 D4.
    generalize (Z.quot q (B * C)). generalize (Z.rem (Z.quot q C) B). generalize (Z.quot q C). generalize (Z.rem q C).
    intros z1 z2 z3 z4 D1 D2 E3 D3 D4 G1 G2 G3. cbn [rbind].
    rewrite (IR (i + nh) (z4 - nh)) by lia. cbn [rbind]. rewrite E3. cbn [rbind].
    rewrite (IR (j + nh) (z3 - nh)) by lia. cbn [rbind].
    rewrite (IR (k + nh) (z1 - nh)) by lia. cbn [rbind].
    rewrite G1, G2, G3. reflexivity.
  Qed.

  Lemma storage3_exact :
    valid_domain3 dom -> cells3 dom <= int_max ->
    storage3D32 (nx dom) (ny dom) (nz dom) (nhalo dom) = Ok (cells3 dom).
  Proof.
    intros (H1 & H2 & H3 & Hh) HC. unfold cells3 in *.
    set (A := nx dom + 2 * nhalo dom) in *. set (B := ny dom + 2 * nhalo dom) in *.
    set (C := nz dom + 2 * nhalo dom) in *. set (nh := nhalo dom) in *.
    assert (P1 : 0 < A * B) by (apply Z.mul_pos_pos; lia).
    assert (P2 : A * B <= A * B * C) by (rewrite <- (Z.mul_1_r (A * B)) at 1; apply Z.mul_le_mono_nonneg_l; lia).
    assert (P3 : A <= A * B) by (rewrite <- (Z.mul_1_r A) at 1; apply Z.mul_le_mono_nonneg_l; lia).
    assert (P4 : B <= A * B) by (rewrite <- (Z.mul_1_l B) at 1; apply Z.mul_le_mono_nonneg_r; lia).
    assert (P5 : C <= A * B * C) by (rewrite <- (Z.mul_1_l C) at 1; apply Z.mul_le_mono_nonneg_r; lia).
    unfold storage3D32, imul, iadd.
    rewrite (chk_ok (2 * nh)) by (unfold int_max, int_min in *; lia). cbn [rbind].
    rewrite (chk_ok (nx dom + 2 * nh)) by (unfold int_max, int_min in *; lia). cbn [rbind].
    rewrite (chk_ok (ny dom + 2 * nh)) by (unfold int_max, int_min in *; lia). cbn [rbind].
    rewrite (chk_ok) by (fold A B; unfold int_max, int_min in *; lia). cbn [rbind].
    rewrite (chk_ok (nz dom + 2 * nh)) by (unfold int_max, int_min in *; lia). cbn [rbind].
    rewrite chk_ok by (fold A B C; unfold int_max, int_min in *; lia). reflexivity.
  Qed.

  Lemma storage3_overflow :
    int_max < cells3 dom -> storage3D32 (nx dom) (ny dom) (nz dom) (nhalo dom) = UB.
  Proof.
    intros H. unfold storage3D32, imul, iadd.
    destruct (chk (2 * nhalo dom)) as [a| | |] eqn:E1; try (unfold chk in E1; destruct fits32; discriminate); cbn [rbind]; auto.
    apply chk_inv in E1 as (-> & _).
    destruct (chk (nx dom + _)) as [b| | |] eqn:E2; try (unfold chk in E2; destruct fits32; discriminate); cbn [rbind]; auto.
    apply chk_inv in E2 as (-> & _).
    destruct (chk (ny dom + _)) as [c| | |] eqn:E3; try (unfold chk in E3; destruct fits32; discriminate); cbn [rbind]; auto.
    apply chk_inv in E3 as (-> & _).
    destruct (chk (_ * _)) as [e| | |] eqn:E4; try (unfold chk in E4; destruct fits32; discriminate); cbn [rbind]; auto.
    apply chk_inv in E4 as (-> & _).
    destruct (chk (nz dom + _)) as [f| | |] eqn:E5; try (unfold chk in E5; destruct fits32; discriminate); cbn [rbind]; auto.
    apply chk_inv in E5 as (-> & _).
    unfold chk, fits32. fold (cells3 dom). replace (_ <=? int_max) with false by lia.
    rewrite andb_false_r. reflexivity.
  Qed.

  Lemma index2_exact i j :
    valid_domain2 dom -> cells2 dom <= int_max -> padded2 dom i j ->
    get1Dindex32 i j (nhalo dom) (nx dom + 2 * nhalo dom) = Ok (slot2 dom i j).
  Proof.
    intros (V1 & Hh) HC (Hi & Hj). unfold cells2 in HC.
    set (A := nx dom + 2 * nhalo dom) in *. set (nh := nhalo dom) in *.
    assert (HA : 1 <= A) by lia.
    assert (P3 : A <= A * A) by (rewrite <- (Z.mul_1_r A) at 1; apply Z.mul_le_mono_nonneg_l; lia).
    assert (P4 : (i + nh) * A <= (A - 1) * A) by (apply Z.mul_le_mono_nonneg_r; lia).
    assert (P5 : 0 <= (i + nh) * A) by (apply Z.mul_nonneg_nonneg; lia).
    unfold get1Dindex32, iadd, imul.
    rewrite (chk_ok (i + nh)) by (unfold int_max, int_min in *; lia). cbn [rbind].
    rewrite chk_ok by (unfold int_max, int_min in *; lia). cbn [rbind].
    rewrite chk_ok by (unfold int_max, int_min in *; lia). cbn [rbind].
    rewrite chk_ok by (unfold int_max, int_min in *; lia).
    f_equal. unfold slot2. fold nh A. ring.
  Qed.

  Lemma recover2_exact i j :
    valid_domain2 dom -> cells2 dom <= int_max -> padded2 dom i j ->
    getIJ32 (slot2 dom i j) (nhalo dom) (nx dom + 2 * nhalo dom) = Ok (i, j).
  Proof.
    intros (V1 & Hh) HC (Hi & Hj).
    assert (EQ : slot2 dom i j = get1Dindex i j (nhalo dom) (nx dom + 2 * nhalo dom)) by (rewrite get1Dindex_eq; reflexivity).
    pose proof (get1Dindex_range (nx dom) (nx dom) (nhalo dom) i j Hi Hj) as R.
    change (storage2D (nx dom) (nx dom) (nhalo dom)) with (cells2 dom) in R.
    pose proof (getIJ_get1Dindex (nx dom) (nhalo dom) i j ltac:(lia) Hj) as G.
    rewrite <- EQ in R, G. clear EQ. set (q := slot2 dom i j) in *. unfold getIJ in G.
    apply pair_equal_spec in G as (G1 & G2).
    revert G1 G2.
    unfold getIJ32, isub.
    assert (B1 : nx dom + 2 * nhalo dom <= int_max).
    { unfold cells2 in HC. assert (HA : 1 <= nx dom + 2 * nhalo dom) by lia. nia. }
    destruct (idiv_ok q (nx dom + 2 * nhalo dom) ltac:(lia) ltac:(lia)) as (-> & D1).
    destruct (irem_ok q (nx dom + 2 * nhalo dom) ltac:(lia) ltac:(lia)) as (-> & D2).
    revert D1 D2. generalize (Z.quot q (nx dom + 2 * nhalo dom)). generalize (Z.rem q (nx dom + 2 * nhalo dom)).
    intros z1 z2 D1 D2 G1 G2. cbn [rbind].
    rewrite chk_ok by (unfold int_max, int_min in *; lia). cbn [rbind].
    rewrite chk_ok by (unfold int_max, int_min in *; lia). cbn [rbind].
    rewrite G1, G2. reflexivity.
  Qed.

  Lemma storage2_exact :
    valid_domain2 dom -> cells2 dom <= int_max ->
    storage2D32 (nx dom) (nx dom) (nhalo dom) = Ok (cells2 dom).
  Proof.
    intros (H1 & Hh) HC. unfold cells2 in *.
    set (A := nx dom + 2 * nhalo dom) in *. set (nh := nhalo dom) in *.
    assert (P3 : A <= A * A) by (rewrite <- (Z.mul_1_r A) at 1; apply Z.mul_le_mono_nonneg_l; lia).
    unfold storage2D32, imul, iadd.
    rewrite (chk_ok (2 * nh)) by (unfold int_max, int_min in *; lia). cbn [rbind].
    rewrite (chk_ok (nx dom + 2 * nh)) by (unfold int_max, int_min in *; lia). cbn [rbind].
    rewrite chk_ok by (fold A; unfold int_max, int_min in *; lia). reflexivity.
  Qed.

  Lemma storage2_overflow :
    int_max < cells2 dom -> storage2D32 (nx dom) (nx dom) (nhalo dom) = UB.
  Proof.
    intros H. unfold storage2D32, imul, iadd.
    destruct (chk (2 * nhalo dom)) as [a| | |] eqn:E1; try (unfold chk in E1; destruct fits32; discriminate); cbn [rbind]; auto.
    apply chk_inv in E1 as (-> & _).
    destruct (chk (nx dom + _)) as [b| | |] eqn:E2; try (unfold chk in E2; destruct fits32; discriminate); cbn [rbind]; auto.
    apply chk_inv in E2 as (-> & _).
    unfold chk, fits32. fold (cells2 dom). replace (_ <=? int_max) with false by lia.
    rewrite andb_false_r. reflexivity.
  Qed.
End I32.
