(** Proofs of the grid transfer properties C27-C30. *)
From Coq Require Import Reals Lra.
From Verif Require Import Outcome ZList ZListProofs Num Kernel KernelProofs ModelIndex IndexProofs
  ModelDisc3D SpecGrid SpecField Gather Loop Disc3DProofs Make3Proofs Stencil3Proofs
  BC3Proofs Transfer3Proofs SumProofs FieldProofs.
From Coq Require Import ZifyBool.
Open Scope Z_scope.

Section Coarsen.
  Context {V : Type} `{N : Num V}.

  Lemma coarsen3_ok d :
    wf3 d -> nx (d3_domain d) mod 2 = 0 -> ny (d3_domain d) mod 2 = 0 -> nz (d3_domain d) mod 2 = 0 ->
    exists dc, coarsen3 d = Ok dc /\ wf3 dc /\ halves3 (d3_domain dc) (d3_domain d) /\
      d3_domain dc = {| nx := nx (d3_domain d) / 2; ny := ny (d3_domain d) / 2; nz := nz (d3_domain d) / 2;
        xbeg := xbeg (d3_domain d); xend := xend (d3_domain d); ybeg := ybeg (d3_domain d); yend := yend (d3_domain d);
        zbeg := zbeg (d3_domain d); zend := zend (d3_domain d);
        xbc := xbc (d3_domain d); ybc := ybc (d3_domain d); zbc := zbc (d3_domain d); nhalo := nhalo (d3_domain d) |}.
  Proof.
    intros W A B C. destruct (wf_valid d W) as (H1 & H2 & H3 & H4). set (dom := d3_domain d) in *.
    unfold coarsen3. fold dom. rewrite !Z.rem_mod_nonneg by lia. rewrite A, B, C. cbn [Z.eqb negb orb].
    rewrite !Z.quot_div_nonneg by lia.
    match goal with |- context [make3 ?x] => set (domc := x) end.
    assert (HV : valid_domain3 domc) by (unfold valid_domain3, domc; cbn; lia).
    destruct (make3_ok domc HV) as (dc & E & Wc & Ec & _).
    exists dc. split; auto. split; auto. split; [|exact Ec]. unfold halves3. rewrite Ec. unfold domc. cbn [nx ny nz nhalo]. lia.
  Qed.

  Lemma coarsen3_odd d :
    wf3 d -> ~ (nx (d3_domain d) mod 2 = 0 /\ ny (d3_domain d) mod 2 = 0 /\ nz (d3_domain d) mod 2 = 0) ->
    coarsen3 d = Fatal.
  Proof.
    intros W H. destruct (wf_valid d W) as (H1 & H2 & H3 & H4). set (dom := d3_domain d) in *.
    unfold coarsen3. fold dom. rewrite !Z.rem_mod_nonneg by lia.
    destruct (nx dom mod 2 =? 0) eqn:A, (ny dom mod 2 =? 0) eqn:B, (nz dom mod 2 =? 0) eqn:C; cbn; auto.
    exfalso. apply H. lia.
  Qed.

  Lemma coarsen3_inv d dc : wf3 d -> coarsen3 d = Ok dc -> wf3 dc /\ halves3 (d3_domain dc) (d3_domain d).
  Proof.
    intros W E. set (dom := d3_domain d).
    assert (D : nx dom mod 2 = 0 /\ ny dom mod 2 = 0 /\ nz dom mod 2 = 0 \/
      ~ (nx dom mod 2 = 0 /\ ny dom mod 2 = 0 /\ nz dom mod 2 = 0)) by lia.
    destruct D as [(A & B & C)|D].
    - destruct (coarsen3_ok d W A B C) as (dc' & E' & Wc & Hc & _). rewrite E in E'. injection E' as <-. auto.
    - rewrite (coarsen3_odd d W D) in E. discriminate.
  Qed.
End Coarsen.

Lemma sum1_pairs n f : 0 <= n -> sum1 (2 * n) f = sum1 n (fun i => f (2 * i)%Z + f (2 * i + 1)%Z)%R.
Proof.
  intros H. pattern n. apply natlike_ind; auto.
  intros m Hm IH. rewrite (sum1_last (Z.succ m)) by lia. rewrite (sum1_last (2 * Z.succ m)) by lia.
  rewrite (sum1_last (2 * Z.succ m - 1)) by lia.
  replace (2 * Z.succ m - 1 - 1) with (2 * m) by lia. replace (Z.succ m - 1) with m by lia.
  replace (2 * Z.succ m - 1) with (2 * m + 1) by lia. rewrite IH. ring.
Qed.

Lemma restrict_expr3_R (u : Z -> Z -> Z -> R) i j k :
  restrict_expr3 u i j k =
  ((u (2 * i)%Z (2 * j)%Z (2 * k)%Z + u (2 * i + 1)%Z (2 * j)%Z (2 * k)%Z + u (2 * i)%Z (2 * j + 1)%Z (2 * k)%Z
    + u (2 * i + 1)%Z (2 * j + 1)%Z (2 * k)%Z + u (2 * i)%Z (2 * j)%Z (2 * k + 1)%Z + u (2 * i + 1)%Z (2 * j)%Z (2 * k + 1)%Z
    + u (2 * i)%Z (2 * j + 1)%Z (2 * k + 1)%Z + u (2 * i + 1)%Z (2 * j + 1)%Z (2 * k + 1)%Z) / 8)%R.
Proof. unfold restrict_expr3. cbn [nadd nmul nrat Num_R]. field. Qed.

Lemma restrict_total (domf domc : domain R) u :
  valid_domain3 domc -> halves3 domc domf -> total3 domf u = (8 * total3 domc (restrict_expr3 u))%R.
Proof.
  intros (H1 & H2 & H3 & H4) (E1 & E2 & E3 & E4). unfold total3. rewrite E1, E2, E3.
  unfold sum3 at 1. rewrite sum1_pairs by lia. rewrite <- sum3_scal. unfold sum3. apply sum1_ext. intros i Hi.
  rewrite <- sum2_plus. unfold sum2. rewrite sum1_pairs by lia. apply sum1_ext. intros j Hj.
  rewrite <- sum1_plus. rewrite sum1_pairs by lia. apply sum1_ext. intros k Hk.
  rewrite restrict_expr3_R. field.
Qed.

Lemma pf_C30_coarsening :
  forall (V : Type) (N : Num V) (dom : domain V) (d : disc3 V),
  valid_domain3 dom -> make3 dom = Ok d ->
  (nx dom mod 2 = 0 /\ ny dom mod 2 = 0 /\ nz dom mod 2 = 0 ->
     exists dc, coarsen3 d = Ok dc /\
       make3 {| nx := nx dom / 2; ny := ny dom / 2; nz := nz dom / 2;
         xbeg := xbeg dom; xend := xend dom; ybeg := ybeg dom; yend := yend dom; zbeg := zbeg dom; zend := zend dom;
         xbc := xbc dom; ybc := ybc dom; zbc := zbc dom; nhalo := nhalo dom |} = Ok dc /\
       nx (d3_domain dc) = nx dom / 2 /\ ny (d3_domain dc) = ny dom / 2 /\ nz (d3_domain dc) = nz dom / 2 /\
       nhalo (d3_domain dc) = nhalo dom) /\
  (~ (nx dom mod 2 = 0 /\ ny dom mod 2 = 0 /\ nz dom mod 2 = 0) -> coarsen3 d = Fatal).
Proof.
  intros V N dom d HV HM. destruct (make3_inv dom d HV HM) as (W & <-). set (dom := d3_domain d) in *. split.
  - intros (A & B & C). destruct (coarsen3_ok d W A B C) as (dc & E & Wc & Hc & EQ). fold dom in EQ.
    exists dc. split; auto. split.
    + pose proof E as E'. unfold coarsen3 in E'. fold dom in E'. destruct HV as (H1 & H2 & H3 & H4).
      rewrite !Z.rem_mod_nonneg in E' by lia. rewrite A, B, C in E'. cbn [Z.eqb negb orb] in E'.
      rewrite !Z.quot_div_nonneg in E' by lia. exact E'.
    + rewrite EQ. cbn. auto.
  - intros H. apply coarsen3_odd; auto.
Qed.

Lemma pf_C30_coarsening_exact :
  forall (dom : domain R) (d dc : disc3 R),
  valid_domain3 dom -> make3 dom = Ok d -> coarsen3 d = Ok dc ->
  d3_dx dc = (2 * d3_dx d)%R /\
  forall i j k x0 x1 xc, inside3 (d3_domain dc) i j k ->
    zget (d3_x d) (slot3 dom (2 * i) j k) = Some x0 -> zget (d3_x d) (slot3 dom (2 * i + 1) j k) = Some x1 ->
    zget (d3_x dc) (slot3 (d3_domain dc) i j k) = Some xc -> xc = ((x0 + x1) / 2)%R.
Proof.
  intros dom d dc HV HM HC.
  destruct (make3_ok dom HV) as (d' & M & W & <- & _ & _ & _ & CX & _). rewrite HM in M. injection M as <-.
  set (dom := d3_domain d) in *.
  assert (EV : nx dom mod 2 = 0 /\ ny dom mod 2 = 0 /\ nz dom mod 2 = 0).
  { destruct (coarsen3_inv d dc W HC) as (_ & (A & B & C & _)). fold dom in A, B, C. lia. }
  destruct EV as (A & B & C). destruct (coarsen3_ok d W A B C) as (dc' & E & Wc & Hc & EQ). fold dom in EQ.
  rewrite HC in E. injection E as <-.
  assert (EX : d3_dx dc = (2 * d3_dx d)%R).
  { rewrite (wf_dx dc Wc), (wf_dx d W). fold dom. rewrite EQ. cbn.
    destruct HV as (H1 & _). assert (E2 : nx dom = 2 * (nx dom / 2)) by lia.
    assert (NZ : IZR (nx dom / 2) <> 0%R) by (apply not_0_IZR; lia).
    set (n := nx dom / 2) in *. rewrite E2, mult_IZR. field. auto. }
  split; auto. intros i j k x0 x1 xc (I1 & I2 & I3) G0 G1 GC.
  pose proof (wf_valid dc Wc) as HVc.
  destruct (make3_ok (d3_domain dc) HVc) as (d2 & M2 & _ & _ & _ & _ & _ & CXc & _).
  assert (d2 = dc).
  { unfold coarsen3 in HC. fold dom in HC. destruct HV as (H1 & H2 & H3 & H4).
    rewrite !Z.rem_mod_nonneg in HC by lia. rewrite A, B, C in HC. cbn [Z.eqb negb orb] in HC.
    rewrite !Z.quot_div_nonneg in HC by lia. rewrite EQ in M2. congruence. }
  subst d2. destruct CX as (_ & CX). destruct CXc as (_ & CXc).
  destruct Hc as (N1 & N2 & N3 & N4). fold dom in N1, N2, N3, N4.
  destruct HV as (H1 & H2 & H3 & H4).
  assert (P0 : padded3 dom (2 * i) j k) by (repeat split; lia).
  assert (P1 : padded3 dom (2 * i + 1) j k) by (repeat split; lia).
  assert (PC : padded3 (d3_domain dc) i j k) by (repeat split; lia).
  rewrite (CX _ _ _ P0) in G0. rewrite (CX _ _ _ P1) in G1. rewrite (CXc _ _ _ PC) in GC.
  assert (Q0 : x0 = centre_at (xbeg dom) (d3_dx d) (2 * i)) by congruence.
  assert (Q1 : x1 = centre_at (xbeg dom) (d3_dx d) (2 * i + 1)) by congruence.
  assert (QC : xc = centre_at (xbeg (d3_domain dc)) (d3_dx dc) i) by congruence.
  rewrite Q0, Q1, QC, EX.
  unfold centre_at, corner_at. cbn [nadd nmul nint nrat Num_R ndiv]. rewrite EQ. cbn [xbeg].
  rewrite ?(plus_IZR i 1), ?plus_IZR, ?mult_IZR. field.
Qed.

Lemma pf_C27_restriction :
  forall (dom : domain R) (d dc : disc3 R) (f c : list R) (u : Z -> Z -> Z -> R),
  valid_domain3 dom -> make3 dom = Ok d -> coarsen3 d = Ok dc ->
  holds_inside3 dom f u -> zlen c = cells3 (d3_domain dc) ->
  exists c' v, restrict3 d dc f c = Ok (f, c') /\ holds_inside3 (d3_domain dc) c' v /\
    same_halo3 (d3_domain dc) c c' /\
    (forall i j k, v i j k = (sum3 2 2 2 (fun a b e => u (2 * i + a)%Z (2 * j + b)%Z (2 * k + e)%Z) / 8)%R) /\
    mean3 (d3_domain dc) v = mean3 dom u /\
    (forall lo hi, (forall i j k, inside3 dom i j k -> lo <= u i j k <= hi)%R ->
       forall i j k, inside3 (d3_domain dc) i j k -> (lo <= v i j k <= hi)%R).
Proof.
  intros dom d dc f c u HV HM HC HF LC. destruct (make3_inv dom d HV HM) as (W & <-). set (dom := d3_domain d) in *.
  destruct (coarsen3_inv d dc W HC) as (Wc & HH). pose proof (wf_valid dc Wc) as HVc.
  destruct (restrict3_full d dc f c u W Wc HH HF LC) as (c' & E & HI & HS & _).
  exists c', (restrict_expr3 u). split; auto. split; auto. split; auto. split; [|split].
  - intros i j k. rewrite restrict_expr3_R. unfold sum3, sum2, sum1. change (zrange 0 2) with [0; 1]. cbn [map Rsum fold_right].
    rewrite !Z.add_0_r. unfold Rsum. cbn [fold_right]. field.
  - unfold mean3. rewrite (restrict_total dom (d3_domain dc) u HVc HH).
    destruct HH as (E1 & E2 & E3 & E4). fold dom in E1, E2, E3, E4. rewrite E1, E2, E3, !mult_IZR.
    destruct HVc as (H1 & H2 & H3 & H4).
    assert (IZR (nx (d3_domain dc)) <> 0%R) by (apply not_0_IZR; lia).
    assert (IZR (ny (d3_domain dc)) <> 0%R) by (apply not_0_IZR; lia).
    assert (IZR (nz (d3_domain dc)) <> 0%R) by (apply not_0_IZR; lia). field. auto.
  - intros lo hi B i j k (I1 & I2 & I3). rewrite restrict_expr3_R.
    destruct HH as (E1 & E2 & E3 & E4). fold dom in E1, E2, E3, E4.
    pose proof (B (2 * i) (2 * j) (2 * k) ltac:(repeat split; lia)).
    pose proof (B (2 * i + 1) (2 * j) (2 * k) ltac:(repeat split; lia)).
    pose proof (B (2 * i) (2 * j + 1) (2 * k) ltac:(repeat split; lia)).
    pose proof (B (2 * i + 1) (2 * j + 1) (2 * k) ltac:(repeat split; lia)).
    pose proof (B (2 * i) (2 * j) (2 * k + 1) ltac:(repeat split; lia)).
    pose proof (B (2 * i + 1) (2 * j) (2 * k + 1) ltac:(repeat split; lia)).
    pose proof (B (2 * i) (2 * j + 1) (2 * k + 1) ltac:(repeat split; lia)).
    pose proof (B (2 * i + 1) (2 * j + 1) (2 * k + 1) ltac:(repeat split; lia)). lra.
Qed.

Lemma pf_C28_roundtrip :
  forall (dom : domain R) (d dc : disc3 R) (f c : list R) (u : Z -> Z -> Z -> R),
  valid_domain3 dom -> make3 dom = Ok d -> coarsen3 d = Ok dc ->
  zlen f = cells3 dom -> holds_inside3 (d3_domain dc) c u ->
  exists f', prolong3 MGNearest dc d c f = Ok (c, f') /\
    holds_inside3 dom f' (fun i j k => u (i / 2) (j / 2) (k / 2)) /\ same_halo3 dom f f' /\
    forall c2, zlen c2 = cells3 (d3_domain dc) ->
    exists c3, restrict3 d dc f' c2 = Ok (f', c3) /\ holds_inside3 (d3_domain dc) c3 u.
Proof.
  intros dom d dc f c u HV HM HC LF HU. destruct (make3_inv dom d HV HM) as (W & <-). set (dom := d3_domain d) in *.
  destruct (coarsen3_inv d dc W HC) as (Wc & HH).
  destruct (prolong_nearest3_full d dc c f u W Wc HH HU LF) as (f' & E & HI & HS & _).
  exists f'. split; auto. split; auto. split; auto. intros c2 L2.
  destruct (restrict3_full d dc f' c2 _ W Wc HH HI L2) as (c3 & E3 & HI3 & _).
  exists c3. split; auto. eapply holds_inside3_ext; [exact HI3|]. intros i j k I. cbv beta.
  rewrite restrict_expr3_R.
  replace ((2 * i) / 2) with i by lia. replace ((2 * i + 1) / 2) with i by lia.
  replace ((2 * j) / 2) with j by lia. replace ((2 * j + 1) / 2) with j by lia.
  replace ((2 * k) / 2) with k by lia. replace ((2 * k + 1) / 2) with k by lia. field.
Qed.

Lemma pf_C28_double_refuted :
  exists (dom : domain f64) (d dc : disc3 f64) (f f' c c' : list f64) (a b : f64),
  valid_domain3 dom /\ @make3 f64 Num_f64 dom = Ok d /\ @coarsen3 f64 Num_f64 d = Ok dc /\
  @prolong3 f64 Num_f64 MGNearest dc d c f = Ok (c, f') /\ @restrict3 f64 Num_f64 d dc f' c = Ok (f', c') /\
  zget c (slot3 (d3_domain dc) 0 0 0) = Some a /\ zget c' (slot3 (d3_domain dc) 0 0 0) = Some b /\ a <> b.
Proof.
  pose (tenth := f64_div (f64_int 1) (f64_int 10)).
  exists {| nx := 2; ny := 2; nz := 2; xbeg := f64_int 0; xend := f64_int 2; ybeg := f64_int 0; yend := f64_int 2;
     zbeg := f64_int 0; zend := f64_int 2; xbc := Periodic; ybc := Periodic; zbc := Periodic; nhalo := 0 |}.
  eexists. eexists. exists (repeat (f64_int 0) 8). eexists. exists [tenth]. eexists. eexists. eexists.
  split; [cbn; repeat split; cbn; lia|]. split; [vm_compute; reflexivity|]. split; [vm_compute; reflexivity|].
  split; [vm_compute; reflexivity|]. split; [vm_compute; reflexivity|]. split; [vm_compute; reflexivity|].
  split; [vm_compute; reflexivity|]. vm_compute. discriminate.
Qed.

Lemma lin_parity (P : Z -> Z -> Z -> Prop) pa pb pc :
  0 <= pa < 2 -> 0 <= pb < 2 -> 0 <= pc < 2 ->
  P 0 0 0 -> P 0 0 1 -> P 0 1 0 -> P 0 1 1 -> P 1 0 0 -> P 1 0 1 -> P 1 1 0 -> P 1 1 1 -> P pa pb pc.
Proof.
  intros. assert (pa = 0 \/ pa = 1) as [-> | ->] by lia; assert (pb = 0 \/ pb = 1) as [-> | ->] by lia;
  assert (pc = 0 \/ pc = 1) as [-> | ->] by lia; auto.
Qed.

Lemma pf_C29_linear_prolongation :
  forall (dom : domain R) (d dc : disc3 R) (f c : list R) (u : Z -> Z -> Z -> R),
  valid_domain3 dom -> 1 <= nhalo dom -> make3 dom = Ok d -> coarsen3 d = Ok dc ->
  zlen f = cells3 dom -> holds3 (d3_domain dc) c u ->
  exists f' v, prolong3 MGLinear dc d c f = Ok (c, f') /\ zlen f' = cells3 dom /\
    (forall i j k, -1 <= i <= nx dom -> -1 <= j <= ny dom -> -1 <= k <= nz dom ->
       zget f' (slot3 dom i j k) = Some (v i j k)) /\
    (forall i j k, padded3 dom i j k -> ~ (-1 <= i <= nx dom /\ -1 <= j <= ny dom /\ -1 <= k <= nz dom) ->
       zget f' (slot3 dom i j k) = zget f (slot3 dom i j k)) /\
    (forall lo hi, (forall i j k, padded3 (d3_domain dc) i j k -> lo <= u i j k <= hi)%R ->
       forall i j k, -1 <= i <= nx dom -> -1 <= j <= ny dom -> -1 <= k <= nz dom -> (lo <= v i j k <= hi)%R) /\
    (forall a b e, (forall i j k, padded3 (d3_domain dc) i j k -> u i j k = a + b * (2 * IZR j + 1) + e * (2 * IZR k + 1))%R ->
       forall i j k, -1 <= i <= nx dom -> -1 <= j <= ny dom -> -1 <= k <= nz dom ->
       (v i j k = a + b * (IZR j + / 2) + e * (IZR k + / 2))%R).
Proof.
  intros dom d dc f c u HV HN HM HC LF HU. destruct (make3_inv dom d HV HM) as (W & <-). set (dom := d3_domain d) in *.
  destruct (coarsen3_inv d dc W HC) as (Wc & HH). pose proof HH as (E1 & E2 & E3 & E4). fold dom in E1, E2, E3, E4.
  destruct (prolong_linear3_full d dc c f u W Wc HH ltac:(lia) HU LF) as (f' & E & LL & HI & HO & _).
  fold dom in HI, HO, LL. exists f', (prolong_linear_expr3 u). split; auto. split; auto. split; [|split; [|split]].
  - intros i j k A B C. apply HI. unfold near3. lia.
  - intros i j k P H. apply HO; auto. intros (A & B & C). apply H. lia.
  - intros lo hi BD i j k A B C. unfold prolong_linear_expr3.
    set (pi := (i - 1) / 2). set (pj := (j - 1) / 2). set (pk := (k - 1) / 2).
    assert (BD' : forall x y z, pi <= x <= pi + 1 -> pj <= y <= pj + 1 -> pk <= z <= pk + 1 -> (lo <= u x y z <= hi)%R).
    { intros x y z X Y Z. apply BD. unfold pi, pj, pk in *. repeat split; lia. }
    pose proof (BD' (pi + 1) (pj + 1) pk ltac:(lia) ltac:(lia) ltac:(lia)).
    pose proof (BD' (pi + 1) (pj + 1) (pk + 1) ltac:(lia) ltac:(lia) ltac:(lia)).
    pose proof (BD' (pi + 1) pj pk ltac:(lia) ltac:(lia) ltac:(lia)).
    pose proof (BD' (pi + 1) pj (pk + 1) ltac:(lia) ltac:(lia) ltac:(lia)).
    pose proof (BD' pi (pj + 1) pk ltac:(lia) ltac:(lia) ltac:(lia)).
    pose proof (BD' pi (pj + 1) (pk + 1) ltac:(lia) ltac:(lia) ltac:(lia)).
    pose proof (BD' pi pj pk ltac:(lia) ltac:(lia) ltac:(lia)).
    pose proof (BD' pi pj (pk + 1) ltac:(lia) ltac:(lia) ltac:(lia)).
    clear - H H0 H1 H2 H3 H4 H5 H6.
    pattern ((i - 1) mod 2), ((j - 1) mod 2), ((k - 1) mod 2).
    apply lin_parity; try (apply Z.mod_pos_bound; lia);
      cbn [lin_weights find lin_table fst snd Z.eqb andb lin8 nadd nmul nrat Num_R Pos.eqb]; lra.
  - intros a b e LIN i j k A B C. unfold prolong_linear_expr3.
    assert (PJ : IZR j = (2 * IZR ((j - 1) / 2) + 1 + IZR ((j - 1) mod 2))%R).
    { rewrite <- mult_IZR, <- plus_IZR, <- plus_IZR. f_equal. lia. }
    assert (PK : IZR k = (2 * IZR ((k - 1) / 2) + 1 + IZR ((k - 1) mod 2))%R).
    { rewrite <- mult_IZR, <- plus_IZR, <- plus_IZR. f_equal. lia. }
    rewrite PJ, PK.
    assert (LIN' : forall x y z, (i - 1) / 2 <= x <= (i - 1) / 2 + 1 -> (j - 1) / 2 <= y <= (j - 1) / 2 + 1 ->
       (k - 1) / 2 <= z <= (k - 1) / 2 + 1 -> (u x y z = a + b * (2 * IZR y + 1) + e * (2 * IZR z + 1))%R).
    { intros x y z X Y Z. apply LIN. repeat split; lia. }
    clear PJ PK. revert LIN'. set (pi := (i - 1) / 2). set (pj := (j - 1) / 2). set (pk := (k - 1) / 2).
    intros LIN'.
    pattern ((i - 1) mod 2), ((j - 1) mod 2), ((k - 1) mod 2).
    apply lin_parity; try (apply Z.mod_pos_bound; lia);
      cbn [lin_weights find lin_table fst snd Z.eqb andb lin8 nadd nmul nrat Num_R Pos.eqb];
      rewrite !LIN' by lia; rewrite ?plus_IZR; field.
Qed.

Lemma pf_C29_linear_x_refuted :
  exists (dom : domain R) (d dc : disc3 R) (f f' c : list R),
  valid_domain3 dom /\ make3 dom = Ok d /\ coarsen3 d = Ok dc /\
  holds3 (d3_domain dc) c (fun i _ _ => 2 * IZR i + 1)%R /\
  prolong3 MGLinear dc d c f = Ok (c, f') /\
  exists v, zget f' (slot3 dom 1 1 1) = Some v /\ v <> (1 + / 2)%R.
Proof.
  pose (dom := {| nx := 2; ny := 2; nz := 2; xbeg := 0%R; xend := 2%R; ybeg := 0%R; yend := 2%R; zbeg := 0%R; zend := 2%R;
                  xbc := Periodic; ybc := Periodic; zbc := Periodic; nhalo := 1 |}).
  assert (HV : valid_domain3 dom) by (repeat split; cbn; lia).
  destruct (make3_ok dom HV) as (d & M & W & E & _).
  destruct (coarsen3_ok d W) as (dc & EC & Wc & HH & EQ); try (rewrite E; reflexivity).
  assert (exists c, holds3 (d3_domain dc) c (fun i _ _ => 2 * IZR i + 1)%R) as (c & HU).
  { rewrite EQ, E. exists (map (fun q => 2 * IZR (q / 9 - 1) + 1)%R (zrange 0 27)). split; [vm_compute; reflexivity|].
    intros i j k (A & B & C). cbn in A, B, C. unfold slot3. cbn [nx ny nz nhalo dom].
    change (2 / 2) with 1 in *.
    rewrite zget_map, zget_zrange by lia. cbn [option_map]. do 4 f_equal.
    replace (0 + (((i + 1) * (1 + 2 * 1) + (j + 1)) * (1 + 2 * 1) + (k + 1))) with ((i + 1) * 9 + ((j + 1) * 3 + (k + 1))) by lia.
    rewrite Z.div_add_l by lia. rewrite Z.div_small by lia. lia. }
  pose (f := map (fun _ => 0%R) (zrange 0 64)).
  destruct (prolong_linear3_full d dc c f _ W Wc HH ltac:(rewrite EQ, E; cbn; lia) HU ltac:(rewrite E; vm_compute; reflexivity))
    as (f' & EP & _ & HI & _).
  exists dom, d, dc, f, f', c. repeat (split; auto). rewrite E in HI.
  eexists. split; [apply HI; unfold near3, dom; cbn; lia|].
  unfold prolong_linear_expr3. change ((1 - 1) mod 2) with 0. change ((1 - 1) / 2) with 0.
  cbn [lin_weights find lin_table fst snd Z.eqb andb lin8 nadd nmul nrat Num_R Pos.eqb Z.add]. lra.
Qed.
