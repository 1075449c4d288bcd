(** Proofs of the grid properties C01-C10, assembled from the lemmas of the other files. *)
From Coq Require Import Reals Lra.
From Verif Require Import Outcome ZList ZListProofs Num Kernel KernelProofs ModelIndex IndexProofs ModelInt32
  Int32Proofs ModelDisc3D ModelDisc2D SpecGrid Gather Loop Disc3DProofs Make3Proofs Stencil3Proofs BC3Proofs Disc2DProofs
  Make2Proofs.

Lemma nodup_map_inj_sw {A B} (f : A -> B) (xs : list A) :
  (forall x y, In x xs -> In y xs -> f x = f y -> x = y) -> NoDup xs -> NoDup (map f xs).
Proof. intros. apply nodup_map_inj; auto. Qed.

Lemma pf_C01_addressing_2d :
  forall ni nj nh : Z, 0 <= ni -> 0 <= nj -> 0 <= nh ->
  let slot i j := get1Dindex i j nh (nj + 2 * nh) in
  let cell q := getIJ q nh (nj + 2 * nh) in
  let size := storage2D ni nj nh in
  let padded i j := - nh <= i < ni + nh /\ - nh <= j < nj + nh in
  (forall i j, padded i j -> 0 <= slot i j < size) /\
  (forall i j i' j', padded i j -> padded i' j' -> slot i j = slot i' j' -> i = i' /\ j = j') /\
  (forall q, 0 <= q < size -> exists i j, padded i j /\ slot i j = q) /\
  (forall i j, padded i j -> cell (slot i j) = (i, j)).
Proof.
  intros ni nj nh H1 H2 H3 slot cell size padded.
  assert (INV : forall i j, padded i j -> cell (slot i j) = (i, j)).
  { intros i j (A & B). apply getIJ_get1Dindex; tauto. }
  split; [|split; [|split]]; auto.
  - intros i j (A & B). apply get1Dindex_range; auto.
  - intros i j i' j' A B E. pose proof (INV i j A) as X. pose proof (INV i' j' B) as Y.
    rewrite E in X. rewrite X in Y. split; congruence.
  - intros q Hq. pose proof (getIJ_surj ni nj nh q H3 H2 Hq) as S. unfold slot, padded.
    destruct (getIJ q nh (nj + 2 * nh)) as (i, j). exists i, j. tauto.
Qed.

Lemma pf_C02_addressing_3d :
  forall ni nj nk nh : Z, 0 <= ni -> 0 <= nj -> 0 <= nk -> 0 <= nh ->
  let slot i j k := get1DindexFrom3D i j k nh (nj + 2 * nh) (nk + 2 * nh) in
  let cell q := getIJK q nh (nj + 2 * nh) (nk + 2 * nh) in
  let size := storage3D ni nj nk nh in
  let padded i j k := - nh <= i < ni + nh /\ - nh <= j < nj + nh /\ - nh <= k < nk + nh in
  (forall i j k, padded i j k -> 0 <= slot i j k < size) /\
  (forall i j k i' j' k', padded i j k -> padded i' j' k' -> slot i j k = slot i' j' k' ->
     i = i' /\ j = j' /\ k = k') /\
  (forall q, 0 <= q < size -> exists i j k, padded i j k /\ slot i j k = q) /\
  (forall i j k, padded i j k -> cell (slot i j k) = (i, j, k)).
Proof.
  intros ni nj nk nh H1 H2 H3 H4 slot cell size padded.
  assert (INV : forall i j k, padded i j k -> cell (slot i j k) = (i, j, k)).
  { intros i j k (A & B & C). apply getIJK_get3; tauto. }
  split; [|split; [|split]]; auto.
  - intros i j k (A & B & C). apply get3_range; auto.
  - intros i j k i' j' k' A B E. pose proof (INV i j k A) as X. pose proof (INV i' j' k' B) as Y.
    rewrite E in X. rewrite X in Y. repeat split; congruence.
  - intros q Hq. pose proof (getIJK_surj ni nj nk nh q H4 H1 H2 H3 Hq) as S. unfold slot, padded.
    destruct (getIJK q nh (nj + 2 * nh) (nk + 2 * nh)) as ((i, j), k). exists i, j, k. tauto.
Qed.

Lemma pf_C03_int32_3d :
  forall (V : Type) (dom : domain V), valid_domain3 dom ->
  (cells3 dom <= int_max ->
     storage3D32 (nx dom) (ny dom) (nz dom) (nhalo dom) = Ok (cells3 dom) /\
     forall i j k, padded3 dom i j k ->
       get1DindexFrom3D32 i j k (nhalo dom) (ny dom + 2 * nhalo dom) (nz dom + 2 * nhalo dom)
         = Ok (slot3 dom i j k) /\
       getIJK32 (slot3 dom i j k) (nhalo dom) (ny dom + 2 * nhalo dom) (nz dom + 2 * nhalo dom)
         = Ok (i, j, k)) /\
  (int_max < cells3 dom -> storage3D32 (nx dom) (ny dom) (nz dom) (nhalo dom) = UB).
Proof.
  intros V dom HV. split.
  - intros H. split; [apply storage3_exact; auto|]. intros; split.
    + apply index3_exact; auto.
    + apply recover3_exact; auto.
  - apply storage3_overflow.
Qed.

Lemma pf_C03_int32_2d :
  forall (V : Type) (dom : domain V), valid_domain2 dom ->
  (cells2 dom <= int_max ->
     storage2D32 (nx dom) (nx dom) (nhalo dom) = Ok (cells2 dom) /\
     forall i j, padded2 dom i j ->
       get1Dindex32 i j (nhalo dom) (nx dom + 2 * nhalo dom) = Ok (slot2 dom i j) /\
       getIJ32 (slot2 dom i j) (nhalo dom) (nx dom + 2 * nhalo dom) = Ok (i, j)) /\
  (int_max < cells2 dom -> storage2D32 (nx dom) (nx dom) (nhalo dom) = UB).
Proof.
  intros V dom HV. split.
  - intros H. split; [apply storage2_exact; auto|]. intros; split.
    + apply index2_exact; auto.
    + apply recover2_exact; auto.
  - apply storage2_overflow.
Qed.

Lemma pf_C04_lists_3d :
  forall (V : Type) (N : Num V) (dom : domain V) (d : disc3 V),
  valid_domain3 dom -> make3 dom = Ok d ->
  zlen (d3_interior d) = nx dom * ny dom * nz dom /\
  (forall i j k, inside3 dom i j k ->
     zget (d3_interior d) ((i * ny dom + j) * nz dom + k) = Some (slot3 dom i j k)) /\
  NoDup (d3_interior d) /\
  NoDup (d3_receiver d) /\
  (forall q, In q (d3_receiver d) <->
     exists i j k, padded3 dom i j k /\ ~ inside3 dom i j k /\ q = slot3 dom i j k) /\
  zlen (d3_receiver d) = cells3 dom - nx dom * ny dom * nz dom.
Proof.
  intros V N dom d HV HM. destruct (make3_inv dom d HV HM) as (W & E). subst dom.
  set (dom := d3_domain d) in *.
  assert (HI := wf_interior d W). fold dom in HI.
  assert (HR : d3_receiver d = map (fun c => let '(i, j, k) := c in slot3 dom i j k) (halo_cells3 dom)).
  { rewrite (wf_receiver d W), (wf_ni d W), (wf_nj d W), (wf_nk d W), (wf_nh d W), (wf_njnh d W), (wf_nknh d W).
    fold dom. rewrite periodic_pairs3_eq, map_map. apply map_ext. intros ((i, j), k). reflexivity. }
  assert (INJ : forall x y, In x (padded_box dom) -> In y (padded_box dom) ->
     (let '(i, j, k) := x in slot3 dom i j k) = (let '(i, j, k) := y in slot3 dom i j k) -> x = y)
    by apply slot3_padded_inj.
  repeat split.
  - rewrite HI. unfold zlen. rewrite map_length. apply zlen_interior3. auto.
  - intros i j k (Hi & Hj & Hk). rewrite HI. rewrite zget_map.
    pose proof (zget_box3 0 (nx dom) 0 (ny dom) 0 (nz dom) i j k Hi Hj Hk) as G.
    replace ((i * ny dom + j) * nz dom + k) with
      ((i - 0) * ((ny dom - 0) * (nz dom - 0)) + ((j - 0) * (nz dom - 0) + (k - 0))) by ring.
    rewrite G. reflexivity.
  - rewrite HI. apply nodup_map_inj_sw.
    + intros x y Hx Hy. apply INJ; [destruct x as ((a, b), c)|destruct y as ((a, b), c)];
        apply in_padded_box; apply inside_padded3; try apply HV; apply in_interior_box; assumption.
    + apply nodup_box3.
  - rewrite HR. apply nodup_map_inj_sw.
    + intros x y Hx Hy. apply INJ; [destruct x as ((a, b), c)|destruct y as ((a, b), c)];
        apply in_padded_box; apply in_halo_cells3; assumption.
    + apply nodup_halo_cells3.
  - rewrite HR. intros Hq. apply in_map_iff in Hq. destruct Hq as (((i, j), k) & E & Hin).
    apply in_halo_cells3 in Hin. exists i, j, k. split; [apply Hin|split; [apply Hin|auto]].
  - rewrite HR. intros (i & j & k & A & B & ->). apply in_map_iff. exists (i, j, k). split; auto.
    apply in_halo_cells3. auto.
  - rewrite HR. unfold zlen. rewrite map_length. apply zlen_halo_cells3. auto.
Qed.

Lemma pf_C04_lists_2d :
  forall (V : Type) (N : Num V) (dom : domain V) (d : disc2 V),
  valid_domain2 dom -> make2 dom = Ok d ->
  zlen (d2_interior d) = nx dom * nx dom /\
  (forall i j, inside2 dom i j -> zget (d2_interior d) (i * nx dom + j) = Some (slot2 dom i j)) /\
  NoDup (d2_interior d) /\
  NoDup (d2_boundary d) /\
  (forall q, In q (d2_boundary d) <->
     exists i j, padded2 dom i j /\ ~ inside2 dom i j /\ q = slot2 dom i j) /\
  zlen (d2_boundary d) = cells2 dom - nx dom * nx dom.
Proof.
  intros V N dom d HV HM. destruct (make2_inv dom d HV HM) as (W & E). subst dom.
  set (dom := d2_domain d) in *.
  assert (HI := wf2_interior d W). fold dom in HI.
  assert (HB := wf2_boundary d W). fold dom in HB.
  repeat split.
  - rewrite HI. unfold zlen. rewrite map_length.
    pose proof (zlen_box2 0 (nx dom) 0 (nx dom)) as L. unfold zlen in L. destruct HV. rewrite L.
    rewrite !Z.max_r by lia. ring.
  - intros i j (Hi & Hj). rewrite HI. rewrite zget_map.
    pose proof (zget_box2 0 (nx dom) 0 (nx dom) i j Hi Hj) as G.
    replace (i * nx dom + j) with ((i - 0) * (nx dom - 0) + (j - 0)) by ring.
    rewrite G. reflexivity.
  - rewrite HI. apply nodup_map_inj_sw.
    + intros (a, b) (a', b') Hx Hy. apply pslot2_padded_inj;
        apply in_padded_box2; apply inside_padded2; try apply HV; apply in_interior_box2; assumption.
    + apply nodup_box2.
  - rewrite HB. apply nodup_map_inj_sw.
    + intros (a, b) (a', b') Hx Hy. apply pslot2_padded_inj;
        apply in_padded_box2; apply (in_bcells2 dom); assumption.
    + apply nodup_bcells2. auto.
  - rewrite HB. intros Hq. apply in_map_iff in Hq. destruct Hq as ((i, j) & E & Hin).
    apply (in_bcells2 dom) in Hin; auto. exists i, j. split; [apply Hin|split; [apply Hin|auto]].
  - rewrite HB. intros (i & j & A & B & ->). apply in_map_iff. exists (i, j). split; auto.
    apply (in_bcells2 dom); auto.
  - rewrite HB. unfold zlen. rewrite map_length. pose proof (zlen_bcells2 dom HV) as L. unfold zlen in L.
    rewrite L. unfold cells2. ring.
Qed.

Lemma pf_C05_geometry_3d :
  forall (dom : domain R), valid_domain3 dom ->
  exists d, make3 dom = Ok d /\ d3_dx d = ((xend dom - xbeg dom) / IZR (nx dom))%R /\
  let dx := d3_dx d in
  let vertices := {| nx := nx dom + 1; ny := ny dom + 1; nz := nz dom + 1;
     xbeg := xbeg dom; xend := xend dom; ybeg := ybeg dom; yend := yend dom;
     zbeg := zbeg dom; zend := zend dom;
     xbc := xbc dom; ybc := ybc dom; zbc := zbc dom; nhalo := nhalo dom |} in
  let xv i := (xbeg dom + dx * IZR i)%R in
  let yv j := (ybeg dom + dx * IZR j)%R in
  let zv k := (zbeg dom + dx * IZR k)%R in
  holds3 vertices (d3_xv d) (fun i _ _ => xv i) /\
  holds3 vertices (d3_yv d) (fun _ j _ => yv j) /\
  holds3 vertices (d3_zv d) (fun _ _ k => zv k) /\
  xv (nx dom) = xend dom /\
  holds3 dom (d3_x d) (fun i _ _ => ((xv i + xv (i + 1)%Z) / 2)%R) /\
  holds3 dom (d3_y d) (fun _ j _ => ((yv j + yv (j + 1)%Z) / 2)%R) /\
  holds3 dom (d3_z d) (fun _ _ k => ((zv k + zv (k + 1)%Z) / 2)%R).
Proof.
  intros dom HV. destruct (make3_ok dom HV) as (d & M & W & E & A & B & C & X & Y & Z).
  exists d. split; auto. split; [rewrite (wf_dx d W), E; reflexivity|].
  cbv zeta. repeat split; try apply A; try apply B; try apply C; try apply X; try apply Y; try apply Z.
  - rewrite (wf_dx d W), E. cbn. field. apply not_0_IZR. destruct HV; lia.
  - intros i j k P. destruct X as (_ & X). rewrite X by auto. unfold centre_at, corner_at. cbn. f_equal. field.
  - intros i j k P. destruct Y as (_ & Y). rewrite Y by auto. unfold centre_at, corner_at. cbn. f_equal. field.
  - intros i j k P. destruct Z as (_ & Z). rewrite Z by auto. unfold centre_at, corner_at. cbn. f_equal. field.
Qed.

Lemma pf_C05_geometry_2d :
  forall (dom : domain R), valid_domain2 dom ->
  exists d, make2 dom = Ok d /\ d2_dx d = ((xend dom - xbeg dom) / IZR (nx dom))%R /\
  let dx := d2_dx d in
  let vertices := {| nx := nx dom + 1; ny := ny dom; nz := nz dom;
     xbeg := xbeg dom; xend := xend dom; ybeg := ybeg dom; yend := yend dom;
     zbeg := zbeg dom; zend := zend dom;
     xbc := xbc dom; ybc := ybc dom; zbc := zbc dom; nhalo := nhalo dom |} in
  let xv i := (xbeg dom + dx * IZR i)%R in
  let yv j := (ybeg dom + dx * IZR j)%R in
  holds2 vertices (d2_xv d) (fun i _ => xv i) /\
  holds2 vertices (d2_yv d) (fun _ j => yv j) /\
  xv (nx dom) = xend dom /\
  holds2 dom (d2_x d) (fun i _ => ((xv i + xv (i + 1)%Z) / 2)%R) /\
  holds2 dom (d2_y d) (fun _ j => ((yv j + yv (j + 1)%Z) / 2)%R).
Proof.
  intros dom HV. destruct (make2_ok dom HV) as (d & M & W & E & A & B & X & Y).
  exists d. split; auto. split; [rewrite (wf2_dx d W), E; reflexivity|].
  cbv zeta. repeat split; try apply A; try apply B; try apply X; try apply Y.
  - rewrite (wf2_dx d W), E. cbn. field. apply not_0_IZR. destruct HV; lia.
  - intros i j P. destruct X as (_ & X). rewrite X by auto. unfold centre_at, corner_at. cbn. f_equal. field.
  - intros i j P. destruct Y as (_ & Y). rewrite Y by auto. unfold centre_at, corner_at. cbn. f_equal. field.
Qed.

Lemma pf_C06_periodic_2d :
  forall (V : Type) (N : Num V) (dom : domain V) (d : disc2 V) (s : list V) (u : Z -> Z -> V),
  valid_domain2 dom -> nhalo dom <= nx dom -> make2 dom = Ok d -> holds2 dom s u ->
  exists s', apply_periodic2 d s = Ok s' /\
    holds2 dom s' (fun i j => u (i mod nx dom) (j mod nx dom)) /\
    (forall i j, inside2 dom i j -> zget s' (slot2 dom i j) = zget s (slot2 dom i j)).
Proof.
  intros V N dom d s u HV HT HM HS. destruct (make2_inv dom d HV HM) as (W & <-).
  destruct (apply_periodic2_full d s u W HT HS) as (s1 & s2 & s3 & s4 & E & H & _).
  exists s4. split; auto. split; auto. intros i j HI.
  assert (P : padded2 (d2_domain d) i j) by (apply inside_padded2; auto; apply HV).
  destruct H as (_ & H). destruct HS as (_ & HS). rewrite H, HS by auto.
  unfold periodic2. destruct HI. rewrite !Z.mod_small by auto. reflexivity.
Qed.

Lemma pf_C07_periodic_3d :
  forall (V : Type) (N : Num V) (dom : domain V) (d : disc3 V) (s : list V) (u : Z -> Z -> Z -> V),
  valid_domain3 dom -> nhalo dom <= nx dom /\ nhalo dom <= ny dom /\ nhalo dom <= nz dom ->
  make3 dom = Ok d -> holds3 dom s u ->
  exists s', apply_periodic3 d s = Ok s' /\
    holds3 dom s' (fun i j k => u (i mod nx dom) (j mod ny dom) (k mod nz dom)) /\
    (forall i j k, inside3 dom i j k -> zget s' (slot3 dom i j k) = zget s (slot3 dom i j k)).
Proof.
  intros V N dom d s u HV HT HM HS. destruct (make3_inv dom d HV HM) as (W & <-).
  destruct (apply_periodic3_full d s u W HT HS) as (s' & E & H & _).
  exists s'. split; auto. split; auto. intros i j k HI.
  assert (P : padded3 (d3_domain d) i j k) by (apply inside_padded3; auto; apply HV).
  destruct H as (_ & H). destruct HS as (_ & HS). rewrite H, HS by auto.
  unfold periodic3. destruct HI as (?&?&?). rewrite !Z.mod_small by auto. reflexivity.
Qed.

Lemma pf_C07_thin_grid_refuted :
  exists (dom : domain Z) (N : Num Z) (d : disc3 Z) (s s' : list Z) (u : Z -> Z -> Z -> Z) (i j k : Z),
  valid_domain3 dom /\ nhalo dom = 2 /\ make3 dom = Ok d /\ holds3 dom s u /\ padded3 dom i j k /\
  apply_periodic3 d s = Ok s' /\
  zget s' (slot3 dom i j k) <> Some (u (i mod nx dom) (j mod ny dom) (k mod nz dom)).
Proof.
  pose (N := {| nadd := Z.add; nsub := Z.sub; nmul := Z.mul; ndiv := Z.div; nopp := Z.opp;
                nint := fun z => z; nrat := fun p q => p / Zpos q; npow3 := fun x => x * x * x;
                npow2 := fun x => x * x; nsqrt := Z.sqrt; nabs := Z.abs; nltb := Z.ltb; neqb := Z.eqb |}).
  pose (dom := {| nx := 1; ny := 4; nz := 4; xbeg := 0; xend := 4; ybeg := 0; yend := 4; zbeg := 0; zend := 4;
                  xbc := Periodic; ybc := Periodic; zbc := Periodic; nhalo := 2 |}).
  pose (u := fun i j k : Z => 100 * i + 10 * j + k).
  assert (HV : valid_domain3 dom) by (vm_compute; repeat split; discriminate).
  destruct (make3 dom) as [d| | |] eqn:M; try (vm_compute in M; discriminate).
  assert (exists s, holds3 dom s u /\ s = flat_map (fun i => flat_map (fun j => map (fun k => u i j k)
      (zrange (- nhalo dom) (nz dom + nhalo dom))) (zrange (- nhalo dom) (ny dom + nhalo dom)))
    (zrange (- nhalo dom) (nx dom + nhalo dom))) as (s & HS & ES).
  { eexists. split; [|reflexivity]. split; [vm_compute; reflexivity|].
    intros i j k (Hi & Hj & Hk). cbn in Hi, Hj, Hk.
    assert (A : i = -2 \/ i = -1 \/ i = 0 \/ i = 1 \/ i = 2) by lia.
    assert (B : j = -2 \/ j = -1 \/ j = 0 \/ j = 1 \/ j = 2 \/ j = 3 \/ j = 4 \/ j = 5) by lia.
    assert (C : k = -2 \/ k = -1 \/ k = 0 \/ k = 1 \/ k = 2 \/ k = 3 \/ k = 4 \/ k = 5) by lia.
    clear Hi Hj Hk.
    repeat (destruct A as [->|A]; [repeat (destruct B as [->|B]; [repeat (destruct C as [->|C]; [vm_compute; reflexivity|]); subst; vm_compute; reflexivity|]); subst; repeat (destruct C as [->|C]; [vm_compute; reflexivity|]); subst; vm_compute; reflexivity|]).
    subst. repeat (destruct B as [->|B]; [repeat (destruct C as [->|C]; [vm_compute; reflexivity|]); subst; vm_compute; reflexivity|]).
    subst. repeat (destruct C as [->|C]; [vm_compute; reflexivity|]). subst. vm_compute. reflexivity. }
  destruct (apply_periodic3 d s) as [s'| | |] eqn:E.
  - exists dom, N, d, s, s', u, (-2), 0, 0. repeat split; try assumption; try reflexivity; try (vm_compute; congruence); try apply HS.
    subst s. vm_compute in M. injection M as <-. vm_compute in E. injection E as <-.
    vm_compute. discriminate.
  - exfalso. subst s. vm_compute in M. injection M as <-. vm_compute in E. discriminate.
  - exfalso. subst s. vm_compute in M. injection M as <-. vm_compute in E. discriminate.
  - exfalso. subst s. vm_compute in M. injection M as <-. vm_compute in E. discriminate.
Qed.

Lemma pf_C08_boundary_fill_3d :
  forall (V : Type) (N : Num V) (dom : domain V) (d : disc3 V) (s : list V) (u : Z -> Z -> Z -> V),
  valid_domain3 dom -> nhalo dom <= nx dom /\ nhalo dom <= ny dom /\ nhalo dom <= nz dom ->
  make3 dom = Ok d -> holds3 dom s u ->
  exists s1 s2, apply_periodic3 d s = Ok s1 /\ apply_neumann3 d s1 = Ok s2 /\
    holds3 dom s2 (extend3 dom u) /\
    (forall i j k, inside3 dom i j k -> zget s2 (slot3 dom i j k) = zget s (slot3 dom i j k)).
Proof.
  intros V N dom d s u HV HT HM HS. destruct (make3_inv dom d HV HM) as (W & <-).
  destruct (apply_bcs3_full d s u W HT HS) as (s1 & s2 & E1 & E2 & H).
  exists s1, s2. repeat split; auto; try apply H. intros i j k HI.
  assert (P : padded3 (d3_domain d) i j k) by (apply inside_padded3; auto; apply HV).
  destruct H as (_ & H). destruct HS as (_ & HS). rewrite H, HS by auto.
  unfold extend3. destruct HI as (?&?&?). rewrite !extend1_inside by auto. reflexivity.
Qed.

Lemma pf_C09_fill_idempotent_3d :
  forall (V : Type) (N : Num V) (dom : domain V) (d : disc3 V) (s t : list V),
  valid_domain3 dom -> nhalo dom <= nx dom /\ nhalo dom <= ny dom /\ nhalo dom <= nz dom ->
  make3 dom = Ok d -> zlen s = cells3 dom -> zlen t = cells3 dom ->
  let fill a := rbind (apply_periodic3 d a) (apply_neumann3 d) in
  (exists s', fill s = Ok s' /\ fill s' = Ok s') /\
  ((forall i j k, inside3 dom i j k -> zget s (slot3 dom i j k) = zget t (slot3 dom i j k)) ->
   fill s = fill t).
Proof.
  intros V N dom d s t HV HT HM HS HTL fill. destruct (make3_inv dom d HV HM) as (W & <-).
  set (dom := d3_domain d) in *.
  assert (F : forall a u, holds3 dom a u -> exists a', fill a = Ok a' /\ holds3 dom a' (extend3 dom u)).
  { intros a u Ha. destruct (apply_bcs3_full d a u W HT Ha) as (s1 & s2 & E1 & E2 & H).
    exists s2. unfold fill. rewrite E1. cbn. auto. }
  destruct (holds3_exists dom s HV HS) as (u & Hu).
  destruct (holds3_exists dom t HV HTL) as (v & Hv).
  destruct (F s u Hu) as (s' & Es & Hs'). destruct (F t v Hv) as (t' & Et & Ht').
  destruct HV as (H1 & H2 & H3 & H4).
  split.
  - exists s'. split; auto. destruct (F s' _ Hs') as (s'' & Es' & Hs''). rewrite Es'. f_equal.
    apply (holds3_unique dom _ _ (extend3 dom u)); auto; [repeat split; auto|].
    eapply holds3_ext; [exact Hs''|]. intros i j k _. unfold extend3.
    rewrite !(extend1_inside _ _ (extend1 _ _ _)) by (apply extend1_range; auto). reflexivity.
  - intros A. rewrite Es, Et. f_equal.
    apply (holds3_unique dom _ _ (extend3 dom u)); auto; [repeat split; auto|].
    eapply holds3_ext; [exact Ht'|]. intros i j k _. unfold extend3.
    set (i' := extend1 _ _ i). set (j' := extend1 _ _ j). set (k' := extend1 _ _ k).
    assert (I : inside3 dom i' j' k') by (repeat split; apply extend1_range; auto).
    assert (P : padded3 dom i' j' k') by (apply inside_padded3; auto).
    specialize (A _ _ _ I). destruct Hu as (_ & Hu). destruct Hv as (_ & Hv).
    rewrite Hu, Hv in A by auto. congruence.
Qed.

Lemma pf_C09_fill_idempotent_2d :
  forall (V : Type) (N : Num V) (dom : domain V) (d : disc2 V) (s t : list V),
  valid_domain2 dom -> nhalo dom <= nx dom -> make2 dom = Ok d -> zlen s = cells2 dom -> zlen t = cells2 dom ->
  (exists s', apply_periodic2 d s = Ok s' /\ apply_periodic2 d s' = Ok s') /\
  ((forall i j, inside2 dom i j -> zget s (slot2 dom i j) = zget t (slot2 dom i j)) ->
   apply_periodic2 d s = apply_periodic2 d t).
Proof.
  intros V N dom d s t HV HT HM HS HTL. destruct (make2_inv dom d HV HM) as (W & <-).
  set (dom := d2_domain d) in *.
  assert (F : forall a u, holds2 dom a u -> exists a', apply_periodic2 d a = Ok a' /\ holds2 dom a' (periodic2 dom u)).
  { intros a u Ha. destruct (apply_periodic2_full d a u W HT Ha) as (? & ? & ? & s4 & E & H & _).
    exists s4. auto. }
  destruct (holds2_exists dom s HV HS) as (u & Hu).
  destruct (holds2_exists dom t HV HTL) as (v & Hv).
  destruct (F s u Hu) as (s' & Es & Hs'). destruct (F t v Hv) as (t' & Et & Ht').
  destruct HV as (H1 & H4).
  split.
  - exists s'. split; auto. destruct (F s' _ Hs') as (s'' & Es' & Hs''). rewrite Es'. f_equal.
    apply (holds2_unique dom _ _ (periodic2 dom u)); auto; [split; auto|].
    eapply holds2_ext; [exact Hs''|]. intros i j _. unfold periodic2. rewrite !Z.mod_mod by lia. reflexivity.
  - intros A. rewrite Es, Et. f_equal.
    apply (holds2_unique dom _ _ (periodic2 dom u)); auto; [split; auto|].
    eapply holds2_ext; [exact Ht'|]. intros i j _. unfold periodic2.
    assert (I : inside2 dom (i mod nx dom) (j mod nx dom)) by (split; apply Z.mod_pos_bound; lia).
    assert (P : padded2 dom (i mod nx dom) (j mod nx dom)) by (apply inside_padded2; auto).
    specialize (A _ _ I). destruct Hu as (_ & Hu). destruct Hv as (_ & Hv).
    rewrite Hu, Hv in A by auto. congruence.
Qed.

Section TooFew.
  Context {V : Type} `{N : Num V}.
  Open Scope Z_scope.

  (** A loop whose first iteration faults is undefined. *)
  Lemma first_iteration_ub n (body : Z -> prog V) m :
    0 < n -> exec (body 0) m = UB -> forall_loop 0 n body m = UB.
  Proof.
    intros Hn HB. unfold forall_loop. rewrite zrange_cons by auto. cbn. rewrite HB. reflexivity.
  Qed.

  Lemma zget_neg (l : list V) i : i < 0 -> zget l i = None.
  Proof. intros. unfold zget. destruct (i <? 0) eqn:E; [reflexivity|lia]. Qed.

  Lemma interior_first3 d : wf3 d -> zget (d3_interior d) 0 = Some (slot3 (d3_domain d) 0 0 0) /\
      getIJK3 d (slot3 (d3_domain d) 0 0 0) = (0, 0, 0) /\ 0 < zlen (d3_interior d).
  Proof.
    intros W. destruct (wf_valid d W) as (H1 & H2 & H3 & H4).
    split; [|split].
    - rewrite (wf_interior d W), zget_map.
      pose proof (zget_box3 0 (nx (d3_domain d)) 0 (ny (d3_domain d)) 0 (nz (d3_domain d)) 0 0 0) as G.
      rewrite !Z.sub_diag, !Z.mul_0_l, !Z.add_0_l in G.
      rewrite G by lia. reflexivity.
    - apply getIJK3_slot; auto. repeat split; lia.
    - rewrite (wf_interior d W). unfold zlen. rewrite map_length.
      pose proof (zlen_interior3 (d3_domain d) (wf_valid d W)) as L. unfold zlen in L. rewrite L.
      apply Z.mul_pos_pos; [apply Z.mul_pos_pos|]; lia.
  Qed.

  Lemma interior_first2 d : wf2 d -> zget (d2_interior d) 0 = Some (slot2 (d2_domain d) 0 0) /\
      getIJ2 d (slot2 (d2_domain d) 0 0) = (0, 0) /\ 0 < zlen (d2_interior d).
  Proof.
    intros W. destruct (wf2_valid d W) as (H1 & H4).
    split; [|split].
    - rewrite (wf2_interior d W), zget_map.
      pose proof (zget_box2 0 (nx (d2_domain d)) 0 (nx (d2_domain d)) 0 0) as G.
      rewrite !Z.sub_diag, !Z.mul_0_l, !Z.add_0_l in G.
      rewrite G by lia. reflexivity.
    - apply getIJ2_slot; auto. repeat split; lia.
    - rewrite (wf2_interior d W). unfold zlen. rewrite map_length.
      pose proof (zlen_box2 0 (nx (d2_domain d)) 0 (nx (d2_domain d))) as L. unfold zlen in L. rewrite L.
      apply Z.mul_pos_pos; lia.
  Qed.
End TooFew.

Ltac run_loads :=
  repeat match goal with
  | |- UB = UB => reflexivity
  | |- context [match zget ?l ?q with _ => _ end] =>
      first [rewrite (zget_neg l q) by lia; reflexivity | destruct (zget l q); cbn [exec mread nth_error]]
  end.

Lemma pf_C10_stencil_safety_3d :
  forall (V : Type) (N : Num V) (dom : domain V) (d : disc3 V) (s o : list V) (u : Z -> Z -> Z -> V),
  valid_domain3 dom -> make3 dom = Ok d -> holds3 dom s u -> zlen o = cells3 dom ->
  let dx := d3_dx d in
  let lap (i j k : Z) :=
    ndiv (nsub (nadd (nadd (nadd (nadd (nadd (u (i - 1) j k) (u (i + 1) j k)) (u i (j - 1) k)) (u i (j + 1) k))
                     (u i j (k - 1))) (u i j (k + 1)))
               (nmul (nint 6) (u i j k))) (nmul dx dx) in
  (1 <= nhalo dom ->
     exists o', laplacian3 d s o = Ok (s, o') /\ holds_inside3 dom o' lap /\ same_halo3 dom o o') /\
  (nhalo dom = 0 -> laplacian3 d s o = UB) /\
  (2 <= nhalo dom ->
     exists o', biharmonic3 d s o = Ok (s, o') /\ zlen o' = cells3 dom /\ same_halo3 dom o o') /\
  (nhalo dom <= 1 -> biharmonic3 d s o = UB).
Proof.
  intros V N dom d s o u HV HM HS HO dx lap. destruct (make3_inv dom d HV HM) as (W & <-).
  set (dom := d3_domain d) in *.
  destruct (interior_first3 d W) as (F0 & F1 & F2). fold dom in F0, F1.
  destruct HV as (H1 & H2 & H3 & H4).
  split; [|split; [|split]].
  - intros HH. destruct (laplacian3_full d s o u W HH HS HO) as (o' & E & A & B & _).
    exists o'. auto.
  - intros HH. unfold laplacian3. rewrite first_iteration_ub; auto.
    unfold laplacian_body3, at_interior3. rewrite F0, F1. rewrite !ix3_slot by auto. fold dom.
    cbn [exec mread nth_error].
    rewrite (zget_neg s (slot3 dom (0 - 1) 0 0)); [reflexivity|].
    unfold slot3. rewrite HH. nia.
  - intros HH. destruct (biharmonic3_full d s o u W HH HS HO) as (o' & E & A & B & _).
    exists o'. repeat split; auto; try apply A; apply B.
  - intros HH. unfold biharmonic3. rewrite first_iteration_ub; auto.
    unfold biharmonic_body3, at_interior3. rewrite F0, F1. rewrite !ix3_slot by auto. fold dom.
    assert (NEG : slot3 dom (0 - 2) 0 0 < 0) by (unfold slot3; assert (nhalo dom = 0 \/ nhalo dom = 1) as [-> | ->] by lia; nia).
    cbn [exec mread nth_error].
    repeat match goal with
    | |- UB = UB => reflexivity
    | |- match zget s (slot3 dom (0 - 2) 0 0) with _ => _ end = UB => rewrite (zget_neg s _ NEG); reflexivity
    | |- match zget s ?q with _ => _ end = UB => destruct (zget s q); [|reflexivity]
    end.
Qed.

Lemma pf_C10_stencil_safety_2d :
  forall (V : Type) (N : Num V) (dom : domain V) (d : disc2 V) (s o : list V) (u : Z -> Z -> V),
  valid_domain2 dom -> make2 dom = Ok d -> holds2 dom s u -> zlen o = cells2 dom ->
  let dx := d2_dx d in
  let lap (i j : Z) :=
    nadd (ndiv (nadd (nsub (u (i - 1) j) (nmul (nint 2) (u i j))) (u (i + 1) j)) (nmul dx dx))
         (ndiv (nadd (nsub (u i (j - 1)) (nmul (nint 2) (u i j))) (u i (j + 1))) (nmul dx dx)) in
  (1 <= nhalo dom ->
     exists o', laplacian2 d s o = Ok (s, o') /\ holds_inside2 dom o' lap /\ same_halo2 dom o o') /\
  (nhalo dom = 0 -> laplacian2 d s o = UB) /\
  (2 <= nhalo dom ->
     exists o', biharmonic2 d s o = Ok (s, o') /\ zlen o' = cells2 dom /\ same_halo2 dom o o') /\
  (nhalo dom <= 1 -> biharmonic2 d s o = UB).
Proof.
  intros V N dom d s o u HV HM HS HO dx lap. destruct (make2_inv dom d HV HM) as (W & <-).
  set (dom := d2_domain d) in *.
  destruct (interior_first2 d W) as (F0 & F1 & F2). fold dom in F0, F1.
  destruct HV as (H1 & H4).
  split; [|split; [|split]].
  - intros HH. destruct (laplacian2_full d s o u W HH HS HO) as (o' & E & A & B & _).
    exists o'. auto.
  - intros HH. unfold laplacian2. rewrite first_iteration_ub; auto.
    unfold laplacian_body2, at_interior2. rewrite F0, F1. rewrite !ix2_slot by auto. fold dom.
    cbn [exec mread nth_error].
    rewrite (zget_neg s (slot2 dom (0 - 1) 0)); [reflexivity|].
    unfold slot2. rewrite HH. nia.
  - intros HH. destruct (biharmonic2_full d s o u W HH HS HO) as (o' & E & A & B & _).
    exists o'. repeat split; auto; try apply A; apply B.
  - intros HH. unfold biharmonic2. rewrite first_iteration_ub; auto.
    unfold biharmonic_body2, at_interior2. rewrite F0, F1. rewrite !ix2_slot by auto. fold dom.
    assert (NEG : slot2 dom (0 - 2) 0 < 0) by (unfold slot2; assert (nhalo dom = 0 \/ nhalo dom = 1) as [-> | ->] by lia; nia).
    cbn [exec mread nth_error].
    repeat match goal with
    | |- UB = UB => reflexivity
    | |- match zget s (slot2 dom (0 - 2) 0) with _ => _ end = UB => rewrite (zget_neg s _ NEG); reflexivity
    | |- match zget s ?q with _ => _ end = UB => destruct (zget s q); [|reflexivity]
    end.
Qed.

