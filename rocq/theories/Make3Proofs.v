(** The 3D grid constructor: it succeeds on every valid domain, and what it builds. *)
From Verif Require Import Outcome ZList ZListProofs Num Kernel KernelProofs Gather Loop
  ModelIndex IndexProofs ModelDisc3D SpecGrid Disc3DProofs.
From Coq Require Import ZifyBool ZifyNat.

(** The grid of cell corners: one more point in each direction. *)
Definition corner_domain3 {V} (dom : domain V) : domain V :=
  {| nx := nx dom + 1; ny := ny dom + 1; nz := nz dom + 1;
     xbeg := xbeg dom; xend := xend dom; ybeg := ybeg dom; yend := yend dom;
     zbeg := zbeg dom; zend := zend dom;
     xbc := xbc dom; ybc := ybc dom; zbc := zbc dom; nhalo := nhalo dom |}.

Lemma zlen_filter_split {A} (f : A -> bool) (l : list A) :
  zlen (filter f l) + zlen (filter (fun x => negb (f x)) l) = zlen l.
Proof.
  induction l as [|x l IH]; simpl; [reflexivity|].
  unfold zlen in *. destruct (f x); cbn [negb length] in *; lia.
Qed.

Lemma nodup_same_zlen {A} (l1 l2 : list A) :
  NoDup l1 -> NoDup l2 -> (forall x, In x l1 <-> In x l2) -> zlen l1 = zlen l2.
Proof.
  intros N1 N2 H. unfold zlen.
  assert (length l1 <= length l2)%nat by (apply NoDup_incl_length; auto; intros x Hx; apply H; auto).
  assert (length l2 <= length l1)%nat by (apply NoDup_incl_length; auto; intros x Hx; apply H; auto).
  lia.
Qed.

Section Make3.
  Context {V : Type} `{N : Num V}.
  Implicit Types (dom : domain V) (d : disc3 V).

  Definition halo_cells3 dom : list (Z * Z * Z) :=
    filter (fun c => let '(i, j, k) := c in is_halo_cell (nx dom) (ny dom) (nz dom) i j k)
      (box3 (- nhalo dom) (nx dom + nhalo dom) (- nhalo dom) (ny dom + nhalo dom)
            (- nhalo dom) (nz dom + nhalo dom)).

  Lemma is_halo_iff dom i j k :
    is_halo_cell (nx dom) (ny dom) (nz dom) i j k = true <-> ~ inside3 dom i j k.
  Proof. unfold is_halo_cell, inside3. lia. Qed.

  Lemma in_halo_cells3 dom i j k :
    In (i, j, k) (halo_cells3 dom) <-> padded3 dom i j k /\ ~ inside3 dom i j k.
  Proof. unfold halo_cells3. rewrite filter_In, in_box3, is_halo_iff. unfold padded3. tauto. Qed.

  Lemma nodup_halo_cells3 dom : NoDup (halo_cells3 dom).
  Proof. apply NoDup_filter. apply nodup_box3. Qed.

  Lemma zlen_halo_cells3 dom :
    valid_domain3 dom -> zlen (halo_cells3 dom) = cells3 dom - nx dom * ny dom * nz dom.
  Proof.
    intros (H1 & H2 & H3 & Hh). unfold halo_cells3.
    set (f := fun c : Z * Z * Z => let '(i, j, k) := c in is_halo_cell (nx dom) (ny dom) (nz dom) i j k).
    set (B := box3 _ _ _ _ _ _).
    pose proof (zlen_filter_split f B) as E.
    assert (E2 : zlen (filter (fun x => negb (f x)) B) =
                 zlen (box3 0 (nx dom) 0 (ny dom) 0 (nz dom))).
    { apply nodup_same_zlen.
      - apply NoDup_filter. apply nodup_box3.
      - apply nodup_box3.
      - intros [[i j] k]. rewrite filter_In. unfold B. rewrite !in_box3. simpl.
        rewrite negb_true_iff. unfold is_halo_cell. lia. }
    rewrite E2 in E. assert (E3 : zlen B = cells3 dom).
    { unfold B, cells3. rewrite zlen_box3, !Z.max_r by lia.
      replace (nx dom + nhalo dom - - nhalo dom) with (nx dom + 2 * nhalo dom) by lia.
      replace (ny dom + nhalo dom - - nhalo dom) with (ny dom + 2 * nhalo dom) by lia.
      replace (nz dom + nhalo dom - - nhalo dom) with (nz dom + 2 * nhalo dom) by lia.
      apply Z.mul_assoc. }
    assert (E4 : zlen (box3 0 (nx dom) 0 (ny dom) 0 (nz dom)) = nx dom * ny dom * nz dom).
    { rewrite zlen_box3, !Z.max_r, !Z.sub_0_r by lia. apply Z.mul_assoc. }
    lia.
  Qed.

  Definition wrap_slot3 dom (c : Z * Z * Z) : Z * Z :=
    let '(i, j, k) := c in
    (slot3 dom i j k, slot3 dom (wrap1 (nx dom) i) (wrap1 (ny dom) j) (wrap1 (nz dom) k)).

  Lemma flat_map_if {A B} (p : A -> bool) (f : A -> B) xs :
    flat_map (fun x => if p x then [f x] else []) xs = map f (filter p xs).
  Proof. induction xs as [|x xs IH]; simpl; auto. destruct (p x); simpl; rewrite IH; auto. Qed.

  Lemma periodic_pairs3_eq dom :
    periodic_pairs3 (nx dom) (ny dom) (nz dom) (nhalo dom)
      (ny dom + 2 * nhalo dom) (nz dom + 2 * nhalo dom) = map (wrap_slot3 dom) (halo_cells3 dom).
  Proof.
    unfold halo_cells3. rewrite <- flat_map_if.
    unfold periodic_pairs3, box3. rewrite flat_map_flat_map. apply flat_map_ext. intros i.
    rewrite flat_map_flat_map. apply flat_map_ext. intros j.
    rewrite flat_map_map. apply flat_map_ext. intros k. unfold wrap_slot3. rewrite !slot3_eq. reflexivity.
  Qed.

  Lemma interior_list3_eq dom :
    interior_list3 (nx dom) (ny dom) (nz dom) (nhalo dom)
      (ny dom + 2 * nhalo dom) (nz dom + 2 * nhalo dom) =
    map (fun c => let '(i, j, k) := c in slot3 dom i j k) (box3 0 (nx dom) 0 (ny dom) 0 (nz dom)).
  Proof.
    rewrite map_box3. unfold interior_list3.
    apply flat_map_ext; intros i. apply flat_map_ext; intros j. apply map_ext; intros k. apply slot3_eq.
  Qed.

  Lemma zlen_interior3 dom :
    valid_domain3 dom -> zlen (box3 0 (nx dom) 0 (ny dom) 0 (nz dom)) = nx dom * ny dom * nz dom.
  Proof.
    intros (H1 & H2 & H3 & Hh). rewrite zlen_box3, !Z.max_r, !Z.sub_0_r by lia. lia.
  Qed.

  Definition padded_box dom : list (Z * Z * Z) :=
    box3 (- nhalo dom) (nx dom + nhalo dom) (- nhalo dom) (ny dom + nhalo dom)
         (- nhalo dom) (nz dom + nhalo dom).

  Lemma in_padded_box dom i j k : In (i, j, k) (padded_box dom) <-> padded3 dom i j k.
  Proof. apply in_box3. Qed.

  Lemma slot3_padded_inj dom (x y : Z * Z * Z) :
    In x (padded_box dom) -> In y (padded_box dom) ->
    (let '(i, j, k) := x in slot3 dom i j k) = (let '(i, j, k) := y in slot3 dom i j k) -> x = y.
  Proof.
    destruct x as [[i j] k], y as [[i' j'] k']. intros Hx Hy E. apply in_padded_box in Hx, Hy.
    destruct (slot3_inj dom i j k i' j' k') as (-> & -> & ->); auto.
  Qed.

  Lemma storage3_cells dom : storage3D (nx dom) (ny dom) (nz dom) (nhalo dom) = cells3 dom.
  Proof. reflexivity. Qed.

  Lemma cells3_nonneg dom : valid_domain3 dom -> 0 <= cells3 dom.
  Proof.
    intros (H1 & H2 & H3 & Hh). unfold cells3.
    apply Z.mul_nonneg_nonneg; [apply Z.mul_nonneg_nonneg|]; lia.
  Qed.

  Lemma valid_corner dom : valid_domain3 dom -> valid_domain3 (corner_domain3 dom).
  Proof. unfold valid_domain3; simpl; lia. Qed.

  Let dxof dom : V := ndiv (nsub (xend dom) (xbeg dom)) (nint (nx dom)).

  Lemma vertex_loop dom x0 y0 z0 dx a b c :
    valid_domain3 dom ->
    zlen a = cells3 (corner_domain3 dom) -> zlen b = cells3 (corner_domain3 dom) ->
    zlen c = cells3 (corner_domain3 dom) ->
    exists xv yv zv,
      exec_all (vertex_progs3 (nx dom) (ny dom) (nz dom) (nhalo dom) x0 y0 z0 dx) [a; b; c] = Ok [xv; yv; zv] /\
      holds3 (corner_domain3 dom) xv (fun i _ _ => nadd x0 (nmul dx (nint i))) /\
      holds3 (corner_domain3 dom) yv (fun _ j _ => nadd y0 (nmul dx (nint j))) /\
      holds3 (corner_domain3 dom) zv (fun _ _ k => nadd z0 (nmul dx (nint k))).
  Proof.
    intros HV La Lb Lc. set (vd := corner_domain3 dom).
    assert (EQ : vertex_progs3 (nx dom) (ny dom) (nz dom) (nhalo dom) x0 y0 z0 dx =
      map (fun t => let '(i, j, k) := t in
             Wr 0%nat (slot3 vd i j k) (nadd x0 (nmul dx (nint i)))
            (Wr 1%nat (slot3 vd i j k) (nadd y0 (nmul dx (nint j)))
            (Wr 2%nat (slot3 vd i j k) (nadd z0 (nmul dx (nint k))) Done))) (padded_box vd)).
    { unfold padded_box, vd. simpl. rewrite map_box3. unfold vertex_progs3.
      replace (nx dom + 1 + nhalo dom) with (nx dom + nhalo dom + 1) by lia.
      replace (ny dom + 1 + nhalo dom) with (ny dom + nhalo dom + 1) by lia.
      replace (nz dom + 1 + nhalo dom) with (nz dom + nhalo dom + 1) by lia.
      apply flat_map_ext; intros i. apply flat_map_ext; intros j. apply map_ext; intros k.
      rewrite <- (slot3_eq (corner_domain3 dom)). reflexivity. }
    assert (HB : forall i j k, padded3 vd i j k -> 0 <= slot3 vd i j k < cells3 vd)
      by (intros; apply slot3_range; auto).
    destruct (cell_loop (padded_box vd) (fun t => let '(i, j, k) := t in slot3 vd i j k)
       (fun t => let '(i, j, k) := t in
             Wr 0%nat (slot3 vd i j k) (nadd x0 (nmul dx (nint i)))
            (Wr 1%nat (slot3 vd i j k) (nadd y0 (nmul dx (nint j)))
            (Wr 2%nat (slot3 vd i j k) (nadd z0 (nmul dx (nint k))) Done)))
       [(0%nat, fun t => let '(i, j, k) := t in nadd x0 (nmul dx (nint i)));
        (1%nat, fun t => let '(i, j, k) := t in nadd y0 (nmul dx (nint j)));
        (2%nat, fun t => let '(i, j, k) := t in nadd z0 (nmul dx (nint k)))] [a; b; c])
      as (m' & SI & SH & T & F).
    - apply nodup_box3.
    - apply slot3_padded_inj.
    - simpl. repeat constructor; simpl; intuition discriminate.
    - intros [[i j] k] H. prove_uses ltac:(simpl; tauto).
    - intros [[i j] k] H. apply in_padded_box, HB in H. simpl.
      prove_stores idtac ltac:(first [apply inb_0; rewrite La; exact H
        | apply inb_1; rewrite Lb; exact H | apply inb_2; rewrite Lc; exact H]).
    - apply same_shape_three in SH as (xv & yv & zv & -> & L1 & L2 & L3).
      exists xv, yv, zv. rewrite EQ. split; [apply SI|].
      assert (GEN : forall a l f, nth_error [xv; yv; zv] a = Some l ->
                In (a, f) [(0%nat, fun t : Z * Z * Z => let '(i, j, k) := t in nadd x0 (nmul dx (nint i)));
                  (1%nat, fun t => let '(i, j, k) := t in nadd y0 (nmul dx (nint j)));
                  (2%nat, fun t => let '(i, j, k) := t in nadd z0 (nmul dx (nint k)))] ->
                forall i j k, padded3 vd i j k -> zget l (slot3 vd i j k) = Some (f (i, j, k))).
      { intros a0 l f Hn Hi i j k H. pose proof (T a0 f (i, j, k) Hi) as G. simpl in G.
        unfold mread in G. rewrite Hn in G. apply G. apply in_padded_box; auto. }
      split; [|split]; (split; [unfold vd in *; congruence|]); intros i j k H.
      + rewrite (GEN 0%nat xv _ eq_refl (or_introl eq_refl)); auto.
      + rewrite (GEN 1%nat yv _ eq_refl (or_intror (or_introl eq_refl))); auto.
      + rewrite (GEN 2%nat zv _ eq_refl (or_intror (or_intror (or_introl eq_refl)))); auto.
  Qed.

  Lemma inb_nth (m : mem V) a l q : nth_error m a = Some l -> 0 <= q < zlen l -> inb m a q.
  Proof. intros; exists l; auto. Qed.

  Lemma centre_loop dom xv yv zv a b c (fx fy fz : Z -> Z -> Z -> V) :
    valid_domain3 dom ->
    holds3 (corner_domain3 dom) xv fx -> holds3 (corner_domain3 dom) yv fy -> holds3 (corner_domain3 dom) zv fz ->
    zlen a = cells3 dom -> zlen b = cells3 dom -> zlen c = cells3 dom ->
    exists x y z,
      exec_all (centre_progs3 (nx dom) (ny dom) (nz dom) (nhalo dom)) [xv; yv; zv; a; b; c]
        = Ok [xv; yv; zv; x; y; z] /\
      holds3 dom x (fun i j k => nmul (nrat 1 2) (nadd (fx i j k) (fx (i + 1) j k))) /\
      holds3 dom y (fun i j k => nmul (nrat 1 2) (nadd (fy i j k) (fy i (j + 1) k))) /\
      holds3 dom z (fun i j k => nmul (nrat 1 2) (nadd (fz i j k) (fz i j (k + 1)))).
  Proof.
    intros HV Hx Hy Hz La Lb Lc. set (vd := corner_domain3 dom) in *.
    set (body := fun t : Z * Z * Z => let '(i, j, k) := t in
      Rd 0%nat (slot3 vd i j k) (fun x0 => Rd 0%nat (slot3 vd (i + 1) j k) (fun x1 =>
      Wr 3%nat (slot3 dom i j k) (nmul (nrat 1 2) (nadd x0 x1))
     (Rd 1%nat (slot3 vd i j k) (fun y0 => Rd 1%nat (slot3 vd i (j + 1) k) (fun y1 =>
      Wr 4%nat (slot3 dom i j k) (nmul (nrat 1 2) (nadd y0 y1))
     (Rd 2%nat (slot3 vd i j k) (fun z0 => Rd 2%nat (slot3 vd i j (k + 1)) (fun z1 =>
      Wr 5%nat (slot3 dom i j k) (nmul (nrat 1 2) (nadd z0 z1)) Done)))))))) : prog V).
    set (outs := [(3%nat, fun t : Z * Z * Z => let '(i, j, k) := t in nmul (nrat 1 2) (nadd (fx i j k) (fx (i + 1) j k)));
                  (4%nat, fun t => let '(i, j, k) := t in nmul (nrat 1 2) (nadd (fy i j k) (fy i (j + 1) k)));
                  (5%nat, fun t => let '(i, j, k) := t in nmul (nrat 1 2) (nadd (fz i j k) (fz i j (k + 1))))]).
    assert (EQ : centre_progs3 (nx dom) (ny dom) (nz dom) (nhalo dom) = map body (padded_box dom)).
    { unfold padded_box, body. rewrite map_box3. unfold centre_progs3.
      apply flat_map_ext; intros i. apply flat_map_ext; intros j. apply map_ext; intros k.
      unfold vd. rewrite <- !(slot3_eq (corner_domain3 dom)), <- !(slot3_eq dom). reflexivity. }
    assert (HP : forall i j k, padded3 dom i j k -> padded3 vd i j k /\ padded3 vd (i + 1) j k /\
                 padded3 vd i (j + 1) k /\ padded3 vd i j (k + 1))
      by (unfold padded3; simpl; intros; lia).
    destruct (cell_loop (padded_box dom) (fun t => let '(i, j, k) := t in slot3 dom i j k)
       body outs [xv; yv; zv; a; b; c]) as (m' & SI & SH & T & F).
    - apply nodup_box3.
    - apply slot3_padded_inj.
    - simpl. repeat constructor; simpl; intuition discriminate.
    - intros [[i j] k] H. apply in_padded_box in H. destruct (HP _ _ _ H) as (P0 & P1 & P2 & P3).
      unfold body.
      prove_uses ltac:(first
        [ split; [|simpl; intuition discriminate];
          eapply inb_nth; [reflexivity|]; simpl;
          first [rewrite (proj1 Hx) | rewrite (proj1 Hy) | rewrite (proj1 Hz)]; apply slot3_range; auto
        | simpl; tauto ]).
    - intros [[i j] k] H. apply in_padded_box in H. destruct (HP _ _ _ H) as (P0 & P1 & P2 & P3).
      unfold body, outs. cbn [map fst snd].
      prove_stores ltac:(unfold mread; simpl; first [apply Hx|apply Hy|apply Hz]; auto)
        ltac:(eapply inb_nth; [reflexivity|]; simpl;
              first [rewrite La | rewrite Lb | rewrite Lc]; apply slot3_range; auto).
    - assert (exists x y z, m' = [xv; yv; zv; x; y; z] /\ zlen x = cells3 dom /\ zlen y = cells3 dom /\ zlen z = cells3 dom)
        as (x & y & z & -> & L1 & L2 & L3).
      { unfold same_shape in SH.
        destruct m' as [|xv' [|yv' [|zv' [|x [|y [|z [|? ?]]]]]]]; simpl in SH; try discriminate.
        injection SH as E1 E2 E3 E4 E5 E6. exists x, y, z. unfold zlen in *.
        assert (FR : forall n l l', nth_error [xv; yv; zv; a; b; c] n = Some l ->
                  nth_error [xv'; yv'; zv'; x; y; z] n = Some l' -> (n < 3)%nat -> length l = length l' -> l' = l).
        { intros n l l' Hn Hn' Hlt EL. apply unread_eq; [unfold zlen; lia|]. intros q.
          specialize (F n q). unfold mread in F. rewrite Hn, Hn' in F. apply F.
          left. simpl. lia. }
        rewrite (FR 0%nat xv xv'), (FR 1%nat yv yv'), (FR 2%nat zv zv'); auto; repeat split; lia. }
      exists x, y, z. rewrite EQ. split; [apply SI|].
      assert (GEN : forall n l f, nth_error [xv; yv; zv; x; y; z] n = Some l -> In (n, f) outs ->
                forall i j k, padded3 dom i j k -> zget l (slot3 dom i j k) = Some (f (i, j, k))).
      { intros n l f Hn Hi i j k H. pose proof (T n f (i, j, k) Hi) as G. simpl in G.
        unfold mread in G. rewrite Hn in G. apply G. apply in_padded_box; auto. }
      split; [|split]; (split; [congruence|]); intros i j k H.
      + rewrite (GEN 3%nat x _ eq_refl (or_introl eq_refl)); auto.
      + rewrite (GEN 4%nat y _ eq_refl (or_intror (or_introl eq_refl))); auto.
      + rewrite (GEN 5%nat z _ eq_refl (or_intror (or_intror (or_introl eq_refl)))); auto.
  Qed.

  (** Where the constructor puts corners and centres. *)
  Definition corner_at (x0 dx : V) (i : Z) : V := nadd x0 (nmul dx (nint i)).
  Definition centre_at (x0 dx : V) (i : Z) : V :=
    nmul (nrat 1 2) (nadd (corner_at x0 dx i) (corner_at x0 dx (i + 1))).

  Theorem make3_ok dom :
    valid_domain3 dom ->
    exists d, make3 dom = Ok d /\ wf3 d /\ d3_domain d = dom /\
      holds3 (corner_domain3 dom) (d3_xv d) (fun i _ _ => corner_at (xbeg dom) (d3_dx d) i) /\
      holds3 (corner_domain3 dom) (d3_yv d) (fun _ j _ => corner_at (ybeg dom) (d3_dx d) j) /\
      holds3 (corner_domain3 dom) (d3_zv d) (fun _ _ k => corner_at (zbeg dom) (d3_dx d) k) /\
      holds3 dom (d3_x d) (fun i _ _ => centre_at (xbeg dom) (d3_dx d) i) /\
      holds3 dom (d3_y d) (fun _ j _ => centre_at (ybeg dom) (d3_dx d) j) /\
      holds3 dom (d3_z d) (fun _ _ k => centre_at (zbeg dom) (d3_dx d) k).
  Proof.
    intros HV. pose proof HV as (H1 & H2 & H3 & Hh).
    assert (HC := cells3_nonneg dom HV).
    assert (HCC := cells3_nonneg _ (valid_corner _ HV)).
    unfold make3.
    rewrite interior_list3_eq, periodic_pairs3_eq.
    rewrite fill_from_ok; [|apply Z.mul_nonneg_nonneg; [apply Z.mul_nonneg_nonneg|]; lia
                           |rewrite zlen_map; apply zlen_interior3; auto].
    cbn [rbind].
    rewrite (storage3_cells dom).
    change (storage3D (nx dom + 1) (ny dom + 1) (nz dom + 1) (nhalo dom)) with (cells3 (corner_domain3 dom)).
    set (verts := new_array (nint 0) (cells3 (corner_domain3 dom))).
    set (cells := new_array (nint 0) (cells3 dom)).
    assert (Lv : zlen verts = cells3 (corner_domain3 dom)) by (apply zlen_new_array; auto).
    assert (Lc : zlen cells = cells3 dom) by (apply zlen_new_array; auto).
    set (dx := ndiv (nsub (xend dom) (xbeg dom)) (nint (nx dom))).
    destruct (vertex_loop dom (xbeg dom) (ybeg dom) (zbeg dom) dx verts verts verts HV Lv Lv Lv)
      as (xv & yv & zv & E & Hxv & Hyv & Hzv).
    rewrite E. cbn [rbind app].
    destruct (centre_loop dom xv yv zv cells cells cells _ _ _ HV Hxv Hyv Hzv Lc Lc Lc)
      as (x & y & z & E2 & Hx & Hy & Hz).
    rewrite E2. cbn [rbind].
    assert (LH : zlen (halo_cells3 dom) =
                 (nx dom + 2 * nhalo dom) * (ny dom + 2 * nhalo dom) * (nz dom + 2 * nhalo dom) - nx dom * ny dom * nz dom)
      by (rewrite zlen_halo_cells3; auto).
    rewrite !fill_from_ok; try (rewrite !zlen_map; auto); try (rewrite <- LH; unfold zlen; lia).
    cbn [rbind].
    eexists. split; [reflexivity|]. split.
    - constructor; try reflexivity; simpl; auto.
      + rewrite periodic_pairs3_eq. reflexivity.
      + rewrite periodic_pairs3_eq. reflexivity.
    - simpl. auto 10.
  Qed.

  Lemma make3_inv dom d : valid_domain3 dom -> make3 dom = Ok d -> wf3 d /\ d3_domain d = dom.
  Proof.
    intros HV E. destruct (make3_ok dom HV) as (d' & E' & W & D & _).
    rewrite E in E'. injection E' as ->. auto.
  Qed.
End Make3.
