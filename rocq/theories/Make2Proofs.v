(** The 2D grid constructor: never goes out of bounds, fills its index lists exactly, and
    puts corners and centres where they belong. *)
From Verif Require Import Outcome ZList ZListProofs Num Kernel KernelProofs Gather Loop
  ModelIndex IndexProofs ModelDisc3D ModelDisc2D SpecGrid Disc3DProofs Make3Proofs BC3Proofs Disc2DProofs.
From Coq Require Import ZifyBool ZifyNat.

Section Make2.
  Context {V : Type} `{N : Num V}.
  Implicit Types (dom : domain V) (d : disc2 V).

  Lemma map_box2' {B} (f : Z * Z -> B) il ih jl jh :
    map f (box2 il ih jl jh) = flat_map (fun i => map (fun j => f (i, j)) (zrange jl jh)) (zrange il ih).
  Proof.
    rewrite <- (map_box2 (fun i j => f (i, j))). apply map_ext. intros [i j]; reflexivity.
  Qed.

  Definition padded_box2 dom : list (Z * Z) :=
    box2 (- nhalo dom) (nx dom + nhalo dom) (- nhalo dom) (nx dom + nhalo dom).

  Lemma in_padded_box2 dom i j : In (i, j) (padded_box2 dom) <-> padded2 dom i j.
  Proof. apply in_box2. Qed.

  Lemma pslot2_padded_inj dom x y :
    In x (padded_box2 dom) -> In y (padded_box2 dom) -> pslot2 dom x = pslot2 dom y -> x = y.
  Proof.
    destruct x as [i j], y as [i' j']. intros Hx Hy E. apply in_padded_box2 in Hx, Hy.
    destruct (slot2_inj dom i j i' j') as (-> & ->); auto.
  Qed.

  Lemma cells2_nonneg dom : valid_domain2 dom -> 0 <= cells2 dom.
  Proof. intros (H1 & Hh). unfold cells2. apply Z.mul_nonneg_nonneg; lia. Qed.

  Lemma in_bcells2 dom i j : valid_domain2 dom ->
    In (i, j) (bcells2 (nx dom) (nhalo dom)) <-> padded2 dom i j /\ ~ inside2 dom i j.
  Proof.
    intros (H1 & Hh). unfold bcells2, padded2, inside2. rewrite !in_app_iff, !in_box2, !in_map_iff. split.
    - intros [([a b] & E & H)|[([a b] & E & H)|[H|H]]]; try (injection E as <- <-; apply in_box2 in H); lia.
    - intros (P & Q).
      destruct (Z_lt_dec j 0); [left; exists (j, i); split; auto; apply in_box2; lia|].
      destruct (Z_le_dec (nx dom) j); [right; left; exists (j, i); split; auto; apply in_box2; lia|].
      right; right. lia.
  Qed.

  Lemma nodup_bcells2 dom : valid_domain2 dom -> NoDup (bcells2 (nx dom) (nhalo dom)).
  Proof.
    intros (H1 & Hh). unfold bcells2.
    assert (SW : forall l : list (Z * Z), NoDup l -> NoDup (map (fun c => (snd c, fst c)) l)).
    { intros l ND. apply nodup_map_inj; auto. intros [a b] [a' b'] _ _ E. simpl in E. congruence. }
    apply nodup_app; [apply SW, nodup_box2|apply nodup_app; [apply SW, nodup_box2|apply nodup_app;
      [apply nodup_box2|apply nodup_box2|]|]|].
    - intros [i j] H H'. apply in_box2 in H, H'. lia.
    - intros [i j] H H'. apply in_map_iff in H as ([a b] & E & H). injection E as <- <-.
      apply in_box2 in H. rewrite in_app_iff, !in_box2 in H'. lia.
    - intros [i j] H H'. apply in_map_iff in H as ([a b] & E & H). injection E as <- <-.
      apply in_box2 in H. rewrite !in_app_iff, !in_box2, in_map_iff in H'.
      destruct H' as [([a' b'] & E & H')|H'].
      + injection E as <- <-. apply in_box2 in H'. lia.
      + lia.
  Qed.

  Lemma zlen_bcells2 dom : valid_domain2 dom ->
    zlen (bcells2 (nx dom) (nhalo dom)) =
    (nx dom + 2 * nhalo dom) * nhalo dom * 2 + nx dom * nhalo dom * 2.
  Proof.
    intros (H1 & Hh). unfold bcells2. rewrite !zlen_app, !zlen_map, !zlen_box2.
    rewrite !Z.max_r by lia.
    replace (0 - - nhalo dom) with (nhalo dom) by lia.
    replace (nx dom + nhalo dom - - nhalo dom) with (nx dom + 2 * nhalo dom) by lia.
    replace (nx dom + nhalo dom - nx dom) with (nhalo dom) by lia. ring.
  Qed.

  Lemma interior_list2_eq dom :
    interior_list2 (nx dom) (nhalo dom) (nx dom + 2 * nhalo dom) =
    map (pslot2 dom) (box2 0 (nx dom) 0 (nx dom)).
  Proof.
    unfold pslot2. rewrite map_box2'. unfold interior_list2.
    apply flat_map_ext; intros i. apply map_ext; intros j. apply slot2_eq.
  Qed.

  Lemma boundary_list2_eq dom :
    boundary_list2 (nx dom) (nhalo dom) (nx dom + 2 * nhalo dom) =
    map (pslot2 dom) (bcells2 (nx dom) (nhalo dom)).
  Proof.
    unfold boundary_list2, bcells2, pslot2. rewrite !map_app, !map_map. cbn [fst snd]. rewrite !map_box2'.
    do 3 (f_equal; [apply flat_map_ext; intros i; apply map_ext; intros j; apply slot2_eq|]).
    apply flat_map_ext; intros i; apply map_ext; intros j; apply slot2_eq.
  Qed.

  Lemma valid_corner2 dom : valid_domain2 dom -> valid_domain2 (corner_domain2 dom).
  Proof. unfold valid_domain2; simpl; lia. Qed.

  Lemma vertex_loop2 dom x0 y0 dx a b :
    valid_domain2 dom -> zlen a = cells2 (corner_domain2 dom) -> zlen b = cells2 (corner_domain2 dom) ->
    exists xv yv,
      exec_all (vertex_progs2 (nx dom) (nhalo dom) x0 y0 dx) [a; b] = Ok [xv; yv] /\
      holds2 (corner_domain2 dom) xv (fun i _ => corner_at x0 dx i) /\
      holds2 (corner_domain2 dom) yv (fun _ j => corner_at y0 dx j).
  Proof.
    intros HV La Lb. set (vd := corner_domain2 dom).
    set (body := fun t : Z * Z =>
      Wr 0%nat (pslot2 vd t) (corner_at x0 dx (fst t)) (Wr 1%nat (pslot2 vd t) (corner_at y0 dx (snd t)) Done)).
    assert (EQ : vertex_progs2 (nx dom) (nhalo dom) x0 y0 dx = map body (padded_box2 vd)).
    { unfold padded_box2, vd, body, pslot2. simpl. rewrite map_box2'. unfold vertex_progs2.
      replace (nx dom + 1 + nhalo dom) with (nx dom + nhalo dom + 1) by lia.
      apply flat_map_ext; intros i. apply map_ext; intros j.
      rewrite <- (slot2_eq (corner_domain2 dom)). reflexivity. }
    destruct (cell_loop (padded_box2 vd) (pslot2 vd) body
       [(0%nat, fun t => corner_at x0 dx (fst t)); (1%nat, fun t => corner_at y0 dx (snd t))] [a; b])
      as (m' & SI & SH & T & F).
    - apply nodup_box2.
    - apply pslot2_padded_inj.
    - simpl. repeat constructor; simpl; intuition discriminate.
    - intros [i j] H. unfold body. prove_uses ltac:(simpl; tauto).
    - intros [i j] H. apply in_padded_box2, slot2_range in H. unfold body. cbn [map fst snd].
      prove_stores idtac ltac:(first [apply inb_0; rewrite La; exact H | apply inb_1; rewrite Lb; exact H]).
    - apply same_shape_two in SH as (xv & yv & -> & L1 & L2).
      exists xv, yv. rewrite EQ. split; [apply SI|].
      split; (split; [unfold vd in *; congruence|]); intros i j H; apply in_padded_box2 in H.
      + exact (T 0%nat _ (i, j) (or_introl eq_refl) H).
      + exact (T 1%nat _ (i, j) (or_intror (or_introl eq_refl)) H).
  Qed.

  Lemma centre_loop2 dom xv yv a b (fx fy : Z -> Z -> V) :
    valid_domain2 dom ->
    holds2 (corner_domain2 dom) xv fx -> holds2 (corner_domain2 dom) yv fy ->
    zlen a = cells2 dom -> zlen b = cells2 dom ->
    exists x y,
      exec_all (centre_progs2 (nx dom) (nhalo dom)) [xv; yv; a; b] = Ok [xv; yv; x; y] /\
      holds2 dom x (fun i j => nmul (nrat 1 2) (nadd (fx i j) (fx (i + 1) j))) /\
      holds2 dom y (fun i j => nmul (nrat 1 2) (nadd (fy i j) (fy i (j + 1)))).
  Proof.
    intros HV Hx Hy La Lb. set (vd := corner_domain2 dom) in *.
    set (body := fun t : Z * Z =>
      Rd 0%nat (slot2 vd (fst t) (snd t)) (fun x0 : V => Rd 0%nat (slot2 vd (fst t + 1) (snd t)) (fun x1 : V =>
      Wr 2%nat (pslot2 dom t) (nmul (nrat 1 2) (nadd x0 x1))
     (Rd 1%nat (slot2 vd (fst t) (snd t)) (fun y0 : V => Rd 1%nat (slot2 vd (fst t) (snd t + 1)) (fun y1 : V =>
      Wr 3%nat (pslot2 dom t) (nmul (nrat 1 2) (nadd y0 y1)) Done)))))).
    set (outs := [(2%nat, fun t : Z * Z => nmul (nrat 1 2) (nadd (fx (fst t) (snd t)) (fx (fst t + 1) (snd t))));
                  (3%nat, fun t => nmul (nrat 1 2) (nadd (fy (fst t) (snd t)) (fy (fst t) (snd t + 1))))]).
    assert (EQ : centre_progs2 (nx dom) (nhalo dom) = map body (padded_box2 dom)).
    { unfold padded_box2, body, pslot2. rewrite map_box2'. unfold centre_progs2.
      apply flat_map_ext; intros i. apply map_ext; intros j. cbn [fst snd].
      unfold vd. rewrite <- !(slot2_eq (corner_domain2 dom)), <- !(slot2_eq dom). reflexivity. }
    assert (HP : forall i j, padded2 dom i j -> padded2 vd i j /\ padded2 vd (i + 1) j /\ padded2 vd i (j + 1))
      by (unfold padded2; simpl; intros; lia).
    destruct (cell_loop (padded_box2 dom) (pslot2 dom) body outs [xv; yv; a; b]) as (m' & SI & SH & T & F).
    - apply nodup_box2.
    - apply pslot2_padded_inj.
    - simpl. repeat constructor; simpl; intuition discriminate.
    - intros [i j] H. apply in_padded_box2 in H. destruct (HP _ _ H) as (P0 & P1 & P2).
      unfold body. cbn [fst snd].
      prove_uses ltac:(first
        [ split; [|simpl; intuition discriminate];
          eapply inb_nth; [reflexivity|]; simpl;
          first [rewrite (proj1 Hx) | rewrite (proj1 Hy)]; apply slot2_range; auto
        | simpl; tauto ]).
    - intros [i j] H. apply in_padded_box2 in H. destruct (HP _ _ H) as (P0 & P1 & P2).
      unfold body, outs. cbn [map fst snd].
      prove_stores ltac:(unfold mread; simpl; first [apply Hx|apply Hy]; auto)
        ltac:(eapply inb_nth; [reflexivity|]; simpl;
              first [rewrite La | rewrite Lb]; apply slot2_range; auto).
    - assert (exists x y, m' = [xv; yv; x; y] /\ zlen x = cells2 dom /\ zlen y = cells2 dom)
        as (x & y & -> & L1 & L2).
      { unfold same_shape in SH.
        destruct m' as [|xv' [|yv' [|x [|y [|? ?]]]]]; simpl in SH; try discriminate.
        injection SH as E1 E2 E3 E4. exists x, y. unfold zlen in *.
        assert (FR : forall n l l', nth_error [xv; yv; a; b] n = Some l ->
                  nth_error [xv'; yv'; x; y] n = Some l' -> (n < 2)%nat -> length l = length l' -> l' = l).
        { intros n l l' Hn Hn' Hlt EL. apply unread_eq; [unfold zlen; lia|]. intros q.
          specialize (F n q). unfold mread in F. rewrite Hn, Hn' in F. apply F.
          left. simpl. lia. }
        rewrite (FR 0%nat xv xv'), (FR 1%nat yv yv'); auto; repeat split; lia. }
      exists x, y. rewrite EQ. split; [apply SI|].
      split; (split; [congruence|]); intros i j H; apply in_padded_box2 in H.
      + exact (T 2%nat _ (i, j) (or_introl eq_refl) H).
      + exact (T 3%nat _ (i, j) (or_intror (or_introl eq_refl)) H).
  Qed.

  Theorem make2_ok dom :
    valid_domain2 dom ->
    exists d, make2 dom = Ok d /\ wf2 d /\ d2_domain d = dom /\
      holds2 (corner_domain2 dom) (d2_xv d) (fun i _ => corner_at (xbeg dom) (d2_dx d) i) /\
      holds2 (corner_domain2 dom) (d2_yv d) (fun _ j => corner_at (ybeg dom) (d2_dx d) j) /\
      holds2 dom (d2_x d) (fun i _ => centre_at (xbeg dom) (d2_dx d) i) /\
      holds2 dom (d2_y d) (fun _ j => centre_at (ybeg dom) (d2_dx d) j).
  Proof.
    intros HV. pose proof HV as (H1 & Hh).
    assert (HC := cells2_nonneg dom HV).
    assert (HCC := cells2_nonneg _ (valid_corner2 _ HV)).
    unfold make2. rewrite interior_list2_eq, boundary_list2_eq.
    rewrite fill_from_ok; [|apply Z.mul_nonneg_nonneg; lia
                           |rewrite zlen_map, zlen_box2, !Z.max_r by lia; rewrite !Z.sub_0_r; reflexivity].
    cbn [rbind].
    rewrite fill_from_ok; [|rewrite <- zlen_bcells2 by auto; unfold zlen; lia
                           |rewrite zlen_map; apply zlen_bcells2; auto].
    cbn [rbind].
    change (storage2D (nx dom) (nx dom) (nhalo dom)) with (cells2 dom).
    change (storage2D (nx dom + 1) (nx dom + 1) (nhalo dom)) with (cells2 (corner_domain2 dom)).
    set (verts := new_array (nint 0) (cells2 (corner_domain2 dom))).
    set (cells := new_array (nint 0) (cells2 dom)).
    assert (Lv : zlen verts = cells2 (corner_domain2 dom)) by (apply zlen_new_array; auto).
    assert (Lc : zlen cells = cells2 dom) by (apply zlen_new_array; auto).
    set (dx := ndiv (nsub (xend dom) (xbeg dom)) (nint (nx dom))).
    destruct (vertex_loop2 dom (xbeg dom) (ybeg dom) dx verts verts HV Lv Lv) as (xv & yv & E & Hxv & Hyv).
    rewrite E. cbn [rbind app].
    destruct (centre_loop2 dom xv yv cells cells _ _ HV Hxv Hyv Lc Lc) as (x & y & E2 & Hx & Hy).
    rewrite E2. cbn [rbind].
    eexists. split; [reflexivity|]. split.
    - constructor; try reflexivity; simpl; auto.
    - simpl. auto 10.
  Qed.

  Lemma make2_inv dom d : valid_domain2 dom -> make2 dom = Ok d -> wf2 d /\ d2_domain d = dom.
  Proof.
    intros HV E. destruct (make2_ok dom HV) as (d' & E' & W & D & _).
    rewrite E in E'. injection E' as ->. auto.
  Qed.
End Make2.
