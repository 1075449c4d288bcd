(** Grid transfer between a fine and a coarse 3D grid. *)
From Verif Require Import Outcome ZList ZListProofs Num Kernel KernelProofs Gather Loop
  ModelIndex IndexProofs ModelDisc3D SpecGrid Disc3DProofs Make3Proofs BC3Proofs.
From Coq Require Import ZifyBool ZifyNat.

(** The coarse grid has half as many cells in each direction and as many halo layers. *)
Definition halves3 {V} (domc domf : domain V) : Prop :=
  nx domf = 2 * nx domc /\ ny domf = 2 * ny domc /\ nz domf = 2 * nz domc /\
  nhalo domf = nhalo domc.

Ltac inj3 H := apply pair_equal_spec in H; destruct H as [H ?]; apply pair_equal_spec in H; destruct H.

Section Transfer3.
  Context {V : Type} `{N : Num V}.
  Implicit Types (d : disc3 V).

  Definition restrict_expr3 (u : Z -> Z -> Z -> V) (i j k : Z) : V :=
    (nrat 1 8 * (u (2 * i)%Z (2 * j)%Z (2 * k)%Z + u (2 * i + 1)%Z (2 * j)%Z (2 * k)%Z
      + u (2 * i + 1)%Z (2 * j + 1)%Z (2 * k)%Z + u (2 * i)%Z (2 * j + 1)%Z (2 * k)%Z
      + u (2 * i)%Z (2 * j)%Z (2 * k + 1)%Z + u (2 * i + 1)%Z (2 * j)%Z (2 * k + 1)%Z
      + u (2 * i + 1)%Z (2 * j + 1)%Z (2 * k + 1)%Z + u (2 * i)%Z (2 * j + 1)%Z (2 * k + 1)%Z))%num.

  Lemma restrict3_full df dc f c u :
    wf3 df -> wf3 dc -> halves3 (d3_domain dc) (d3_domain df) ->
    holds_inside3 (d3_domain df) f u -> zlen c = cells3 (d3_domain dc) ->
    exists c', restrict3 df dc f c = Ok (f, c') /\
      holds_inside3 (d3_domain dc) c' (restrict_expr3 u) /\
      same_halo3 (d3_domain dc) c c' /\
      schedule_independent (map (restrict_body3 df dc) (zrange 0 (zlen (d3_interior dc)))) [f; c] [f; c'].
  Proof.
    intros Wf Wc (E1 & E2 & E3 & Eh) HF HC. unfold restrict3, restrict_body3.
    destruct (wf_valid _ Wf) as (V1 & V2 & V3 & Vh).
    apply interior_kernel2; auto.
    - intros i j k (Hi & Hj & Hk).
      prove_uses ltac:(split; [reflexivity | rewrite ix3_slot by auto; first
        [ rewrite (proj1 HF); apply slot3_range; unfold padded3; lia | reflexivity ] ]).
    - intros i j k (Hi & Hj & Hk). rewrite !ix3_slot by auto.
      prove_stores ltac:(apply HF; unfold inside3; lia)
                   ltac:(apply inb_1; rewrite HC; apply slot3_range; unfold padded3; lia).
  Qed.

  (** ** Nearest-neighbour prolongation *)

  Definition fine8 (c : Z * Z * Z) : list (Z * Z * Z) :=
    let '(i, j, k) := c in
    [(2 * i, 2 * j, 2 * k); (2 * i + 1, 2 * j, 2 * k); (2 * i + 1, 2 * j + 1, 2 * k);
     (2 * i, 2 * j + 1, 2 * k); (2 * i, 2 * j, 2 * k + 1); (2 * i + 1, 2 * j, 2 * k + 1);
     (2 * i + 1, 2 * j + 1, 2 * k + 1); (2 * i, 2 * j + 1, 2 * k + 1)].

  Lemma in_fine8 a b c i j k : In (a, b, c) (fine8 (i, j, k)) <-> a / 2 = i /\ b / 2 = j /\ c / 2 = k.
  Proof.
    cbn [fine8 In]. split.
    - intros H. repeat (destruct H as [H|H]; [inj3 H; subst; repeat split; lia|]). contradiction.
    - intros (H1 & H2 & H3).
      assert (Ha : a = 2 * i \/ a = 2 * i + 1) by (lia).
      assert (Hb : b = 2 * j \/ b = 2 * j + 1) by (lia).
      assert (Hc : c = 2 * k \/ c = 2 * k + 1) by (lia).
      destruct Ha as [->| ->], Hb as [->| ->], Hc as [->| ->]; tauto.
  Qed.

  Lemma nodup_fine8 c : NoDup (fine8 c).
  Proof.
    destruct c as [[i j] k]. cbn [fine8]. repeat constructor; cbn [In]; intros H;
      repeat (destruct H as [H|H]; [inj3 H; lia|]); contradiction.
  Qed.

  Definition cslot (dom : domain V) (c : Z * Z * Z) : Z := let '(i, j, k) := c in slot3 dom i j k.
  Definition cpad (dom : domain V) (c : Z * Z * Z) : Prop := let '(i, j, k) := c in padded3 dom i j k.

  Lemma cslot_inj (dom : domain V) x y : cpad dom x -> cpad dom y -> cslot dom x = cslot dom y -> x = y.
  Proof.
    destruct x as [[i j] k], y as [[i' j'] k']. intros Hx Hy E.
    destruct (slot3_inj dom i j k i' j' k') as (-> & -> & ->); auto.
  Qed.

  Lemma cslot_range dom x : cpad dom x -> 0 <= cslot dom x < cells3 dom.
  Proof. destruct x as [[i j] k]. apply slot3_range. Qed.

  Lemma nodup_cslot dom (l : list (Z * Z * Z)) :
    NoDup l -> (forall c, In c l -> cpad dom c) -> NoDup (map (cslot dom) l).
  Proof. intros ND H. apply nodup_map_inj; auto. intros. eapply cslot_inj; eauto. Qed.

  Lemma in_locs (ws : list (nat * Z * V)) a i : In (a, i) (locs ws) <-> exists v, In (a, i, v) ws.
  Proof.
    unfold locs. rewrite in_map_iff. split.
    - intros ([[a' i'] v] & E & H). simpl in E. injection E as -> ->. eauto.
    - intros (v & H). exists (a, i, v). auto.
  Qed.

  Lemma prolong_nearest3_full df dc c f u :
    wf3 df -> wf3 dc -> halves3 (d3_domain dc) (d3_domain df) ->
    holds_inside3 (d3_domain dc) c u -> zlen f = cells3 (d3_domain df) ->
    exists f', prolong3 MGNearest dc df c f = Ok (c, f') /\
      holds_inside3 (d3_domain df) f' (fun i j k => u (i / 2) (j / 2) (k / 2)) /\
      same_halo3 (d3_domain df) f f' /\
      schedule_independent (map (prolong_nearest_body3 dc df) (zrange 0 (zlen (d3_interior dc)))) [c; f] [c; f'].
  Proof.
    intros Wf Wc (E1 & E2 & E3 & Eh) HC HF.
    set (domf := d3_domain df) in *. set (domc := d3_domain dc) in *.
    destruct (wf_valid _ Wf) as (V1 & V2 & V3 & Vh). fold domf in V1, V2, V3, Vh.
    set (body := fun t : Z * Z * Z => let '(i, j, k) := t in
       Rd 0%nat (slot3 domc i j k) (fun v : V =>
         fold_right (fun q p => Wr 1%nat q v p) Done (map (cslot domf) (fine8 (i, j, k))))).
    set (ws := fun t : Z * Z * Z => map (fun x => (1%nat, cslot domf x, let '(i, j, k) := t in u i j k)) (fine8 t)).
    assert (EQ : map (prolong_nearest_body3 dc df) (zrange 0 (zlen (d3_interior dc))) = map body (interior_box dc)).
    { unfold prolong_nearest_body3. rewrite interior_loop_map by auto. apply map_ext. intros [[i j] k].
      unfold body. rewrite !ix3_slot by auto. reflexivity. }
    assert (FP : forall t x, In t (interior_box dc) -> In x (fine8 t) ->
              let '(a, b, c) := x in inside3 domf a b c).
    { intros [[i j] k] [[a b] c0] Ht Hx. apply in_interior_box in Ht. apply in_fine8 in Hx as (<- & <- & <-).
      unfold inside3 in *. fold domc in Ht. rewrite E1, E2, E3. lia. }
    assert (FPP : forall t x, In t (interior_box dc) -> In x (fine8 t) -> cpad domf x).
    { intros t x Ht Hx. specialize (FP t x Ht Hx). destruct x as [[a b] c0]. apply inside_padded3; auto. }
    assert (INL : forall t a q, In (a, q) (locs (ws t)) <-> a = 1%nat /\ exists x, In x (fine8 t) /\ q = cslot domf x).
    { intros t a q. unfold locs, ws. rewrite map_map, in_map_iff. simpl. split.
      - intros (x & E & Hx). injection E as <- <-. eauto.
      - intros (-> & x & Hx & ->). eauto. }
    destruct (loop_spec (interior_box dc) body ws [c; f]) as (m' & SI & SH & T & F).
    - apply nodup_box3.
    - intros t Ht. unfold locs, ws. rewrite map_map. simpl.
      apply nodup_map_inj; [apply nodup_fine8|]. intros x y Hx Hy E. injection E as E.
      eapply cslot_inj; eauto.
    - intros t t' [a q] Ht Ht' H1 H2. apply INL in H1 as (_ & x & Hx & ->). apply INL in H2 as (_ & y & Hy & E).
      assert (x = y) by (eapply cslot_inj; eauto). subst y.
      destruct x as [[x1 x2] x3], t as [[i j] k], t' as [[i' j'] k'].
      apply in_fine8 in Hx, Hy. destruct Hx as (<- & <- & <-), Hy as (<- & <- & <-). reflexivity.
    - intros t Ht.
      assert (FR : forall l v (R W : nat -> Z -> Prop), (forall q, In q l -> W 1%nat q) ->
                uses (V:=V) R W (fold_right (fun q p => Wr 1%nat q v p) Done l)).
      { induction l; simpl; intros; constructor; auto. }
      destruct t as [[i j] k]. unfold body. apply uses_rd.
      + split.
        * apply inb_0. rewrite (proj1 HC). apply slot3_range. apply in_interior_box in Ht.
          fold domc in Ht. apply inside_padded3; auto. lia.
        * intros y _ C. apply INL in C as (C & _). discriminate.
      + intros v. apply FR. intros q Hq. apply INL. split; auto. apply in_map_iff in Hq as (x & <- & Hx). eauto.
    - intros t Ht.
      assert (FR : forall l W v, (forall x, In x l -> cpad domf x) ->
                stores [c; f] W (fold_right (fun q p => Wr 1%nat q v p) Done (map (cslot domf) l))
                  (map (fun x => (1%nat, cslot domf x, v)) l)).
      { induction l; intros W v Hl; simpl; constructor; auto.
        - apply inb_1. rewrite HF. apply cslot_range. apply Hl; left; auto.
        - apply IHl. intros; apply Hl; right; auto. }
      destruct t as [[i j] k]. unfold body, ws. eapply st_rd; [simpl; tauto| |].
      + apply (proj2 HC i j k). apply in_interior_box in Ht. auto.
      + apply FR. intros. eapply FPP; eauto.
    - apply same_shape_two in SH as (c' & f' & -> & Lc & Lf).
      assert (c' = c) as ->.
      { apply unread_eq; auto. intros q. apply (F 0%nat q). intros x _ C. apply INL in C as (C & _). discriminate. }
      exists f'. unfold prolong3, forall_loop. rewrite EQ. split; [destruct SI as (-> & _); reflexivity|].
      split; [|split; auto].
      + split; [congruence|]. intros i j k HI. apply (T (i / 2, j / 2, k / 2) 1%nat).
        * apply in_interior_box. fold domc. unfold inside3 in *. lia.
        * unfold ws. apply in_map_iff. exists (i, j, k). split; auto. apply in_fine8. auto.
      + split; [congruence|]. intros i j k HP HN. symmetry. apply (F 1%nat). intros t Ht C.
        apply INL in C as (_ & x & Hx & E). apply HN. specialize (FP t x Ht Hx).
        specialize (FPP t x Ht Hx).
        assert ((i, j, k) = x) as <- by (apply (cslot_inj domf); auto). auto.
  Qed.

  (** ** Linear prolongation *)

  (** The eight values the code stores around the coarse cell corner (i,j,k)+1/2, by
      fine cell, as a weight table: [lw a b c] lists the weights of
      (i1j1k, i1j1k1, i1jk, i1jk1, ij1k, ij1k1, ijk, ijk1). *)
  Definition lin8 (w : list Z) (u : Z -> Z -> Z -> V) (i j k : Z) : V :=
    match w with
    | [a; b; c; e; f; g; h; l] =>
      (nrat a 64 * u (i + 1)%Z (j + 1)%Z k + nrat b 64 * u (i + 1)%Z (j + 1)%Z (k + 1)%Z
       + nrat c 64 * u (i + 1)%Z j k + nrat e 64 * u (i + 1)%Z j (k + 1)%Z
       + nrat f 64 * u i (j + 1)%Z k + nrat g 64 * u i (j + 1)%Z (k + 1)%Z
       + nrat h 64 * u i j k + nrat l 64 * u i j (k + 1)%Z)%num
    | _ => nint 0
    end.

  Definition lin_table : list ((Z * Z * Z) * list Z) :=
    [((0, 0, 0), [9; 3; 9; 3; 3; 1; 27; 9]);
     ((1, 0, 0), [3; 1; 27; 9; 9; 3; 9; 3]);
     ((1, 1, 0), [9; 3; 9; 3; 27; 9; 3; 1]);
     ((0, 1, 0), [27; 9; 3; 1; 9; 3; 9; 3]);
     ((0, 0, 1), [3; 9; 3; 9; 1; 3; 9; 27]);
     ((1, 0, 1), [1; 3; 9; 27; 3; 9; 3; 9]);
     ((1, 1, 1), [3; 9; 3; 9; 9; 27; 1; 3]);
     ((0, 1, 1), [9; 27; 1; 3; 3; 9; 3; 9])].

  Definition lin_cell (t : Z * Z * Z) (o : Z * Z * Z) : Z * Z * Z :=
    let '(i, j, k) := t in let '(a, b, c) := o in (2 * i + 1 + a, 2 * j + 1 + b, 2 * k + 1 + c).

  Definition lin_ws domf (u : Z -> Z -> Z -> V) (t : Z * Z * Z) : list (nat * Z * V) :=
    map (fun e => (1%nat, cslot domf (lin_cell t (fst e)), let '(i, j, k) := t in lin8 (snd e) u i j k)) lin_table.

  (** The value the code's weights give to fine cell (a,b,c). *)
  Definition lin_weights (pa pb pc : Z) : list Z :=
    match find (fun e => let '(x, y, z) := fst e in (x =? pa) && (y =? pb) && (z =? pc)) lin_table with
    | Some e => snd e
    | None => []
    end.

  Definition prolong_linear_expr3 (u : Z -> Z -> Z -> V) (a b c : Z) : V :=
    lin8 (lin_weights ((a - 1) mod 2) ((b - 1) mod 2) ((c - 1) mod 2)) u ((a - 1) / 2) ((b - 1) / 2) ((c - 1) / 2).

  (** Cells within one layer of the interior. *)
  Definition near3 (dom : domain V) (i j k : Z) : Prop :=
    -1 <= i < nx dom + 1 /\ -1 <= j < ny dom + 1 /\ -1 <= k < nz dom + 1.

  Lemma lin_cell_inj t o t' o' :
    (let '(a, b, c) := o in 0 <= a <= 1 /\ 0 <= b <= 1 /\ 0 <= c <= 1) ->
    (let '(a, b, c) := o' in 0 <= a <= 1 /\ 0 <= b <= 1 /\ 0 <= c <= 1) ->
    lin_cell t o = lin_cell t' o' -> t = t' /\ o = o'.
  Proof.
    destruct t as [[i j] k], t' as [[i' j'] k'], o as [[a b] c], o' as [[a' b'] c'].
    cbn [lin_cell]. intros H1 H2 E. inj3 E.
    assert (i = i' /\ a = a') as (-> & ->) by lia.
    assert (j = j' /\ b = b') as (-> & ->) by lia.
    assert (k = k' /\ c = c') as (-> & ->) by lia. auto.
  Qed.

  Lemma lin_table_range o w : In (o, w) lin_table -> let '(a, b, c) := o in 0 <= a <= 1 /\ 0 <= b <= 1 /\ 0 <= c <= 1.
  Proof.
    simpl. intros H. repeat (destruct H as [H|H]; [injection H as <- <-; lia|]). contradiction.
  Qed.

  Lemma lin_table_nodup : NoDup (map fst lin_table).
  Proof. simpl. repeat constructor; simpl; intuition discriminate. Qed.

  Lemma prolong_linear3_full df dc c f u :
    wf3 df -> wf3 dc -> halves3 (d3_domain dc) (d3_domain df) -> 1 <= nhalo (d3_domain dc) ->
    holds3 (d3_domain dc) c u -> zlen f = cells3 (d3_domain df) ->
    exists f', prolong3 MGLinear dc df c f = Ok (c, f') /\
      zlen f' = cells3 (d3_domain df) /\
      (forall i j k, near3 (d3_domain df) i j k ->
         zget f' (slot3 (d3_domain df) i j k) = Some (prolong_linear_expr3 u i j k)) /\
      (forall i j k, padded3 (d3_domain df) i j k -> ~ near3 (d3_domain df) i j k ->
         zget f' (slot3 (d3_domain df) i j k) = zget f (slot3 (d3_domain df) i j k)) /\
      schedule_independent (map (prolong_linear_body3 dc df) (zrange (-1) (d3_ni dc))) [c; f] [c; f'].
  Proof.
    intros Wf Wc (E1 & E2 & E3 & Eh) Hh1 HC HF.
    set (domf := d3_domain df) in *. set (domc := d3_domain dc) in *.
    destruct (wf_valid _ Wf) as (V1 & V2 & V3 & Vh). fold domf in V1, V2, V3, Vh.
    assert (NI : d3_ni dc = nx domc) by apply (wf_ni _ Wc).
    assert (NJ : d3_nj dc = ny domc) by apply (wf_nj _ Wc).
    assert (NK : d3_nk dc = nz domc) by apply (wf_nk _ Wc).
    set (inner := fun i : Z => flat_map (fun j => map (fun k => (i, j, k)) (zrange (-1) (d3_nk dc))) (zrange (-1) (d3_nj dc))).
    set (body := fun t : Z * Z * Z => let '(i, j, k) := t in prolong_linear_cell3 dc df i j k).
    assert (INI : forall i t, In t (inner i) <-> exists j k, t = (i, j, k) /\ -1 <= j < ny domc /\ -1 <= k < nz domc).
    { intros i t. unfold inner. rewrite in_flat_map, NJ, NK. split.
      - intros (j & Hj & H). apply in_map_iff in H as (k & <- & Hk). rewrite in_zrange in *. eauto 6.
      - intros (j & k & -> & Hj & Hk). exists j. rewrite in_zrange. split; auto.
        apply in_map_iff. exists k. rewrite in_zrange. auto. }
    assert (INF : forall i j k, In (i, j, k) (flat_map inner (zrange (-1) (d3_ni dc))) <->
              -1 <= i < nx domc /\ -1 <= j < ny domc /\ -1 <= k < nz domc).
    { intros i j k. rewrite in_flat_map, NI. split.
      - intros (i' & Hi & H). apply INI in H as (j' & k' & E & Hj & Hk). injection E as <- <- <-.
        rewrite in_zrange in Hi. auto.
      - intros (Hi & Hj & Hk). exists i. rewrite in_zrange. split; auto. apply INI. eauto 6. }
    assert (CP : forall i j k a b c0, In (i, j, k) (flat_map inner (zrange (-1) (d3_ni dc))) ->
              0 <= a <= 1 -> 0 <= b <= 1 -> 0 <= c0 <= 1 ->
              padded3 domf (2 * i + 1 + a) (2 * j + 1 + b) (2 * k + 1 + c0) /\
              padded3 domc (i + a) (j + b) (k + c0)).
    { intros i j k a b c0 H Ha Hb Hc. apply INF in H. unfold padded3. lia. }
    assert (INL : forall t a q, In (a, q) (locs (lin_ws domf u t)) <->
              a = 1%nat /\ exists e, In e lin_table /\ q = cslot domf (lin_cell t (fst e))).
    { intros t a q. unfold locs, lin_ws. rewrite map_map, in_map_iff. simpl fst. split.
      - intros (x & E & Hx). injection E as <- <-. eauto.
      - intros (-> & x & Hx & ->). eauto. }
    assert (LP : forall t e, In t (flat_map inner (zrange (-1) (d3_ni dc))) -> In e lin_table ->
              cpad domf (lin_cell t (fst e))).
    { intros [[i j] k] [[[a b] c0] w] Ht He. apply lin_table_range in He. simpl. apply CP; tauto. }
    destruct (nested_loop (zrange (-1) (d3_ni dc)) inner (prolong_linear_body3 dc df) body (lin_ws domf u) [c; f])
      as (m' & SI & SH & T & F).
    - apply nodup_zrange.
    - apply nodup_flat_map; [apply nodup_zrange| |].
      + intros i _. apply nodup_flat_map; [apply nodup_zrange| |].
        * intros j _. apply nodup_map_inj; [apply nodup_zrange|congruence].
        * intros j j' b _ _ Hx Hy. apply in_map_iff in Hx as (? & <- & _). apply in_map_iff in Hy as (? & E & _). congruence.
      + intros i i' b _ _ Hx Hy. apply INI in Hx as (? & ? & -> & _). apply INI in Hy as (? & ? & E & _). congruence.
    - intros i i' b _ _ Hx Hy. apply INI in Hx as (? & ? & -> & _). apply INI in Hy as (? & ? & E & _). congruence.
    - intros i m1 _. unfold prolong_linear_body3. rewrite exec_pfor. unfold inner. rewrite map_flat_map.
      apply exec_all_expand. intros j m2 _. rewrite exec_pfor, map_map. reflexivity.
    - intros i R W _ HU. unfold prolong_linear_body3. apply uses_pfor. intros j Hj. apply uses_pfor. intros k Hk.
      apply (HU (i, j, k)). apply INI. rewrite NJ in Hj. rewrite NK in Hk. eauto 6.
    - intros t Ht. unfold locs, lin_ws. rewrite map_map. simpl fst.
      apply (NoDup_map_inv snd). rewrite map_map. simpl snd.
      apply (nodup_map_inj (fun e => cslot domf (lin_cell t (fst e)))).
      + eapply NoDup_map_inv. apply lin_table_nodup.
      + intros [o w] [o' w'] Hx Hy E. apply cslot_inj in E; [|apply LP; auto..].
        apply lin_cell_inj in E as (_ & E); [|apply lin_table_range in Hx; auto|apply lin_table_range in Hy; auto].
        simpl in E. subst o'.
        clear - Hx Hy. pose proof lin_table_nodup as ND.
        assert (K : forall (l : list ((Z*Z*Z) * list Z)), NoDup (map fst l) -> In (o, w) l -> In (o, w') l -> w = w').
        { induction l as [|x l IH]; simpl; intros ND' H1 H2; [contradiction|]. inversion ND'; subst.
          destruct H1 as [->|H1], H2 as [E|H2]; auto.
          - congruence.
          - exfalso. apply H3. simpl. change o with (fst (o, w')). apply in_map; auto.
          - subst x. exfalso. apply H3. simpl. change o with (fst (o, w)). apply in_map; auto. }
        rewrite (K lin_table); auto.
    - intros t t' [a q] Ht Ht' H1 H2. apply INL in H1 as (_ & e & He & ->). apply INL in H2 as (_ & e' & He' & E).
      apply cslot_inj in E; [|apply LP; auto..].
      destruct e as [o w], e' as [o' w'].
      apply lin_cell_inj in E as (E & _); [auto|apply lin_table_range in He; auto|apply lin_table_range in He'; auto].
    - intros [[i j] k] Ht.
      assert (RD : forall i' j' k', padded3 domc i' j' k' ->
        inb [c; f] 0%nat (slot3 domc i' j' k') /\
        (forall b', In b' (flat_map inner (zrange (-1) (d3_ni dc))) ->
           In (0%nat, slot3 domc i' j' k') (locs (lin_ws domf u b')) -> b' = (i, j, k))).
      { intros i' j' k' P. split; [apply inb_0; rewrite (proj1 HC); apply slot3_range; auto|].
        intros b' _ C. apply INL in C as (C & _). discriminate. }
      apply INF in Ht. unfold body, prolong_linear_cell3. rewrite !ix3_slot by auto. fold domc domf.
      replace (2 * i + 1 + 1) with (2 * i + 1 + 1 + 0) by lia.
      prove_uses ltac:(first [ apply RD; unfold padded3; lia
        | apply INL; split; [reflexivity|]; unfold lin_table;
          first [ eexists; split; [left; reflexivity | simpl; f_equal; lia]
                | eexists; split; [do 1 right; left; reflexivity | simpl; f_equal; lia]
                | eexists; split; [do 2 right; left; reflexivity | simpl; f_equal; lia]
                | eexists; split; [do 3 right; left; reflexivity | simpl; f_equal; lia]
                | eexists; split; [do 4 right; left; reflexivity | simpl; f_equal; lia]
                | eexists; split; [do 5 right; left; reflexivity | simpl; f_equal; lia]
                | eexists; split; [do 6 right; left; reflexivity | simpl; f_equal; lia]
                | eexists; split; [do 7 right; left; reflexivity | simpl; f_equal; lia] ] ]).
    - intros [[i j] k] Ht. apply INF in Ht. unfold body, prolong_linear_cell3. rewrite !ix3_slot by auto. fold domc domf.
      unfold lin_ws, lin_table. cbn [map fst snd lin_cell cslot lin8].
      rewrite !Z.add_0_r.
      prove_stores ltac:(apply holds3_read; [exact HC|unfold padded3; lia])
                   ltac:(apply inb_1; rewrite HF; apply slot3_range; unfold padded3; lia).
    - apply same_shape_two in SH as (c' & f' & -> & Lc & Lf).
      assert (c' = c) as ->.
      { apply unread_eq; auto. intros q. apply (F 0%nat q). intros x _ C. apply INL in C as (C & _). discriminate. }
      assert (NEAR : forall i j k, near3 domf i j k ->
                In ((i - 1) / 2, (j - 1) / 2, (k - 1) / 2) (flat_map inner (zrange (-1) (d3_ni dc)))).
      { intros i j k (Hi & Hj & Hk). apply INF. lia. }
      exists f'. unfold prolong3, forall_loop. split; [destruct SI as (-> & _); reflexivity|].
      split; [congruence|]. split; [|split; auto].
      + intros i j k HN. apply (T _ 1%nat (slot3 domf i j k) _ (NEAR i j k HN)).
        unfold lin_ws, prolong_linear_expr3. apply in_map_iff.
        assert (M : forall x, (x - 1) mod 2 = 0 \/ (x - 1) mod 2 = 1) by (intros; lia).
        assert (D : forall x, 2 * ((x - 1) / 2) + 1 + (x - 1) mod 2 = x) by (intros; lia).
        exists (((i - 1) mod 2, (j - 1) mod 2, (k - 1) mod 2), lin_weights ((i - 1) mod 2) ((j - 1) mod 2) ((k - 1) mod 2)).
        split.
        * cbn [fst snd lin_cell cslot]. rewrite !D. reflexivity.
        * destruct (M i) as [-> | ->], (M j) as [-> | ->], (M k) as [-> | ->]; cbn; tauto.
      + intros i j k HP HN. apply (F 1%nat). intros t Ht C. apply HN.
        apply INL in C as (_ & e & He & E). pose proof (LP t e Ht He) as P.
        assert (E' : (i, j, k) = lin_cell t (fst e)) by (apply (cslot_inj domf); auto).
        destruct t as [[i' j'] k'], e as [[[a b] c0] w]. apply lin_table_range in He. cbn [lin_cell fst] in E'.
        inj3 E'; subst i j k. apply INF in Ht. unfold near3. lia.
  Qed.
End Transfer3.
