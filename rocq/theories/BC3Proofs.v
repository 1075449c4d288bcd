(** 3D boundary fills. *)
From Verif Require Import Outcome ZList ZListProofs Num Kernel KernelProofs Gather Loop
  ModelIndex IndexProofs ModelDisc3D SpecGrid Disc3DProofs Make3Proofs.
From Coq Require Import ZifyBool ZifyNat.

Lemma mod_range n i : 0 < n -> 0 <= i mod n < n.
Proof. intros. apply Z.mod_pos_bound; auto. Qed.

Lemma clamp_range n i : 1 <= n -> 0 <= clampZ n i < n.
Proof. unfold clampZ; lia. Qed.

Lemma clamp_inside n i : 0 <= i < n -> clampZ n i = i.
Proof. unfold clampZ; lia. Qed.

Lemma extend1_range bc n i : 1 <= n -> 0 <= extend1 bc n i < n.
Proof. intros; destruct bc; simpl; [apply mod_range|apply clamp_range|apply mod_range]; lia. Qed.

Lemma extend1_inside bc n i : 0 <= i < n -> extend1 bc n i = i.
Proof. intros; destruct bc; simpl; auto using Z.mod_small, clamp_inside. Qed.

Section BC3.
  Context {V : Type} `{N : Num V}.
  Implicit Types (dom : domain V) (d : disc3 V).

  Lemma holds3_ext dom f (u v : Z -> Z -> Z -> V) :
    holds3 dom f u -> (forall i j k, padded3 dom i j k -> u i j k = v i j k) -> holds3 dom f v.
  Proof. intros (L & H) E. split; auto. intros i j k P. rewrite H, E; auto. Qed.

  Lemma holds3_inside dom f (u : Z -> Z -> Z -> V) :
    0 <= nhalo dom -> holds3 dom f u -> holds_inside3 dom f u.
  Proof. intros Hh (L & H). split; auto. intros. apply H. apply inside_padded3; auto. Qed.

  Lemma holds_inside3_ext dom f (u v : Z -> Z -> Z -> V) :
    holds_inside3 dom f u -> (forall i j k, inside3 dom i j k -> u i j k = v i j k) -> holds_inside3 dom f v.
  Proof. intros (L & H) E. split; auto. intros i j k P. rewrite H, E; auto. Qed.

  (** Two arrays that hold the same field are equal. *)
  Lemma padded_of_slot dom q : valid_domain3 dom -> 0 <= q < cells3 dom ->
    exists i j k, padded3 dom i j k /\ slot3 dom i j k = q.
  Proof.
    intros (H1 & H2 & H3 & Hh) Hq.
    pose proof (getIJK_surj (nx dom) (ny dom) (nz dom) (nhalo dom) q) as G.
    destruct (getIJK q (nhalo dom) (ny dom + 2 * nhalo dom) (nz dom + 2 * nhalo dom)) as [[i j] k].
    destruct G as (G1 & G2 & G3 & G4); try lia; [exact Hq|].
    exists i, j, k. rewrite <- slot3_eq. unfold padded3. auto.
  Qed.

  Lemma holds3_unique dom (f g : list V) u :
    valid_domain3 dom -> holds3 dom f u -> holds3 dom g u -> f = g.
  Proof.
    intros HV (L1 & H1) (L2 & H2). apply zget_ext; [congruence|]. intros q Hq.
    rewrite L1 in Hq. destruct (padded_of_slot dom q HV Hq) as (i & j & k & P & <-).
    rewrite H1, H2; auto.
  Qed.

  (** A one-array loop of copies dst <- src over a list of cells. *)
  Lemma cell_copies (cs : list (Z * Z * Z)) (src : Z * Z * Z -> Z * Z * Z) dom (s : list V) u :
    NoDup cs -> holds3 dom s u ->
    (forall c, In c cs -> (let '(i, j, k) := c in padded3 dom i j k) /\
                          (let '(i, j, k) := src c in padded3 dom i j k) /\ ~ In (src c) cs) ->
    let slotc := fun c : Z * Z * Z => let '(i, j, k) := c in slot3 dom i j k in
    let body := fun c => Rd 0%nat (slotc (src c)) (fun v => Wr 0%nat (slotc c) v Done) in
    exists s', schedule_independent (map body cs) [s] [s'] /\ zlen s' = cells3 dom /\
      forall i j k, padded3 dom i j k ->
        (In (i, j, k) cs -> zget s' (slot3 dom i j k) = Some (let '(i, j, k) := src (i, j, k) in u i j k)) /\
        (~ In (i, j, k) cs -> zget s' (slot3 dom i j k) = Some (u i j k)).
  Proof.
    intros ND HS HC slotc body.
    assert (INJ : forall x y : Z * Z * Z, (let '(i, j, k) := x in padded3 dom i j k) ->
              (let '(i, j, k) := y in padded3 dom i j k) -> slotc x = slotc y -> x = y).
    { intros [[i j] k] [[i' j'] k'] Hx Hy E.
      destruct (slot3_inj dom i j k i' j' k') as (-> & -> & ->); auto. }
    assert (RNG : forall x : Z * Z * Z, (let '(i, j, k) := x in padded3 dom i j k) -> 0 <= slotc x < cells3 dom).
    { intros [[i j] k] Hx. apply slot3_range; auto. }
    destruct (cell_loop cs slotc body [(0%nat, fun c => let '(i, j, k) := src c in u i j k)] [s])
      as (m' & SI & SH & T & F); auto.
    - intros x y Hx Hy. apply INJ; [apply (HC x Hx)|apply (HC y Hy)].
    - repeat constructor; simpl; auto.
    - intros x Hx. destruct (HC x Hx) as (P1 & P2 & NI). unfold body.
      prove_uses ltac:(idtac).
      + split; [apply inb_0; rewrite (proj1 HS); apply RNG; auto|].
        intros _. right. intros y Hy E. apply NI.
        rewrite (INJ (src x) y P2 (proj1 (HC y Hy)) E). auto.
      + simpl; auto.
    - intros x Hx. destruct (HC x Hx) as (P1 & P2 & NI). unfold body. cbn [map fst snd].
      eapply st_rd; [simpl; tauto| |apply st_wr; [|apply st_done]].
      + unfold slotc. destruct (src x) as [[i j] k]. apply holds3_read; auto.
      + apply inb_0; rewrite (proj1 HS); apply RNG; auto.
    - apply same_shape_one in SH as (s' & -> & L). exists s'. split; auto.
      split; [rewrite L; apply HS|]. intros i j k P. split; intros HI.
      + exact (T 0%nat _ (i, j, k) (or_introl eq_refl) HI).
      + rewrite <- (proj2 HS i j k P). apply (F 0%nat). right. intros x Hx E. apply HI.
        rewrite (INJ (i, j, k) x); auto. apply (HC x Hx).
  Qed.

  Definition thick dom : Prop := nhalo dom <= nx dom /\ nhalo dom <= ny dom /\ nhalo dom <= nz dom.

  Lemma apply_periodic3_full d s u :
    wf3 d -> thick (d3_domain d) -> holds3 (d3_domain d) s u ->
    exists s', apply_periodic3 d s = Ok s' /\
      holds3 (d3_domain d) s' (periodic3 (d3_domain d) u) /\
      schedule_independent (map (periodic_body3 d) (zrange 0 (zlen (d3_donor d)))) [s] [s'].
  Proof.
    intros W (T1 & T2 & T3) HS. set (dom := d3_domain d) in *.
    pose proof (wf_valid _ W) as HV. fold dom in HV. pose proof HV as (H1 & H2 & H3 & Hh).
    assert (PP : periodic_pairs3 (d3_ni d) (d3_nj d) (d3_nk d) (d3_nhalo d) (d3_njnhalo d) (d3_nknhalo d)
                 = map (wrap_slot3 dom) (halo_cells3 dom)).
    { rewrite (wf_ni _ W), (wf_nj _ W), (wf_nk _ W), (wf_nh _ W), (wf_njnh _ W), (wf_nknh _ W).
      apply periodic_pairs3_eq. }
    set (src := fun c : Z * Z * Z => let '(i, j, k) := c in (i mod nx dom, j mod ny dom, k mod nz dom)).
    set (slotc := fun c : Z * Z * Z => let '(i, j, k) := c in slot3 dom i j k).
    set (body := fun c => Rd 0%nat (slotc (src c)) (fun v : V => Wr 0%nat (slotc c) v Done)).
    assert (LD : zlen (d3_donor d) = zlen (halo_cells3 dom))
      by (rewrite (wf_donor _ W), PP, !zlen_map; auto).
    assert (EQ : map (periodic_body3 d) (zrange 0 (zlen (d3_donor d))) = map body (halo_cells3 dom)).
    { rewrite LD.
      transitivity (map (fun c => body c) (halo_cells3 dom)); auto.
      rewrite <- (map_over_list (fun o => match o with Some c => body c | None => Bad end)).
      apply map_ext_in. intros n Hn. apply in_zrange in Hn.
      unfold periodic_body3. rewrite (wf_donor _ W), (wf_receiver _ W), PP, !zget_map.
      destruct (zget_some (halo_cells3 dom) n Hn) as ([[i j] k] & E). rewrite E. simpl.
      assert (P : padded3 dom i j k) by (apply (in_halo_cells3 dom i j k); eapply zget_in; eauto).
      unfold padded3 in P. unfold slotc. rewrite !mod_wrap1 by lia. reflexivity. }
    destruct (cell_copies (halo_cells3 dom) src dom s u) as (s' & SI & L & G); auto.
    - apply nodup_halo_cells3.
    - intros [[i j] k] HI. apply in_halo_cells3 in HI as (P & NI). split; auto. unfold src.
      pose proof (mod_range (nx dom) i). pose proof (mod_range (ny dom) j). pose proof (mod_range (nz dom) k).
      split; [unfold padded3; lia|]. rewrite in_halo_cells3. intros (_ & C). apply C. unfold inside3. lia.
    - exists s'. unfold apply_periodic3, forall_loop. rewrite EQ. split; [|split]; auto.
      + destruct SI as (E & _). fold slotc in E. change (exec_all (map body (halo_cells3 dom)) [s] = Ok [s']) in E.
        rewrite E. reflexivity.
      + split; auto. intros i j k P. destruct (G i j k P) as (Gi & Go). unfold periodic3.
        destruct (is_halo_cell (nx dom) (ny dom) (nz dom) i j k) eqn:E.
        * apply Gi. apply in_halo_cells3. split; auto. apply is_halo_iff; auto.
        * assert (IN : inside3 dom i j k) by (unfold is_halo_cell, inside3 in *; lia).
          rewrite !Z.mod_small by (unfold inside3 in IN; lia). apply Go.
          rewrite in_halo_cells3. tauto.
  Qed.

  (** ** Neumann fills *)

  Lemma exec_pfor lo hi (body : Z -> prog V) m : exec (pfor lo hi body) m = exec_all (map body (zrange lo hi)) m.
  Proof. unfold pfor. apply exec_pseqs. Qed.

  (** The cells written by one direction's fill, grouped by outer iteration. *)
  Definition side_cells (n nh : Z) : list Z := zrange (- nh) 0 ++ zrange n (n + nh).

  Lemma in_side n nh i : In i (side_cells n nh) <-> (- nh <= i < 0 \/ n <= i < n + nh).
  Proof. unfold side_cells. rewrite in_app_iff, !in_zrange. reflexivity. Qed.

  Lemma nodup_side n nh : 1 <= n -> NoDup (side_cells n nh).
  Proof.
    intros. apply nodup_app; try apply nodup_zrange. intros x. rewrite !in_zrange. lia.
  Qed.

  (** Two-level loops: outer parallel iterations o, each a sequence of copies over
      [inner o]; the destination and source cells are given by [dst] and [clamp]. *)
  Lemma neumann_gen dom (s : list V) u (P : Z -> prog V) olo ohi ilo ihi n
      (cell : Z -> Z -> Z -> Z * Z * Z) :
    (* cell o i x: the cell of outer iteration o, middle iteration i, side position x *)
    holds3 dom s u -> 1 <= n -> 0 <= nhalo dom ->
    (forall o i x o' i' x', cell o i x = cell o' i' x' -> o = o' /\ i = i' /\ x = x') ->
    (forall o i x, olo <= o < ohi -> ilo <= i < ihi -> - nhalo dom <= x < n + nhalo dom ->
       let '(a, b, c) := cell o i x in padded3 dom a b c) ->
    let slotc := fun c : Z * Z * Z => let '(i, j, k) := c in slot3 dom i j k in
    let copy := fun o i x => Rd 0%nat (slotc (cell o i (clampZ n x)))
                               (fun v => Wr 0%nat (slotc (cell o i x)) v Done) in
    (forall o m, olo <= o < ohi ->
       exec (P o) m = exec_all (flat_map (fun i => map (copy o i) (side_cells n (nhalo dom))) (zrange ilo ihi)) m) ->
    (forall o (R W : nat -> Z -> Prop), olo <= o < ohi ->
       (forall i x, ilo <= i < ihi -> In x (side_cells n (nhalo dom)) -> uses R W (copy o i x)) ->
       uses R W (P o)) ->
    exists s', schedule_independent (map P (zrange olo ohi)) [s] [s'] /\ zlen s' = cells3 dom /\
      (forall o i x, olo <= o < ohi -> ilo <= i < ihi -> - nhalo dom <= x < n + nhalo dom ->
         zget s' (slotc (cell o i x)) = Some (let '(a, b, c) := cell o i (clampZ n x) in u a b c)).
  Proof.
    intros HS Hn Hh CI CP slotc copy EX US.
    set (cs := flat_map (fun o => flat_map (fun i => map (fun x => cell o i x) (side_cells n (nhalo dom)))
                           (zrange ilo ihi)) (zrange olo ohi)).
    assert (INC : forall c, In c cs <-> exists o i x, c = cell o i x /\ olo <= o < ohi /\ ilo <= i < ihi /\
                                           In x (side_cells n (nhalo dom))).
    { intros c. unfold cs. rewrite in_flat_map. split.
      - intros (o & Ho & H). apply in_flat_map in H as (i & Hi & H). apply in_map_iff in H as (x & <- & Hx).
        exists o, i, x. rewrite in_zrange in *. auto.
      - intros (o & i & x & -> & Ho & Hi & Hx). exists o. rewrite in_zrange. split; auto.
        apply in_flat_map. exists i. rewrite in_zrange. split; auto. apply in_map_iff. eauto. }
    assert (NDc : NoDup cs).
    { unfold cs. apply nodup_flat_map; [apply nodup_zrange| |].
      - intros o _. apply nodup_flat_map; [apply nodup_zrange| |].
        + intros i _. apply nodup_map_inj; [apply nodup_side; auto|]. intros x y _ _ E. apply CI in E; tauto.
        + intros i i' c _ _ H1 H2. apply in_map_iff in H1 as (x & <- & _). apply in_map_iff in H2 as (y & E & _).
          apply CI in E. symmetry; tauto.
      - intros o o' c _ _ H1 H2. apply in_flat_map in H1 as (i & _ & H1). apply in_flat_map in H2 as (i' & _ & H2).
        apply in_map_iff in H1 as (x & <- & _). apply in_map_iff in H2 as (y & E & _).
        apply CI in E. symmetry; tauto. }
    assert (SLINJ : forall o i x o' i' x',
      olo <= o < ohi -> ilo <= i < ihi -> - nhalo dom <= x < n + nhalo dom ->
      olo <= o' < ohi -> ilo <= i' < ihi -> - nhalo dom <= x' < n + nhalo dom ->
      slotc (cell o i x) = slotc (cell o' i' x') -> o = o' /\ i = i' /\ x = x').
    { intros o i x o' i' x' A1 A2 A3 B1 B2 B3 E. apply CI.
      pose proof (CP o i x A1 A2 A3) as Q1. pose proof (CP o' i' x' B1 B2 B3) as Q2.
      destruct (cell o i x) as [[a b] c], (cell o' i' x') as [[a' b'] c'].
      destruct (slot3_inj dom a b c a' b' c' Q1 Q2 E) as (-> & -> & ->). reflexivity. }
    assert (RNG : forall o i x, olo <= o < ohi -> ilo <= i < ihi -> - nhalo dom <= x < n + nhalo dom ->
               0 <= slotc (cell o i x) < cells3 dom).
    { intros o i x A1 A2 A3. pose proof (CP o i x A1 A2 A3) as Q. unfold slotc.
      destruct (cell o i x) as [[a b] c]. apply slot3_range; auto. }
    assert (SIDE : forall x, In x (side_cells n (nhalo dom)) ->
              - nhalo dom <= x < n + nhalo dom /\ - nhalo dom <= clampZ n x < n + nhalo dom /\
              ~ In (clampZ n x) (side_cells n (nhalo dom))).
    { intros x Hx. apply in_side in Hx. rewrite in_side. unfold clampZ. lia. }
    (* sequential result through the flattened loop *)
    set (ws := fun o => flat_map (fun i => map (fun x =>
                 (0%nat, slotc (cell o i x), let '(a, b, c) := cell o i (clampZ n x) in u a b c))
                 (side_cells n (nhalo dom))) (zrange ilo ihi)).
    set (wi := fun o => flat_map (fun i => map (fun x => (0%nat, slotc (cell o i x)))
                 (side_cells n (nhalo dom))) (zrange ilo ihi)).
    assert (INW : forall o a q, In (a, q) (wi o) <-> a = 0%nat /\ exists i x, q = slotc (cell o i x) /\
                    ilo <= i < ihi /\ In x (side_cells n (nhalo dom))).
    { intros o a q. unfold wi. rewrite in_flat_map. split.
      - intros (i & Hi & H). apply in_map_iff in H as (x & E & Hx). injection E as <- <-.
        split; auto. exists i, x. rewrite in_zrange in Hi. auto.
      - intros (-> & i & x & -> & Hi & Hx). exists i. rewrite in_zrange. split; auto.
        apply in_map_iff. eauto. }
    assert (G : gather_ok wi P (zrange olo ohi) [s]).
    { split; [apply nodup_zrange|]. split; [|split].
      - intros o o' [a q] Ho Ho' H1 H2. rewrite in_zrange in *.
        apply INW in H1 as (-> & i & x & -> & Hi & Hx). apply INW in H2 as (_ & i' & x' & E & Hi' & Hx').
        apply SIDE in Hx, Hx'. eapply SLINJ in E; try tauto.
      - intros o Ho. apply in_zrange in Ho. apply US; auto. intros i x Hi Hx.
        pose proof (SIDE x Hx) as (S1 & S2 & S3). unfold copy. prove_uses ltac:(idtac).
        + split; [apply inb_0; rewrite (proj1 HS); auto|].
          intros o' Ho' HI. apply in_zrange in Ho'. apply INW in HI as (_ & i' & x' & E & Hi' & Hx').
          pose proof (SIDE x' Hx') as (S1' & _). eapply SLINJ in E; auto. destruct E as (-> & _). auto.
        + unfold gwrite. apply INW. eauto 6.
      - intros o a q Ho HI. apply in_zrange in Ho. apply INW in HI as (-> & i & x & -> & Hi & Hx).
        apply SIDE in Hx. apply inb_0. rewrite (proj1 HS). apply RNG; tauto. }
    destruct (gather_schedule _ _ _ _ G) as (m' & E & S & Pq & Q & R).
    apply same_shape_one in S as (s' & -> & L).
    exists s'. split; [|split].
    - split; auto. split; auto. split; auto. split; auto. apply every_schedule_terminates.
    - rewrite L. apply HS.
    - assert (E1 : exec_all (map P (zrange olo ohi)) [s] =
                   exec_all (map (fun t : Z * Z * Z => let '(o, i, x) := t in copy o i x)
                     (flat_map (fun o => flat_map (fun i => map (fun x => (o, i, x)) (side_cells n (nhalo dom)))
                        (zrange ilo ihi)) (zrange olo ohi))) [s]).
      { rewrite (exec_all_expand P (fun o => flat_map (fun i => map (copy o i) (side_cells n (nhalo dom))) (zrange ilo ihi))).
        2:{ intros o m Ho. apply EX. apply in_zrange; auto. }
        f_equal. rewrite map_flat_map. apply flat_map_ext. intros o. rewrite map_flat_map.
        apply flat_map_ext. intros i. rewrite map_map. reflexivity. }
      set (ts := flat_map (fun o => flat_map (fun i => map (fun x => (o, i, x)) (side_cells n (nhalo dom)))
                        (zrange ilo ihi)) (zrange olo ohi)) in *.
      assert (INT : forall o i x, In (o, i, x) ts <-> olo <= o < ohi /\ ilo <= i < ihi /\ In x (side_cells n (nhalo dom))).
      { intros o i x. unfold ts. rewrite in_flat_map. split.
        - intros (o' & Ho & H). apply in_flat_map in H as (i' & Hi & H). apply in_map_iff in H as (x' & E2 & Hx).
          injection E2 as -> -> ->. rewrite in_zrange in *. auto.
        - intros (Ho & Hi & Hx). exists o. rewrite in_zrange. split; auto.
          apply in_flat_map. exists i. rewrite in_zrange. split; auto. apply in_map_iff. eauto. }
      assert (NDt : NoDup ts).
      { unfold ts. apply nodup_flat_map; [apply nodup_zrange| |].
        - intros o _. apply nodup_flat_map; [apply nodup_zrange| |].
          + intros i _. apply nodup_map_inj; [apply nodup_side; auto|]. congruence.
          + intros i i' c _ _ H1 H2. apply in_map_iff in H1 as (x & <- & _). apply in_map_iff in H2 as (y & E2 & _).
            congruence.
        - intros o o' c _ _ H1 H2. apply in_flat_map in H1 as (i & _ & H1). apply in_flat_map in H2 as (i' & _ & H2).
          apply in_map_iff in H1 as (x & <- & _). apply in_map_iff in H2 as (y & E2 & _). congruence. }
      destruct (cell_loop ts (fun t => let '(o, i, x) := t in slotc (cell o i x))
                 (fun t => let '(o, i, x) := t in copy o i x)
                 [(0%nat, fun t => let '(o, i, x) := t in let '(a, b, c) := cell o i (clampZ n x) in u a b c)] [s])
        as (m2 & SI & SH & T & F); auto.
      + intros [[o i] x] [[o' i'] x'] Hx Hy E2. apply INT in Hx as (A1 & A2 & A3), Hy as (B1 & B2 & B3).
        apply SIDE in A3, B3. eapply SLINJ in E2; try tauto. destruct E2 as (-> & -> & ->). reflexivity.
      + repeat constructor; simpl; auto.
      + intros [[o i] x] Hx. apply INT in Hx as (A1 & A2 & A3). pose proof (SIDE x A3) as (S1 & S2 & S3).
        unfold copy. prove_uses ltac:(idtac).
        * split; [apply inb_0; rewrite (proj1 HS); auto|]. intros _. right.
          intros [[o' i'] x'] Hy E2. apply INT in Hy as (B1 & B2 & B3). pose proof (SIDE x' B3) as (S1' & _).
          eapply SLINJ in E2; auto. destruct E2 as (_ & _ & E2). rewrite E2 in S3. contradiction.
        * simpl; auto.
      + intros [[o i] x] Hx. apply INT in Hx as (A1 & A2 & A3). pose proof (SIDE x A3) as (S1 & S2 & S3).
        unfold copy. cbn [map fst snd].
        eapply st_rd; [simpl; tauto| |apply st_wr; [|apply st_done]].
        * pose proof (CP o i (clampZ n x) A1 A2 S2) as Q2. unfold slotc.
          destruct (cell o i (clampZ n x)) as [[a b] c]. apply holds3_read; auto.
        * apply inb_0. rewrite (proj1 HS). apply RNG; auto.
      + assert (m2 = [s']) as ->.
        { destruct SI as (SE & _). rewrite <- E1, E in SE. congruence. }
        intros o i x Ho Hi Hx.
        destruct (in_dec Z.eq_dec x (side_cells n (nhalo dom))) as [I|I].
        * pose proof (T 0%nat _ (o, i, x) (or_introl eq_refl)) as G2. cbv beta iota in G2. apply G2.
          apply INT; auto.
        * assert (clampZ n x = x) as ->. { rewrite in_side in I. unfold clampZ. lia. }
          pose proof (F 0%nat (slotc (cell o i x))) as G2. change (mread [s'] 0 (slotc (cell o i x))) with (zget s' (slotc (cell o i x))) in G2.
          rewrite G2.
          -- unfold slotc. pose proof (CP o i x Ho Hi Hx) as Q2. destruct (cell o i x) as [[a b] c]. apply HS; auto.
          -- right. intros [[o' i'] x'] Hy E2. apply INT in Hy as (B1 & B2 & B3). pose proof (SIDE x' B3) as (S1' & _).
             eapply SLINJ in E2; auto. destruct E2 as (_ & _ & ->). contradiction.
  Qed.

  Lemma neumann_x3_full d s u :
    wf3 d -> holds3 (d3_domain d) s u ->
    exists s', neumann_x3 d s = Ok s' /\
      holds3 (d3_domain d) s' (fun i j k => u (clampZ (nx (d3_domain d)) i) j k) /\
      schedule_independent (map (neumann_x_body3 d) (zrange (- d3_nhalo d) (d3_nj d + d3_nhalo d))) [s] [s'].
  Proof.
    intros W HS. set (dom := d3_domain d) in *.
    pose proof (wf_valid _ W) as HV. fold dom in HV. pose proof HV as (H1 & H2 & H3 & Hh).
    destruct (neumann_gen dom s u (neumann_x_body3 d) (- d3_nhalo d) (d3_nj d + d3_nhalo d)
                (- d3_nhalo d) (d3_nk d + d3_nhalo d) (nx dom) (fun o i x => (x, o, i)))
      as (s' & SI & L & G); auto.
    - intros; split; [|split]; congruence.
    - rewrite (wf_nh _ W), (wf_nj _ W), (wf_nk _ W). fold dom. unfold padded3. intros; lia.
    - intros o m Ho. unfold neumann_x_body3. rewrite exec_pfor.
      apply exec_all_expand. intros i m' Hi. rewrite exec_pseq. unfold side_cells. rewrite map_app, exec_all_app.
      rewrite (wf_ni _ W), (wf_nh _ W). fold dom.
      rewrite exec_pfor.
      assert (A1 : map (fun x => copy_cell3 d x o i 0 o i) (zrange (- nhalo dom) 0) =
                   map (fun x => Rd 0%nat (slot3 dom (clampZ (nx dom) x) o i) (fun v => Wr 0%nat (slot3 dom x o i) v Done)) (zrange (- nhalo dom) 0)).
      { apply map_ext_in. intros x Hx. apply in_zrange in Hx. unfold copy_cell3. rewrite !ix3_slot by auto. fold dom.
        replace (clampZ (nx dom) x) with 0 by (unfold clampZ; lia). reflexivity. }
      rewrite A1. destruct (exec_all _ m'); cbn [rbind]; auto.
      rewrite exec_pfor. f_equal.
      apply map_ext_in. intros x Hx. apply in_zrange in Hx. unfold copy_cell3. rewrite !ix3_slot by auto. fold dom.
      replace (clampZ (nx dom) x) with ((nx dom) - 1) by (unfold clampZ; lia). reflexivity.
    - intros o R Wp Ho HU. unfold neumann_x_body3. apply uses_pfor. intros i Hi.
      rewrite (wf_ni _ W), (wf_nh _ W). fold dom. apply uses_pseq; apply uses_pfor; intros x Hx.
      + specialize (HU i x Hi). unfold copy_cell3. rewrite !ix3_slot by auto. fold dom.
        replace (clampZ (nx dom) x) with 0 in HU by (unfold clampZ; lia). apply HU. apply in_side; lia.
      + specialize (HU i x Hi). unfold copy_cell3. rewrite !ix3_slot by auto. fold dom.
        replace (clampZ (nx dom) x) with ((nx dom) - 1) in HU by (unfold clampZ; lia). apply HU. apply in_side; lia.
    - exists s'. unfold neumann_x3, forall_loop. split; [destruct SI as (-> & _); reflexivity|].
      split; [|exact SI]. split; auto. intros i j k P. unfold padded3 in P.
      rewrite (wf_nh _ W), (wf_nj _ W), (wf_nk _ W) in G. fold dom in G.
      apply (G j k i); lia.
  Qed.

  Lemma neumann_y3_full d s u :
    wf3 d -> holds3 (d3_domain d) s u ->
    exists s', neumann_y3 d s = Ok s' /\
      holds3 (d3_domain d) s' (fun i j k => u i (clampZ (ny (d3_domain d)) j) k) /\
      schedule_independent (map (neumann_y_body3 d) (zrange (- d3_nhalo d) (d3_ni d + d3_nhalo d))) [s] [s'].
  Proof.
    intros W HS. set (dom := d3_domain d) in *.
    pose proof (wf_valid _ W) as HV. fold dom in HV. pose proof HV as (H1 & H2 & H3 & Hh).
    destruct (neumann_gen dom s u (neumann_y_body3 d) (- d3_nhalo d) (d3_ni d + d3_nhalo d)
                (- d3_nhalo d) (d3_nk d + d3_nhalo d) (ny dom) (fun o i x => (o, x, i)))
      as (s' & SI & L & G); auto.
    - intros; split; [|split]; congruence.
    - rewrite (wf_nh _ W), (wf_ni _ W), (wf_nk _ W). fold dom. unfold padded3. intros; lia.
    - intros o m Ho. unfold neumann_y_body3. rewrite exec_pfor.
      apply exec_all_expand. intros i m' Hi. rewrite exec_pseq. unfold side_cells. rewrite map_app, exec_all_app.
      rewrite (wf_nj _ W), (wf_nh _ W). fold dom.
      rewrite exec_pfor.
      assert (A1 : map (fun x => copy_cell3 d o x i o 0 i) (zrange (- nhalo dom) 0) =
                   map (fun x => Rd 0%nat (slot3 dom o (clampZ (ny dom) x) i) (fun v => Wr 0%nat (slot3 dom o x i) v Done)) (zrange (- nhalo dom) 0)).
      { apply map_ext_in. intros x Hx. apply in_zrange in Hx. unfold copy_cell3. rewrite !ix3_slot by auto. fold dom.
        replace (clampZ (ny dom) x) with 0 by (unfold clampZ; lia). reflexivity. }
      rewrite A1. destruct (exec_all _ m'); cbn [rbind]; auto.
      rewrite exec_pfor. f_equal.
      apply map_ext_in. intros x Hx. apply in_zrange in Hx. unfold copy_cell3. rewrite !ix3_slot by auto. fold dom.
      replace (clampZ (ny dom) x) with ((ny dom) - 1) by (unfold clampZ; lia). reflexivity.
    - intros o R Wp Ho HU. unfold neumann_y_body3. apply uses_pfor. intros i Hi.
      rewrite (wf_nj _ W), (wf_nh _ W). fold dom. apply uses_pseq; apply uses_pfor; intros x Hx.
      + specialize (HU i x Hi). unfold copy_cell3. rewrite !ix3_slot by auto. fold dom.
        replace (clampZ (ny dom) x) with 0 in HU by (unfold clampZ; lia). apply HU. apply in_side; lia.
      + specialize (HU i x Hi). unfold copy_cell3. rewrite !ix3_slot by auto. fold dom.
        replace (clampZ (ny dom) x) with ((ny dom) - 1) in HU by (unfold clampZ; lia). apply HU. apply in_side; lia.
    - exists s'. unfold neumann_y3, forall_loop. split; [destruct SI as (-> & _); reflexivity|].
      split; [|exact SI]. split; auto. intros i j k P. unfold padded3 in P.
      rewrite (wf_nh _ W), (wf_ni _ W), (wf_nk _ W) in G. fold dom in G.
      apply (G i k j); lia.
  Qed.

  Lemma neumann_z3_full d s u :
    wf3 d -> holds3 (d3_domain d) s u ->
    exists s', neumann_z3 d s = Ok s' /\
      holds3 (d3_domain d) s' (fun i j k => u i j (clampZ (nz (d3_domain d)) k)) /\
      schedule_independent (map (neumann_z_body3 d) (zrange (- d3_nhalo d) (d3_ni d + d3_nhalo d))) [s] [s'].
  Proof.
    intros W HS. set (dom := d3_domain d) in *.
    pose proof (wf_valid _ W) as HV. fold dom in HV. pose proof HV as (H1 & H2 & H3 & Hh).
    destruct (neumann_gen dom s u (neumann_z_body3 d) (- d3_nhalo d) (d3_ni d + d3_nhalo d)
                (- d3_nhalo d) (d3_nj d + d3_nhalo d) (nz dom) (fun o i x => (o, i, x)))
      as (s' & SI & L & G); auto.
    - intros; split; [|split]; congruence.
    - rewrite (wf_nh _ W), (wf_ni _ W), (wf_nj _ W). fold dom. unfold padded3. intros; lia.
    - intros o m Ho. unfold neumann_z_body3. rewrite exec_pfor.
      apply exec_all_expand. intros i m' Hi. rewrite exec_pseq. unfold side_cells. rewrite map_app, exec_all_app.
      rewrite (wf_nk _ W), (wf_nh _ W). fold dom.
      rewrite exec_pfor.
      assert (A1 : map (fun x => copy_cell3 d o i x o i 0) (zrange (- nhalo dom) 0) =
                   map (fun x => Rd 0%nat (slot3 dom o i (clampZ (nz dom) x)) (fun v => Wr 0%nat (slot3 dom o i x) v Done)) (zrange (- nhalo dom) 0)).
      { apply map_ext_in. intros x Hx. apply in_zrange in Hx. unfold copy_cell3. rewrite !ix3_slot by auto. fold dom.
        replace (clampZ (nz dom) x) with 0 by (unfold clampZ; lia). reflexivity. }
      rewrite A1. destruct (exec_all _ m'); cbn [rbind]; auto.
      rewrite exec_pfor. f_equal.
      apply map_ext_in. intros x Hx. apply in_zrange in Hx. unfold copy_cell3. rewrite !ix3_slot by auto. fold dom.
      replace (clampZ (nz dom) x) with ((nz dom) - 1) by (unfold clampZ; lia). reflexivity.
    - intros o R Wp Ho HU. unfold neumann_z_body3. apply uses_pfor. intros i Hi.
      rewrite (wf_nk _ W), (wf_nh _ W). fold dom. apply uses_pseq; apply uses_pfor; intros x Hx.
      + specialize (HU i x Hi). unfold copy_cell3. rewrite !ix3_slot by auto. fold dom.
        replace (clampZ (nz dom) x) with 0 in HU by (unfold clampZ; lia). apply HU. apply in_side; lia.
      + specialize (HU i x Hi). unfold copy_cell3. rewrite !ix3_slot by auto. fold dom.
        replace (clampZ (nz dom) x) with ((nz dom) - 1) in HU by (unfold clampZ; lia). apply HU. apply in_side; lia.
    - exists s'. unfold neumann_z3, forall_loop. split; [destruct SI as (-> & _); reflexivity|].
      split; [|exact SI]. split; auto. intros i j k P. unfold padded3 in P.
      rewrite (wf_nh _ W), (wf_ni _ W), (wf_nj _ W) in G. fold dom in G.
      apply (G i j k); lia.
  Qed.

  Definition clamp_if (bc : bctype) (n i : Z) : Z := if bctype_eqb bc Neumann then clampZ n i else i.

  Lemma apply_neumann3_full d s u :
    wf3 d -> holds3 (d3_domain d) s u ->
    exists s', apply_neumann3 d s = Ok s' /\
      holds3 (d3_domain d) s' (fun i j k =>
        u (clamp_if (xbc (d3_domain d)) (nx (d3_domain d)) i)
          (clamp_if (ybc (d3_domain d)) (ny (d3_domain d)) j)
          (clamp_if (zbc (d3_domain d)) (nz (d3_domain d)) k)).
  Proof.
    intros W HS. unfold apply_neumann3, clamp_if.
    assert (exists s1, (if bctype_eqb (xbc (d3_domain d)) Neumann then neumann_x3 d s else Ok s) = Ok s1 /\
      holds3 (d3_domain d) s1 (fun i j k =>
        u (if bctype_eqb (xbc (d3_domain d)) Neumann then clampZ (nx (d3_domain d)) i else i) j k)) as (s1 & -> & HS1).
    { destruct (bctype_eqb _ _); [|eauto].
      destruct (neumann_x3_full d s u W HS) as (s1 & E & H & _). eauto. }
    cbn [rbind].
    assert (exists s2, (if bctype_eqb (ybc (d3_domain d)) Neumann then neumann_y3 d s1 else Ok s1) = Ok s2 /\
      holds3 (d3_domain d) s2 (fun i j k =>
        u (if bctype_eqb (xbc (d3_domain d)) Neumann then clampZ (nx (d3_domain d)) i else i)
          (if bctype_eqb (ybc (d3_domain d)) Neumann then clampZ (ny (d3_domain d)) j else j) k)) as (s2 & -> & HS2).
    { destruct (bctype_eqb (ybc _) _); [|eauto].
      destruct (neumann_y3_full d s1 _ W HS1) as (s2 & E & H & _). eauto. }
    cbn [rbind].
    destruct (bctype_eqb (zbc _) _); [|eauto].
    destruct (neumann_z3_full d s2 _ W HS2) as (s3 & E & H & _). eauto.
  Qed.

  (** Periodic fill followed by the Neumann fills, as the right-hand sides call them. *)
  Lemma apply_bcs3_full d s u :
    wf3 d -> thick (d3_domain d) -> holds3 (d3_domain d) s u ->
    exists s1 s2, apply_periodic3 d s = Ok s1 /\ apply_neumann3 d s1 = Ok s2 /\
      holds3 (d3_domain d) s2 (extend3 (d3_domain d) u).
  Proof.
    intros W T HS. destruct (wf_valid _ W) as (H1 & H2 & H3 & Hh).
    destruct (apply_periodic3_full d s u W T HS) as (s1 & E1 & HS1 & _).
    destruct (apply_neumann3_full d s1 _ W HS1) as (s2 & E2 & HS2).
    exists s1, s2. split; auto. split; auto.
    eapply holds3_ext; [exact HS2|]. intros i j k _. unfold periodic3, extend3, clamp_if.
    assert (K : forall bc n x, 1 <= n -> (if bctype_eqb bc Neumann then clampZ n x else x) mod n = extend1 bc n x).
    { intros bc n x Hn. destruct bc; simpl; auto. apply Z.mod_small. apply clamp_range; lia. }
    rewrite !K; auto.
  Qed.
End BC3.
