(** The Poisson test problem. *)
From Verif Require Import Outcome ZList ZListProofs Num Kernel KernelProofs Gather Loop
  ModelIndex IndexProofs ModelDisc3D ModelDisc2D ModelCH SpecGrid Disc3DProofs Stencil3Proofs Make3Proofs
  BC3Proofs CHProofs ModelPoisson ModelMon SpecMon.
From Coq Require Import Reals Lra ZifyBool.
Local Open Scope Z_scope.

Section Generic.
  Context {V : Type} `{N : Num V}.
  Variables (nsin ncos : V -> V).

  Definition halo_z (dom : domain V) (k : Z) : bool := (k <? 0) || (nz dom <=? k).

  Lemma apply_dirichlet_full (d : disc3 V) (c : list V) u X Y Zc :
    wf3 d -> holds3 (d3_domain d) c u ->
    holds3 (d3_domain d) (d3_x d) X -> holds3 (d3_domain d) (d3_y d) Y -> holds3 (d3_domain d) (d3_z d) Zc ->
    let g := fun i j k => nmul (nmul (nsin (X i j k)) (ncos (Y i j k))) (ncos (Zc i j k)) in
    exists c', apply_dirichlet nsin ncos d c = Ok c' /\
      holds3 (d3_domain d) c' (fun i j k => if halo_z (d3_domain d) k then g i j k else u i j k) /\
      schedule_independent (map (dirichlet_body nsin ncos d) (zrange (- d3_nhalo d) (d3_ni d + d3_nhalo d)))
        [c; d3_x d; d3_y d; d3_z d] [c'; d3_x d; d3_y d; d3_z d].
  Proof.
    intros W HC HX HY HZ g. set (dom := d3_domain d) in *.
    pose proof (wf_valid _ W) as HV. fold dom in HV. pose proof HV as (H1 & H2 & H3 & Hh).
    set (inner := fun i : Z => flat_map (fun j => map (fun k => (i, j, k)) (side_cells (nz dom) (nhalo dom)))
                             (zrange (- nhalo dom) (ny dom + nhalo dom))).
    assert (IN : forall x i j k, In (i, j, k) (inner x) <->
                   x = i /\ - nhalo dom <= j < ny dom + nhalo dom /\ In k (side_cells (nz dom) (nhalo dom))).
    { intros x i j k. unfold inner. rewrite in_flat_map. split.
      - intros (j' & Hj & H). apply in_map_iff in H as (k' & E & Hk). injection E as -> -> ->.
        rewrite in_zrange in Hj. auto.
      - intros (-> & Hj & Hk). exists j. rewrite in_zrange. split; auto. apply in_map_iff. eauto. }
    assert (INF : forall i j k, In (i, j, k) (flat_map inner (zrange (- nhalo dom) (nx dom + nhalo dom))) <->
                   padded3 dom i j k /\ halo_z dom k = true).
    { intros i j k. rewrite in_flat_map. unfold padded3, halo_z. split.
      - intros (x & Hx & H). apply IN in H as (-> & Hj & Hk). rewrite in_zrange in Hx. apply in_side in Hk. lia.
      - intros (P & Hk). exists i. rewrite in_zrange. split; [lia|]. apply IN. split; auto. split; [lia|].
        apply in_side. lia. }
    destruct (nested_loop (zrange (- nhalo dom) (nx dom + nhalo dom)) inner (dirichlet_body nsin ncos d)
                (fun t : Z * Z * Z => let '(i, j, k) := t in dirichlet_cell nsin ncos d i j k)
                (fun t => let '(i, j, k) := t in [(0%nat, slot3 dom i j k, g i j k)])
                [c; d3_x d; d3_y d; d3_z d]) as (m' & SI & SH & T & F).
    - apply nodup_zrange.
    - apply nodup_flat_map; [apply nodup_zrange| |].
      + intros i _. apply nodup_flat_map; [apply nodup_zrange| |].
        * intros j _. apply nodup_map_inj; [apply nodup_side; auto|]. intros x y _ _ E. congruence.
        * intros j j' [[a b] e] _ _ A B. apply in_map_iff in A as (? & E & _). apply in_map_iff in B as (? & E' & _). congruence.
      + intros i i' [[a b] e] _ _ A B. apply IN in A, B. destruct A, B. congruence.
    - intros x y [[a b] e] _ _ A B. apply IN in A, B. destruct A, B. congruence.
    - intros i m1 _. unfold dirichlet_body. rewrite exec_pfor. unfold inner. rewrite map_flat_map.
      rewrite (wf_nh _ W), (wf_nj _ W), (wf_nk _ W). fold dom.
      apply exec_all_expand. intros j m2 _. rewrite exec_pseq, !exec_pfor. rewrite map_map.
      unfold side_cells. rewrite map_app, exec_all_app.
      destruct (exec_all _ m2); cbn [rbind]; auto. rewrite exec_pfor. reflexivity.
    - intros i R Wr _ HU. unfold dirichlet_body.
      rewrite (wf_nh _ W), (wf_nj _ W), (wf_nk _ W). fold dom.
      apply uses_pfor. intros j Hj. apply uses_pseq; apply uses_pfor; intros k Hk;
        apply (HU (i, j, k)); apply IN; (split; [auto|split; [lia|apply in_side; lia]]).
    - intros [[i j] k] _. cbn. repeat constructor; auto.
    - intros [[i j] k] [[i' j'] k'] [a q] I I' [E|[]] [E'|[]]. apply INF in I as (P & _), I' as (P' & _).
      injection E as <- <-. injection E' as E'. symmetry in E'.
      destruct (slot3_inj dom _ _ _ _ _ _ P P' E') as (-> & -> & ->). reflexivity.
    - intros [[i j] k] I. apply INF in I as (P & _). unfold dirichlet_cell. rewrite !ix3_slot by auto. fold dom.
      pose proof (slot3_range dom i j k P) as RG.
      assert (NW : forall n q b', (0 < n)%nat -> In (n, q) (locs (let '(i0, j0, k0) := b' in [(0%nat, slot3 dom i0 j0 k0, g i0 j0 k0)])) -> b' = (i, j, k)).
      { intros n q [[? ?] ?] Hn [E|[]]. injection E as <- _. lia. }
      prove_uses ltac:(first [split; [eapply inb_nth; [reflexivity|first [rewrite (proj1 HX)|rewrite (proj1 HY)|rewrite (proj1 HZ)]; exact RG]
                                     |intros b' _; apply NW; lia] | cbn; auto]).
    - intros [[i j] k] I. apply INF in I as (P & _). unfold dirichlet_cell. rewrite !ix3_slot by auto. fold dom.
      pose proof (slot3_range dom i j k P) as RG.
      eapply st_rd; [cbn; auto| |].
      { exact (proj2 HX i j k P). }
      eapply st_rd; [cbn; auto| |].
      { exact (proj2 HY i j k P). }
      eapply st_rd; [cbn; auto| |].
      { exact (proj2 HZ i j k P). }
      apply st_wr; [apply inb_0; rewrite (proj1 HC); auto|apply st_done].
    - apply same_shape_four in SH as (c' & x' & y' & z' & -> & L1 & L2 & L3 & L4).
      assert (x' = d3_x d) as ->.
      { apply unread_eq; auto. intros q. apply (F 1%nat q). intros [[? ?] ?] _ [E|[]]. discriminate. }
      assert (y' = d3_y d) as ->.
      { apply unread_eq; auto. intros q. apply (F 2%nat q). intros [[? ?] ?] _ [E|[]]. discriminate. }
      assert (z' = d3_z d) as ->.
      { apply unread_eq; auto. intros q. apply (F 3%nat q). intros [[? ?] ?] _ [E|[]]. discriminate. }
      exists c'. unfold apply_dirichlet, forall_loop. rewrite (wf_nh _ W), (wf_ni _ W). fold dom.
      split; [destruct SI as (-> & _); reflexivity|]. split; [|exact SI].
      split; [rewrite L1; apply HC|]. intros i j k P.
      destruct (halo_z dom k) eqn:EK.
      + apply (T (i, j, k) 0%nat (slot3 dom i j k) (g i j k)); [apply INF; auto|left; auto].
      + rewrite <- (proj2 HC i j k P). apply (F 0%nat (slot3 dom i j k)).
        intros [[i' j'] k'] I [E|[]]. apply INF in I as (P' & EK'). injection E as E.
        destruct (slot3_inj dom _ _ _ _ _ _ P' P E) as (-> & -> & ->). congruence.
  Qed.

  Lemma add_source_full (d : disc3 V) (r : list V) w X Y Zc :
    wf3 d -> holds_inside3 (d3_domain d) r w ->
    holds3 (d3_domain d) (d3_x d) X -> holds3 (d3_domain d) (d3_y d) Y -> holds3 (d3_domain d) (d3_z d) Zc ->
    exists r', add_source nsin ncos d r = Ok r' /\
      holds_inside3 (d3_domain d) r' (fun i j k =>
        nadd (w i j k) (nmul (nmul (nmul (nint 3) (nsin (X i j k))) (ncos (Y i j k))) (ncos (Zc i j k)))) /\
      same_halo3 (d3_domain d) r r' /\
      schedule_independent (map (source_body nsin ncos d) (zrange 0 (zlen (d3_interior d))))
        [r; d3_x d; d3_y d; d3_z d] [r'; d3_x d; d3_y d; d3_z d].
  Proof.
    intros W HR HX HY HZ. set (dom := d3_domain d) in *.
    pose proof (wf_valid _ W) as HV. fold dom in HV. pose proof HV as (H1 & H2 & H3 & Hh).
    set (val := fun i j k => nadd (w i j k) (nmul (nmul (nmul (nint 3) (nsin (X i j k))) (ncos (Y i j k))) (ncos (Zc i j k)))).
    destruct (interior_loop3 d
      (fun i j k => Rd 1%nat (ix3 d i j k) (fun x => Rd 2%nat (ix3 d i j k) (fun y => Rd 3%nat (ix3 d i j k) (fun z =>
         Rd 0%nat (ix3 d i j k) (fun v => Wr 0%nat (ix3 d i j k)
           (nadd v (nmul (nmul (nmul (nint 3) (nsin x)) (ncos y)) (ncos z))) Done)))))
      [(0%nat, val)] [r; d3_x d; d3_y d; d3_z d]) as (m' & SI & E & SH & T & F); auto.
    - repeat constructor; cbn; auto.
    - intros i j k I. fold dom in I |- *. assert (P : padded3 dom i j k) by (apply inside_padded3; auto).
      pose proof (slot3_range dom i j k P) as RG. rewrite !ix3_slot by auto. fold dom.
      prove_uses ltac:(first
        [split; [eapply inb_nth; [reflexivity|first [rewrite (proj1 HX)|rewrite (proj1 HY)|rewrite (proj1 HZ)|rewrite (proj1 HR)]; exact RG]
                |cbn; auto; intros [C|[]]; discriminate] | cbn; auto]).
    - intros i j k I. fold dom in I |- *. assert (P : padded3 dom i j k) by (apply inside_padded3; auto).
      pose proof (slot3_range dom i j k P) as RG. rewrite !ix3_slot by auto. fold dom.
      eapply st_rd; [cbn; auto| |].
      { exact (proj2 HX i j k P). }
      eapply st_rd; [cbn; auto| |].
      { exact (proj2 HY i j k P). }
      eapply st_rd; [cbn; auto| |].
      { exact (proj2 HZ i j k P). }
      eapply st_rd; [cbn; auto| |].
      { exact (proj2 HR i j k I). }
      apply st_wr; [apply inb_0; rewrite (proj1 HR); auto|apply st_done].
    - apply same_shape_four in SH as (r' & x' & y' & z' & -> & L1 & L2 & L3 & L4).
      assert (x' = d3_x d) as ->.
      { apply unread_eq; auto. intros q. apply (F 1%nat q). left. cbn. intros [C|[]]; discriminate. }
      assert (y' = d3_y d) as ->.
      { apply unread_eq; auto. intros q. apply (F 2%nat q). left. cbn. intros [C|[]]; discriminate. }
      assert (z' = d3_z d) as ->.
      { apply unread_eq; auto. intros q. apply (F 3%nat q). left. cbn. intros [C|[]]; discriminate. }
      exists r'. unfold add_source, source_body. split; [rewrite E; reflexivity|]. split; [|split; [|exact SI]].
      + split; [rewrite L1; apply HR|]. intros i j k I. exact (T 0%nat val i j k (or_introl eq_refl) I).
      + split; [auto|]. intros i j k P NI. symmetry. apply (F 0%nat (slot3 dom i j k)). right.
        intros i' j' k' I' E'. fold dom in I', E'.
        assert (P' : padded3 dom i' j' k') by (apply inside_padded3; auto).
        destruct (slot3_inj dom _ _ _ _ _ _ P P' E') as (-> & -> & ->). contradiction.
  Qed.
End Generic.

Section Trig.
  Local Open Scope R_scope.

  Lemma sin_shift x n : sin (x + 2 * IZR n * PI) = sin x.
  Proof.
    destruct (Z_le_gt_dec 0 n) as [H|H].
    - rewrite <- (Z2Nat.id n H), <- INR_IZR_INZ. apply sin_period.
    - rewrite <- (sin_period (x + 2 * IZR n * PI) (Z.to_nat (- n))). f_equal.
      rewrite INR_IZR_INZ, Z2Nat.id by lia. rewrite opp_IZR. ring.
  Qed.
  Lemma cos_shift x n : cos (x + 2 * IZR n * PI) = cos x.
  Proof.
    destruct (Z_le_gt_dec 0 n) as [H|H].
    - rewrite <- (Z2Nat.id n H), <- INR_IZR_INZ. apply cos_period.
    - rewrite <- (cos_period (x + 2 * IZR n * PI) (Z.to_nat (- n))). f_equal.
      rewrite INR_IZR_INZ, Z2Nat.id by lia. rewrite opp_IZR. ring.
  Qed.

  Lemma sin_lower x : 0 <= x <= PI -> x - x * x * x / 6 <= sin x.
  Proof.
    intros H. pose proof (sin_bound x 0 (proj1 H) (proj2 H)) as (L & _).
    unfold sin_approx, sin_term in L. cbn [Nat.mul Nat.add sum_f_R0 pow fact INR] in L. lra.
  Qed.

  Lemma sin_upper x : 0 <= x -> sin x <= x.
  Proof. intros [H|<-]; [left; apply sin_lt_x; auto|rewrite sin_0; lra]. Qed.

  (** The truncation factor of the discrete Laplacian. *)
  Lemma factor_bound_pos h : 0 < h -> 0 <= 3 + 6 * (cos h - 1) / (h * h) <= h * h / 4.
  Proof.
    intros H. set (x := h / 2). assert (E : h = 2 * x) by (unfold x; field).
    assert (C : cos h = 1 - 2 * (sin x * sin x)).
    { rewrite E, cos_2a_sin. ring. }
    assert (X0 : 0 < x) by (unfold x; lra).
    assert (S2 : 0 <= sin x * sin x <= x * x).
    { split; [apply Rle_0_sqr|]. change (Rsqr (sin x) <= Rsqr x). apply Rsqr_le_abs_1.
      rewrite (Rabs_right x) by lra. apply Rabs_le. split.
      - destruct (Rle_dec x PI).
        + pose proof (sin_ge_0 x ltac:(lra) ltac:(lra)). lra.
        + pose proof (SIN_bound x). pose proof PI2_1. unfold PI2 in *. lra.
      - apply sin_upper; lra. }
    assert (F : 3 + 6 * (cos h - 1) / (h * h) = 3 - 3 * (sin x * sin x) / (x * x)).
    { rewrite C, E. field. lra. }
    rewrite F. assert (XX : 0 < x * x) by nra.
    assert (Q : sin x * sin x / (x * x) <= 1).
    { apply (Rmult_le_reg_r (x * x)); auto. unfold Rdiv. rewrite Rmult_assoc, Rinv_l by lra. lra. }
    assert (Q0 : 0 <= sin x * sin x / (x * x)).
    { apply Rmult_le_pos; [lra|left; apply Rinv_0_lt_compat; auto]. }
    replace (3 * (sin x * sin x) / (x * x)) with (3 * (sin x * sin x / (x * x))) by (unfold Rdiv; ring).
    split; [lra|]. rewrite E.
    replace (2 * x * (2 * x) / 4) with (x * x) by field.
    destruct (Rle_dec 3 (x * x)) as [B|B]; [lra|].
    assert (XP : x <= PI). { pose proof PI2_1. unfold PI2 in *. nra. }
    pose proof (sin_lower x ltac:(lra)) as L.
    assert (L0 : 0 <= x - x * x * x / 6).
    { replace (x - x * x * x / 6) with (x * (1 - x * x / 6)) by field. apply Rmult_le_pos; lra. }
    assert (L2 : (x - x * x * x / 6) * (x - x * x * x / 6) <= sin x * sin x).
    { apply Rmult_le_compat; auto. }
    assert (L3 : x * x - x * x * (x * x) / 3 <= sin x * sin x).
    { eapply Rle_trans; [|exact L2].
      replace ((x - x * x * x / 6) * (x - x * x * x / 6)) with (x * x - x * x * (x * x) / 3 + (x*x*x)*(x*x*x)/36) by field.
      assert (0 <= (x*x*x)*(x*x*x)) by apply Rle_0_sqr. lra. }
    assert (L4 : 1 - x * x / 3 <= sin x * sin x / (x * x)).
    { apply (Rmult_le_reg_r (x * x)); auto.
      replace (sin x * sin x / (x * x) * (x * x)) with (sin x * sin x) by (field; lra). lra. }
    lra.
  Qed.

  Lemma factor_bound h : h <> 0 -> 0 <= 3 + 6 * (cos h - 1) / (h * h) <= h * h / 4.
  Proof.
    intros H. destruct (Rtotal_order h 0) as [L|[E|G]]; [|contradiction|apply factor_bound_pos; auto].
    pose proof (factor_bound_pos (- h) ltac:(lra)) as B. rewrite cos_neg in B.
    replace (- h * - h) with (h * h) in B by ring. exact B.
  Qed.
End Trig.

Section Exact.
  Local Open Scope R_scope.

  Definition cx (dom : domain R) (h : R) (i : Z) : R := xbeg dom + h * (IZR i + / 2).
  Definition cy (dom : domain R) (h : R) (j : Z) : R := ybeg dom + h * (IZR j + / 2).
  Definition cz (dom : domain R) (h : R) (k : Z) : R := zbeg dom + h * (IZR k + / 2).

  Lemma centre_R x0 h i : centre_at (N:=Num_R) x0 h i = x0 + h * (IZR i + / 2).
  Proof.
    unfold centre_at, corner_at. cbn [nadd nmul nrat nint Num_R]. rewrite plus_IZR. field.
  Qed.

  Lemma make3_centres dom d : valid_domain3 dom -> make3 dom = Ok d ->
    wf3 d /\ d3_domain d = dom /\
    holds3 dom (d3_x d) (fun i _ _ => cx dom (d3_dx d) i) /\
    holds3 dom (d3_y d) (fun _ j _ => cy dom (d3_dx d) j) /\
    holds3 dom (d3_z d) (fun _ _ k => cz dom (d3_dx d) k).
  Proof.
    intros HV E. destruct (make3_ok dom HV) as (d' & E' & W & D & _ & _ & _ & HX & HY & HZ).
    rewrite E in E'. injection E' as <-. split; auto. split; auto.
    split; [|split]; (eapply holds3_ext; [first [exact HX|exact HY|exact HZ]|]; intros; apply centre_R).
  Qed.
End Exact.
