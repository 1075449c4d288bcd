(** Proofs of schedule independence of the field kernels (C13). *)
From Verif Require Import Outcome ZList ZListProofs Num Kernel KernelProofs ModelIndex IndexProofs
  ModelDisc3D ModelDisc2D ModelCH SpecGrid Gather Loop Disc3DProofs Make3Proofs Stencil3Proofs
  BC3Proofs Transfer3Proofs Disc2DProofs Make2Proofs CHProofs TransferFinal.
Open Scope Z_scope.

Section Fused.
  Context {V : Type} `{N : Num V}.
  Implicit Types (d : disc3 V) (p : ch_params V).

  Lemma fused_loop_si d p arg c2 rhs :
    wf3 d -> 2 <= nhalo (d3_domain d) ->
    zlen arg = cells3 (d3_domain d) -> zlen c2 = cells3 (d3_domain d) -> zlen rhs = cells3 (d3_domain d) ->
    exists r, schedule_independent (map (fused_body3 d p) (zrange 0 (zlen (d3_interior d)))) [arg; c2; rhs] [arg; c2; r].
  Proof.
    intros W Hh LA LC HR. set (dom := d3_domain d) in *.
    destruct (holds3_exists dom arg (wf_valid d W) LA) as (ua & HA).
    destruct (holds3_exists dom c2 (wf_valid d W) LC) as (w & HC2).
    destruct (interior_loop3 d (fun i j k =>
          Rd 0%nat (ix3 d (i - 1) j k) (fun a => Rd 0%nat (ix3 d (i + 1) j k) (fun b =>
          Rd 0%nat (ix3 d i (j - 1) k) (fun c => Rd 0%nat (ix3 d i (j + 1) k) (fun e =>
          Rd 0%nat (ix3 d i j (k - 1)) (fun f => Rd 0%nat (ix3 d i j (k + 1)) (fun g =>
          Rd 0%nat (ix3 d i j k) (fun o =>
          fused_tail d p 1%nat 2%nat i j k ((a + b + c + e + f + g - nint 6 * o) / (d3_dx d * d3_dx d))%num))))))))
        [(2%nat, fun i j k => (- ch_eps2 p * (bih_sum3 w i j k / (d3_dx d * d3_dx d * (d3_dx d * d3_dx d)))
           + lap_expr3 (d3_dx d) ua i j k - ch_sigma p * (w i j k - ch_m p))%num)] [arg; c2; rhs])
        as (m' & SI & E4 & SH & T & F); auto.
      { repeat constructor; simpl; auto. }
      { intros i j k (Hi & Hj & Hk). fold dom in Hi, Hj, Hk. unfold fused_tail.
        prove_uses ltac:(rewrite ix3_slot by auto; fold dom; first
          [ split; [eapply inb_nth; [reflexivity|]; first [rewrite (proj1 HA)|rewrite (proj1 HC2)];
                    apply slot3_range; unfold padded3; lia
                   | simpl; intros [C|[]]; discriminate]
          | split; [simpl; auto|reflexivity] ]). }
      { intros i j k (Hi & Hj & Hk). fold dom in Hi, Hj, Hk. unfold fused_tail. rewrite !ix3_slot by auto. fold dom.
        prove_stores ltac:(unfold mread; cbn [nth_error]; first [apply HA|apply HC2]; unfold padded3; lia)
          ltac:(eapply inb_nth; [reflexivity|]; rewrite HR; apply slot3_range; unfold padded3; lia). }
      apply same_shape_three in SH as (arg' & c2' & r & -> & L1 & L2 & L3).
      assert (arg' = arg) as ->.
      { apply unread_eq; auto. intros q. apply (F 0%nat q). left. simpl. intros [C|[]]; discriminate. }
      assert (c2' = c2) as ->.
      { apply unread_eq; auto. intros q. apply (F 1%nat q). left. simpl. intros [C|[]]; discriminate. }
      exists r. exact SI.
  Qed.

  Lemma fully_fused_loop_si d p c2 rhs :
    wf3 d -> 2 <= nhalo (d3_domain d) ->
    zlen c2 = cells3 (d3_domain d) -> zlen rhs = cells3 (d3_domain d) ->
    exists r, schedule_independent (map (fully_fused_body3 d p) (zrange 0 (zlen (d3_interior d)))) [c2; rhs] [c2; r].
  Proof.
    intros W Hh LC HR. set (dom := d3_domain d) in *.
    destruct (holds3_exists dom c2 (wf_valid d W) LC) as (w & HC2).
      destruct (interior_kernel2 d (fun i j k =>
          Rd 0%nat (ix3 d (i - 1) j k) (fun a => Rd 0%nat (ix3 d (i + 1) j k) (fun b =>
          Rd 0%nat (ix3 d i (j - 1) k) (fun c => Rd 0%nat (ix3 d i (j + 1) k) (fun e =>
          Rd 0%nat (ix3 d i j (k - 1)) (fun f => Rd 0%nat (ix3 d i j (k + 1)) (fun g =>
          Rd 0%nat (ix3 d i j k) (fun o =>
          let la (v : V) := (npow3 v - v)%num in
          fused_tail d p 0%nat 1%nat i j k
            ((la a + la b + la c + la e + la f + la g - nint 6 * la o) / (d3_dx d * d3_dx d))%num))))))))
        c2 rhs (ch_expr3 p (d3_dx d) (d3_dx d * d3_dx d * (d3_dx d * d3_dx d))%num w)) as (r & _ & _ & _ & SI); auto.
      { intros i j k (Hi & Hj & Hk). fold dom in Hi, Hj, Hk. unfold fused_tail.
        prove_uses ltac:(rewrite ix3_slot by auto; fold dom; split; [reflexivity|]; first
          [ reflexivity | rewrite (proj1 HC2); apply slot3_range; unfold padded3; lia ]). }
      { intros i j k (Hi & Hj & Hk). fold dom in Hi, Hj, Hk. unfold fused_tail. rewrite !ix3_slot by auto. fold dom.
        prove_stores ltac:(unfold mread; cbn [nth_error]; apply HC2; unfold padded3; lia)
          ltac:(eapply inb_nth; [reflexivity|]; rewrite HR; apply slot3_range; unfold padded3; lia). }
      exists r. exact SI.
  Qed.
End Fused.

Lemma pf_C13_fills_3d :
  forall (V : Type) (N : Num V) (dom : domain V) (d : disc3 V) (s : list V),
  valid_domain3 dom -> nhalo dom <= nx dom /\ nhalo dom <= ny dom /\ nhalo dom <= nz dom ->
  make3 dom = Ok d -> zlen s = cells3 dom ->
  (exists s', apply_periodic3 d s = Ok s' /\
     schedule_independent (map (periodic_body3 d) (zrange 0 (zlen (d3_donor d)))) [s] [s']) /\
  (exists s', neumann_x3 d s = Ok s' /\
     schedule_independent (map (neumann_x_body3 d) (zrange (- d3_nhalo d) (d3_nj d + d3_nhalo d))) [s] [s']) /\
  (exists s', neumann_y3 d s = Ok s' /\
     schedule_independent (map (neumann_y_body3 d) (zrange (- d3_nhalo d) (d3_ni d + d3_nhalo d))) [s] [s']) /\
  (exists s', neumann_z3 d s = Ok s' /\
     schedule_independent (map (neumann_z_body3 d) (zrange (- d3_nhalo d) (d3_ni d + d3_nhalo d))) [s] [s']).
Proof.
  intros V N dom d s HV HT HM LS. destruct (make3_inv dom d HV HM) as (W & <-).
  destruct (holds3_exists _ s HV LS) as (u & HU).
  split; [|split; [|split]].
  - destruct (apply_periodic3_full d s u W HT HU) as (s' & E & _ & SI). eauto.
  - destruct (neumann_x3_full d s u W HU) as (s' & E & _ & SI). eauto.
  - destruct (neumann_y3_full d s u W HU) as (s' & E & _ & SI). eauto.
  - destruct (neumann_z3_full d s u W HU) as (s' & E & _ & SI). eauto.
Qed.

Lemma pf_C13_fills_2d :
  forall (V : Type) (N : Num V) (dom : domain V) (d : disc2 V) (s : list V),
  valid_domain2 dom -> nhalo dom <= nx dom -> make2 dom = Ok d -> zlen s = cells2 dom ->
  exists s1 s2 s3 s4, apply_periodic2 d s = Ok s4 /\
      schedule_independent (map (periodic_x_body2 d) (zrange 0 (d2_ni d))) [s] [s1] /\
      schedule_independent (map (periodic_y_body2 d) (zrange 0 (d2_ni d))) [s1] [s2] /\
      schedule_independent (map (periodic_w_body2 d) (zrange (- d2_nhalo d) 0)) [s2] [s3] /\
      schedule_independent (map (periodic_e_body2 d) (zrange (d2_ni d) (d2_ni d + d2_nhalo d))) [s3] [s4].
Proof.
  intros V N dom d s HV HT HM LS. destruct (make2_inv dom d HV HM) as (W & <-).
  destruct (holds2_exists _ s HV LS) as (u & HU).
  destruct (apply_periodic2_full d s u W HT HU) as (s1 & s2 & s3 & s4 & E & _ & A & B & C & D).
  exists s1, s2, s3, s4. auto.
Qed.

Lemma pf_C13_operators_3d :
  forall (V : Type) (N : Num V) (dom : domain V) (d : disc3 V) (s o : list V),
  valid_domain3 dom -> make3 dom = Ok d -> zlen s = cells3 dom -> zlen o = cells3 dom ->
  (1 <= nhalo dom -> exists o', laplacian3 d s o = Ok (s, o') /\
     schedule_independent (map (laplacian_body3 d) (zrange 0 (zlen (d3_interior d)))) [s; o] [s; o']) /\
  (2 <= nhalo dom -> exists o', biharmonic3 d s o = Ok (s, o') /\
     schedule_independent (map (biharmonic_body3 d) (zrange 0 (zlen (d3_interior d)))) [s; o] [s; o']).
Proof.
  intros V N dom d s o HV HM LS LO. destruct (make3_inv dom d HV HM) as (W & <-).
  destruct (holds3_exists _ s HV LS) as (u & HU). split; intros HN.
  - destruct (laplacian3_full d s o u W HN HU LO) as (o' & E & _ & _ & SI). eauto.
  - destruct (biharmonic3_full d s o u W HN HU LO) as (o' & E & _ & _ & SI). eauto.
Qed.

Lemma pf_C13_operators_2d :
  forall (V : Type) (N : Num V) (dom : domain V) (d : disc2 V) (s o : list V),
  valid_domain2 dom -> make2 dom = Ok d -> zlen s = cells2 dom -> zlen o = cells2 dom ->
  (1 <= nhalo dom -> exists o', laplacian2 d s o = Ok (s, o') /\
     schedule_independent (map (laplacian_body2 d) (zrange 0 (zlen (d2_interior d)))) [s; o] [s; o']) /\
  (2 <= nhalo dom -> exists o', biharmonic2 d s o = Ok (s, o') /\
     schedule_independent (map (biharmonic_body2 d) (zrange 0 (zlen (d2_interior d)))) [s; o] [s; o']).
Proof.
  intros V N dom d s o HV HM LS LO. destruct (make2_inv dom d HV HM) as (W & <-).
  destruct (holds2_exists _ s HV LS) as (u & HU). split; intros HN.
  - destruct (laplacian2_full d s o u W HN HU LO) as (o' & E & _ & _ & SI). eauto.
  - destruct (biharmonic2_full d s o u W HN HU LO) as (o' & E & _ & _ & SI). eauto.
Qed.

Lemma pf_C13_rhs_3d :
  forall (V : Type) (N : Num V) (dom : domain V) (d : disc3 V) (p : ch_params V) (a b c e : list V),
  valid_domain3 dom -> 2 <= nhalo dom -> make3 dom = Ok d ->
  zlen a = cells3 dom -> zlen b = cells3 dom -> zlen c = cells3 dom -> zlen e = cells3 dom ->
  let cells := zrange 0 (cells3 dom) in
  let interior := zrange 0 (zlen (d3_interior d)) in
  (exists b', schedule_independent (map cube_body cells) [a; b] [a; b']) /\
  (exists a', schedule_independent (map zero_body cells) [a] [a']) /\
  (exists b', schedule_independent (map (linear_body p (d3_interior d)) interior) [a; b] [a; b']) /\
  (exists a', schedule_independent (map (combine_body p (d3_interior d)) interior) [a; b; c; e] [a'; b; c; e]) /\
  (exists c', schedule_independent (map (fused_body3 d p) interior) [a; b; c] [a; b; c']) /\
  (exists b', schedule_independent (map (fully_fused_body3 d p) interior) [a; b] [a; b']).
Proof.
  intros V N dom d p a b c e HV HN HM LA LB LC LE cells interior. destruct (make3_inv dom d HV HM) as (W & <-).
  unfold cells, interior.
  split; [|split; [|split; [|split; [|split]]]].
  - destruct (cube_loop_spec a b ltac:(congruence)) as (b' & _ & _ & _ & SI). rewrite LA in SI. eauto.
  - destruct (zero_loop_spec a) as (a' & _ & _ & _ & SI). rewrite LA in SI. eauto.
  - destruct (linear_loop_spec p (d3_interior d) a b) as (b' & _ & _ & _ & _ & SI); eauto using interior_nodup.
    { intros q Hq. rewrite LA. apply interior_range; auto. } { congruence. }
  - destruct (combine_loop_spec p (d3_interior d) a b c e) as (b' & _ & _ & _ & _ & SI); eauto using interior_nodup; try congruence.
    { intros q Hq. rewrite LA. apply interior_range; auto. }
  - apply fused_loop_si; auto.
  - apply fully_fused_loop_si; auto.
Qed.

Lemma pf_C13_rhs_2d :
  forall (V : Type) (N : Num V) (dom : domain V) (d : disc2 V) (p : ch_params V) (a b c e : list V),
  valid_domain2 dom -> make2 dom = Ok d ->
  zlen a = cells2 dom -> zlen b = cells2 dom -> zlen c = cells2 dom -> zlen e = cells2 dom ->
  let cells := zrange 0 (cells2 dom) in
  let interior := zrange 0 (zlen (d2_interior d)) in
  (exists b', schedule_independent (map cube_body cells) [a; b] [a; b']) /\
  (exists a', schedule_independent (map zero_body cells) [a] [a']) /\
  (exists b', schedule_independent (map (linear_body p (d2_interior d)) interior) [a; b] [a; b']) /\
  (exists a', schedule_independent (map (combine_body p (d2_interior d)) interior) [a; b; c; e] [a'; b; c; e]).
Proof.
  intros V N dom d p a b c e HV HM LA LB LC LE cells interior. destruct (make2_inv dom d HV HM) as (W & <-).
  unfold cells, interior.
  split; [|split; [|split]].
  - destruct (cube_loop_spec a b ltac:(congruence)) as (b' & _ & _ & _ & SI). rewrite LA in SI. eauto.
  - destruct (zero_loop_spec a) as (a' & _ & _ & _ & SI). rewrite LA in SI. eauto.
  - destruct (linear_loop_spec p (d2_interior d) a b) as (b' & _ & _ & _ & _ & SI); eauto using interior_nodup2.
    { intros q Hq. rewrite LA. apply interior_range2; auto. } { congruence. }
  - destruct (combine_loop_spec p (d2_interior d) a b c e) as (b' & _ & _ & _ & _ & SI); eauto using interior_nodup2; try congruence.
    { intros q Hq. rewrite LA. apply interior_range2; auto. }
Qed.

Lemma pf_C13_transfer :
  forall (V : Type) (N : Num V) (dom : domain V) (d dc : disc3 V) (f c : list V),
  valid_domain3 dom -> make3 dom = Ok d -> coarsen3 d = Ok dc ->
  zlen f = cells3 dom -> zlen c = cells3 (d3_domain dc) ->
  (exists c', restrict3 d dc f c = Ok (f, c') /\
     schedule_independent (map (restrict_body3 d dc) (zrange 0 (zlen (d3_interior dc)))) [f; c] [f; c']) /\
  (exists f', prolong3 MGNearest dc d c f = Ok (c, f') /\
     schedule_independent (map (prolong_nearest_body3 dc d) (zrange 0 (zlen (d3_interior dc)))) [c; f] [c; f']) /\
  (1 <= nhalo dom -> exists f', prolong3 MGLinear dc d c f = Ok (c, f') /\
     schedule_independent (map (prolong_linear_body3 dc d) (zrange (-1) (d3_ni dc))) [c; f] [c; f']).
Proof.
  intros V N dom d dc f c HV HM HC LF LC. destruct (make3_inv dom d HV HM) as (W & <-).
  destruct (coarsen3_inv d dc W HC) as (Wc & HH). pose proof (wf_valid dc Wc) as HVc.
  destruct (holds3_exists _ f HV LF) as (u & HU). destruct (holds3_exists _ c HVc LC) as (w & HW).
  assert (NN : 0 <= nhalo (d3_domain d)) by (destruct HV as (_ & _ & _ & H); auto).
  assert (NC : 0 <= nhalo (d3_domain dc)) by (destruct HVc as (_ & _ & _ & H); auto).
  split; [|split].
  - destruct (restrict3_full d dc f c u W Wc HH) as (c' & E & _ & _ & SI); eauto.
    destruct HU as (L & HU). split; auto. intros i j k I. apply HU. apply inside_padded3; auto.
  - destruct (prolong_nearest3_full d dc c f w W Wc HH) as (f' & E & _ & _ & SI); eauto.
    destruct HW as (L & HW). split; auto. intros i j k I. apply HW. apply inside_padded3; auto.
  - intros HN. destruct (prolong_linear3_full d dc c f w W Wc HH) as (f' & E & _ & _ & _ & SI); eauto.
    destruct HH as (_ & _ & _ & H). lia.
Qed.

