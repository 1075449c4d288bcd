(** Cells a right-hand side leaves at zero, the error estimate of a step, runs of the solver
    as chains of steps. *)
From Verif Require Import Outcome ZList ZListProofs Num Kernel ModelIndex IndexProofs ModelDisc3D ModelDisc2D ModelCH
  SpecGrid Disc3DProofs BC3Proofs Make3Proofs Disc2DProofs Make2Proofs Stencil3Proofs CHProofs SpecField SumProofs FieldProofs
  ModelReduce ReduceProofs ModelObs ModelTime ModelRun SpecTime Time1Proofs Time2Proofs Time3Proofs Step1Proofs.
From Coq Require Import Lia Reals Lra FunctionalExtensionality.
Local Open Scope Z_scope.

Section Zero.
  Context {S : Type} (eval : rhs_fun R S) (ok : S -> Prop) (nv : nat) (size : Z) (P : Z -> Prop)
    (f : R -> (nat -> Z -> R) -> nat -> Z -> R).
  Hypothesis C : computes eval ok nv size P f.
  Local Open Scope R_scope.

  Hypothesis Z : keeps_zero eval ok nv size P.

  Lemma ode23_zero rmax o sc u du t dt w wk o' sc' u' du' :
    ode23_shaped nv size o -> ok sc -> state_holds nv size P u w -> shaped nv size du ->
    (o_first o = true -> wk = f t w) ->
    (o_first o = false -> state_holds nv size P (o_k4 o) wk) ->
    zero_off nv size P (o_k1 o) -> zero_off nv size P (o_k2 o) -> zero_off nv size P (o_k3 o) ->
    zero_off nv size P (o_k4 o) ->
    ode23_step rmax eval o sc u du t dt = Ok (o', sc', u', du') ->
    zero_off nv size P (o_k1 o') /\ zero_off nv size P (o_k2 o') /\ zero_off nv size P (o_k3 o') /\
    zero_off nv size P (o_k4 o') /\ zero_off nv size P du'.
  Proof.
    intros (S1 & S2 & S3 & S4 & S5) HO HU HD K1 K4 Z1 Z2 Z3 Z4. unfold ode23_step.
    assert (length u = nv) as -> by apply HU.
    assert (F : exists sc1 u1 k1,
      (if o_first o then eval sc u t (o_k1 o)
       else (k1 <- for_vecs nv copy_body (o_k1 o) [o_k4 o] ;; Ok (sc, u, k1))%res) = Ok (sc1, u1, k1) /\
      ok sc1 /\ state_holds nv size P u1 w /\ state_holds nv size P k1 wk /\ zero_off nv size P k1).
    { destruct (o_first o).
      - rewrite (K1 eq_refl). destruct (C sc u t (o_k1 o) w HO HU S1) as (sc1 & u1 & k1 & E1 & O1 & HU1 & HK1).
        exists sc1, u1, k1. split; auto. split; auto. split; auto. split; auto. exact (Z _ _ _ _ _ _ _ HO (proj1 HU) Z1 E1).
      - destruct (copy_holds nv size P (o_k1 o) (o_k4 o) wk S1 (K4 eq_refl)) as (k1 & E & HK).
        destruct (copy_holds nv size (fun i => ~ P i) (o_k1 o) (o_k4 o) (fun _ _ => 0) S1 Z4) as (k1' & E' & HK').
        assert (k1' = k1) as -> by congruence. rewrite E. cbn [rbind].
        exists sc, u, k1. auto. }
    destruct F as (sc1 & u1 & k1 & E1 & O1 & HU1 & HK1 & ZK1). rewrite E1. cbn [rbind].
    destruct (stage1_holds nv size P dt (nrat 1 2) (o_stage o) u1 k1 w wk S5 HU1 HK1) as (st & Es & Hst).
    rewrite Es. cbn [rbind].
    match goal with |- context [eval sc1 st ?tt _] =>
      destruct (C sc1 st tt (o_k2 o) _ O1 Hst S2) as (sc2 & st2 & k2 & E2 & O2 & Hst2 & HK2) end.
    pose proof (Z _ _ _ _ _ _ _ O1 (proj1 Hst) Z2 E2) as ZK2.
    rewrite E2. cbn [rbind].
    destruct (stage2_holds nv size P dt (nint 0) (nrat 3 4) st2 u1 k1 k2 _ _ _ (proj1 Hst2) HU1 HK1 HK2) as (st3 & E3 & Hst3).
    rewrite E3. cbn [rbind].
    match goal with |- context [eval sc2 st3 ?tt _] =>
      destruct (C sc2 st3 tt (o_k3 o) _ O2 Hst3 S3) as (sc3 & st4 & k3 & E4 & O3 & Hst4 & HK3) end.
    pose proof (Z _ _ _ _ _ _ _ O2 (proj1 Hst3) Z3 E4) as ZK3.
    rewrite E4. cbn [rbind].
    destruct (residual_holds nv size P (nrat 2 9) (nrat 1 3) (nrat 4 9) du k1 k2 k3 _ _ _ HD HK1 HK2 HK3) as (du1 & E5 & Hdu).
    destruct (residual_holds nv size (fun i => ~ P i) (nrat 2 9) (nrat 1 3) (nrat 4 9) du k1 k2 k3 _ _ _ HD ZK1 ZK2 ZK3)
      as (du2 & E5' & Hdu').
    assert (du2 = du1) as -> by congruence.
    rewrite E5. cbn [rbind].
    destruct (update_holds nv size P dt u1 du1 _ _ HU1 Hdu) as (u2 & E6 & Hu').
    rewrite E6. cbn [rbind].
    match goal with |- context [eval sc3 u2 ?tt _] =>
      destruct (C sc3 u2 tt (o_k4 o) _ O3 Hu' S4) as (sc4 & u'' & k4 & E7 & O4 & Hu'' & HK4) end.
    pose proof (Z _ _ _ _ _ _ _ O3 (proj1 Hu') Z4 E7) as ZK4.
    rewrite E7. cbn [rbind].
    destruct (fold_left _ _ _) as [err| | |]; try discriminate. cbn [rbind].
    intros H. injection H as <- <- <- <-. cbn [o_k1 o_k2 o_k3 o_k4].
    split; [exact ZK1|]. split; [exact ZK2|]. split; [exact ZK3|]. split; [exact ZK4|].
    eapply state_holds_ext; [|exact Hdu']. intros. cbn [nadd nmul nrat nint Num_R]. field.
  Qed.

  Theorem ode23_error rmax o sc u du t dt w :
    (forall i l, reduction nmax i i l (rmax i l)) -> (forall i, P i \/ ~ P i) -> 0 <= dt <= 1 ->
    ode23_shaped nv size o -> ok sc -> state_holds nv size P u w -> shaped nv size du ->
    (o_first o = false -> state_holds nv size P (o_k4 o) (f t w)) ->
    zero_off nv size P (o_k1 o) -> zero_off nv size P (o_k2 o) -> zero_off nv size P (o_k3 o) ->
    zero_off nv size P (o_k4 o) ->
    exists o' sc' u' du', ode23_step rmax eval o sc u du t dt = Ok (o', sc', u', du') /\
      0 <= o_err o' /\
      (forall e i, (e < nv)%nat -> (0 <= i < size)%Z -> P i ->
         Rabs (bogacki_shampine f t dt w e i - bs_embedded f t dt w e i) <= o_err o') /\
      (o_err o' = 0 \/ exists e i, (e < nv)%nat /\ (0 <= i < size)%Z /\ P i /\
         o_err o' = Rabs (bogacki_shampine f t dt w e i - bs_embedded f t dt w e i)).
  Proof.
    intros RM DEC DT SH HO HU HD K4 Z1 Z2 Z3 Z4.
    destruct (ode23_step_spec eval ok nv size P f C rmax o sc u du t dt w (f t w) SH HO HU HD)
      as (o' & sc' & u' & du' & E & A1 & A2 & A3 & A4 & A5 & A6 & A7 & A8 & A9 & A10); auto.
    destruct (ode23_zero rmax o sc u du t dt w (f t w) o' sc' u' du') as (B1 & B2 & B3 & B4 & B5); auto.
    destruct A1 as (C1 & C2 & C3 & C4 & C5).
    destruct (error_fold_max rmax RM nv size dt DT (o_k1 o') (o_k2 o') (o_k3 o') (o_k4 o') du' C1 C2 C3 C4 (proj1 A5) nv
      (Nat.le_refl nv)) as (err & E' & P0 & GE & AT).
    assert (err = o_err o') as -> by congruence.
    exists o', sc', u', du'. split; auto. split; auto.
    assert (NEXT : bs_next f t dt w (f t w) = bogacki_shampine f t dt w) by apply bs_next_spec.
    assert (VAL : forall e i v, (e < nv)%nat -> (0 <= i < size)%Z -> P i ->
      contribution (o_k1 o') (o_k2 o') (o_k3 o') (o_k4 o') du' e i v ->
      dt * v = Rabs (bogacki_shampine f t dt w e i - bs_embedded f t dt w e i)).
    { intros e i v He Hi HP (a & b & c & d & r & V1 & V2 & V3 & V4 & V5 & ->).
      rewrite (proj2 A6) in V1 by auto. rewrite (proj2 A7) in V2 by auto. rewrite (proj2 A8) in V3 by auto.
      rewrite (proj2 A9) in V4 by auto. rewrite (proj2 A5) in V5 by auto.
      injection V1 as <-. injection V2 as <-. injection V3 as <-. injection V4 as <-. injection V5 as <-.
      rewrite NEXT. rewrite <- (Rabs_pos_eq dt) at 1 by lra. rewrite <- Rabs_mult. f_equal.
      unfold bs_embedded, bs_slope. cbn [nadd nmul nint nrat Num_R].
      replace (bs_k1 f t w) with (f t w) by reflexivity.
      assert (H2 : bs2 f t dt w (f t w) = bs_k2 f t dt w).
      { unfold bs2, bs_k2, bs_k1. cbn [nadd nmul nint nrat Num_R].
        replace (t + 1 / 2 * dt) with (t + dt / 2) by field. f_equal.
        extensionality x; extensionality y; field. }
      assert (H3 : bs3 f t dt w (f t w) = bs_k3 f t dt w).
      { unfold bs3, bs_k3. rewrite H2. cbn [nadd nmul nint nrat Num_R].
        replace (t + 3 / 4 * dt) with (t + 3 / 4 * dt) by field. f_equal.
        extensionality x; extensionality y; field. }
      rewrite H2, H3. replace (t + 1 * dt) with (t + dt) by ring.
      set (B := f (t + dt) _). unfold bogacki_shampine. replace (bs_k1 f t w) with (f t w) by reflexivity. field. }
    assert (OFF : forall e i v, (e < nv)%nat -> (0 <= i < size)%Z -> ~ P i ->
      contribution (o_k1 o') (o_k2 o') (o_k3 o') (o_k4 o') du' e i v -> v = 0).
    { intros e i v He Hi HP (a & b & c & d & r & V1 & V2 & V3 & V4 & V5 & ->).
      rewrite (proj2 B1) in V1 by auto. rewrite (proj2 B2) in V2 by auto. rewrite (proj2 B3) in V3 by auto.
      rewrite (proj2 B4) in V4 by auto. rewrite (proj2 B5) in V5 by auto.
      injection V1 as <-. injection V2 as <-. injection V3 as <-. injection V4 as <-. injection V5 as <-.
      replace (0 - _) with 0 by field. apply Rabs_R0. }
    split.
    - intros e i He Hi HP.
      assert (exists v, contribution (o_k1 o') (o_k2 o') (o_k3 o') (o_k4 o') du' e i v) as (v & HV).
      { eexists. do 5 eexists. split; [apply (proj2 A6); auto|]. split; [apply (proj2 A7); auto|].
        split; [apply (proj2 A8); auto|]. split; [apply (proj2 A9); auto|]. split; [apply (proj2 A5); auto|]. reflexivity. }
      rewrite <- (VAL e i v) by auto. eapply GE; eauto.
    - destruct AT as [AT|(e & i & v & D1 & D2 & D3 & D4)]; auto.
      destruct (DEC i) as [HP|HP].
      + right. exists e, i. rewrite <- (VAL e i v) by auto. auto.
      + left. rewrite D4, (OFF e i v) by auto. ring.
  Qed.
End Zero.

Lemma slot3_onto {V} (dom : domain V) q : valid_domain3 dom -> 0 <= q < cells3 dom ->
  exists i j k, padded3 dom i j k /\ q = slot3 dom i j k.
Proof.
  intros (A & B & C & D) H.
  pose proof (getIJK_surj (nx dom) (ny dom) (nz dom) (nhalo dom) q) as S.
  destruct (getIJK q _ _ _) as ((i, j), k). destruct S as (S1 & S2 & S3 & S4); auto; try lia.
  exists i, j, k. split; [repeat split; lia|]. rewrite <- slot3_eq. auto.
Qed.

Lemma slot2_onto {V} (dom : domain V) q : valid_domain2 dom -> 0 <= q < cells2 dom ->
  exists i j, padded2 dom i j /\ q = slot2 dom i j.
Proof.
  intros (A & B) H.
  pose proof (getIJ_surj (nx dom) (nx dom) (nhalo dom) q) as S.
  destruct (getIJ q _ _) as (i, j). destruct S as (S1 & S2 & S3); auto; try lia.
  exists i, j. split; [repeat split; lia|]. rewrite <- slot2_eq. auto.
Qed.

(** The Cahn-Hilliard right-hand sides leave zero halos at zero. *)
Theorem ch3_zero (dom : domain R) d variant p :
  valid_domain3 dom -> (2 <= nhalo dom) -> nhalo dom <= nx dom /\ nhalo dom <= ny dom /\ nhalo dom <= nz dom ->
  make3 dom = Ok d -> 0 <= variant <= 2 ->
  keeps_zero (ch_rhs3 d variant p) (scratch_fits (cells3 dom)) 1 (cells3 dom) (P3 dom).
Proof.
  intros HV HN HT HM VR sc s t r sc' s' r' OK SS HZ E.
  destruct (make3_inv dom d HV HM) as (W & ED).
  destruct (proj1 (one_array _ _) SS) as (c & -> & LC).
  destruct (proj1 (one_array _ _) (proj1 HZ)) as (rhs & -> & LR).
  destruct (holds3_exists dom c HV LC) as (w & HW).
  rewrite <- ED in *.
  destruct (eval_rhs3_full d variant p sc c rhs w W HT HN VR HW LR OK) as (sc1 & c1 & r1 & E1 & F1 & HC1 & HR1 & HH).
  unfold ch_rhs3 in E. cbn [nth_error of_opt rbind] in E. rewrite E1 in E. cbn [rbind upd] in E.
  injection E as <- <- <-.
  split; [apply one_array; exists r1; split; auto; apply HR1|].
  intros e i He Hi NP. destruct e; [|lia]. unfold cell. cbn [nth_error].
  destruct (slot3_onto (d3_domain d) i HV Hi) as (a & b & k & PD & ->).
  assert (NI : ~ inside3 (d3_domain d) a b k). { intros H. apply NP. exists a, b, k. auto. }
  unfold rhs_halo in HH. destruct (variant =? 0)%Z.
  - apply HH; auto.
  - rewrite <- (proj2 HH a b k) by auto. apply (proj2 HZ O); auto.
Qed.

Theorem ch2_zero (dom : domain R) d p :
  valid_domain2 dom -> (2 <= nhalo dom) -> nhalo dom <= nx dom -> make2 dom = Ok d ->
  keeps_zero (ch_rhs2 d p) (scratch_fits (cells2 dom)) 1 (cells2 dom) (P2 dom).
Proof.
  intros HV HN HT HM sc s t r sc' s' r' OK SS HZ E.
  destruct (make2_inv dom d HV HM) as (W & ED).
  destruct (proj1 (one_array _ _) SS) as (c & -> & LC).
  destruct (proj1 (one_array _ _) (proj1 HZ)) as (rhs & -> & LR).
  destruct (holds2_exists dom c HV LC) as (w & HW).
  rewrite <- ED in *.
  destruct (eval_rhs2_full d p sc c rhs w W HT HN HW LR OK) as (sc1 & c1 & r1 & E1 & F1 & HC1 & HR1 & HH).
  unfold ch_rhs2 in E. cbn [nth_error of_opt rbind] in E. rewrite E1 in E. cbn [rbind upd] in E.
  injection E as <- <- <-.
  split; [apply one_array; exists r1; split; auto; apply HR1|].
  intros e i He Hi NP. destruct e; [|lia]. unfold cell. cbn [nth_error].
  destruct (slot2_onto (d2_domain d) i HV Hi) as (a & b & PD & ->).
  apply HH; auto. intros H. apply NP. exists a, b. auto.
Qed.

(** ** What a whole run preserves *)
Section Keeps.
  Context {V : Type} `{N : Num V} {X L : Type}.
  Variable do_step : X -> V -> V -> res X.
  Variable next_dt : X -> V -> res (X * V).
  Variable monitor : X -> list (String.string * V).
  Variable call : L -> Z -> V -> V -> X -> res X.

  Lemma loop_keeps (I : X -> Prop) :
    (forall x t d x', I x -> do_step x t d = Ok x' -> I x') ->
    (forall l i t d x x', I x -> call l i t d x = Ok x' -> I x') ->
    (forall x d x' d', I x -> next_dt x d = Ok (x', d') -> I x') ->
    forall fuel o g last rs gf, solve_loop do_step next_dt monitor call fuel o g last = Some (Ok (rs, gf)) ->
      I (g_world g) -> I (g_world gf) /\ forall r, In r rs -> I (g_world (s_after r)).
  Proof.
    intros HS HC HN. induction fuel as [|fuel IH]; intros o g last rs gf E H0; [discriminate|].
    apply loop_inv in E as (g1 & ls & EA & H). cbn zeta in H.
    assert (H1 : I (g_world g1)).
    { apply (advance_keeps do_step call I g g1 ls); auto. intros x' E'. eapply HS; eauto. }
    destruct H as [(-> & -> & ->)|(-> & x & dt & last' & stop & EC & H)].
    - split; auto. intros r [<-|[]]. exact H1.
    - apply compute_inv in EC as (d & ab & EN & _).
      assert (H2 : I x) by (eapply HN; eauto).
      destruct H as [(-> & -> & ->)|(-> & rs' & ER & ->)].
      + split; auto. intros r [<-|[]]. exact H1.
      + apply IH in ER as (A & B); auto. split; auto. intros r [<-|Hr]; auto.
  Qed.
End Keeps.

Section FSAL.
  Context {V : Type} `{N : Num V} {S W L : Type}.
  Variable eval : rhs_fun V S.
  Variable ok : S -> Prop.
  Variable nv : nat.
  Variable size : Z.
  Variable P : Z -> Prop.
  Variable f : V -> (nat -> Z -> V) -> nat -> Z -> V.
  Hypothesis C : computes eval ok nv size P f.
  Hypothesis one : forall d : V, nmul (nint 1) d = d.
  Variable rmax : V -> list V -> V.
  Variable pow : V -> V -> V.
  Variable monitor : ode23_world V S W -> list (String.string * V).
  Variable call : L -> Z -> V -> V -> ode23_world V S W -> res (ode23_world V S W).
  Hypothesis quiet : forall l i t d x x', call l i t d x = Ok x' ->
    e_int x' = e_int x /\ e_sc x' = e_sc x /\ e_u x' = e_u x /\ e_du x' = e_du x.

  Lemma fsal_chain fuel o obs x rs gf u0 :
    solve (ode23_do rmax eval) (ode23_next_dt pow) monitor call fuel o obs x = Some (Ok (rs, gf)) ->
    ode23_shaped nv size (e_int x) -> o_first (e_int x) = true -> ok (e_sc x) ->
    state_holds nv size P (e_u x) u0 -> shaped nv size (e_du x) ->
    exists us, length us = Datatypes.S (length rs) /\ nth_error us 0 = Some u0 /\
      forall k r, nth_error rs k = Some r -> exists u u',
        nth_error us k = Some u /\ nth_error us (Datatypes.S k) = Some u' /\
        u' = bs_next f (s_time r) (s_dt r) u (f (s_time r) u) /\
        state_holds nv size P (e_u (g_world (s_after r))) u' /\
        state_holds nv size P (o_k1 (e_int (g_world (s_after r)))) (f (s_time r) u).
  Proof.
    intros E H1 H2 H3 H4 H5. unfold solve in E. destruct (t_use_cfl o); [discriminate|].
    pose (J := fun (x : ode23_world V S W) (t : V) (u : nat -> Z -> V) =>
      ode23_shaped nv size (e_int x) /\ ok (e_sc x) /\ shaped nv size (e_du x) /\ state_holds nv size P (e_u x) u /\
      (o_first (e_int x) = false -> state_holds nv size P (o_k4 (e_int x)) (f t u))).
    pose (Q := fun (x : ode23_world V S W) (t d : V) (u : nat -> Z -> V) =>
      state_holds nv size P (o_k1 (e_int x)) (f t u)).
    destruct (loop_chain (ode23_do rmax eval) (ode23_next_dt pow) monitor call J Q
      (fun t d u => bs_next f t d u (f t u))) with (5 := E) (u := u0) as (us & LU & U0 & CH).
    - intros x0 t d x' u (J1 & J2 & J3 & J4 & J5) ES.
      destruct (ode23_step_spec eval ok nv size P f C rmax (e_int x0) (e_sc x0) (e_u x0) (e_du x0) t d u (f t u) J1 J2 J4 J3)
        as (o' & sc' & u' & du' & E' & A1 & A2 & A3 & A4 & A5 & A6 & A7 & A8 & A9 & _); auto.
      unfold ode23_do in ES. rewrite E' in ES. cbn [rbind] in ES. injection ES as <-. split.
      + split; [exact A1|]. split; [exact A2|]. split; [exact (proj1 A5)|]. split; [exact A4|].
        intros _. cbn [e_int]. rewrite one in A9. exact A9.
      + exact A6.
    - intros l i t d x0 x' s u EC (J1 & J2 & J3 & J4 & J5). destruct (quiet _ _ _ _ _ _ EC) as (Q1 & Q2 & Q3 & Q4).
      unfold J. rewrite Q1, Q2, Q3, Q4. auto.
    - intros l i t d x0 x' s e u EC HQ. destruct (quiet _ _ _ _ _ _ EC) as (Q1 & Q2 & Q3 & Q4).
      unfold Q. rewrite Q1. exact HQ.
    - intros x0 d x' d' s u EN (J1 & J2 & J3 & J4 & J5). unfold ode23_next_dt in EN.
      destruct (adapt_step pow (e_pid x0) (o_err (e_int x0)) d) as [[p st]| | |]; try discriminate.
      cbn [rbind] in EN. injection EN as <- <-. unfold J. cbn [e_int e_sc e_u e_du]. auto.
    - unfold J. cbn [g_world g_time]. repeat (split; [assumption|]). congruence.
    - exists us. split; auto. split; auto. intros k r Hr.
      destruct (CH k r Hr) as (u1 & B1 & B2 & (J1 & J2 & J3 & J4 & J5) & B4).
      exists u1, (bs_next f (s_time r) (s_dt r) u1 (f (s_time r) u1)). auto 10.
  Qed.
End FSAL.
