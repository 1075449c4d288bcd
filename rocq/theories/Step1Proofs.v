(** The Cahn-Hilliard right-hand sides as integrators see them, conservation along steps and
    the error estimate. *)
From Verif Require Import Outcome ZList ZListProofs Num Kernel ModelIndex IndexProofs ModelDisc3D ModelDisc2D ModelCH
  SpecGrid Disc3DProofs BC3Proofs Make3Proofs Disc2DProofs Make2Proofs Stencil3Proofs CHProofs SpecField SumProofs FieldProofs
  ModelReduce ReduceProofs ModelTime ModelRun SpecTime Time1Proofs Time2Proofs Time3Proofs.
From Coq Require Import Lia Reals Lra.
Local Open Scope Z_scope.

Lemma one_array {V} size (s : state V) : shaped 1 size s <-> exists c, s = [c] /\ zlen c = size.
Proof.
  split.
  - intros (L & H). destruct s as [|c [|c' s]]; try discriminate. exists c. split; auto. apply (H O). reflexivity.
  - intros (c & -> & L). split; auto. intros [|[|e]] a E; try discriminate. simpl in E. congruence.
Qed.

Section CH.
  Context {V : Type} `{N : Num V}.

  Definition P3 (dom : domain V) (z : Z) : Prop := exists i j k, inside3 dom i j k /\ z = slot3 dom i j k.
  Definition at3 (dom : domain V) (u : nat -> Z -> V) (i j k : Z) : V := u O (slot3 dom i j k).
  Definition of3 (dom : domain V) (u : Z -> Z -> Z -> V) (e : nat) (z : Z) : V :=
    let '(i, j, k) := getIJK z (nhalo dom) (ny dom + 2 * nhalo dom) (nz dom + 2 * nhalo dom) in u i j k.
  Definition ch_f3 (dom : domain V) (variant : Z) (p : ch_params V) (h : V) (t : V) (u : nat -> Z -> V) : nat -> Z -> V :=
    of3 dom (ch_expr3 p h (dx4_of variant h) (extend3 dom (at3 dom u))).

  Lemma of3_slot dom u e i j k : padded3 dom i j k -> of3 dom u e (slot3 dom i j k) = u i j k.
  Proof.
    intros (A & B & C). unfold of3. rewrite <- slot3_eq, getIJK_get3 by lia. reflexivity.
  Qed.

  Lemma state3 dom c u : 0 <= nhalo dom ->
    state_holds 1 (cells3 dom) (P3 dom) [c] u <-> holds_inside3 dom c (at3 dom u).
  Proof.
    intros NH. split.
    - intros (S & H). apply one_array in S as (c' & E & L). injection E as <-. split; auto.
      intros i j k I. change (cell [c] 0 (slot3 dom i j k) = Some (u O (slot3 dom i j k))).
      apply H; [lia|apply slot3_range, inside_padded3; auto|]. exists i, j, k. auto.
    - intros (L & H). split; [apply one_array; eauto|]. intros e i Le Li (a & b & c' & I & ->).
      destruct e; [|lia]. apply H. auto.
  Qed.

  Lemma ch_expr3_ext p h h4 (f g : Z -> Z -> Z -> V) i j k : (forall i j k, f i j k = g i j k) ->
    ch_expr3 p h h4 f i j k = ch_expr3 p h h4 g i j k.
  Proof. intros E. unfold ch_expr3, bih_sum3, lap_expr3. rewrite !E. reflexivity. Qed.

  Lemma extend3_inside_ext dom (u w : Z -> Z -> Z -> V) : valid_domain3 dom ->
    (forall i j k, inside3 dom i j k -> u i j k = w i j k) ->
    forall i j k, extend3 dom u i j k = extend3 dom w i j k.
  Proof.
    intros (A & B & C & D) H i j k. unfold extend3. apply H. repeat split; apply extend1_range; auto.
  Qed.

  Theorem ch3_computes dom d variant p :
    valid_domain3 dom -> 2 <= nhalo dom -> nhalo dom <= nx dom /\ nhalo dom <= ny dom /\ nhalo dom <= nz dom ->
    make3 dom = Ok d -> 0 <= variant <= 2 ->
    computes (ch_rhs3 d variant p) (scratch_fits (cells3 dom)) 1 (cells3 dom) (P3 dom) (ch_f3 dom variant p (d3_dx d)).
  Proof.
    intros HV HN HT HM VR sc s t r u OK HS SR.
    destruct (make3_inv dom d HV HM) as (W & ED).
    apply one_array in SR as (rhs & -> & LR).
    destruct (proj1 (one_array _ _) (proj1 HS)) as (c & -> & LC).
    assert (NH : 0 <= nhalo dom) by lia.
    pose proof (proj1 (state3 dom c u NH) HS) as HI.
    destruct (holds3_exists dom c HV LC) as (w & HW).
    rewrite <- ED in *. 
    destruct (eval_rhs3_full d variant p sc c rhs w W HT HN VR HW LR OK) as (sc1 & c1 & r1 & E1 & F1 & HC1 & HR1 & _).
    assert (AG : forall i j k, inside3 (d3_domain d) i j k -> w i j k = at3 (d3_domain d) u i j k).
    { intros i j k I. destruct HW as (_ & HW). destruct HI as (_ & HI). specialize (HI i j k I).
      rewrite HW in HI by (apply inside_padded3; auto). congruence. }
    unfold ch_rhs3. cbn [nth_error of_opt rbind]. rewrite E1. cbn [rbind upd].
    do 3 eexists. split; [reflexivity|]. split; [exact F1|]. split.
    - apply state3; auto. split; [apply HC1|]. intros i j k I.
      rewrite (proj2 HC1) by (apply inside_padded3; auto). f_equal. rewrite <- AG by auto.
      unfold extend3. destruct I as (I1 & I2 & I3). rewrite !extend1_inside by auto. reflexivity.
    - apply state3; auto. split; [apply HR1|]. intros i j k I. rewrite (proj2 HR1) by auto. f_equal.
      unfold at3, ch_f3. rewrite of3_slot by (apply inside_padded3; auto).
      apply ch_expr3_ext. apply extend3_inside_ext; auto.
  Qed.

  Definition P2 (dom : domain V) (z : Z) : Prop := exists i j, inside2 dom i j /\ z = slot2 dom i j.
  Definition at2 (dom : domain V) (u : nat -> Z -> V) (i j : Z) : V := u O (slot2 dom i j).
  Definition of2 (dom : domain V) (u : Z -> Z -> V) (e : nat) (z : Z) : V :=
    let '(i, j) := getIJ z (nhalo dom) (nx dom + 2 * nhalo dom) in u i j.
  Definition ch_f2 (dom : domain V) (p : ch_params V) (h : V) (t : V) (u : nat -> Z -> V) : nat -> Z -> V :=
    of2 dom (ch_expr2 p h (periodic2 dom (at2 dom u))).

  Lemma of2_slot dom u e i j : padded2 dom i j -> of2 dom u e (slot2 dom i j) = u i j.
  Proof.
    intros (A & B). unfold of2. rewrite <- slot2_eq, getIJ_get1Dindex by lia. reflexivity.
  Qed.

  Lemma state2 dom c u : 0 <= nhalo dom ->
    state_holds 1 (cells2 dom) (P2 dom) [c] u <-> holds_inside2 dom c (at2 dom u).
  Proof.
    intros NH. split.
    - intros (S & H). apply one_array in S as (c' & E & L). injection E as <-. split; auto.
      intros i j I. change (cell [c] 0 (slot2 dom i j) = Some (u O (slot2 dom i j))).
      apply H; [lia|apply slot2_range, inside_padded2; auto|]. exists i, j. auto.
    - intros (L & H). split; [apply one_array; eauto|]. intros e i Le Li (a & b & I & ->).
      destruct e; [|lia]. apply H. auto.
  Qed.

  Lemma ch_expr2_ext p h (f g : Z -> Z -> V) i j : (forall i j, f i j = g i j) ->
    ch_expr2 p h f i j = ch_expr2 p h g i j.
  Proof. intros E. unfold ch_expr2, bih_expr2, lap_expr2. rewrite !E. reflexivity. Qed.

  Lemma periodic2_inside_ext dom (u w : Z -> Z -> V) : valid_domain2 dom ->
    (forall i j, inside2 dom i j -> u i j = w i j) ->
    forall i j, periodic2 dom u i j = periodic2 dom w i j.
  Proof.
    intros (A & B) H i j. unfold periodic2. apply H. split; apply Z.mod_pos_bound; lia.
  Qed.

  Theorem ch2_computes dom d p :
    valid_domain2 dom -> 2 <= nhalo dom -> nhalo dom <= nx dom -> make2 dom = Ok d ->
    computes (ch_rhs2 d p) (scratch_fits (cells2 dom)) 1 (cells2 dom) (P2 dom) (ch_f2 dom p (d2_dx d)).
  Proof.
    intros HV HN HT HM sc s t r u OK HS SR.
    destruct (make2_inv dom d HV HM) as (W & ED).
    apply one_array in SR as (rhs & -> & LR).
    destruct (proj1 (one_array _ _) (proj1 HS)) as (c & -> & LC).
    assert (NH : 0 <= nhalo dom) by lia.
    pose proof (proj1 (state2 dom c u NH) HS) as HI.
    destruct (holds2_exists dom c HV LC) as (w & HW).
    rewrite <- ED in *.
    destruct (eval_rhs2_full d p sc c rhs w W HT HN HW LR OK) as (sc1 & c1 & r1 & E1 & F1 & HC1 & HR1 & _).
    assert (AG : forall i j, inside2 (d2_domain d) i j -> w i j = at2 (d2_domain d) u i j).
    { intros i j I. destruct HW as (_ & HW). destruct HI as (_ & HI). specialize (HI i j I).
      rewrite HW in HI by (apply inside_padded2; auto). congruence. }
    unfold ch_rhs2. cbn [nth_error of_opt rbind]. rewrite E1. cbn [rbind upd].
    do 3 eexists. split; [reflexivity|]. split; [exact F1|]. split.
    - apply state2; auto. split; [apply HC1|]. intros i j I.
      rewrite (proj2 HC1) by (apply inside_padded2; auto). f_equal. rewrite <- AG by auto.
      unfold periodic2. destruct I as (I1 & I2). rewrite !Z.mod_small by auto. reflexivity.
    - apply state2; auto. split; [apply HR1|]. intros i j I. rewrite (proj2 HR1) by auto. f_equal.
      unfold at2, ch_f2. rewrite of2_slot by (apply inside_padded2; auto).
      apply ch_expr2_ext. apply periodic2_inside_ext; auto.
  Qed.
End CH.

(** ** Linear functionals along a step *)
Section Conserve.
  Local Open Scope R_scope.
  Variable T : (nat -> Z -> R) -> R.
  Hypothesis T_lin : forall u k a, T (fun e i => u e i + a * k e i) = T u + a * T k.
  Hypothesis T_ext : forall u v, (forall e i, u e i = v e i) -> T u = T v.
  Variable f : R -> (nat -> Z -> R) -> nat -> Z -> R.
  Variables s c : R.
  Hypothesis source : forall t u, T (f t u) = - s * (T u - c).

  Lemma flat t u : s = 0 \/ T u = c -> T (f t u) = 0.
  Proof. intros H. rewrite source. destruct H as [->| ->]; ring. Qed.

  Lemma T_axpy u k v a : (forall e i, v e i = u e i + a * k e i) -> T k = 0 -> T v = T u.
  Proof. intros E K. rewrite (T_ext v _ E), T_lin, K. ring. Qed.

  Lemma rk3_conserves t dt u : s = 0 \/ T u = c -> T (rk3_next f t dt u) = T u.
  Proof.
    intros H.
    assert (K1 : T (rk3_k1 f t u) = 0) by (apply flat; auto).
    assert (K2 : T (rk3_k2 f t dt u) = 0).
    { unfold rk3_k2. apply flat. destruct H as [H|H]; auto. right. rewrite <- H.
      apply (T_axpy u (rk3_k1 f t u) _ dt); auto. intros. cbn [nadd nmul nint Num_R]. ring. }
    assert (K3 : T (rk3_k3 f t dt u) = 0).
    { unfold rk3_k3. apply flat. destruct H as [H|H]; auto. right. rewrite <- H.
      rewrite (T_axpy (fun e i => u e i + dt / 4 * rk3_k1 f t u e i) (rk3_k2 f t dt u) _ (dt / 4)); auto.
      - apply (T_axpy u (rk3_k1 f t u) _ (dt / 4)); auto.
      - intros. cbn [nadd nmul nrat Num_R]. field. }
    unfold rk3_next.
    rewrite (T_axpy (fun e i => (fun e i => u e i + dt / 6 * rk3_k1 f t u e i) e i + dt / 6 * rk3_k2 f t dt u e i)
       (rk3_k3 f t dt u) _ (dt * 2 / 3)); auto.
    - rewrite (T_axpy (fun e i => u e i + dt / 6 * rk3_k1 f t u e i) (rk3_k2 f t dt u) _ (dt / 6)); auto.
      apply (T_axpy u (rk3_k1 f t u) _ (dt / 6)); auto.
    - intros. unfold rk3_slope. cbn [nadd nmul nrat Num_R]. field.
  Qed.

  Lemma bs_conserves t dt u k : s = 0 \/ T u = c -> T k = 0 -> T (bs_next f t dt u k) = T u.
  Proof.
    intros H K1.
    assert (K2 : T (bs2 f t dt u k) = 0).
    { unfold bs2. apply flat. destruct H as [H|H]; auto. right. rewrite <- H.
      apply (T_axpy u k _ (dt / 2)); auto. intros. cbn [nadd nmul nrat Num_R]. field. }
    assert (K3 : T (bs3 f t dt u k) = 0).
    { unfold bs3. apply flat. destruct H as [H|H]; auto. right. rewrite <- H.
      apply (T_axpy u (bs2 f t dt u k) _ (dt * 3 / 4)); auto.
      intros. cbn [nadd nmul nrat nint Num_R]. field. }
    unfold bs_next.
    rewrite (T_axpy (fun e i => (fun e i => u e i + dt * 2 / 9 * k e i) e i + dt / 3 * bs2 f t dt u k e i)
       (bs3 f t dt u k) _ (dt * 4 / 9)); auto.
    - rewrite (T_axpy (fun e i => u e i + dt * 2 / 9 * k e i) (bs2 f t dt u k) _ (dt / 3)); auto.
      apply (T_axpy u k _ (dt * 2 / 9)); auto.
    - intros. unfold bs_slope. cbn [nadd nmul nrat Num_R]. field.
  Qed.

  Section Steps.
    Context {S W : Type}.
    Variable eval : rhs_fun R S.
    Variable ok : S -> Prop.
    Variable nv : nat.
    Variable size : Z.
    Variable P : Z -> Prop.
    Hypothesis C : computes eval ok nv size P f.
    Variable T0 : R.
    Hypothesis rest : s = 0 \/ T0 = c.

    Definition rk3_inv (x : rk3_world R S W) : Prop :=
      rk3_shaped nv size (k_int x) /\ ok (k_sc x) /\ shaped nv size (k_du x) /\
      exists w, state_holds nv size P (k_u x) w /\ T w = T0.

    Lemma rk3_do_inv x t dt : rk3_inv x -> exists x', rk3_do eval x t dt = Ok x' /\ rk3_inv x'.
    Proof.
      intros (H1 & H2 & H3 & w & H4 & H5).
      destruct (rk3_step_spec eval ok nv size P f C (k_int x) (k_sc x) (k_u x) (k_du x) t dt w H1 H2 H4 H3)
        as (o' & sc' & u' & du' & E & A1 & A2 & A3 & A4).
      unfold rk3_do. rewrite E. cbn [rbind]. eexists. split; [reflexivity|].
      split; [exact A1|]. split; [exact A2|]. split; [exact (proj1 A4)|]. exists (rk3_next f t dt w).
      split; [exact A3|]. rewrite rk3_conserves; auto. rewrite H5. exact rest.
    Qed.

    Hypothesis steady : forall t t' u e i, f t u e i = f t' u e i.

    Definition ode23_inv (x : ode23_world R S W) : Prop :=
      ode23_shaped nv size (e_int x) /\ ok (e_sc x) /\ shaped nv size (e_du x) /\
      exists w, state_holds nv size P (e_u x) w /\ T w = T0 /\
        (o_first (e_int x) = false -> state_holds nv size P (o_k4 (e_int x)) (f 0 w)).

    Lemma ode23_do_inv rmax x t dt : ode23_inv x -> exists x', ode23_do rmax eval x t dt = Ok x' /\ ode23_inv x'.
    Proof.
      intros (H1 & H2 & H3 & w & H4 & H5 & H6).
      destruct (ode23_step_spec eval ok nv size P f C rmax (e_int x) (e_sc x) (e_u x) (e_du x) t dt w (f t w) H1 H2 H4 H3)
        as (o' & sc' & u' & du' & E & A1 & A2 & A3 & A4 & A5 & A6 & A7 & A8 & A9 & _); auto.
      { intros F. eapply state_holds_ext; [|exact (H6 F)]. intros. apply steady. }
      unfold ode23_do. rewrite E. cbn [rbind]. eexists. split; [reflexivity|].
      split; [exact A1|]. split; [exact A2|]. split; [exact (proj1 A5)|].
      exists (bs_next f t dt w (f t w)). split; [exact A4|]. split.
      - rewrite bs_conserves; auto. + rewrite H5. exact rest. + apply flat. rewrite H5. exact rest.
      - intros _. eapply state_holds_ext; [|exact A9]. intros. apply steady.
    Qed.

  End Steps.
End Conserve.

Lemma run_steps_total {V X} `{N : Num V} (do_step : X -> V -> V -> res X) (I : X -> Prop) :
  (forall x t d, I x -> exists x', do_step x t d = Ok x' /\ I x') ->
  forall dts x t, I x -> exists xs, run_steps do_step x t dts = Ok xs /\ length xs = length dts /\
    forall x', In x' xs -> I x'.
Proof.
  intros H. induction dts as [|d dts IH]; intros x t HX; simpl.
  - exists []. split; auto. split; auto. intros x' [].
  - destruct (H x t d HX) as (x1 & -> & H1). destruct (IH x1 (nadd t d) H1) as (xs & -> & L & A).
    exists (x1 :: xs). split; auto. split; [simpl; auto|]. intros x' [<-|Hx]; auto.
Qed.

(** ** The functionals of the Cahn-Hilliard equation *)
Section Means.
  Local Open Scope R_scope.
  Variable dom : domain R.

  Definition T3 (u : nat -> Z -> R) : R := total3 dom (at3 dom u).

  Lemma T3_lin u k a : T3 (fun e i => u e i + a * k e i) = T3 u + a * T3 k.
  Proof. unfold T3, total3, at3. rewrite sum3_plus, sum3_scal. reflexivity. Qed.
  Lemma T3_ext u v : (forall e i, u e i = v e i) -> T3 u = T3 v.
  Proof. intros H. unfold T3, total3, at3. apply sum3_ext. intros; apply H. Qed.

  Definition cells_inside3 : R := IZR (nx dom) * IZR (ny dom) * IZR (nz dom).

  Lemma T3_source variant p h t u :
    valid_domain3 dom -> all_periodic dom ->
    T3 (ch_f3 dom variant p h t u) = - ch_sigma p * (T3 u - ch_m p * cells_inside3).
  Proof.
    intros HV AP.
    transitivity (total3 dom (CH3 h (ch_m p) (ch_sigma p) (ch_eps2 p) (extend3 dom (at3 dom u)))).
    - unfold T3, total3. apply sum3_ext. intros i j k Hi Hj Hk. unfold at3 at 1, ch_f3.
      rewrite of3_slot by (destruct HV; apply inside_padded3; unfold inside3; lia). apply ch_expr3_R.
    - rewrite total3_CH by auto. f_equal. unfold T3, total3. rewrite sum3_minus.
      destruct HV as (A & B & D & E). rewrite sum3_const by lia. unfold cells_inside3. ring.
  Qed.

  Definition T2 (u : nat -> Z -> R) : R := total2 dom (at2 dom u).
  Lemma T2_lin u k a : T2 (fun e i => u e i + a * k e i) = T2 u + a * T2 k.
  Proof. unfold T2, total2, at2. rewrite sum2_plus, sum2_scal. reflexivity. Qed.
  Lemma T2_ext u v : (forall e i, u e i = v e i) -> T2 u = T2 v.
  Proof. intros H. unfold T2, total2, at2. apply sum2_ext. intros; apply H. Qed.

  Definition cells_inside2 : R := IZR (nx dom) * IZR (nx dom).

  Lemma T2_source p h t u :
    valid_domain2 dom -> T2 (ch_f2 dom p h t u) = - ch_sigma p * (T2 u - ch_m p * cells_inside2).
  Proof.
    intros HV.
    transitivity (total2 dom (CH2 h (ch_m p) (ch_sigma p) (ch_eps2 p) (periodic2 dom (at2 dom u)))).
    - unfold T2, total2. apply sum2_ext. intros i j Hi Hj. unfold at2 at 1, ch_f2.
      rewrite of2_slot by (destruct HV; apply inside_padded2; unfold inside2; lia). apply ch_expr2_R.
    - rewrite total2_CH by auto. f_equal. unfold T2, total2. rewrite sum2_minus.
      destruct HV as (A & B). rewrite sum2_const by lia. unfold cells_inside2. ring.
  Qed.
End Means.

(** ** The error estimate *)
Section Error.
  Local Open Scope R_scope.
  Variable rmax : R -> list R -> R.
  Hypothesis RM : forall i l, reduction nmax i i l (rmax i l).
  Variable nv : nat.
  Variable size : Z.
  Variable dt : R.
  Hypothesis DT : 0 <= dt <= 1.
  Variables k1 k2 k3 k4 du : state R.
  Hypothesis S1 : shaped nv size k1.
  Hypothesis S2 : shaped nv size k2.
  Hypothesis S3 : shaped nv size k3.
  Hypothesis S4 : shaped nv size k4.
  Hypothesis S5 : shaped nv size du.

  Definition contribution (e : nat) (i : Z) (v : R) : Prop :=
    exists a b c d r, cell k1 e i = Some a /\ cell k2 e i = Some b /\ cell k3 e i = Some c /\
      cell k4 e i = Some d /\ cell du e i = Some r /\
      v = Rabs (r - (7 / 24 * a + 1 / 4 * b + 1 / 3 * c + 1 / 8 * d)).

  Lemma contribution_fun e i v v' : contribution e i v -> contribution e i v' -> v = v'.
  Proof.
    intros (a & b & c & d & r & A1 & A2 & A3 & A4 & A5 & ->) (a' & b' & c' & d' & r' & B1 & B2 & B3 & B4 & B5 & ->).
    congruence.
  Qed.

  Lemma nmax_ge (a b : R) : a <= nmax a b /\ b <= nmax a b /\ (nmax a b = a \/ nmax a b = b).
  Proof. unfold nmax. cbn [nltb Num_R]. unfold Rltb. destruct (Rlt_dec a b); split; try lra; split; try lra; auto. Qed.

  Lemma error_fold_max n : (n <= nv)%nat ->
    exists err, fold_left (error_step rmax dt k1 k2 k3 k4 du) (seq 0 n) (Ok (nint 0)) = Ok err /\
      0 <= err /\
      (forall e i v, (e < n)%nat -> (0 <= i < size)%Z -> contribution e i v -> dt * v <= err) /\
      (err = 0 \/ exists e i v, (e < n)%nat /\ (0 <= i < size)%Z /\ contribution e i v /\ err = dt * v).
  Proof.
    induction n as [|n IH]; intros HN.
    - exists 0. split; auto. split; [lra|]. split; [intros; lia|]. auto.
    - destruct IH as (err & E & P0 & GE & AT); [lia|].
      rewrite seq_S, fold_left_app, E. cbn [fold_left plus].
      destruct (error_step_ok nv size rmax dt k1 k2 k3 k4 du err n) as (l & EL & LL & HL); auto; try lia.
      rewrite EL. eexists. split; [reflexivity|].
      destruct (reduction_max err l (rmax err l) (RM err l)) as (MI & MG).
      assert (M0 : err <= rmax err l) by (apply MG; simpl; auto).
      cbn [nmul Num_R]. set (m := rmax err l) in *.
      destruct (nmax_ge err (dt * m)) as (N1 & N2 & N3).
      split; [lra|]. split.
      + intros e i v He Hi HC. destruct (Nat.eq_dec e n) as [->|NE].
        * destruct (HL i Hi) as (a & b & c & d & r & A1 & A2 & A3 & A4 & A5 & A6).
          assert (v = Rabs (r - (7 / 24 * a + 1 / 4 * b + 1 / 3 * c + 1 / 8 * d))) as ->.
          { eapply contribution_fun; [exact HC|]. exists a, b, c, d, r. auto 10. }
          apply Rle_trans with (dt * m); auto. apply Rmult_le_compat_l; [lra|]. apply MG. right.
          cbn [nabs nsub nadd nmul nrat Num_R] in A6. eapply zget_in. exact A6.
        * apply Rle_trans with err; auto. eapply GE; eauto. lia.
      + assert (OLD : err = 0 \/ exists e i v, (e < S n)%nat /\ (0 <= i < size)%Z /\ contribution e i v /\ err = dt * v).
        { destruct AT as [AT|(e & i & v & A1 & A2 & A3 & A4)]; auto. right. exists e, i, v.
          split; [lia|]. auto. }
        destruct N3 as [-> | N3]; auto. destruct MI as [MI|MI].
        * assert (Q : nmax err (dt * m) = err); [|rewrite Q; exact OLD].
          unfold nmax. cbn [nltb Num_R]. unfold Rltb. destruct (Rlt_dec err (dt * m)); auto.
          exfalso. rewrite <- MI in *. assert (dt * err <= 1 * err) by (apply Rmult_le_compat_r; lra). lra.
        * rewrite N3. right. apply in_zget in MI as (i & Hi & Gi). rewrite LL in Hi.
          destruct (HL i Hi) as (a & b & c & d & r & A1 & A2 & A3 & A4 & A5 & A6).
          exists n, i, m. split; [lia|]. split; auto. split; auto.
          exists a, b, c, d, r. split; auto. split; auto. split; auto. split; auto. split; auto.
          rewrite Gi in A6. cbn [nabs nsub nadd nmul nrat Num_R] in A6. injection A6 as A6. exact A6.
  Qed.
End Error.
