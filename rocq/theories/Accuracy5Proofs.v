(** Rounding errors of an RK3 step and the drift of the mean. *)
From Coq Require Import Reals Lra ZArith Lia List Psatz.
From Flocq Require Import Core BinarySingleNaN.
From Verif Require Import Outcome ZList Num Kernel ModelTime SpecTime Time1Proofs Time2Proofs ModelDouble SpecDouble SpecAccuracy AccuracyProofs Accuracy2Proofs Accuracy3Proofs.
Import ListNotations.

Section Steps.
  Context {V : Type} `{N : Num V}.
  Context {S : Type} (eval eval' : rhs_fun V S) (ok : S -> Prop) (nv : nat) (size : Z) (P : Z -> Prop)
    (f : V -> (nat -> Z -> V) -> nat -> Z -> V) (Q : state V -> Prop).
  Hypothesis C : computes eval ok nv size P f.
  Hypothesis R : restricts eval' eval Q.
  Local Open Scope num_scope.

  Definition rk3_s1 (t dt : V) (u : nat -> Z -> V) := fun e i => u e i + dt * nint 1 * f t u e i.
  Definition rk3_s2 (t dt : V) (u : nat -> Z -> V) := fun e i => u e i + dt * (nrat 1 4 * f t u e i + nrat 1 4 * rk3_k2 f t dt u e i).

  Lemma rk3_step_inv (o : rk3 V) sc (u du : state V) t dt w q :
    rk3_shaped nv size o -> ok sc -> state_holds nv size P u w -> shaped nv size du ->
    rk3_step eval' o sc u du t dt = Ok q ->
    exists o' sc' u' du', q = (o', sc', u', du') /\
      rk3_shaped nv size o' /\ ok sc' /\ state_holds nv size P u' (rk3_next f t dt w) /\
      state_holds nv size P du' (rk3_slope f t dt w) /\
      Q u /\ (exists s1, Q s1 /\ state_holds nv size P s1 (rk3_s1 t dt w)) /\ (exists s2, Q s2 /\ state_holds nv size P s2 (rk3_s2 t dt w)).
  Proof.
    intros (S1 & S2 & S3 & S4) HO HU HD. unfold rk3_step.
    assert (length u = nv) as -> by apply HU.
    destruct (C sc u t (r_k1 o) w HO HU S1) as (sc1 & u1 & k1 & E1 & O1 & HU1 & HK1).
    destruct (eval' sc u t (r_k1 o)) as [q1| | |] eqn:X1; try discriminate. cbn [rbind].
    destruct (R _ _ _ _ _ X1) as (Y1 & Q1). rewrite E1 in Y1. injection Y1 as <-.
    destruct (stage1_holds nv size P dt (nint 1) (r_stage o) u1 k1 w (f t w) S4 HU1 HK1) as (st & Es & Hst).
    rewrite Es. cbn [rbind].
    destruct (C sc1 st (t + nint 1 * dt) (r_k2 o) _ O1 Hst S2) as (sc2 & st2 & k2 & E2 & O2 & Hst2 & HK2).
    destruct (eval' sc1 st (t + nint 1 * dt) (r_k2 o)) as [q2| | |] eqn:X2; try discriminate. cbn [rbind].
    destruct (R _ _ _ _ _ X2) as (Y2 & Q2). rewrite E2 in Y2. injection Y2 as <-.
    destruct (stage2_holds nv size P dt (nrat 1 4) (nrat 1 4) st2 u1 k1 k2 _ _ _ (proj1 Hst2) HU1 HK1 HK2) as (st3 & E3 & Hst3).
    rewrite E3. cbn [rbind].
    destruct (C sc2 st3 (t + nrat 1 2 * dt) (r_k3 o) _ O2 Hst3 S3) as (sc3 & st4 & k3 & E4 & O3 & Hst4 & HK3).
    destruct (eval' sc2 st3 (t + nrat 1 2 * dt) (r_k3 o)) as [q3| | |] eqn:X3; try discriminate. cbn [rbind].
    destruct (R _ _ _ _ _ X3) as (Y3 & Q3). rewrite E4 in Y3. injection Y3 as <-.
    destruct (residual_holds nv size P (nrat 1 6) (nrat 1 6) (nrat 2 3) du k1 k2 k3 _ _ _ HD HK1 HK2 HK3) as (du' & E5 & Hdu).
    rewrite E5. cbn [rbind].
    destruct (update_holds nv size P dt u1 du' _ _ HU1 Hdu) as (u' & E6 & Hu').
    rewrite E6. cbn [rbind]. intros E. injection E as <-.
    do 4 eexists. split; [reflexivity|]. split.
    - split; [exact (proj1 HK1)|]. split; [exact (proj1 HK2)|]. split; [exact (proj1 HK3)|]. exact (proj1 Hst4).
    - split; [exact O3|]. split; [exact Hu'|]. split; [exact Hdu|]. split; [exact Q1|]. split; [exists st|exists st3]; split; assumption.
  Qed.
End Steps.

Local Open Scope R_scope.
Local Existing Instance prec_positive.
Local Existing Instance prec_below_emax.
Local Notation u := unit_roundoff.
Local Notation B := value_of.

Section Drift.
  Variable N : Num double.
  Hypothesis IE : ieee N.
  Let add_is := proj1 IE.
  Let mul_is := proj1 (proj2 (proj2 IE)).
  Let int_is := proj1 (proj2 (proj2 (proj2 (proj2 (proj2 IE))))).
  Let rat_is := proj1 (proj2 (proj2 (proj2 (proj2 (proj2 (proj2 IE)))))).

  Lemma rat_near a c A : (0 <= a <= 100)%Z -> (Zpos c <= 100)%Z -> IZR a / IZR (Zpos c) + tiny <= A -> 
    good (Leaf (nrat a c) (IZR a / IZR (Zpos c)) A 1).
  Proof.
    intros HA HC HQ F. rewrite rat_is in F |- *.
    destruct (int_exact a ltac:(lia)) as (FA & EA). destruct (int_exact (Zpos c) ltac:(lia)) as (FC & EC).
    assert (CP : 0 < IZR (Zpos c)) by (apply IZR_lt; lia).
    destruct (div_error (double_int a) (double_int (Zpos c)) ltac:(rewrite EC; lra) F) as (_ & E). rewrite EA, EC in E.
    assert (AP : 0 <= IZR a / IZR (Zpos c)) by (apply Rmult_le_pos; [apply IZR_le; lia|left; apply Rinv_0_lt_compat; exact CP]).
    pose proof tiny_pos. pose proof u_pos.
    split; [exact F|]. rewrite (Rabs_pos_eq _ AP) in *. split; [lra|].
    eapply Rle_trans; [exact E|]. unfold growth. cbn [pow]. replace ((1 + u) * 1 - 1) with u by ring. apply Rmult_le_compat_l; lra.
  Qed.

  Section Combos.
    Variables (dt x k1 k2 k3 : double) (b s : R).
    Hypothesis HB : tiny <= b.
    Hypothesis HS : 4 * tiny <= s.
    Hypothesis HD : tiny <= B dt.
    Hypothesis XB : Rabs (B x) <= b.
    Hypothesis B1 : finite k1 -> Rabs (B k1) <= 3 / 2 * s.
    Hypothesis B2 : finite k2 -> Rabs (B k2) <= 3 / 2 * s.
    Hypothesis B3 : finite k3 -> Rabs (B k3) <= 3 / 2 * s.
    Definition ldt := Leaf dt (B dt) (B dt) 0.
    Definition lx := Leaf x (B x) b 0.
    Definition lk k := Leaf k (B k) (3 / 2 * s) 0.
    Lemma ldt_good : good ldt.
    Proof. intros F. apply near_exact; [exact F|]. pose proof tiny_pos. rewrite Rabs_pos_eq; lra. Qed.
    Lemma lx_good : good lx.
    Proof. intros F. apply near_exact; auto. Qed.
    Lemma lk_good k : (finite k -> Rabs (B k) <= 3 / 2 * s) -> good (lk k).
    Proof. intros H F. apply near_exact; auto. Qed.
    Lemma tiny_small : tiny <= / 1024.
    Proof. unfold tiny. apply Rinv_le_contravar; [lra|]. apply Rle_trans with (2 ^ 10); [lra|]. apply Rle_pow; [lra|lia]. Qed.
    Lemma grow n : (n <= 10)%nat -> growth n <= INR (S n) * u.
    Proof. intros H. apply growth_linear. lia. Qed.

    Lemma first_stage : finite (x + dt * nint 1 * k1)%num ->
      finite k1 /\ Rabs (B (x + dt * nint 1 * k1)%num - (B x + B dt * B k1)) <= 24 * u * (b + B dt * s).
    Proof.
      intros F. pose proof tiny_pos. pose proof tiny_small. pose proof u_pos.
      assert (F1 : finite k1).
      { rewrite add_is in F. apply plus_error in F as (_ & F & _). rewrite mul_is in F. apply mult_error in F as (_ & F & _). exact F. }
      split; [exact F1|].
      set (e := Add lx (Mul (Mul ldt (Leaf (nint 1) 1 1 0)) (lk k1))).
      destruct (expression_error N IE e) as (_ & _ & E).
      - unfold e. cbn [good]. repeat apply conj; try apply ldt_good; try apply lx_good; try (apply lk_good; assumption).
        intros _. rewrite int_is. destruct (int_exact 1 ltac:(lia)) as (G & GE). rewrite <- GE. apply near_exact; [exact G|]. rewrite GE, Rabs_R1. lra.
      - exact F.
      - change (depth e) with 3%nat in E. unfold e, ldt, lx, lk in E. cbn [rounded_value exact_value mag] in E. rewrite Rmult_1_r in E.
        eapply Rle_trans; [exact E|]. pose proof (grow 3 ltac:(lia)) as G. replace (INR 4) with 4 in G by (cbn; lra).
        apply Rle_trans with (4 * u * (2 * b + 3 * (B dt * s))).
        + apply Rmult_le_compat; [apply growth_pos| |exact G|].
          * assert (0 <= (B dt * 1 + tiny) * (3 / 2 * s)) by (apply Rmult_le_pos; lra). lra.
          * assert ((B dt * 1 + tiny) * (3 / 2 * s) <= (2 * B dt) * (3 / 2 * s)) by (apply Rmult_le_compat_r; lra). lra.
        + assert (0 <= u * (B dt * s)) by (repeat apply Rmult_le_pos; lra). assert (0 <= u * b) by (apply Rmult_le_pos; lra). lra.
    Qed.

    Lemma second_stage : finite (x + dt * (nrat 1 4 * k1 + nrat 1 4 * k2))%num ->
      finite k2 /\ Rabs (B (x + dt * (nrat 1 4 * k1 + nrat 1 4 * k2))%num - (B x + B dt * (1 / 4 * B k1 + 1 / 4 * B k2))) <= 24 * u * (b + B dt * s).
    Proof.
      intros F. pose proof tiny_pos. pose proof tiny_small. pose proof u_pos.
      assert (F2 : finite k2).
      { rewrite add_is in F. apply plus_error in F as (_ & F & _). rewrite mul_is in F. apply mult_error in F as (_ & F & _).
        rewrite add_is in F. apply plus_error in F as (_ & F & _). rewrite mul_is in F. apply mult_error in F as (_ & F & _). exact F. }
      split; [exact F2|].
      set (q := Leaf (nrat 1 4) (1 / 4) (1 / 3) 1).
      set (e := Add lx (Mul ldt (Add (Mul q (lk k1)) (Mul q (lk k2))))).
      destruct (expression_error N IE e) as (_ & _ & E).
      - unfold e, q. cbn [good]. repeat apply conj; try apply ldt_good; try apply lx_good; try (apply lk_good; assumption);
          (apply (rat_near 1 4 (1 / 3)); [lia|lia|lra]).
      - exact F.
      - change (depth e) with 5%nat in E. unfold e, q, ldt, lx, lk in E. cbn [rounded_value exact_value mag] in E.
        eapply Rle_trans; [exact E|]. pose proof (grow 5 ltac:(lia)) as G. replace (INR 6) with 6 in G by (cbn; lra).
        apply Rle_trans with (6 * u * (2 * b + 3 * (B dt * s))).
        + apply Rmult_le_compat; [apply growth_pos| |exact G|].
          * assert (0 <= B dt * (1 / 3 * (3 / 2 * s) + tiny + (1 / 3 * (3 / 2 * s) + tiny))) by (apply Rmult_le_pos; lra). lra.
          * assert (B dt * (1 / 3 * (3 / 2 * s) + tiny + (1 / 3 * (3 / 2 * s) + tiny)) <= B dt * (3 * s)) by (apply Rmult_le_compat_l; lra). lra.
        + assert (0 <= u * (B dt * s)) by (repeat apply Rmult_le_pos; lra). assert (0 <= u * b) by (apply Rmult_le_pos; lra). lra.
    Qed.

    Lemma last_stage : finite (x + dt * (nrat 1 6 * k1 + nrat 1 6 * k2 + nrat 2 3 * k3))%num ->
      finite k3 /\ Rabs (B (x + dt * (nrat 1 6 * k1 + nrat 1 6 * k2 + nrat 2 3 * k3))%num - (B x + B dt * (1 / 6 * B k1 + 1 / 6 * B k2 + 2 / 3 * B k3))) <= 24 * u * (b + B dt * s).
    Proof.
      intros F. pose proof tiny_pos. pose proof tiny_small. pose proof u_pos.
      assert (F3 : finite k3).
      { rewrite add_is in F. apply plus_error in F as (_ & F & _). rewrite mul_is in F. apply mult_error in F as (_ & F & _).
        rewrite add_is in F. apply plus_error in F as (_ & F & _). rewrite mul_is in F. apply mult_error in F as (_ & F & _). exact F. }
      split; [exact F3|].
      set (q := Leaf (nrat 1 6) (1 / 6) (1 / 5) 1). set (r := Leaf (nrat 2 3) (2 / 3) (3 / 4) 1).
      set (e := Add lx (Mul ldt (Add (Add (Mul q (lk k1)) (Mul q (lk k2))) (Mul r (lk k3))))).
      destruct (expression_error N IE e) as (_ & _ & E).
      - unfold e, q, r. cbn [good]. repeat apply conj; try apply ldt_good; try apply lx_good; try (apply lk_good; assumption);
          first [apply (rat_near 1 6 (1 / 5)); [lia|lia|lra] | apply (rat_near 2 3 (3 / 4)); [lia|lia|lra]].
      - exact F.
      - change (depth e) with 6%nat in E. unfold e, q, r, ldt, lx, lk in E. cbn [rounded_value exact_value mag] in E.
        eapply Rle_trans; [exact E|]. pose proof (grow 6 ltac:(lia)) as G. replace (INR 7) with 7 in G by (cbn; lra).
        match goal with |- _ * (b + (B dt * ?X + tiny)) <= _ => assert (X1 : 0 <= X) by lra; assert (X2 : X <= 3 * s + 2 * tiny) by lra;
          assert (X3 : B dt * X <= B dt * (5 * s)) by (apply Rmult_le_compat_l; lra); assert (X4 : 0 <= B dt * X) by (apply Rmult_le_pos; lra) end.
        match goal with |- _ * (b + (B dt * ?X + tiny)) <= _ => assert (X5 : X <= 27 / 8 * s) by lra;
          assert (X6 : B dt * X <= B dt * (27 / 8 * s)) by (apply Rmult_le_compat_l; lra) end.
        apply Rle_trans with (7 * u * (2 * b + 27 / 8 * (B dt * s))).
        + apply Rmult_le_compat; [apply growth_pos|lra|exact G|lra].
        + assert (0 <= u * (B dt * s)) by (repeat apply Rmult_le_pos; lra). assert (0 <= u * b) by (apply Rmult_le_pos; lra). lra.
    Qed.
  End Combos.
End Drift.
