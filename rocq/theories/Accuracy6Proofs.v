(** The drift of the mean over one RK3 step in doubles. *)
From Coq Require Import Reals Lra ZArith Lia List Psatz.
From Flocq Require Import Core BinarySingleNaN.
From Verif Require Import Outcome ZList Num Kernel ModelTime SpecTime Time1Proofs Time2Proofs ModelDouble SpecDouble SpecAccuracy AccuracyProofs Accuracy2Proofs Accuracy3Proofs Accuracy5Proofs.
Import ListNotations.
Local Open Scope R_scope.
Local Existing Instance prec_positive.
Local Existing Instance prec_below_emax.
Local Notation u := unit_roundoff.
Local Notation B := value_of.

Lemma Rabs_eq_0' x : Rabs x = 0 -> x = 0.
Proof. unfold Rabs. destruct (Rcase_abs x); lra. Qed.

Section Drift.
  Variable N : Num double.
  Hypothesis IE : ieee N.
  Variables (I : Z -> Prop) (M : (Z -> R) -> R).
  Hypothesis Mlin : forall f g a, M (fun i => f i + a * g i) = M f + a * M g.
  Hypothesis Mbound : forall f e, (forall i, I i -> Rabs (f i) <= e) -> Rabs (M f) <= e.
  Variables (f : double -> (nat -> Z -> double) -> nat -> Z -> double) (b s sigma c : R).
  Definition tame (w : nat -> Z -> double) : Prop := forall i, I i -> finite (w O i) /\ Rabs (B (w O i)) <= b.
  Definition all_finite (w : nat -> Z -> double) : Prop := forall i, I i -> finite (w O i).
  Definition avg (w : nat -> Z -> double) : R := M (fun i => B (w O i)).
  Hypothesis RB : forall t w i, tame w -> I i -> finite (f t w O i) -> Rabs (B (f t w O i)) <= 3 / 2 * s.
  Hypothesis RM : forall t w, tame w -> all_finite (f t w) -> Rabs (avg (f t w) + sigma * (avg w - c)) <= 31 * u * s.
  Hypothesis HB : tiny <= b.
  Hypothesis HS : 4 * tiny <= s.

  (** The mean of an update with rounding error at most d. *)
  Lemma avg_update (w k w' : Z -> R) a d : (forall i, I i -> Rabs (w' i - (w i + a * k i)) <= d) -> Rabs (M w' - (M w + a * M k)) <= d.
  Proof.
    intros H. rewrite <- Mlin. replace (M w' - M (fun i => w i + a * k i)) with (M (fun i => w' i + (-1) * (w i + a * k i))) by (rewrite (Mlin w' (fun i => w i + a * k i)); ring).
    apply Mbound. intros i HI. replace (w' i + -1 * (w i + a * k i)) with (w' i - (w i + a * k i)) by ring. auto.
  Qed.
  Lemma M_comb2 (k1 k2 : Z -> R) p q : M (fun i => p * k1 i + q * k2 i) = p * M k1 + q * M k2.
  Proof.
    rewrite (Mlin (fun i => p * k1 i) k2). f_equal.
    pose proof (Mlin (fun _ => 0) k1 p) as E.
    assert (Z0 : M (fun _ => 0) = 0).
    { pose proof (Mbound (fun _ => 0) 0) as T. assert (Rabs (M (fun _ => 0)) <= 0) by (apply T; intros; rewrite Rabs_R0; lra).
      apply Rabs_eq_0'. pose proof (Rabs_pos (M (fun _ => 0))). lra. }
    rewrite Z0 in E. rewrite Rplus_0_l in E. rewrite <- E.
    assert (X : forall g h, (forall i, g i = h i) -> M g = M h).
    { intros g h H. apply Rminus_diag_uniq. replace (M g - M h) with (M (fun i => g i + (-1) * h i)) by (rewrite Mlin; ring).
      apply Rabs_eq_0'. apply Rle_antisym; [|apply Rabs_pos]. apply Mbound. intros i _. rewrite H. replace (h i + -1 * h i) with 0 by ring. rewrite Rabs_R0. lra. }
    apply X. intros. ring.
  Qed.
  Lemma M_comb3 (k1 k2 k3 : Z -> R) p q r : M (fun i => p * k1 i + q * k2 i + r * k3 i) = p * M k1 + q * M k2 + r * M k3.
  Proof. rewrite (Mlin (fun i => p * k1 i + q * k2 i) k3). rewrite M_comb2. reflexivity. Qed.

  (** The recurrence of the distance of the mean from c, with its perturbations. *)
  Lemma recurrence z dt E D o0 o1 o2 o3 e1 e2 e3 d1 d2 d3 : 0 <= z <= 1 -> 0 <= dt -> 0 <= E -> 0 <= D ->
    Rabs e1 <= E -> Rabs e2 <= E -> Rabs e3 <= E -> Rabs d1 <= D -> Rabs d2 <= D -> Rabs d3 <= D ->
    o1 = o0 - z * o0 + dt * e1 + d1 ->
    o2 = o0 - z * (1 / 4 * o0 + 1 / 4 * o1) + dt * (1 / 4 * e1 + 1 / 4 * e2) + d2 ->
    o3 = o0 - z * (1 / 6 * o0 + 1 / 6 * o1 + 2 / 3 * o2) + dt * (1 / 6 * e1 + 1 / 6 * e2 + 2 / 3 * e3) + d3 ->
    Rabs o3 <= Rabs o0 + 2 * (dt * E + D).
  Proof.
    intros Hz Hdt HE HD E1 E2 E3 D1 D2 D3 Q1 Q2 Q3.
    set (X := dt * E + D). assert (XD : 0 <= dt * E) by (apply Rmult_le_pos; lra).
    assert (W : forall y, Rabs y <= E -> - (dt * E) <= dt * y <= dt * E).
    { intros y Hy. apply Rabs_le_inv in Hy. replace (- (dt * E)) with (dt * (- E)) by ring. split; apply Rmult_le_compat_l; lra. }
    pose proof (W _ E1) as W1. pose proof (W _ E2) as W2. pose proof (W _ E3) as W3.
    apply Rabs_le_inv in D1. apply Rabs_le_inv in D2. apply Rabs_le_inv in D3.
    set (a1 := dt * e1 + d1). assert (A1 : - X <= a1 <= X) by (unfold a1, X; lra).
    set (a2' := dt * (1 / 4 * e1 + 1 / 4 * e2) + d2). assert (A2' : - X <= a2' <= X) by (unfold a2', X; lra).
    set (a3' := dt * (1 / 6 * e1 + 1 / 6 * e2 + 2 / 3 * e3) + d3). assert (A3' : - X <= a3' <= X) by (unfold a3', X; lra).
    assert (ZA : forall y Y, 0 <= Y -> - Y <= y <= Y -> - Y <= z * y <= Y).
    { intros y Y HY Hy. split; nra. }
    assert (XP : 0 <= X) by (unfold X; lra).
    pose proof (ZA a1 X XP A1) as ZA1.
    set (a2 := - (z * a1) / 4 + a2'). assert (A2 : - (5 / 4 * X) <= a2 <= 5 / 4 * X) by (unfold a2; lra).
    pose proof (ZA a2 (5 / 4 * X) ltac:(lra) A2) as ZA2.
    assert (R3 : o3 = (1 - z + z * z / 2 - z * z * z / 6) * o0 + (- (z * a1) / 6 - 2 / 3 * (z * a2) + a3')).
    { rewrite Q3, Q2, Q1. unfold a2, a3', a2', a1. field. }
    assert (P : 0 <= 1 - z + z * z / 2 - z * z * z / 6 <= 1) by (split; nra).
    rewrite R3. eapply Rle_trans; [apply Rabs_triang|]. apply Rplus_le_compat.
    - rewrite Rabs_mult, (Rabs_pos_eq (1 - z + z * z / 2 - z * z * z / 6)) by apply P.
      pose proof (Rabs_pos o0). rewrite <- (Rmult_1_l (Rabs o0)) at 2. apply Rmult_le_compat_r; lra.
    - apply Rabs_le. lra.
  Qed.

  Theorem step_drift t dt w : tiny <= B dt -> 0 <= sigma -> sigma * B dt <= 1 ->
    tame w -> tame (rk3_s1 (N := N) f t dt w) -> tame (rk3_s2 (N := N) f t dt w) -> all_finite (rk3_next (N := N) f t dt w) ->
    Rabs (avg (rk3_next (N := N) f t dt w) - c) <= Rabs (avg w - c) + 128 * u * (b + B dt * s).
  Proof.
    intros Hdt Hs Hsd T0 T1 T2 T3. pose proof tiny_pos. pose proof u_pos as UP.
    set (w1 := rk3_s1 (N := N) f t dt w) in *. set (w2 := rk3_s2 (N := N) f t dt w) in *. set (w3 := rk3_next (N := N) f t dt w) in *.
    set (k1 := f t w) in *. set (k2 := rk3_k2 (N := N) f t dt w). set (k3 := rk3_k3 (N := N) f t dt w).
    assert (FS : forall i, I i -> finite (k1 O i) /\ Rabs (B (w1 O i) - (B (w O i) + B dt * B (k1 O i))) <= 24 * u * (b + B dt * s)).
    { intros i HI. apply (first_stage N IE dt (w O i) (k1 O i) dt dt b s HB HS Hdt); [apply T0; exact HI|intros F; apply (RB t w i); auto|].
      apply (T1 i HI). }
    assert (SS : forall i, I i -> finite (k2 O i) /\ Rabs (B (w2 O i) - (B (w O i) + B dt * (1 / 4 * B (k1 O i) + 1 / 4 * B (k2 O i)))) <= 24 * u * (b + B dt * s)).
    { intros i HI. apply (second_stage N IE dt (w O i) (k1 O i) (k2 O i) dt b s HB HS Hdt);
        [apply T0; exact HI|intros F; apply (RB t w i); auto|intros F; apply (RB _ w1 i); auto|]. apply (T2 i HI). }
    assert (TS : forall i, I i -> finite (k3 O i) /\ Rabs (B (w3 O i) - (B (w O i) + B dt * (1 / 6 * B (k1 O i) + 1 / 6 * B (k2 O i) + 2 / 3 * B (k3 O i)))) <= 24 * u * (b + B dt * s)).
    { intros i HI. apply (last_stage N IE dt (w O i) (k1 O i) (k2 O i) (k3 O i) b s HB HS Hdt);
        [apply T0; exact HI|intros F; apply (RB t w i); auto|intros F; apply (RB _ w1 i); auto|intros F; apply (RB _ w2 i); auto|]. apply (T3 i HI). }
    assert (M1 : Rabs (avg k1 + sigma * (avg w - c)) <= 31 * u * s) by (apply RM; [exact T0|intros i HI; apply (FS i HI)]).
    assert (M2 : Rabs (avg k2 + sigma * (avg w1 - c)) <= 31 * u * s) by (apply RM; [exact T1|intros i HI; apply (SS i HI)]).
    assert (M3 : Rabs (avg k3 + sigma * (avg w2 - c)) <= 31 * u * s) by (apply RM; [exact T2|intros i HI; apply (TS i HI)]).
    assert (U1 : Rabs (avg w1 - (avg w + B dt * avg k1)) <= 24 * u * (b + B dt * s)).
    { apply (avg_update (fun i => B (w O i)) (fun i => B (k1 O i)) (fun i => B (w1 O i))). intros i HI. apply (FS i HI). }
    assert (U2 : Rabs (avg w2 - (avg w + B dt * (1 / 4 * avg k1 + 1 / 4 * avg k2))) <= 24 * u * (b + B dt * s)).
    { unfold avg at 3 4. rewrite <- M_comb2. apply (avg_update (fun i => B (w O i)) (fun i => 1 / 4 * B (k1 O i) + 1 / 4 * B (k2 O i)) (fun i => B (w2 O i))).
      intros i HI. apply (SS i HI). }
    assert (U3 : Rabs (avg w3 - (avg w + B dt * (1 / 6 * avg k1 + 1 / 6 * avg k2 + 2 / 3 * avg k3))) <= 24 * u * (b + B dt * s)).
    { unfold avg at 3 4 5. rewrite <- M_comb3. apply (avg_update (fun i => B (w O i)) (fun i => 1 / 6 * B (k1 O i) + 1 / 6 * B (k2 O i) + 2 / 3 * B (k3 O i)) (fun i => B (w3 O i))).
      intros i HI. apply (TS i HI). }
    assert (SP : 0 <= B dt * s) by (apply Rmult_le_pos; lra).
    pose proof (recurrence (sigma * B dt) (B dt) (31 * u * s) (24 * u * (b + B dt * s)) (avg w - c) (avg w1 - c) (avg w2 - c) (avg w3 - c)
      (avg k1 + sigma * (avg w - c)) (avg k2 + sigma * (avg w1 - c)) (avg k3 + sigma * (avg w2 - c))
      (avg w1 - (avg w + B dt * avg k1)) (avg w2 - (avg w + B dt * (1 / 4 * avg k1 + 1 / 4 * avg k2)))
      (avg w3 - (avg w + B dt * (1 / 6 * avg k1 + 1 / 6 * avg k2 + 2 / 3 * avg k3)))) as RC.
    eapply Rle_trans; [apply RC|]; clear RC; try assumption; try lra; try ring.
    - split; [apply Rmult_le_pos; lra|exact Hsd].
    - repeat apply Rmult_le_pos; lra.
    - repeat apply Rmult_le_pos; lra.
    - assert (0 <= u * b) by (apply Rmult_le_pos; lra). assert (0 <= u * (B dt * s)) by (apply Rmult_le_pos; lra). lra.
  Qed.
End Drift.
