(** Poisson's equation on a grid has one solution. *)
From Coq Require Import Reals Lra.
From Verif Require Import Num ModelDisc3D SpecGrid SpecField SpecMon SpecPoissonRun Program16Proofs.
From Coq Require Import ZArith Lia ZifyBool ZifyNat.
Local Open Scope R_scope.

Lemma small_zero (c rho x : R) : 0 <= rho < 1 -> (forall n, Rabs x <= c * rho ^ n) -> x = 0.
Proof.
  intros H A. destruct (Req_dec x 0) as [E|NE]; [exact E|exfalso].
  assert (P : 0 < Rabs x) by (apply Rabs_pos_lt; assumption).
  assert (C : 0 < c). { pose proof (A O) as A0. cbn in A0. lra. }
  destruct (pow_lt_1_zero rho ltac:(rewrite Rabs_right; lra) (Rabs x / c)) as (n & B).
  { apply Rmult_lt_0_compat; [assumption|apply Rinv_0_lt_compat; assumption]. }
  specialize (B n (Nat.le_refl n)). specialize (A n). assert (0 <= rho ^ n) by (apply pow_le; lra). rewrite Rabs_right in B by lra.
  apply (Rmult_lt_compat_l c) in B; [|assumption]. replace (c * (Rabs x / c)) with (Rabs x) in B by (field; lra). lra.
Qed.

Section Steady.
  Variable (dom : domain R).
  Hypothesis HV : valid_domain3 dom.
  Hypothesis HZ : (1 <= nz dom)%Z.
  Local Notation h := (spacing dom).
  Local Notation W := (barrier_top dom).
  Local Notation bar := (barrier dom).
  Hypothesis H0 : h <> 0.
  Let X : Type := Z -> Z -> Z -> R.

  Definition euler (dt : R) (u : X) : X := fun i j k => u i j k + dt * poisson_rate dom u i j k.
  Definition apart (b : R) (u w : X) : Prop := forall i j k, inside3 dom i j k -> Rabs (u i j k - w i j k) <= b * bar k.

  Lemma apart_ext b u w i j k : 0 <= b -> apart b u w -> (-1 <= k <= nz dom)%Z ->
    Rabs (poisson_extend dom u i j k - poisson_extend dom w i j k) <= b * bar k.
  Proof.
    intros B N K. destruct HV as (A1 & A2 & A3 & _). unfold poisson_extend. destruct ((0 <=? k)%Z && (k <? nz dom)%Z)%bool eqn:E.
    - apply N. repeat split; try lia; apply Z.mod_pos_bound; lia.
    - rewrite Rminus_diag_eq by reflexivity. rewrite Rabs_R0. apply Rmult_le_pos; [lra|]. apply barrier_nonneg; [auto|lia].
  Qed.

  Lemma lam_range dt : 0 <= dt <= h * h / 6 -> 0 <= dt / (h * h) <= 1 / 6 /\ dt / (h * h) * (h * h) = dt.
  Proof.
    intros (D0 & D1). pose proof (hh dom H0) as HH. split; [split|].
    - apply Rmult_le_pos; [lra|]. apply Rlt_le, Rinv_0_lt_compat; assumption.
    - apply (Rmult_le_reg_r (h * h)); [assumption|]. field_simplify; [|assumption]. lra.
    - field. assumption.
  Qed.

  Lemma euler_apart dt b u w : 0 <= dt <= h * h / 6 -> 0 <= b -> apart b u w -> apart (b * (1 - dt / W)) (euler dt u) (euler dt w).
  Proof.
    intros D B N i j k I. pose proof (hh dom H0) as HH. pose proof (top_pos dom HZ H0) as TP. pose proof I as (_ & _ & K).
    destruct (lam_range dt D) as ((L0 & L1) & LH). destruct D as (D0 & D1). set (lam := dt / (h * h)) in *.
    set (E := fun i j k => poisson_extend dom u i j k - poisson_extend dom w i j k).
    assert (ED : euler dt u i j k - euler dt w i j k =
      (1 - 6 * lam) * E i j k + lam * (E (i - 1)%Z j k + E (i + 1)%Z j k + E i (j - 1)%Z k + E i (j + 1)%Z k + E i j (k - 1)%Z + E i j (k + 1)%Z)).
    { unfold euler, E, lam, poisson_rate, Lap3, dxx3, dyy3, dzz3. rewrite !(inside_extend dom _ i j k I). field. assumption. }
    rewrite ED.
    pose proof (apart_ext b u w i j k B N ltac:(lia)) as N0. pose proof (apart_ext b u w (i - 1)%Z j k B N ltac:(lia)) as N1. pose proof (apart_ext b u w (i + 1)%Z j k B N ltac:(lia)) as N2.
    pose proof (apart_ext b u w i (j - 1)%Z k B N ltac:(lia)) as N3. pose proof (apart_ext b u w i (j + 1)%Z k B N ltac:(lia)) as N4.
    pose proof (apart_ext b u w i j (k - 1)%Z B N ltac:(lia)) as N5. pose proof (apart_ext b u w i j (k + 1)%Z B N ltac:(lia)) as N6.
    fold (E i j k) in N0. fold (E (i - 1)%Z j k) in N1. fold (E (i + 1)%Z j k) in N2. fold (E i (j - 1)%Z k) in N3. fold (E i (j + 1)%Z k) in N4.
    fold (E i j (k - 1)%Z) in N5. fold (E i j (k + 1)%Z) in N6.
    pose proof (barrier_diff dom k) as BD. pose proof (barrier_top_le dom H0 k) as BT.
    set (y := bar k) in *. set (wm := bar (k - 1)) in *. set (wp := bar (k + 1)) in *.
    assert (WT : dt * b * (y / W) <= dt * b).
    { rewrite <- (Rmult_1_r (dt * b)) at 2. apply Rmult_le_compat_l; [nra|]. apply (Rmult_le_reg_r W); [assumption|]. field_simplify; [|lra]. lra. }
    apply Rle_trans with ((1 - 6 * lam) * (b * y) + lam * (4 * (b * y) + b * wm + b * wp)).
    2:{ replace ((1 - 6 * lam) * (b * y) + lam * (4 * (b * y) + b * wm + b * wp)) with (b * (y + lam * (wm + wp - 2 * y))) by ring.
        rewrite BD. replace (y + lam * - (h * h)) with (y - dt) by (rewrite <- LH; ring).
        replace (b * (1 - dt / W) * y) with (b * y - dt * b * (y / W)) by (field; lra). nra. }
    apply Rabs_le. apply abs_bounds in N0, N1, N2, N3, N4, N5, N6.
    generalize dependent (b * y). generalize dependent (b * wm). generalize dependent (b * wp). intros xp N6 xm N5 x N0 N1 N2 N3 N4.
    generalize dependent (E i j k). generalize dependent (E (i - 1)%Z j k). generalize dependent (E (i + 1)%Z j k). generalize dependent (E i (j - 1)%Z k). generalize dependent (E i (j + 1)%Z k).
    generalize dependent (E i j (k - 1)%Z). generalize dependent (E i j (k + 1)%Z).
    intros. split; nra.
  Qed.

  (** A bound that Euler's method keeps. *)
  Definition moderate (u : X) : Prop := forall i j k, inside3 dom i j k -> Rabs (u i j k) <= 1 + 3 * bar k.
  Lemma at_1 i j k : Rabs (poisson_at dom i j k) <= 1.
  Proof.
    unfold poisson_at, poisson_exact. set (a := sin _). set (b := cos _). set (c := cos _).
    assert (A : Rabs a <= 1) by (unfold a; apply Rabs_le, SIN_bound).
    assert (B : Rabs b <= 1) by (unfold b; apply Rabs_le, COS_bound).
    assert (C : Rabs c <= 1) by (unfold c; apply Rabs_le, COS_bound).
    rewrite !Rabs_mult. pose proof (Rabs_pos a). pose proof (Rabs_pos b). pose proof (Rabs_pos c).
    assert (Rabs a * Rabs b <= 1) by nra. assert (0 <= Rabs a * Rabs b) by nra. nra.
  Qed.
  Lemma moderate_ext u i j k : moderate u -> (-1 <= k <= nz dom)%Z -> Rabs (poisson_extend dom u i j k) <= 1 + 3 * bar k.
  Proof.
    intros M K. destruct HV as (A1 & A2 & A3 & _). unfold poisson_extend. destruct ((0 <=? k)%Z && (k <? nz dom)%Z)%bool eqn:E.
    - apply M. repeat split; try lia; apply Z.mod_pos_bound; lia.
    - pose proof (at_1 i j k). pose proof (barrier_nonneg dom H0 k K). lra.
  Qed.
  Lemma euler_moderate dt u : 0 <= dt <= h * h / 6 -> moderate u -> moderate (euler dt u).
  Proof.
    intros D N i j k I. pose proof (hh dom H0) as HH. pose proof I as (_ & _ & K).
    destruct (lam_range dt D) as ((L0 & L1) & LH). destruct D as (D0 & D1). set (lam := dt / (h * h)) in *.
    set (E := poisson_extend dom u).
    assert (ED : euler dt u i j k =
      (1 - 6 * lam) * E i j k + lam * (E (i - 1)%Z j k + E (i + 1)%Z j k + E i (j - 1)%Z k + E i (j + 1)%Z k + E i j (k - 1)%Z + E i j (k + 1)%Z) + 3 * dt * poisson_at dom i j k).
    { unfold euler, E, lam, poisson_rate, Lap3, dxx3, dyy3, dzz3. rewrite !(inside_extend dom _ i j k I). field. assumption. }
    rewrite ED. pose proof (at_1 i j k) as A1.
    pose proof (moderate_ext u i j k N ltac:(lia)) as N0. pose proof (moderate_ext u (i - 1)%Z j k N ltac:(lia)) as N1. pose proof (moderate_ext u (i + 1)%Z j k N ltac:(lia)) as N2.
    pose proof (moderate_ext u i (j - 1)%Z k N ltac:(lia)) as N3. pose proof (moderate_ext u i (j + 1)%Z k N ltac:(lia)) as N4.
    pose proof (moderate_ext u i j (k - 1)%Z N ltac:(lia)) as N5. pose proof (moderate_ext u i j (k + 1)%Z N ltac:(lia)) as N6.
    fold E in N0, N1, N2, N3, N4, N5, N6.
    pose proof (barrier_diff dom k) as BD.
    set (y := bar k) in *. set (wm := bar (k - 1)) in *. set (wp := bar (k + 1)) in *.
    apply Rle_trans with ((1 - 6 * lam) * (1 + 3 * y) + lam * (4 * (1 + 3 * y) + (1 + 3 * wm) + (1 + 3 * wp)) + 3 * dt).
    2:{ replace ((1 - 6 * lam) * (1 + 3 * y) + lam * (4 * (1 + 3 * y) + (1 + 3 * wm) + (1 + 3 * wp)) + 3 * dt) with (1 + 3 * y + 3 * lam * (wm + wp - 2 * y) + 3 * dt) by ring.
        rewrite BD. replace (3 * lam * - (h * h)) with (- 3 * (lam * (h * h))) by ring. rewrite LH. lra. }
    apply Rabs_le. apply abs_bounds in N0, N1, N2, N3, N4, N5, N6, A1. clear ED BD.
    generalize dependent (E i j k). generalize dependent (E (i - 1)%Z j k). generalize dependent (E (i + 1)%Z j k). generalize dependent (E i (j - 1)%Z k). generalize dependent (E i (j + 1)%Z k).
    generalize dependent (E i j (k - 1)%Z). generalize dependent (E i j (k + 1)%Z). generalize dependent (poisson_at dom i j k).
    intros. split; nra.
  Qed.

  (** Euler's method from zeros, with the largest step allowed, converges. *)
  Let dt := h * h / 6.
  Let rho := 1 - dt / W.
  Lemma dt_ok : 0 <= dt <= h * h / 6.
  Proof. pose proof (hh dom H0). unfold dt. lra. Qed.
  Lemma rho_ok : 0 <= rho < 1.
  Proof.
    pose proof (hh dom H0). pose proof (top_pos dom HZ H0) as TP. pose proof (top_large dom HZ H0) as TL. unfold rho, dt.
    assert (0 < h * h / 6 / W) by (apply Rmult_lt_0_compat; [lra|apply Rinv_0_lt_compat; assumption]).
    assert (h * h / 6 / W <= 1). { apply (Rmult_le_reg_r W); [assumption|]. field_simplify; lra. }
    lra.
  Qed.
  Fixpoint approach (n : nat) : X := match n with O => fun _ _ _ => 0 | S n => euler dt (approach n) end.
  Lemma approach_moderate n : moderate (approach n).
  Proof.
    induction n as [|n IH]; cbn [approach]; [|apply euler_moderate; [apply dt_ok|exact IH]].
    intros i j k (_ & _ & K). rewrite Rabs_R0. pose proof (barrier_nonneg dom H0 k ltac:(lia)). lra.
  Qed.
  Lemma bar_low k : (0 <= k < nz dom)%Z -> h * h / 2 <= bar k.
  Proof.
    intros K. pose proof (hh dom H0). eapply Rle_trans; [|apply barrier_low; auto]. assert (1 <= IZR (nz dom)) by (apply (IZR_le 1); lia). nra.
  Qed.
  Let b0 := 2 * (1 + 3 * W) / (h * h).
  Lemma b0_pos : 0 <= b0.
  Proof. pose proof (hh dom H0). pose proof (top_pos dom HZ H0). unfold b0. apply Rmult_le_pos; [lra|]. apply Rlt_le, Rinv_0_lt_compat. assumption. Qed.
  Lemma moderate_apart u w : moderate u -> moderate w -> apart (2 * b0) u w.
  Proof.
    intros M M' i j k I. pose proof I as (_ & _ & K). specialize (M i j k I). specialize (M' i j k I). pose proof (barrier_top_le dom H0 k). pose proof (bar_low k K) as BL.
    pose proof (hh dom H0). unfold Rminus. eapply Rle_trans; [apply Rabs_triang|]. rewrite Rabs_Ropp.
    apply Rle_trans with (2 * b0 * (h * h / 2)); [|apply Rmult_le_compat_l; [pose proof b0_pos; lra|assumption]].
    unfold b0. replace (2 * (2 * (1 + 3 * W) / (h * h)) * (h * h / 2)) with (2 * (1 + 3 * W)) by (field; assumption). lra.
  Qed.
  Lemma approach_apart n : forall m m', apart (2 * b0 * rho ^ n) (approach (n + m)) (approach (n + m')).
  Proof.
    induction n as [|n IH]; intros m m'.
    - cbn [pow Nat.add]. rewrite Rmult_1_r. apply moderate_apart; apply approach_moderate.
    - cbn [pow Nat.add approach]. replace (2 * b0 * (rho * rho ^ n)) with (2 * b0 * rho ^ n * (1 - dt / W)) by (unfold rho; ring).
      apply euler_apart; [apply dt_ok| |apply IH]. pose proof b0_pos. pose proof rho_ok. apply Rmult_le_pos; [lra|]. apply pow_le. lra.
  Qed.

  Definition insideb (i j k : Z) : bool := ((0 <=? i)%Z && (i <? nx dom)%Z && (0 <=? j)%Z && (j <? ny dom)%Z && (0 <=? k)%Z && (k <? nz dom)%Z)%bool.
  Lemma insideb_ok i j k : insideb i j k = true <-> inside3 dom i j k.
  Proof. unfold insideb, inside3. lia. Qed.
  Definition course (i j k : Z) (n : nat) : R := if insideb i j k then approach n i j k else 0.
  Lemma course_cauchy i j k : Cauchy_crit (course i j k).
  Proof.
    intros eps EP. unfold course. destruct (insideb i j k) eqn:E.
    2:{ exists O. intros. unfold R_dist. rewrite Rminus_diag_eq by reflexivity. rewrite Rabs_R0. exact EP. }
    apply insideb_ok in E. pose proof b0_pos as BP. pose proof rho_ok as RO. pose proof E as (_ & _ & K).
    set (c := 2 * b0 * bar k + 1).
    assert (CP : 0 < c). { pose proof (barrier_nonneg dom H0 k ltac:(lia)). unfold c. nra. }
    destruct (pow_lt_1_zero rho ltac:(rewrite Rabs_right; lra) (eps / c)) as (N & HN).
    { apply Rmult_lt_0_compat; [assumption|apply Rinv_0_lt_compat; assumption]. }
    exists N. intros n m Hn Hm. specialize (HN N (Nat.le_refl N)). assert (P : 0 <= rho ^ N) by (apply pow_le; lra). rewrite Rabs_right in HN by lra.
    pose proof (approach_apart N (n - N) (m - N) i j k E) as A. replace (N + (n - N))%nat with n in A by lia. replace (N + (m - N))%nat with m in A by lia.
    unfold R_dist. eapply Rle_lt_trans; [exact A|]. apply (Rmult_lt_compat_l c) in HN; [|assumption]. replace (c * (eps / c)) with eps in HN by (field; lra).
    eapply Rle_lt_trans; [|exact HN]. unfold c. nra.
  Qed.
  Definition steady : X := fun i j k => proj1_sig (R_complete _ (course_cauchy i j k)).

  Lemma limit_le (f : nat -> R) l c a m : Un_cv f l -> (forall n, (m <= n)%nat -> Rabs (f n - a) <= c) -> Rabs (l - a) <= c.
  Proof.
    intros U B. destruct (Rle_dec (Rabs (l - a)) c) as [L|G]; [exact L|exfalso]. apply Rnot_le_lt in G.
    destruct (U (Rabs (l - a) - c) ltac:(lra)) as (N & HN). specialize (HN (Nat.max N m) ltac:(lia)). specialize (B (Nat.max N m) ltac:(lia)).
    unfold R_dist in HN. assert (T : Rabs (l - a) <= Rabs (f (Nat.max N m) - l) + Rabs (f (Nat.max N m) - a)).
    { replace (l - a) with (- (f (Nat.max N m) - l) + (f (Nat.max N m) - a)) by ring. eapply Rle_trans; [apply Rabs_triang|]. rewrite Rabs_Ropp. lra. }
    lra.
  Qed.
  Lemma steady_limit i j k : inside3 dom i j k -> Un_cv (fun n => approach n i j k) (steady i j k).
  Proof.
    intros I. unfold steady. destruct (R_complete _ (course_cauchy i j k)) as (l & U). cbn [proj1_sig].
    intros eps EP. destruct (U eps EP) as (N & HN). exists N. intros n Hn. specialize (HN n Hn). unfold course in HN.
    rewrite (proj2 (insideb_ok i j k) I) in HN. exact HN.
  Qed.
  Lemma steady_moderate : moderate steady.
  Proof.
    intros i j k I. pose proof (limit_le _ _ (1 + 3 * bar k) 0 0 (steady_limit i j k I)) as L. rewrite Rminus_0_r in L. apply L.
    intros n _. rewrite Rminus_0_r. apply approach_moderate. exact I.
  Qed.
  Lemma steady_apart n : apart (2 * b0 * rho ^ n) steady (approach n).
  Proof.
    intros i j k I. apply (limit_le _ _ _ _ n (steady_limit i j k I)). intros m Hm.
    pose proof (approach_apart n (m - n) 0 i j k I) as A. replace (n + (m - n))%nat with m in A by lia. rewrite Nat.add_0_r in A. exact A.
  Qed.
  Lemma steady_rate i j k : inside3 dom i j k -> poisson_rate dom steady i j k = 0.
  Proof.
    intros I. pose proof (hh dom H0) as HH. pose proof rho_ok as RO. pose proof b0_pos as BP. pose proof I as (_ & _ & K).
    assert (Z : euler dt steady i j k - steady i j k = 0).
    { apply (small_zero (4 * b0 * bar k) rho); [exact RO|]. intros n.
      assert (P : 0 <= 2 * b0 * rho ^ n) by (apply Rmult_le_pos; [lra|apply pow_le; lra]).
      pose proof (euler_apart dt _ _ _ dt_ok P (steady_apart n) i j k I) as A1.
      pose proof (steady_apart (S n) i j k I) as A2. cbn [approach] in A2.
      replace (euler dt steady i j k - steady i j k) with ((euler dt steady i j k - euler dt (approach n) i j k) + - (steady i j k - euler dt (approach n) i j k)) by ring.
      eapply Rle_trans; [apply Rabs_triang|]. rewrite Rabs_Ropp. fold rho in A1. cbn [pow] in A2.
      pose proof (barrier_nonneg dom H0 k ltac:(lia)) as B0. assert (PN : 0 <= rho ^ n) by (apply pow_le; lra).
      assert (2 * b0 * rho ^ n * rho * bar k <= 2 * b0 * rho ^ n * bar k).
      { apply Rmult_le_compat_r; [assumption|]. rewrite <- (Rmult_1_r (2 * b0 * rho ^ n)) at 2. apply Rmult_le_compat_l; lra. }
      replace (2 * b0 * (rho * rho ^ n)) with (2 * b0 * rho ^ n * rho) in A2 by ring. lra. }
    unfold euler in Z. assert (DT : dt <> 0) by (unfold dt; lra). apply (Rmult_eq_reg_l dt); [|exact DT]. lra.
  Qed.

  (** A bounded field on finitely many cells. *)
  Lemma bounded1 (f : Z -> R) n : exists M, 0 <= M /\ forall i, (0 <= i < Z.of_nat n)%Z -> Rabs (f i) <= M.
  Proof.
    induction n as [|n (M & P & H)]; [exists 0; split; [lra|intros; lia]|].
    exists (M + Rabs (f (Z.of_nat n))). pose proof (Rabs_pos (f (Z.of_nat n))). split; [lra|]. intros i I.
    destruct (Z.eq_dec i (Z.of_nat n)) as [->|NE]; [lra|]. specialize (H i ltac:(lia)). lra.
  Qed.
  Lemma bounded2 (f : Z -> Z -> R) n m : exists M, 0 <= M /\ forall i j, (0 <= i < Z.of_nat n)%Z -> (0 <= j < Z.of_nat m)%Z -> Rabs (f i j) <= M.
  Proof.
    induction n as [|n (M & P & H)]; [exists 0; split; [lra|intros; lia]|].
    destruct (bounded1 (f (Z.of_nat n)) m) as (M' & P' & H'). exists (M + M'). split; [lra|]. intros i j I J.
    destruct (Z.eq_dec i (Z.of_nat n)) as [->|NE]; [specialize (H' j J); lra|]. specialize (H i j ltac:(lia) J). lra.
  Qed.
  Lemma bounded3 (f : X) : exists M, 0 <= M /\ forall i j k, inside3 dom i j k -> Rabs (f i j k) <= M.
  Proof.
    assert (B : forall n, exists M, 0 <= M /\ forall i j k, (0 <= i < Z.of_nat n)%Z -> (0 <= j < ny dom)%Z -> (0 <= k < nz dom)%Z -> Rabs (f i j k) <= M).
    { induction n as [|n (M & P & H)]; [exists 0; split; [lra|intros; lia]|].
      destruct (bounded2 (f (Z.of_nat n)) (Z.to_nat (ny dom)) (Z.to_nat (nz dom))) as (M' & P' & H'). exists (M + M'). split; [lra|]. intros i j k I J K.
      destruct (Z.eq_dec i (Z.of_nat n)) as [->|NE]; [specialize (H' j k ltac:(lia) ltac:(lia)); lra|]. specialize (H i j k ltac:(lia) J K). lra. }
    destruct (B (Z.to_nat (nx dom))) as (M & P & H). exists M. split; [exact P|]. intros i j k (I & J & K). apply H; lia.
  Qed.

  (** Any field is as near the solution as its rate of change is small. *)
  Lemma steady_near w tau : 0 <= tau -> (forall i j k, inside3 dom i j k -> Rabs (poisson_rate dom w i j k) <= tau) ->
    forall i j k, inside3 dom i j k -> Rabs (steady i j k - w i j k) <= tau * W.
  Proof.
    intros T HF i j k I. pose proof (hh dom H0) as HH. pose proof rho_ok as RO. pose proof I as (_ & _ & K).
    destruct (bounded3 (fun i j k => steady i j k - w i j k)) as (M & MP & HM). set (b := 2 * M / (h * h)).
    assert (BP : 0 <= b) by (unfold b; apply Rmult_le_pos; [lra|apply Rlt_le, Rinv_0_lt_compat; assumption]).
    assert (N : forall n, near dom w tau (b * rho ^ n) steady).
    { induction n as [|n IH].
      - intros i' j' k' I'. specialize (HM i' j' k' I'). cbv beta in HM. pose proof (bar_low k' ltac:(destruct I'; lia)) as BL. rewrite Rmult_1_r.
        eapply Rle_trans; [exact HM|]. replace M with (b * (h * h / 2)) by (unfold b; field; assumption).
        apply Rle_trans with (b * bar k'); [apply Rmult_le_compat_l; assumption|]. apply Rmult_le_compat_r; lra.
      - assert (P : 0 <= b * rho ^ n) by (apply Rmult_le_pos; [assumption|apply pow_le; lra]).
        pose proof (euler_near dom HV HZ H0 w tau T HF dt (b * rho ^ n) steady dt_ok P IH) as E.
        intros i' j' k' I'. specialize (E i' j' k' I'). cbv beta in E. rewrite (steady_rate i' j' k' I'), Rmult_0_r, Rplus_0_r in E. fold rho in E.
        cbn [pow]. replace (b * (rho * rho ^ n)) with (b * rho ^ n * rho) by ring. exact E. }
    pose proof (barrier_nonneg dom H0 k ltac:(lia)) as B0. pose proof (barrier_top_le dom H0 k) as BT.
    apply Rle_trans with (tau * bar k); [|apply Rmult_le_compat_l; assumption].
    destruct (Rle_dec (Rabs (steady i j k - w i j k)) (tau * bar k)) as [L|G]; [exact L|exfalso]. apply Rnot_le_lt in G.
    set (x := Rabs (steady i j k - w i j k) - tau * bar k) in *.
    assert (X0 : x = 0).
    { apply (small_zero (b * bar k) rho); [exact RO|]. intros n. specialize (N n i j k I). unfold x. rewrite Rabs_right by (unfold x in *; lra). nra. }
    unfold x in X0. lra.
  Qed.
End Steady.
