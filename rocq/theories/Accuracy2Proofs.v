(** Rounding errors of expressions. *)
From Coq Require Import Reals Lra ZArith Lia List.
From Flocq Require Import Core BinarySingleNaN.
From Verif Require Import Num ModelDouble SpecDouble SpecAccuracy AccuracyProofs.
Local Open Scope R_scope.
Local Existing Instance prec_positive.
Local Existing Instance prec_below_emax.
Local Notation u := unit_roundoff.
Local Notation B := value_of.
Local Notation p k := ((1 + u) ^ k).

(** x stands for r, of magnitude at most A, up to k roundings. *)
Definition near (x : double) (r A : R) (k : nat) : Prop := finite x /\ Rabs r <= A /\ Rabs (B x - r) <= growth k * A.

Lemma near_pos x r A k : near x r A k -> 0 <= A.
Proof. intros (_ & H & _). pose proof (Rabs_pos r). lra. Qed.
Lemma near_up x r A k : near x r A k -> Rabs (B x) <= p k * A.
Proof.
  intros (_ & H & E). replace (B x) with ((B x - r) + r) by ring. eapply Rle_trans; [apply Rabs_triang|].
  replace (p k) with (growth k + 1) by (unfold growth; ring). lra.
Qed.
Lemma near_weaken x r A A' k k' : near x r A k -> A <= A' -> (k <= k')%nat -> near x r A' k'.
Proof.
  intros (F & H & E) HA HK. split; [exact F|]. split; [lra|]. pose proof (growth_mono k k' HK). pose proof (growth_pos k). pose proof (Rabs_pos r).
  eapply Rle_trans; [exact E|]. apply Rmult_le_compat; lra.
Qed.
Lemma near_exact x A : finite x -> Rabs (B x) <= A -> near x (B x) A 0.
Proof. intros F H. split; [exact F|]. split; [exact H|]. rewrite Rminus_diag_eq, Rabs_R0 by reflexivity. unfold growth. cbn [pow]. lra. Qed.

Lemma p_add j k : p (j + k) = p j * p k.
Proof. apply pow_add. Qed.

(** One more rounding. *)
Lemma near_round x z r A A' k : 0 <= A <= A' -> finite x -> Rabs r <= A -> Rabs (z - r) <= growth k * A -> Rabs (B x - z) <= u * (Rabs z + (A' - A)) -> near x r A' (S k).
Proof.
  intros HA F H E R. split; [exact F|]. split; [lra|]. rewrite growth_S.
  assert (Z : Rabs z <= p k * A).
  { replace z with ((z - r) + r) by ring. eapply Rle_trans; [apply Rabs_triang|]. replace (p k) with (growth k + 1) by (unfold growth; ring). lra. }
  replace (B x - r) with ((B x - z) + (z - r)) by ring. eapply Rle_trans; [apply Rabs_triang|].
  pose proof u_pos. pose proof (growth_pos k). pose proof (p_ge1 k).
  assert (u * (Rabs z + (A' - A)) <= u * (p k * A')).
  { apply Rmult_le_compat_l; [lra|]. assert (1 * (A' - A) <= p k * (A' - A)) by (apply Rmult_le_compat_r; lra). lra. }
  assert (growth k * A <= growth k * A') by (apply Rmult_le_compat_l; lra). lra.
Qed.

Section Expressions.
  Variable N : Num double.
  Hypothesis IE : ieee N.
  Let add_is := proj1 IE.
  Let sub_is := proj1 (proj2 IE).
  Let mul_is := proj1 (proj2 (proj2 IE)).
  Let div_is := proj1 (proj2 (proj2 (proj2 IE))).
  Let opp_is := proj1 (proj2 (proj2 (proj2 (proj2 IE)))).
  Let int_is := proj1 (proj2 (proj2 (proj2 (proj2 (proj2 IE))))).
  Let rat_is := proj1 (proj2 (proj2 (proj2 (proj2 (proj2 (proj2 IE)))))).
  Let pow_is := proj2 (proj2 (proj2 (proj2 (proj2 (proj2 (proj2 IE)))))).

  Inductive ex : Type :=
  | Leaf (x : double) (r A : R) (k : nat)
  | Add (a b : ex) | Sub (a b : ex) | Mul (a b : ex) | Neg (a : ex) | Div (a : ex) (x : double) (r : R) (k : nat) | Pow (a : ex).
  Fixpoint rounded_value (e : ex) : double :=
    match e with
    | Leaf x _ _ _ => x | Add a b => nadd (rounded_value a) (rounded_value b) | Sub a b => nsub (rounded_value a) (rounded_value b)
    | Mul a b => nmul (rounded_value a) (rounded_value b) | Neg a => nopp (rounded_value a) | Div a x _ _ => ndiv (rounded_value a) x | Pow a => npow3 (rounded_value a)
    end.
  Fixpoint exact_value (e : ex) : R :=
    match e with
    | Leaf _ r _ _ => r | Add a b => exact_value a + exact_value b | Sub a b => exact_value a - exact_value b
    | Mul a b => exact_value a * exact_value b | Neg a => - exact_value a | Div a _ r _ => exact_value a / r | Pow a => exact_value a ^ 3
    end.
  Fixpoint mag (e : ex) : R :=
    match e with
    | Leaf _ _ A _ => A | Add a b | Sub a b => mag a + mag b | Mul a b => mag a * mag b + tiny | Neg a => mag a
    | Div a _ r _ => mag a / Rabs r + tiny | Pow a => mag a ^ 3 + tiny
    end.
  Fixpoint depth (e : ex) : nat :=
    match e with
    | Leaf _ _ _ k => k | Add a b | Sub a b => S (Nat.max (depth a) (depth b)) | Mul a b => S (depth a + depth b) | Neg a => depth a
    | Div a _ _ k => S (depth a + 2 * k) | Pow a => 3 * depth a + 4
    end.
  (** A leaf whose double is finite is near its real number; divisors are relatively close to theirs. *)
  Fixpoint good (e : ex) : Prop :=
    match e with
    | Leaf x r A k => finite x -> near x r A k
    | Add a b | Sub a b | Mul a b => good a /\ good b
    | Neg a | Pow a => good a
    | Div a x r k => good a /\ r <> 0 /\ (k <= 100)%nat /\ Rabs (B x - r) <= growth k * Rabs r
    end.

  Lemma p100 k : (k <= 100)%nat -> p k <= 3 / 2.
  Proof.
    intros H. pose proof (growth_mono k 100 H) as M. pose proof (growth_linear 100 ltac:(vm_compute; discriminate)) as L.
    replace (INR 101) with 101 in L by (cbn; lra). pose proof u_small. replace (p k) with (growth k + 1) by (unfold growth; ring). lra.
  Qed.
  Lemma inverse_near x r k : r <> 0 -> (k <= 100)%nat -> Rabs (B x - r) <= growth k * Rabs r ->
    B x <> 0 /\ Rabs (/ B x - / r) <= growth (2 * k) * / Rabs r.
  Proof.
    intros NZ HK H. pose proof (p100 k HK) as P. pose proof (growth_pos k) as GP. assert (RP : 0 < Rabs r) by (apply Rabs_pos_lt, NZ).
    assert (G : growth k <= 1 / 2) by (unfold growth; lra).
    assert (LO : (1 - growth k) * Rabs r <= Rabs (B x)).
    { pose proof (Rabs_triang (B x) (- (B x - r))) as T. rewrite Rabs_Ropp in T. replace (B x + - (B x - r)) with r in T by ring. lra. }
    assert (XP : 0 < Rabs (B x)) by nra.
    assert (XZ : B x <> 0) by (intros E; rewrite E, Rabs_R0 in XP; lra).
    split; [exact XZ|]. replace (/ B x - / r) with ((r - B x) * / B x * / r) by (field; auto).
    rewrite !Rabs_mult, (Rabs_inv (B x)), (Rabs_inv r), <- (Rabs_Ropp (r - B x)), Ropp_minus_distr.
    apply Rmult_le_compat_r; [left; apply Rinv_0_lt_compat; exact RP|].
    apply Rmult_le_reg_r with (Rabs (B x)); [exact XP|]. rewrite Rmult_assoc, Rinv_l, Rmult_1_r by lra.
    eapply Rle_trans; [exact H|].
    assert (G2 : growth (2 * k) = growth k * (growth k + 2)).
    { unfold growth. replace (2 * k)%nat with (k + k)%nat by lia. rewrite p_add. ring. }
    rewrite G2. apply Rle_trans with (growth k * (growth k + 2) * ((1 - growth k) * Rabs r)); [|apply Rmult_le_compat_l; [nra|exact LO]].
    assert (1 <= (growth k + 2) * (1 - growth k)) by nra.
    replace (growth k * (growth k + 2) * ((1 - growth k) * Rabs r)) with (growth k * Rabs r * ((growth k + 2) * (1 - growth k))) by ring.
    rewrite <- (Rmult_1_r (growth k * Rabs r)) at 1. apply Rmult_le_compat_l; [nra|assumption].
  Qed.

  (** The product of near values before it is rounded. *)
  Lemma product_near x r A j y s C k : near x r A j -> near y s C k ->
    Rabs (r * s) <= A * C /\ Rabs (B x * B y - r * s) <= growth (j + k) * (A * C).
  Proof.
    intros HX HY. pose proof (near_pos _ _ _ _ HX). pose proof (near_pos _ _ _ _ HY). pose proof (near_up _ _ _ _ HX) as UX.
    destruct HX as (_ & RX & EX). destruct HY as (_ & RY & EY). split; [rewrite Rabs_mult; apply Rmult_le_compat; try apply Rabs_pos; assumption|].
    replace (B x * B y - r * s) with (B x * (B y - s) + (B x - r) * s) by ring.
    eapply Rle_trans; [apply Rabs_triang|]. rewrite !Rabs_mult.
    assert (Rabs (B x) * Rabs (B y - s) <= p j * A * (growth k * C)) by (apply Rmult_le_compat; try apply Rabs_pos; assumption).
    assert (Rabs (B x - r) * Rabs s <= growth j * A * C) by (apply Rmult_le_compat; try apply Rabs_pos; assumption).
    assert (E : growth (j + k) * (A * C) = p j * A * (growth k * C) + growth j * A * C) by (unfold growth; rewrite p_add; ring). lra.
  Qed.

  Theorem expression_error e : good e -> finite (rounded_value e) -> near (rounded_value e) (exact_value e) (mag e) (depth e).
  Proof.
    pose proof tiny_pos as TP. pose proof u_pos as UP.
    induction e as [x r A k|a IHa b IHb|a IHa b IHb|a IHa b IHb|a IHa|a IHa x r k|a IHa]; cbn [good rounded_value exact_value mag depth].
    - auto.
    - intros (GA & GB) F. rewrite add_is in F |- *. destruct (plus_error _ _ F) as (FA & FB & E).
      pose proof (IHa GA FA) as HA. pose proof (IHb GB FB) as HB. set (k := Nat.max (depth a) (depth b)).
      apply (near_weaken _ _ _ (mag a) _ k) in HA; [|lra|unfold k; lia]. apply (near_weaken _ _ _ (mag b) _ k) in HB; [|lra|unfold k; lia].
      pose proof (near_pos _ _ _ _ HA). pose proof (near_pos _ _ _ _ HB). destruct HA as (_ & RA & EA). destruct HB as (_ & RB & EB).
      apply (near_round _ (B (rounded_value a) + B (rounded_value b)) _ (mag a + mag b)); [lra|exact F| | |].
      + eapply Rle_trans; [apply Rabs_triang|]. lra.
      + replace (B (rounded_value a) + B (rounded_value b) - (exact_value a + exact_value b)) with ((B (rounded_value a) - exact_value a) + (B (rounded_value b) - exact_value b)) by ring.
        eapply Rle_trans; [apply Rabs_triang|]. lra.
      + replace (mag a + mag b - (mag a + mag b)) with 0 by ring. rewrite Rplus_0_r. exact E.
    - intros (GA & GB) F. rewrite sub_is in F |- *. destruct (minus_error _ _ F) as (FA & FB & E).
      pose proof (IHa GA FA) as HA. pose proof (IHb GB FB) as HB. set (k := Nat.max (depth a) (depth b)).
      apply (near_weaken _ _ _ (mag a) _ k) in HA; [|lra|unfold k; lia]. apply (near_weaken _ _ _ (mag b) _ k) in HB; [|lra|unfold k; lia].
      pose proof (near_pos _ _ _ _ HA). pose proof (near_pos _ _ _ _ HB). destruct HA as (_ & RA & EA). destruct HB as (_ & RB & EB).
      apply (near_round _ (B (rounded_value a) - B (rounded_value b)) _ (mag a + mag b)); [lra|exact F| | |].
      + eapply Rle_trans; [apply Rabs_triang|]. rewrite Rabs_Ropp. lra.
      + replace (B (rounded_value a) - B (rounded_value b) - (exact_value a - exact_value b)) with ((B (rounded_value a) - exact_value a) + - (B (rounded_value b) - exact_value b)) by ring.
        eapply Rle_trans; [apply Rabs_triang|]. rewrite Rabs_Ropp. lra.
      + replace (mag a + mag b - (mag a + mag b)) with 0 by ring. rewrite Rplus_0_r. exact E.
    - intros (GA & GB) F. rewrite mul_is in F |- *. destruct (mult_error _ _ F) as (FA & FB & E).
      pose proof (IHa GA FA) as HA. pose proof (IHb GB FB) as HB. destruct (product_near _ _ _ _ _ _ _ _ HA HB) as (R1 & R2).
      pose proof (near_pos _ _ _ _ HA). pose proof (near_pos _ _ _ _ HB).
      apply (near_round _ (B (rounded_value a) * B (rounded_value b)) _ (mag a * mag b)); [split; [apply Rmult_le_pos; assumption|lra]|exact F|exact R1|exact R2|].
      replace (mag a * mag b + tiny - mag a * mag b) with tiny by ring. exact E.
    - intros GA F. rewrite opp_is in F |- *. destruct (opp_error _ F) as (FA & E). destruct (IHa GA FA) as (_ & RA & EA).
      split; [exact F|]. split; [rewrite Rabs_Ropp; exact RA|]. rewrite E. replace (- B (rounded_value a) - - exact_value a) with (- (B (rounded_value a) - exact_value a)) by ring.
      rewrite Rabs_Ropp. exact EA.
    - intros (GA & NZ & HK & HD) F. destruct (inverse_near x r k NZ HK HD) as (XZ & IN). rewrite div_is in F |- *.
      destruct (div_error _ _ XZ F) as (FA & E). pose proof (IHa GA FA) as HA. pose proof (near_pos _ _ _ _ HA). pose proof (near_up _ _ _ _ HA) as UA. destruct HA as (_ & RA & EA).
      assert (RP : 0 < / Rabs r) by (apply Rinv_0_lt_compat, Rabs_pos_lt, NZ).
      apply (near_round _ (B (rounded_value a) / B x) _ (mag a / Rabs r)).
      + unfold Rdiv. split; [apply Rmult_le_pos; lra|lra].
      + exact F.
      + unfold Rdiv. rewrite Rabs_mult, Rabs_inv. apply Rmult_le_compat_r; lra.
      + unfold Rdiv. replace (B (rounded_value a) * / B x - exact_value a * / r) with (B (rounded_value a) * (/ B x - / r) + (B (rounded_value a) - exact_value a) * / r) by ring.
        eapply Rle_trans; [apply Rabs_triang|]. rewrite !Rabs_mult, (Rabs_inv r).
        assert (Rabs (B (rounded_value a)) * Rabs (/ B x - / r) <= p (depth a) * mag a * (growth (2 * k) * / Rabs r)) by (apply Rmult_le_compat; try apply Rabs_pos; assumption).
        assert (Rabs (B (rounded_value a) - exact_value a) * / Rabs r <= growth (depth a) * mag a * / Rabs r) by (apply Rmult_le_compat_r; [lra|exact EA]).
        assert (EE : growth (depth a + 2 * k) * (mag a * / Rabs r) = p (depth a) * mag a * (growth (2 * k) * / Rabs r) + growth (depth a) * mag a * / Rabs r) by (unfold growth; rewrite p_add; ring).
        lra.
      + replace (mag a / Rabs r + tiny - mag a / Rabs r) with tiny by ring. exact E.
    - intros GA F. destruct (pow_is _ F) as (FA & E). pose proof (IHa GA FA) as HA. pose proof (near_pos _ _ _ _ HA) as PA.
      set (x := rounded_value a) in *. set (r := exact_value a) in *. set (A := mag a) in *. set (k := depth a) in *.
      pose proof HA as (_ & RA & EA). pose proof (near_up _ _ _ _ HA) as UA.
      split; [exact F|]. split; [rewrite <- RPow_abs; apply Rle_trans with (A ^ 3); [apply pow_incr; split; [apply Rabs_pos|exact RA]|lra]|].
      assert (C3 : Rabs (B x ^ 3 - r ^ 3) <= growth (3 * k) * A ^ 3).
      { replace (B x ^ 3 - r ^ 3) with (B x * B x * (B x - r) + B x * (B x - r) * r + (B x - r) * r * r) by ring.
        assert (T : growth (3 * k) * A ^ 3 = p k * A * (p k * A) * (growth k * A) + p k * A * (growth k * A) * A + growth k * A * A * A).
        { unfold growth. replace (3 * k)%nat with (k + (k + k))%nat by lia. rewrite !p_add. ring. }
        rewrite T. pose proof (growth_pos k). pose proof (p_ge1 k).
        assert (0 <= growth k * A) by (apply Rmult_le_pos; lra). assert (0 <= p k * A) by (apply Rmult_le_pos; lra).
        eapply Rle_trans; [apply Rabs_triang|]. apply Rplus_le_compat; [eapply Rle_trans; [apply Rabs_triang|]; apply Rplus_le_compat|];
          rewrite !Rabs_mult; repeat apply Rmult_le_compat; try apply Rabs_pos; try assumption; try (apply Rmult_le_pos; try apply Rabs_pos; try (apply Rmult_le_pos; apply Rabs_pos); lra). }
      assert (UA3 : Rabs (B x ^ 3) <= p (3 * k) * A ^ 3).
      { rewrite <- RPow_abs. replace (p (3 * k) * A ^ 3) with ((p k * A) ^ 3) by (replace (3 * k)%nat with (k + (k + k))%nat by lia; rewrite !p_add; ring).
        apply pow_incr. split; [apply Rabs_pos|exact UA]. }
      replace (B (npow3 x) - r ^ 3) with ((B (npow3 x) - B x ^ 3) + (B x ^ 3 - r ^ 3)) by ring.
      eapply Rle_trans; [apply Rabs_triang|].
      assert (G4 : 4 * u <= growth 4) by (unfold growth; cbn [pow]; nra).
      assert (A3 : 0 <= A ^ 3) by (apply pow_le; lra).
      assert (P1 : 1 <= p (3 * k)) by apply p_ge1.
      assert (X : 4 * u * (Rabs (B x ^ 3) + tiny) <= growth 4 * (p (3 * k) * (A ^ 3 + tiny))).
      { apply Rmult_le_compat; [lra|pose proof (Rabs_pos (B x ^ 3)); lra|exact G4|].
        assert (1 * tiny <= p (3 * k) * tiny) by (apply Rmult_le_compat_r; lra). lra. }
      assert (Y : growth (3 * k) * A ^ 3 <= growth (3 * k) * (A ^ 3 + tiny)) by (apply Rmult_le_compat_l; [apply growth_pos|lra]).
      assert (Z : growth (3 * k + 4) * (A ^ 3 + tiny) = growth 4 * (p (3 * k) * (A ^ 3 + tiny)) + growth (3 * k) * (A ^ 3 + tiny)) by (unfold growth; rewrite p_add; ring).
      lra.
  Qed.
End Expressions.
