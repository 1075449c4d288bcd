(** Rounding errors of the right-hand side of the Cahn-Hilliard equation. *)
From Coq Require Import Reals Lra ZArith Lia List Psatz.
From Flocq Require Import Core BinarySingleNaN.
From Verif Require Import Outcome ZList Num ModelDisc3D SpecGrid Stencil3Proofs Disc2DProofs ModelCH CHProofs SpecField ModelDouble SpecDouble SpecAccuracy AccuracyProofs Accuracy2Proofs.
Local Open Scope R_scope.
Local Existing Instance prec_positive.
Local Existing Instance prec_below_emax.
Local Notation u := unit_roundoff.
Local Notation B := value_of.
Local Notation p k := ((1 + u) ^ k).

Lemma int_exact z : (Z.abs z <= 2 ^ 53)%Z -> finite (double_int z) /\ B (double_int z) = IZR z.
Proof.
  intros H. unfold double_int.
  pose proof (binary_normalize_correct 53 1024 _ _ mode_NE z 0 false) as T.
  cbv zeta in T. assert (E : F2R (Float radix2 z 0) = IZR z) by (unfold F2R; cbn [Fnum Fexp bpow]; ring).
  rewrite E in T.
  assert (G : generic_format radix2 (SpecFloat.fexp 53 1024) (IZR z)).
  { change (SpecFloat.fexp 53 1024) with (FLT_exp (-1074) 53). apply generic_format_FLT.
    destruct (Z.eq_dec (Z.abs z) (2 ^ 53)) as [Q|Q].
    - assert (z = 2 ^ 53 \/ z = - 2 ^ 53)%Z as [->| ->] by lia.
      + exists (Float radix2 1 53); [unfold F2R; cbn [Fnum Fexp]; rewrite Rmult_1_l; rewrite <- IZR_Zpower by lia; reflexivity|cbn; lia|cbn; lia].
      + exists (Float radix2 (-1) 53); [unfold F2R; cbn [Fnum Fexp]; rewrite opp_IZR; change (2 ^ 53)%Z with (Zpower radix2 53); rewrite IZR_Zpower by lia; ring|cbn; lia|cbn; lia].
    - exists (Float radix2 z 0); [symmetry; exact E|cbn [Fnum]; change (Zpower radix2 53) with (2 ^ 53)%Z; lia|cbn; lia]. }
  rewrite (round_generic _ _ _ _ G) in T.
  assert (L : Rlt_bool (Rabs (IZR z)) (bpow radix2 1024) = true).
  { apply Rlt_bool_true. rewrite <- abs_IZR. apply Rle_lt_trans with (IZR (2 ^ 53)); [apply IZR_le; exact H|].
    change (2 ^ 53)%Z with (Zpower radix2 53). rewrite IZR_Zpower by lia. apply bpow_lt. lia. }
  rewrite L in T. destruct T as (T1 & T2 & _). split; [exact T2|exact T1].
Qed.

(** A product of two values in the normal range. *)
Definition rel (x : double) (r : R) (k : nat) : Prop := finite x /\ Rabs (B x - r) <= growth k * Rabs r.

Lemma rel_mult x y r s j k : rel x r j -> rel y s k -> (j + k <= 50)%nat -> tiny <= Rabs (r * s) <= 2 ^ 1010 -> rel (Bmult mode_NE x y) (r * s) (j + k + 2).
Proof.
  intros (FX & EX) (FY & EY) JK (LO & HI).
  assert (NX : near x r (Rabs r) j) by (split; [exact FX|split; [lra|exact EX]]).
  assert (NY : near y s (Rabs s) k) by (split; [exact FY|split; [lra|exact EY]]).
  destruct (product_near _ _ _ _ _ _ _ _ NX NY) as (_ & PE). rewrite <- Rabs_mult in PE.
  assert (G : growth (j + k) <= 1 / 2) by (pose proof (p100 (j + k) ltac:(lia)); unfold growth; lra).
  pose proof (growth_pos (j + k)) as GP. pose proof (Rabs_pos (r * s)) as RP. pose proof u_pos as UP. pose proof u_small as US.
  assert (PB : Rabs (B x * B y) <= (1 + growth (j + k)) * Rabs (r * s)).
  { replace (B x * B y) with ((B x * B y - r * s) + r * s) by ring. eapply Rle_trans; [apply Rabs_triang|]. lra. }
  pose proof (Bmult_correct 53 1024 _ _ mode_NE x y) as T. cbv beta zeta in T.
  match type of T with if ?b then _ else _ => assert (L : b = true) end.
  { apply Rlt_bool_true.
    pose proof (round_error (B x * B y)) as RE. change (B2R x) with (B x). change (B2R y) with (B y).
    change (round_mode mode_NE) with ZnearestE. set (rn := round radix2 (SpecFloat.fexp 53 1024) ZnearestE (B x * B y)) in *.
    apply Rle_lt_trans with (2 * Rabs (B x * B y) + tiny).
    - replace rn with ((rn - B x * B y) + B x * B y) by ring.
      eapply Rle_trans; [apply Rabs_triang|]. pose proof (Rabs_pos (B x * B y)). pose proof tiny_pos.
      assert (u * (Rabs (B x * B y) + tiny) <= 1 * (Rabs (B x * B y) + tiny)) by (apply Rmult_le_compat_r; lra). lra.
    - assert (Q : bpow radix2 1024 = 2 ^ 14 * 2 ^ 1010).
      { rewrite <- pow_add. rewrite bpow_powerRZ. change (powerRZ (IZR radix2) 1024) with (2 ^ 1024). reflexivity. }
      rewrite Q. assert (0 < 2 ^ 1010) by (apply pow_lt; lra).
      assert (Rabs (B x * B y) <= 3 / 2 * 2 ^ 1010) by nra.
      replace (2 ^ 14) with 16384 by ring. lra. }
  rewrite L in T. destruct T as (T1 & T2 & _).
  assert (FF : finite (Bmult mode_NE x y)).
  { unfold finite in *. cbn [is_finite_SF] in T2. rewrite T2, FX, FY. reflexivity. }
  destruct (mult_error x y FF) as (_ & _ & ME).
  split; [exact FF|].
  replace (B (Bmult mode_NE x y) - r * s) with ((B (Bmult mode_NE x y) - B x * B y) + (B x * B y - r * s)) by ring.
  eapply Rle_trans; [apply Rabs_triang|].
  replace (growth (j + k + 2)) with ((1 + growth (j + k)) * (1 + u) ^ 2 - 1) by (unfold growth; rewrite (p_add (j + k) 2); ring).
  assert (u * (Rabs (B x * B y) + tiny) <= u * ((1 + growth (j + k)) * Rabs (r * s) + (1 + growth (j + k)) * Rabs (r * s))).
  { apply Rmult_le_compat_l; [lra|]. nra. }
  assert (((1 + growth (j + k)) * (1 + u) ^ 2 - 1) * Rabs (r * s) =
    growth (j + k) * Rabs (r * s) + u * ((1 + growth (j + k)) * Rabs (r * s) + (1 + growth (j + k)) * Rabs (r * s)) + u * u * ((1 + growth (j + k)) * Rabs (r * s))) by ring.
  assert (0 <= u * u * ((1 + growth (j + k)) * Rabs (r * s))) by (repeat apply Rmult_le_pos; lra). lra.
Qed.

(** Cell sizes whose fourth power is far from underflow and overflow. *)
Lemma pow_between h a : / 2 ^ 250 <= h <= 2 ^ 250 -> (a <= 4)%nat -> tiny <= h ^ a <= 2 ^ 1010.
Proof.
  intros (LO & HI) A. assert (P : 0 < / 2 ^ 250) by (apply Rinv_0_lt_compat, pow_lt; lra). split.
  - apply Rle_trans with ((/ 2 ^ 250) ^ a); [|apply pow_incr; lra]. unfold tiny.
    rewrite pow_inv, <- pow_mult. apply Rinv_le_contravar; [apply pow_lt; lra|]. apply Rle_pow; [lra|nia].
  - apply Rle_trans with ((2 ^ 250) ^ a); [apply pow_incr; lra|]. rewrite <- pow_mult. apply Rle_pow; [lra|nia].
Qed.

Section Powers.
  Context (h : double) (F : finite h) (H : / 2 ^ 250 <= B h <= 2 ^ 250).
  Local Notation m := (Bmult (prec_gt_0_ := prec_positive) (prec_lt_emax_ := prec_below_emax) mode_NE).
  Lemma h_pos : 0 < B h.
  Proof. assert (0 < / 2 ^ 250) by (apply Rinv_0_lt_compat, pow_lt; lra). lra. Qed.
  Lemma rel_1 : rel h (B h) 0.
  Proof. split; [exact F|]. rewrite Rminus_diag_eq, Rabs_R0 by reflexivity. unfold growth. cbn [pow]. lra. Qed.
  Lemma rel_pow x a y b j k : rel x (B h ^ a) j -> rel y (B h ^ b) k -> (a + b <= 4)%nat -> (j + k <= 50)%nat -> rel (m x y) (B h ^ (a + b)) (j + k + 2).
  Proof.
    intros X Y AB JK. rewrite pow_add. apply rel_mult; auto. rewrite <- pow_add.
    rewrite Rabs_pos_eq by (apply pow_le; pose proof h_pos; lra). apply pow_between; auto.
  Qed.
  Lemma rel_h1 : rel h (B h ^ 1) 0.
  Proof. rewrite pow_1. apply rel_1. Qed.
  Lemma rel_h2 : rel (m h h) (B h ^ 2) 2.
  Proof. apply (rel_pow h 1 h 1 0 0); try apply rel_h1; lia. Qed.
  Lemma rel_h4 : rel (m (m (m h h) h) h) (B h ^ 4) 6.
  Proof. apply (rel_pow _ 3 h 1 4 0); try apply rel_h1; try lia. apply (rel_pow _ 2 h 1 2 0); try apply rel_h1; try lia. apply rel_h2. Qed.
  Lemma rel_h4' : rel (m (m h h) (m h h)) (B h ^ 4) 6.
  Proof. apply (rel_pow _ 2 _ 2 2 2); try apply rel_h2; lia. Qed.
End Powers.
