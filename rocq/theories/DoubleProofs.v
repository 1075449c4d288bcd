(** Printing and reading doubles: proofs. *)
From Coq Require Import ZArith List String Ascii Bool SpecFloat Reals Lra Lia.
From Flocq Require Import Core IEEE754.BinarySingleNaN.
From Verif Require Import Outcome Num ModelText TextProofs ModelDouble.
Local Open Scope string_scope.
Local Open Scope Z_scope.

Definition radix10 : radix := Build_radix 10 (refl_equal _).
Local Notation p10 := (bpow radix10).

Lemma p10_Z k : 0 <= k -> p10 k = IZR (10 ^ k).
Proof. intros H. symmetry. apply (IZR_Zpower radix10); auto. Qed.
Lemma p10_pos k : (0 < p10 k)%R.
Proof. apply bpow_gt_0. Qed.
Lemma p10_succ k : p10 (k + 1) = (10 * p10 k)%R.
Proof. rewrite bpow_plus. change (p10 1) with (IZR 10). lra. Qed.
Lemma p10_opp k : p10 (- k) = (/ p10 k)%R.
Proof. apply bpow_opp. Qed.

(** ** The number of digits *)
Lemma dec_length n : 1 <= n -> 10 ^ (Z.of_nat (String.length (dec n)) - 1) <= n < 10 ^ Z.of_nat (String.length (dec n)).
Proof.
  intros H. destruct (dec_spec n ltac:(lia)) as (NE & V & L). split; [auto|].
  pose proof (V 0) as V0. apply digits_value_bounds in V0. lia.
Qed.
Lemma dec_nonempty n : 0 <= n -> 1 <= Z.of_nat (String.length (dec n)).
Proof. intros H. destruct (dec_spec n H) as (NE & _). destruct (dec n); [congruence|cbn [String.length]; lia]. Qed.
Lemma dec_length_is n p : 1 <= p -> 10 ^ (p - 1) <= n < 10 ^ p -> Z.of_nat (String.length (dec n)) = p.
Proof.
  intros Hp (A & B). assert (1 <= n) by (pose proof (Z.pow_pos_nonneg 10 (p - 1)); lia).
  destruct (dec_length n H) as (C & D). pose proof (dec_nonempty n ltac:(lia)) as E.
  set (l := Z.of_nat (String.length (dec n))) in *.
  assert (l - 1 < p) by (apply (Z.pow_lt_mono_r_iff 10); lia).
  assert (p - 1 < l) by (apply (Z.pow_lt_mono_r_iff 10); lia). lia.
Qed.

(** ** The decimal exponent *)
Lemma expo10_spec a b : 0 < a -> 0 < b -> (p10 (expo10 a b) <= IZR a / IZR b < p10 (expo10 a b + 1))%R.
Proof.
  intros Ha Hb. pose proof (IZR_lt 0 a Ha) as Ra. pose proof (IZR_lt 0 b Hb) as Rb. unfold expo10.
  destruct (Z.leb_spec b a) as [L|L].
  - assert (Q : 1 <= a / b) by (apply Z.div_le_lower_bound; lia).
    destruct (dec_length (a / b) Q) as (A & B). pose proof (dec_nonempty (a / b) ltac:(lia)) as E.
    set (l := Z.of_nat (String.length (dec (a / b)))) in *.
    replace (l - 1 + 1) with l by lia. rewrite !p10_Z by lia.
    pose proof (Z.mul_div_le a b Hb) as LO. pose proof (Z.mul_succ_div_gt a b Hb) as HI.
    split.
    + apply Rmult_le_reg_r with (IZR b); auto. unfold Rdiv. rewrite Rmult_assoc, Rinv_l, Rmult_1_r by lra.
      rewrite <- mult_IZR. apply IZR_le. nia.
    + apply Rmult_lt_reg_r with (IZR b); auto. unfold Rdiv. rewrite Rmult_assoc, Rinv_l, Rmult_1_r by lra.
      rewrite <- mult_IZR. apply IZR_lt. nia.
  - assert (Q : 1 <= (b - 1) / a) by (apply Z.div_le_lower_bound; lia).
    destruct (dec_length ((b - 1) / a) Q) as (A & B). pose proof (dec_nonempty ((b - 1) / a) ltac:(lia)) as E.
    set (l := Z.of_nat (String.length (dec ((b - 1) / a)))) in *.
    pose proof (Z.mul_div_le (b - 1) a Ha) as LO. pose proof (Z.mul_succ_div_gt (b - 1) a Ha) as HI.
    replace (- l + 1) with (- (l - 1)) by lia. rewrite !p10_opp, !p10_Z by lia.
    assert (P1 : (0 < IZR (10 ^ l))%R) by (rewrite <- p10_Z by lia; apply p10_pos).
    assert (P2 : (0 < IZR (10 ^ (l - 1)))%R) by (rewrite <- p10_Z by lia; apply p10_pos).
    split.
    + apply Rmult_le_reg_r with (IZR b); auto. unfold Rdiv. rewrite Rmult_assoc, Rinv_l, Rmult_1_r by lra.
      apply Rmult_le_reg_l with (IZR (10 ^ l)); auto. rewrite <- Rmult_assoc, Rinv_r, Rmult_1_l by lra.
      rewrite <- mult_IZR. apply IZR_le. nia.
    + apply Rmult_lt_reg_r with (IZR b); auto. unfold Rdiv. rewrite Rmult_assoc, Rinv_l, Rmult_1_r by lra.
      apply Rmult_lt_reg_l with (IZR (10 ^ (l - 1))); auto. rewrite <- Rmult_assoc, Rinv_r, Rmult_1_l by lra.
      rewrite <- mult_IZR. apply IZR_lt. nia.
Qed.

(** ** The nearest integer *)
Lemma nearest_spec a b : 0 < b -> (Rabs (IZR (nearest a b) - IZR a / IZR b) <= 1 / 2)%R.
Proof.
  intros Hb. pose proof (IZR_lt 0 b Hb) as Rb. unfold nearest.
  pose proof (Z.div_mod a b ltac:(lia)) as D. pose proof (Z.mod_pos_bound a b Hb) as M.
  set (q := a / b) in *. set (r := a mod b) in *. clearbody q r. subst a.
  assert (E : (IZR (b * q + r) / IZR b = IZR q + IZR r / IZR b)%R) by (rewrite plus_IZR, mult_IZR; field; lra).
  rewrite E.
  assert (R0 : (0 <= IZR r / IZR b)%R).
  { apply Rmult_le_pos; [apply IZR_le; lia|apply Rlt_le, Rinv_0_lt_compat; auto]. }
  assert (LO : 2 * r <= b -> (IZR r / IZR b <= 1 / 2)%R).
  { intros H. apply Rmult_le_reg_r with (IZR b); auto. unfold Rdiv at 1. rewrite Rmult_assoc, Rinv_l by lra.
    apply IZR_le in H. rewrite mult_IZR in H. lra. }
  assert (HI : b <= 2 * r -> (1 / 2 <= IZR r / IZR b)%R).
  { intros H. apply Rmult_le_reg_r with (IZR b); auto. unfold Rdiv at 2. rewrite Rmult_assoc, Rinv_l by lra.
    apply IZR_le in H. rewrite mult_IZR in H. lra. }
  assert (UP : (IZR r / IZR b <= 1)%R).
  { apply Rmult_le_reg_r with (IZR b); auto. unfold Rdiv. rewrite Rmult_assoc, Rinv_l by lra.
    assert (H : r <= b) by lia. apply IZR_le in H. lra. }
  destruct (Z.compare_spec (2 * r) b) as [H|H|H].
  - destruct (Z.even q); [|rewrite plus_IZR]; specialize (LO ltac:(lia)); specialize (HI ltac:(lia)); apply Rabs_le; lra.
  - specialize (LO ltac:(lia)). apply Rabs_le. lra.
  - rewrite plus_IZR. specialize (HI ltac:(lia)). apply Rabs_le. lra.
Qed.
Lemma integer_unique (m n : Z) (x : R) : (Rabs (IZR m - x) <= 1 / 2)%R -> (Rabs (IZR n - x) < 1 / 2)%R -> m = n.
Proof.
  intros A B. apply Rabs_le_inv in A. apply Rabs_lt_inv in B.
  assert (m < n + 1) by (apply lt_IZR; rewrite plus_IZR; lra).
  assert (n < m + 1) by (apply lt_IZR; rewrite plus_IZR; lra). lia.
Qed.

(** ** The digits *)
(* n / 10^(p-1) 10^k is a/b rounded to p digits: within half a unit of the last digit of a/b *)
Lemma decimal_spec p a b n k : 2 <= p -> 0 < a -> 0 < b -> decimal p a b = (n, k) ->
  10 ^ (p - 1) <= n < 10 ^ p /\
  (p10 (expo10 a b) <= IZR a / IZR b < p10 (expo10 a b + 1))%R /\
  (Rabs (IZR n * p10 (k - (p - 1)) - IZR a / IZR b) <= p10 (expo10 a b - (p - 1)) / 2)%R.
Proof.
  intros Hp Ha Hb. pose proof (expo10_spec a b Ha Hb) as X. unfold decimal.
  set (k0 := expo10 a b) in *. set (e := k0 - (p - 1)). set (x := (IZR a / IZR b)%R) in *.
  set (n0 := if 0 <=? e then nearest a (b * 10 ^ e) else nearest (a * 10 ^ (- e)) b).
  assert (N0 : (Rabs (IZR n0 - x / p10 e) <= 1 / 2)%R).
  { subst n0. destruct (Z.leb_spec 0 e) as [E|E].
    - pose proof (Z.pow_pos_nonneg 10 e ltac:(lia) E) as P.
      pose proof (nearest_spec a (b * 10 ^ e) ltac:(nia)) as H. rewrite mult_IZR in H.
      rewrite p10_Z by lia. unfold x.
      replace (IZR a / IZR b / IZR (10 ^ e))%R with (IZR a / (IZR b * IZR (10 ^ e)))%R; auto.
      field. split; apply not_0_IZR; lia.
    - pose proof (nearest_spec (a * 10 ^ (- e)) b Hb) as H. rewrite mult_IZR in H.
      replace (p10 e) with (/ IZR (10 ^ (- e)))%R by (rewrite <- p10_Z by lia; rewrite p10_opp, Rinv_inv; auto).
      unfold x. replace (IZR a / IZR b / / IZR (10 ^ (- e)))%R with (IZR a * IZR (10 ^ (- e)) / IZR b)%R; auto.
      pose proof (Z.pow_pos_nonneg 10 (- e) ltac:(lia) ltac:(lia)). field. split; apply not_0_IZR; lia. }
  pose proof (p10_pos e) as PE.
  assert (XE : (IZR (10 ^ (p - 1)) <= x / p10 e < IZR (10 ^ p))%R).
  { destruct X as (X1 & X2). rewrite <- !p10_Z by lia. split.
    - apply Rmult_le_reg_r with (p10 e); auto. unfold Rdiv. rewrite Rmult_assoc, Rinv_l, Rmult_1_r by lra.
      rewrite <- bpow_plus. replace (p - 1 + e) with k0 by lia. auto.
    - apply Rmult_lt_reg_r with (p10 e); auto. unfold Rdiv. rewrite Rmult_assoc, Rinv_l, Rmult_1_r by lra.
      rewrite <- bpow_plus. replace (p + e) with (k0 + 1) by lia. auto. }
  assert (B : 10 ^ (p - 1) <= n0 <= 10 ^ p).
  { apply Rabs_le_inv in N0. split.
    - assert (10 ^ (p - 1) < n0 + 1) by (apply lt_IZR; rewrite plus_IZR; lra). lia.
    - assert (n0 < 10 ^ p + 1) by (apply lt_IZR; rewrite plus_IZR; lra). lia. }
  assert (ERR : (Rabs (IZR n0 * p10 e - x) <= p10 e / 2)%R).
  { replace (IZR n0 * p10 e - x)%R with ((IZR n0 - x / p10 e) * p10 e)%R by (field; lra).
    rewrite Rabs_mult, (Rabs_pos_eq (p10 e)) by lra. nra. }
  assert (TEN : 10 ^ p = 10 * 10 ^ (p - 1)).
  { rewrite <- Z.pow_succ_r by lia. f_equal. lia. }
  assert (P1 : 0 < 10 ^ (p - 1)) by (apply Z.pow_pos_nonneg; lia).
  destruct (Z.eqb_spec n0 (10 ^ p)) as [C|C]; intros [= <- <-].
  - split; [lia|]. split; [exact X|].
    replace (IZR (10 ^ (p - 1)) * p10 (k0 + 1 - (p - 1)))%R with (IZR n0 * p10 e)%R; auto.
    rewrite C, TEN, mult_IZR. replace (k0 + 1 - (p - 1)) with (e + 1) by lia. rewrite p10_succ. ring.
  - split; [lia|]. split; [exact X|exact ERR].
Qed.

(* a number close enough to n 10^(k-(p-1)) prints as n, k *)
Lemma decimal_unique p a b n k : 2 <= p -> 0 < a -> 0 < b -> 10 ^ (p - 1) <= n < 10 ^ p ->
  (Rabs (IZR n * p10 (k - (p - 1)) - IZR a / IZR b) < p10 (k - 1 - (p - 1)) / 2)%R ->
  decimal p a b = (n, k).
Proof.
  intros Hp Ha Hb Hn C. destruct (decimal p a b) as (m, l) eqn:E.
  destruct (decimal_spec p a b m l Hp Ha Hb E) as (Hm & X & D).
  set (x := (IZR a / IZR b)%R) in *. set (k0 := expo10 a b) in *.
  assert (TEN : 10 ^ p = 10 * 10 ^ (p - 1)) by (rewrite <- Z.pow_succ_r by lia; f_equal; lia).
  assert (P1 : 0 < 10 ^ (p - 1)) by (apply Z.pow_pos_nonneg; lia).
  pose proof (p10_pos (k - 1 - (p - 1))) as PU. set (u := p10 (k - 1 - (p - 1))) in *.
  assert (U1 : p10 (k - (p - 1)) = (10 * u)%R).
  { unfold u. rewrite <- p10_succ. f_equal. lia. }
  rewrite U1 in C. apply Rabs_lt_inv in C.
  assert (NR : (IZR (10 ^ (p - 1)) <= IZR n <= IZR (10 * 10 ^ (p - 1)) - 1)%R).
  { rewrite <- (minus_IZR _ 1). split; apply IZR_le; lia. }
  rewrite mult_IZR in NR. set (t := IZR (10 ^ (p - 1))) in *.
  assert (T1 : (10 <= t)%R).
  { unfold t. apply IZR_le. replace (p - 1) with (Z.succ (p - 2)) by lia. rewrite Z.pow_succ_r by lia.
    pose proof (Z.pow_pos_nonneg 10 (p - 2)). lia. }
  assert (PT : p10 (p - 1) = t) by (apply p10_Z; lia).
  (* k - 1 <= k0 <= k *)
  assert (K1 : k0 <= k).
  { destruct (Z.le_gt_cases k0 k) as [|G]; auto. exfalso.
    assert (p10 (k + 1) <= p10 k0)%R by (apply bpow_le; lia).
    assert (W : p10 (k + 1) = (100 * u * t)%R).
    { replace (k + 1) with (k - 1 - (p - 1) + 1 + (p - 1) + 1) by lia. rewrite p10_succ, bpow_plus, p10_succ, PT. fold u. lra. }
    rewrite W in H. destruct X. nra. }
  assert (K2 : k - 1 <= k0).
  { destruct (Z.le_gt_cases (k - 1) k0) as [|G]; auto. exfalso.
    assert (p10 (k0 + 1) <= p10 (k - 1))%R by (apply bpow_le; lia).
    assert (W : p10 (k - 1) = (u * t)%R) by (unfold u; rewrite <- PT, <- bpow_plus; f_equal; lia).
    rewrite W in H. destruct X. nra. }
  unfold decimal in E. fold k0 in E.
  assert (CASE : k0 = k \/ k0 = k - 1) by lia. clear K1 K2. 
  set (n0 := if 0 <=? k0 - (p - 1) then nearest a (b * 10 ^ (k0 - (p - 1))) else nearest (a * 10 ^ (- (k0 - (p - 1)))) b) in E.
  destruct (Z.eqb_spec n0 (10 ^ p)) as [Z0|Z0]; injection E as <- <-.
  - (* the digits carried *)
    destruct CASE as [-> | ->].
    + exfalso. replace (k + 1 - (p - 1)) with (k - 1 - (p - 1) + 1 + 1) in D by lia. rewrite !p10_succ in D. fold u in D.
      rewrite U1 in D. apply Rabs_le_inv in D. fold t in D.
      assert (IZR n * 10 <= (10 * t - 1) * 10)%R by lra. nra.
    + replace (k - 1 + 1) with k in * by lia. f_equal.
      fold u in D. rewrite U1 in D. 
      assert (G : (Rabs (IZR (10 ^ (p - 1)) - x / (10 * u)) <= 1 / 2)%R).
      { apply Rabs_le_inv in D. apply Rabs_le. fold t in D |- *. 
        assert (HH : (x = x / (10 * u) * (10 * u))%R) by (field; lra). rewrite HH in D. split; nra. }
      apply (integer_unique _ _ (x / (10 * u)) G).
      assert (HH : (x = x / (10 * u) * (10 * u))%R) by (field; lra). rewrite HH in C. apply Rabs_lt. split; nra.
  - destruct CASE as [-> | ->].
    + f_equal. rewrite U1 in D.
      assert (G : (Rabs (IZR n0 - x / (10 * u)) <= 1 / 2)%R).
      { apply Rabs_le_inv in D. apply Rabs_le.
        assert (HH : (x = x / (10 * u) * (10 * u))%R) by (field; lra). rewrite HH in D. split; nra. }
      apply (integer_unique _ _ (x / (10 * u)) G).
      assert (HH : (x = x / (10 * u) * (10 * u))%R) by (field; lra). rewrite HH in C. apply Rabs_lt. split; nra.
    + (* x is just below 10^k: its digits would be 10^p *)
      exfalso. fold u in D. replace (k - 1 + 1) with k in * by lia.
      assert (XK : (x < p10 k)%R) by (destruct X; auto).
      assert (W : p10 k = (10 * u * t)%R).
      { unfold u. rewrite <- PT, Rmult_assoc, <- bpow_plus, <- p10_succ. f_equal. lia. }
      rewrite W in XK.
      assert (NT : n = 10 ^ (p - 1)).
      { assert (n < 10 ^ (p - 1) + 1); [|lia]. apply lt_IZR. rewrite plus_IZR. fold t. nra. }
      rewrite NT in C. fold t in C.
      assert (N0 : n0 = 10 ^ p); [|congruence].
      assert (G : (Rabs (IZR n0 - x / u) <= 1 / 2)%R).
      { apply Rabs_le_inv in D. apply Rabs_le. assert (HH : (x = x / u * u)%R) by (field; lra). rewrite HH in D. split; nra. }
      apply (integer_unique _ _ (x / u) G). rewrite TEN, mult_IZR. fold t.
      assert (HH : (x = x / u * u)%R) by (field; lra). rewrite HH in C. apply Rabs_lt. split; nra.
Qed.
