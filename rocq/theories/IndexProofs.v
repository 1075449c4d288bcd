(** Addressing is a bijection between padded cells and storage slots. *)
From Verif Require Import Outcome ZList ZListProofs ModelIndex.
From Coq Require Import ZifyBool ZifyNat.

(** Row-major pairing on [0,a) x [0,b). *)
Lemma pair_range a b x y : 0 <= x < a -> 0 <= y < b -> 0 <= x * b + y < a * b.
Proof. intros. split; nia. Qed.

Lemma pair_div b x y : 0 <= y < b -> (x * b + y) / b = x.
Proof. intros. rewrite Z.add_comm, Z.div_add by lia. rewrite Z.div_small by lia. lia. Qed.

Lemma pair_mod b x y : 0 <= y < b -> (x * b + y) mod b = y.
Proof. intros. rewrite Z.add_comm, Z.mod_add by lia. apply Z.mod_small; lia. Qed.

Lemma get1Dindex_eq i j nh njh : get1Dindex i j nh njh = (i + nh) * njh + (j + nh).
Proof. unfold get1Dindex. lia. Qed.

Lemma get1Dindex_range ni nj nh i j :
  - nh <= i < ni + nh -> - nh <= j < nj + nh ->
  0 <= get1Dindex i j nh (nj + 2 * nh) < storage2D ni nj nh.
Proof.
  intros Hi Hj. rewrite get1Dindex_eq. unfold storage2D. apply pair_range; lia.
Qed.

Lemma getIJ_get1Dindex nj nh i j :
  - nh <= i -> - nh <= j < nj + nh ->
  getIJ (get1Dindex i j nh (nj + 2 * nh)) nh (nj + 2 * nh) = (i, j).
Proof.
  intros Hi Hj. rewrite get1Dindex_eq. unfold getIJ.
  assert (0 <= (i + nh) * (nj + 2 * nh)) by nia.
  rewrite Z.quot_div_nonneg, Z.rem_mod_nonneg by lia.
  rewrite pair_div, pair_mod by lia. f_equal; lia.
Qed.

Lemma getIJ_surj ni nj nh q :
  0 <= nh -> 0 <= nj -> 0 <= q < storage2D ni nj nh ->
  let '(i, j) := getIJ q nh (nj + 2 * nh) in
  - nh <= i < ni + nh /\ - nh <= j < nj + nh /\ get1Dindex i j nh (nj + 2 * nh) = q.
Proof.
  unfold storage2D, getIJ; intros Hh Hj Hq.
  assert (0 < nj + 2 * nh).
  { destruct (Z.eq_dec (nj + 2 * nh) 0) as [E|]; [rewrite E in *|]; lia. }
  rewrite Z.quot_div_nonneg, Z.rem_mod_nonneg by lia.
  rewrite get1Dindex_eq.
  pose proof (Z.div_mod q (nj + 2 * nh)). pose proof (Z.mod_pos_bound q (nj + 2 * nh)).
  assert (0 <= q / (nj + 2 * nh)) by (apply Z.div_pos; lia).
  assert (q / (nj + 2 * nh) < ni + 2 * nh) by (apply Z.div_lt_upper_bound; lia).
  repeat split; lia.
Qed.

Lemma get3_eq i j k nh njh nkh :
  get1DindexFrom3D i j k nh njh nkh = ((i + nh) * njh + (j + nh)) * nkh + (k + nh).
Proof. unfold get1DindexFrom3D. ring. Qed.

Lemma get3_range ni nj nk nh i j k :
  - nh <= i < ni + nh -> - nh <= j < nj + nh -> - nh <= k < nk + nh ->
  0 <= get1DindexFrom3D i j k nh (nj + 2 * nh) (nk + 2 * nh) < storage3D ni nj nk nh.
Proof.
  intros Hi Hj Hk. rewrite get3_eq. unfold storage3D.
  apply pair_range; [apply pair_range|]; lia.
Qed.

Lemma getIJK_get3 nj nk nh i j k :
  - nh <= i -> - nh <= j < nj + nh -> - nh <= k < nk + nh ->
  getIJK (get1DindexFrom3D i j k nh (nj + 2 * nh) (nk + 2 * nh)) nh (nj + 2 * nh) (nk + 2 * nh)
  = (i, j, k).
Proof.
  intros Hi Hj Hk. rewrite get3_eq. unfold getIJK.
  set (P := nj + 2 * nh). set (Q := nk + 2 * nh).
  assert (HP : 0 <= j + nh < P) by (unfold P; lia).
  assert (HQ : 0 <= k + nh < Q) by (unfold Q; lia).
  assert (H0 : 0 <= i + nh) by lia.
  set (x := i + nh) in *. set (y := j + nh) in *. set (z := k + nh) in *.
  assert (H1 : 0 <= x * P + y) by (apply Z.add_nonneg_nonneg; [apply Z.mul_nonneg_nonneg|]; lia).
  set (w := x * P + y) in *.
  assert (H2 : 0 <= w * Q + z) by (apply Z.add_nonneg_nonneg; [apply Z.mul_nonneg_nonneg|]; lia).
  assert (H3 : 0 < P * Q) by (apply Z.mul_pos_pos; lia).
  assert (E1 : (w * Q + z) / Q = w) by (apply pair_div; lia).
  rewrite (Z.quot_div_nonneg _ (P * Q)), (Z.quot_div_nonneg _ Q), E1 by lia.
  rewrite !Z.rem_mod_nonneg by lia.
  rewrite (Z.mul_comm P Q), <- Z.div_div, E1 by lia.
  unfold w. rewrite pair_div, pair_mod by lia. rewrite pair_mod by lia.
  f_equal; [f_equal|]; unfold x, y, z; lia.
Qed.

Lemma getIJK_surj ni nj nk nh q :
  0 <= nh -> 0 <= ni -> 0 <= nj -> 0 <= nk -> 0 <= q < storage3D ni nj nk nh ->
  let '(i, j, k) := getIJK q nh (nj + 2 * nh) (nk + 2 * nh) in
  - nh <= i < ni + nh /\ - nh <= j < nj + nh /\ - nh <= k < nk + nh /\
  get1DindexFrom3D i j k nh (nj + 2 * nh) (nk + 2 * nh) = q.
Proof.
  unfold storage3D, getIJK; intros Hh Hi Hj Hk Hq.
  set (P := nj + 2 * nh) in *. set (Q := nk + 2 * nh) in *.
  assert (0 <= P) by (unfold P; lia). assert (0 <= Q) by (unfold Q; lia).
  assert (0 < P). { destruct (Z.eq_dec P 0) as [E|]; [rewrite E in *|]; lia. }
  assert (0 < Q). { destruct (Z.eq_dec Q 0) as [E|]; [rewrite E in *|]; lia. }
  assert (0 <= q / Q) by (apply Z.div_pos; lia).
  assert (0 < P * Q) by (apply Z.mul_pos_pos; lia).
  rewrite (Z.quot_div_nonneg _ (P * Q)), (Z.quot_div_nonneg _ Q) by lia.
  rewrite !Z.rem_mod_nonneg by lia.
  rewrite (Z.mul_comm P Q), <- Z.div_div by lia.
  rewrite get3_eq.
  pose proof (Z.div_mod q Q). pose proof (Z.mod_pos_bound q Q).
  pose proof (Z.div_mod (q / Q) P). pose proof (Z.mod_pos_bound (q / Q) P).
  assert (0 <= q / Q / P) by (apply Z.div_pos; lia).
  assert (q / Q < (ni + 2 * nh) * P) by (apply Z.div_lt_upper_bound; lia).
  assert (q / Q / P < ni + 2 * nh) by (apply Z.div_lt_upper_bound; lia).
  fold P Q.
  assert (E : (q / Q / P - nh + nh) * P + ((q / Q) mod P - nh + nh) = q / Q) by lia.
  rewrite E. unfold P, Q in *. repeat split; lia.
Qed.
