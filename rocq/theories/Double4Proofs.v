(** Seven digits, words, and what is lost. *)
From Coq Require Import ZArith List String Ascii Bool SpecFloat Reals Lra Lia.
From Flocq Require Import Core Relative IEEE754.BinarySingleNaN.
From Verif Require Import Outcome Num ModelText TextProofs SpecVTK ModelDouble SpecDouble DoubleProofs Double2Proofs Double3Proofs.
Import ListNotations.
Local Open Scope string_scope.
Local Open Scope Z_scope.
Local Notation p10 := (bpow radix10).
Local Notation fx := (SpecFloat.fexp 53 1024).
Local Notation rnd := (round radix2 fx ZnearestE).

Local Existing Instance fx_valid.
Local Existing Instance prec53.

(** ** The error of rounding *)
Lemma rnd_error v : (bpow radix2 (-1022) <= Rabs v)%R -> (Rabs (rnd v - v) <= bpow radix2 (-53) * Rabs v)%R.
Proof.
  intros H. pose proof (relative_error_N_FLT radix2 (-1074) 53 ltac:(reflexivity) (fun x => negb (Z.even x)) v) as E.
  change (-1074 + 53 - 1) with (-1022) in E. specialize (E H).
  replace (bpow radix2 (-53)) with (/ 2 * bpow radix2 (- (53) + 1))%R; [exact E|].
  change (- (53) + 1) with (-53 + 1). rewrite bpow_plus. change (bpow radix2 1) with 2%R. field.
Qed.
Lemma rnd_far v : (bpow radix2 (-1022) <= Rabs v)%R -> (bpow radix2 (-1022) <= Rabs (rnd v))%R.
Proof.
  intros H. apply abs_round_ge_generic; auto with typeclass_instances.
  apply generic_format_bpow. unfold SpecFloat.fexp, SpecFloat.emin. cbn. lia.
Qed.

(** ** Scaling to p digits *)
Lemma scale_digits p n e : 1 <= p -> 0 < n < 10 ^ p -> exists n' k, 10 ^ (p - 1) <= n' < 10 ^ p /\
  (IZR n * p10 e = IZR n' * p10 (k - (p - 1)))%R.
Proof.
  intros Hp Hn. destruct (dec_length n ltac:(lia)) as (A & B). pose proof (dec_nonempty n ltac:(lia)) as E.
  set (l := Z.of_nat (String.length (dec n))) in *.
  assert (l - 1 < p) by (apply (Z.pow_lt_mono_r_iff 10); lia).
  exists (n * 10 ^ (p - l)), (e + l - 1). split.
  - pose proof (Z.pow_pos_nonneg 10 (p - l) ltac:(lia) ltac:(lia)) as P. split.
    + replace (10 ^ (p - 1)) with (10 ^ (l - 1) * 10 ^ (p - l)) by (rewrite <- Z.pow_add_r by lia; f_equal; lia). nia.
    + replace (10 ^ p) with (10 ^ l * 10 ^ (p - l)) by (rewrite <- Z.pow_add_r by lia; f_equal; lia). nia.
  - rewrite mult_IZR, <- p10_Z by lia. rewrite Rmult_assoc, <- bpow_plus. do 2 f_equal. lia.
Qed.

Lemma p10_7 : (2 * (100000000 * bpow radix2 (-53)) < 1)%R.
Proof.
  change (-53) with (- (53)). rewrite bpow_opp. rewrite <- (IZR_Zpower radix2) by lia.
  apply Rmult_lt_reg_r with (IZR (radix2 ^ 53)); [apply IZR_lt; reflexivity|].
  rewrite <- !Rmult_assoc, Rmult_assoc, Rinv_l by (apply not_0_IZR; discriminate).
  rewrite Rmult_1_r, Rmult_1_l, <- mult_IZR. apply IZR_lt. reflexivity.
Qed.

Lemma seven_pos (x : double) (s : bool) n e : 0 < n < 10 ^ 7 -> (bpow radix2 (-1022) <= IZR n * p10 e)%R ->
  is_finite x = true -> B2R x = rnd ((if s then -1 else 1) * (IZR n * p10 e))%R -> Bsign x = s ->
  read_number (scientific 7 (B2SF x)) = Ok (B2SF x).
Proof.
  intros Hn N Fx Vx Sx. destruct (scale_digits 7 n e ltac:(lia) Hn) as (n' & k & Hn' & EV). rewrite EV in *.
  set (v := (IZR n' * p10 (k - (7 - 1)))%R) in *.
  assert (PV : (0 < v)%R) by (pose proof (bpow_gt_0 radix2 (-1022)); lra).
  assert (SV : rnd ((if s then -1 else 1) * v) = ((if s then -1 else 1) * rnd v)%R).
  { destruct s; [|rewrite !Rmult_1_l; auto]. replace (-1 * v)%R with (- v)%R by ring. rewrite round_NE_opp. ring. }
  pose proof (rnd_error v ltac:(rewrite Rabs_pos_eq; lra)) as ER. rewrite (Rabs_pos_eq v) in ER by lra.
  assert (PR : (0 < rnd v)%R).
  { pose proof (rnd_far v ltac:(rewrite Rabs_pos_eq; lra)) as F. pose proof (bpow_gt_0 radix2 (-1022)).
    assert (0 <= rnd v)%R by (apply round_ge_generic; auto with typeclass_instances; [apply generic_format_0|lra]).
    rewrite Rabs_pos_eq in F by auto. lra. }
  destruct x as [sx|sx| |sx m ex h]; try discriminate Fx.
  { cbn [B2R] in Vx. rewrite SV in Vx. destruct s; lra. }
  cbn [Bsign] in Sx. subst sx.
  assert (VV : F2R (Float radix2 (Zpos m) ex) = rnd v).
  { pose proof (B2R_finite s m ex h) as BF. rewrite Vx, SV in BF. destruct s; lra. }
  cbn [B2SF scientific]. fold (top ex m) (bottom ex). destruct (ratio_value m ex) as ((T & B) & RV).
  assert (D : decimal 7 (top ex m) (bottom ex) = (n', k)).
  { apply decimal_unique; auto; [lia|]. rewrite RV, VV. fold v. rewrite Rabs_minus_sym. apply Rle_lt_trans with (1 := ER).
    assert (U : (v < 100000000 * p10 (k - 1 - (7 - 1)))%R).
    { unfold v. replace (k - (7 - 1)) with (k - 1 - (7 - 1) + 1) by lia. rewrite p10_succ.
      assert (IZR n' < 10000000)%R by (apply IZR_lt; change 10000000 with (10 ^ 7); lia).
      pose proof (p10_pos (k - 1 - (7 - 1))). nra. }
    pose proof p10_7. pose proof (bpow_gt_0 radix2 (-53)). pose proof (p10_pos (k - 1 - (7 - 1))). nra. }
  rewrite D. rewrite (read_text s n' k 7) by (auto; lia).
  pose proof (double_of_decimal_spec s n' (k - (7 - 1)) ltac:(pose proof (Z.pow_pos_nonneg 10 (7 - 1)); lia)) as Z0.
  cbv zeta in Z0. fold v in Z0. rewrite <- Vx in Z0.
  rewrite Rlt_bool_true in Z0 by apply abs_B2R_lt_emax. destruct Z0 as (z & -> & VZ & RZ & FZ & SZ). f_equal.
  apply (finite_unique (B754_finite s m ex h : double) z); auto.
Qed.

Lemma smallest_normal : powerRZ 2 (-1022) = bpow radix2 (-1022).
Proof. symmetry. apply (bpow_powerRZ radix2). Qed.

Lemma seven_digits (x : double) v : of_digits 7 v -> (v = 0 \/ powerRZ 2 (-1022) <= Rabs v)%R ->
  is_finite x = true -> value_of x = rounded v -> read_double (show_time x) = Ok x.
Proof.
  intros (n & e & -> & Hn) N Fx Vx. unfold read_double, show_time. rewrite p10_powerRZ in *. rewrite rounded_rnd in Vx. unfold value_of in Vx.
  assert (G : read_number (scientific 7 (B2SF x)) = Ok (B2SF x)); [|rewrite G; apply as_double_ok].
  assert (S0 : n = 0 -> read_number (scientific 7 (B2SF x)) = Ok (B2SF x)).
  { intros ->. rewrite Rmult_0_l, round_0 in Vx by auto with typeclass_instances.
    destruct x as [s|s| |s m ex h]; try discriminate Fx; [apply read_zeros|].
    exfalso. rewrite B2R_finite in Vx. assert (0 < F2R (Float radix2 (Zpos m) ex))%R by (apply F2R_gt_0; reflexivity). destruct s; lra. }
  destruct (Z.eq_dec n 0) as [Z0|NZ]; [auto|]. clear S0.
  assert (NN : (powerRZ 2 (-1022) <= Rabs (IZR n * p10 e))%R).
  { destruct N as [N|N]; auto. exfalso. apply Rmult_integral in N. destruct N as [N|N]; [apply eq_IZR in N; lia|].
    pose proof (p10_pos e). lra. }
  rewrite smallest_normal in NN. pose proof (p10_pos e) as PE.
  rewrite Rabs_mult, (Rabs_pos_eq (p10 e)), <- abs_IZR in NN by lra.
  assert (SX : Bsign x = (n <? 0)).
  { pose proof (rnd_far (IZR n * p10 e) ltac:(rewrite Rabs_mult, (Rabs_pos_eq (p10 e)), <- abs_IZR by lra; auto)) as F.
    pose proof (bpow_gt_0 radix2 (-1022)) as PB. rewrite <- Vx in F.
    destruct x as [s|s| |s m ex h]; try discriminate Fx; [cbn [B2R] in F; rewrite Rabs_R0 in F; lra|].
    cbn [Bsign]. rewrite B2R_finite in Vx. assert (PF : (0 < F2R (Float radix2 (Zpos m) ex))%R) by (apply F2R_gt_0; reflexivity).
    destruct (Z.ltb_spec n 0) as [L|L].
    - assert (rnd (IZR n * p10 e) <= 0)%R.
      { apply round_le_generic; auto with typeclass_instances; [apply generic_format_0|]. apply IZR_lt in L. nra. }
      destruct s; auto. lra.
    - assert (0 <= rnd (IZR n * p10 e))%R.
      { apply round_ge_generic; auto with typeclass_instances; [apply generic_format_0|]. apply IZR_le in L. nra. }
      destruct s; auto. lra. }
  apply (seven_pos x (n <? 0) (Z.abs n) e); auto; [lia|].
  rewrite Vx. f_equal. destruct (Z.ltb_spec n 0); [rewrite Z.abs_neq, opp_IZR by lia|rewrite Z.abs_eq by lia]; ring.
Qed.

(** ** Printed numbers are words *)
Definition plain (c : ascii) : Prop := c <> " "%char /\ c <> "009"%char /\ c <> "010"%char.
Lemma every_get P s : every P s -> forall n c, String.get n s = Some c -> P c.
Proof.
  induction s as [|x s IH]; intros E n c G; [destruct n; discriminate|]. destruct E as (E1 & E2).
  destruct n; cbn in G; [congruence|eauto].
Qed.
Lemma digit_plain c : is_digit c -> plain c.
Proof. intros (v & E). split; [|split]; intros ->; discriminate E. Qed.
Lemma plain_digits s : every is_digit s -> every plain s.
Proof. apply every_impl. apply digit_plain. Qed.
Lemma plain_written ds : digits ds -> every plain (written ds).
Proof. intros D. apply plain_digits, written_every, D. Qed.
Ltac plain_char := split; [|split]; discriminate.
Lemma plain_literal l : good_literal l -> every plain (literal_text l) /\ literal_text l <> "".
Proof.
  intros (DW & DF & NE & SG & EX). unfold literal_text. split.
  - rewrite !every_app. split; [|split; [|split; [|split]]].
    + destruct (l_minus l), (l_plus l); cbn; repeat split; discriminate.
    + apply plain_written; auto.
    + cbn; repeat split; discriminate.
    + apply plain_written; auto.
    + destruct (l_exponent l) as [(s, ds)|]; [|exact I]. destruct EX as (S & D & _). rewrite !every_app.
      split; [cbn; repeat split; discriminate|]. split; [|apply plain_written; auto].
      destruct S as [->|[->| ->]]; cbn; repeat split; discriminate.
  - destruct (l_minus l), (l_plus l), (written (l_whole l)); discriminate.
Qed.
Lemma word_scientific p (x : double) : 2 <= p -> word (scientific p (B2SF x)).
Proof.
  intros Hp. assert (G : every plain (scientific p (B2SF x)) /\ scientific p (B2SF x) <> "").
  { destruct x as [s|s| |s m e h].
    - cbn [B2SF scientific]. split; [|destruct s; discriminate]. rewrite !every_app. split; [destruct s; cbn; repeat split; discriminate|].
      split; [cbn; repeat split; discriminate|]. split; [|cbn; repeat split; discriminate].
      generalize (Z.to_nat (p - 1)). intros n. induction n; cbn; repeat split; auto; discriminate.
    - destruct s; cbn; repeat split; discriminate.
    - cbn; repeat split; discriminate.
    - destruct (print_literal p s m e h Hp) as (l & k & G & E & _). rewrite E. apply plain_literal; auto. }
  destruct G as (A & B). split; auto. intros n c H. exact (every_get _ _ A n c H).
Qed.

(** ** How much seven digits lose *)
Lemma time_error (x : double) : is_finite x = true ->
  (powerRZ 10 (-300) <= Rabs (value_of x) <= powerRZ 10 300)%R ->
  exists y : double, read_double (show_time x) = Ok y /\ is_finite y = true /\
    (Rabs (value_of y - value_of x) <= 51 / 100000000 * Rabs (value_of x))%R.
Proof.
  intros Fx (LO & HI). rewrite p10_powerRZ in LO, HI.
  destruct x as [s|s| |s m e h]; try discriminate Fx.
  { unfold value_of in LO. cbn [B2R] in LO. rewrite Rabs_R0 in LO. pose proof (p10_pos (-300)). lra. }
  destruct (print_literal 7 s m e h ltac:(lia)) as (l & k & G & E & _ & _ & _ & OR & D).
  set (x := B754_finite s m e h : double) in *. unfold show_time. rewrite E.
  unfold order in OR. rewrite !p10_powerRZ in OR. rewrite p10_powerRZ in D.
  replace (k - (7 - 1)) with (k + -6) in D by lia. rewrite bpow_plus in D.
  assert (T6 : p10 (-6) = (/ 1000000)%R) by (change (-6) with (- (6)); rewrite p10_opp, p10_Z by lia; f_equal).
  rewrite T6 in D. set (w := value_of x) in *. set (u := literal_value l) in *.
  assert (D' : (Rabs (u - w) <= 5 / 10000000 * Rabs w)%R) by (destruct OR; lra).
  assert (UL : (Rabs w / 2 <= Rabs u <= 2 * Rabs w)%R).
  { pose proof (Rabs_triang_inv u w). pose proof (Rabs_triang_inv w u). rewrite (Rabs_minus_sym w u) in H0. pose proof (Rabs_pos w). lra. }
  assert (B1 : (bpow radix2 (-1022) < p10 (-300) / 2)%R).
  { change (-1022) with (- (1022)). change (-300) with (- (300)). rewrite !bpow_opp, p10_Z, <- (IZR_Zpower radix2) by lia.
    assert (H : (2 * 10 ^ 300 < radix2 ^ 1022)%Z) by reflexivity. apply IZR_lt in H. rewrite mult_IZR in H.
    assert (P : (0 < IZR (10 ^ 300))%R) by (apply IZR_lt; reflexivity).
    replace (/ IZR (10 ^ 300) / 2)%R with (/ (2 * IZR (10 ^ 300)))%R by (field; lra).
    apply Rinv_lt_contravar; [apply Rmult_lt_0_compat|]; lra. }
  assert (B2 : (4 * p10 300 < bpow radix2 1024)%R).
  { rewrite p10_Z, <- (IZR_Zpower radix2) by lia. rewrite <- mult_IZR. apply IZR_lt. reflexivity. }
  assert (ER : (Rabs (rnd u - u) <= bpow radix2 (-53) * Rabs u)%R) by (apply rnd_error; lra).
  assert (E53 : (bpow radix2 (-53) < 1 / 1000000000)%R).
  { change (-53) with (- (53)). rewrite bpow_opp, <- (IZR_Zpower radix2) by lia. unfold Rdiv. rewrite Rmult_1_l.
    apply Rinv_lt_contravar; [rewrite <- mult_IZR|]; apply IZR_lt; reflexivity. }
  pose proof (Rabs_pos u) as PU. pose proof (bpow_gt_0 radix2 (-53)) as P53.
  assert (RU : (Rabs (rnd u) <= 2 * Rabs u)%R).
  { pose proof (Rabs_triang_inv (rnd u) u). nra. }
  pose proof (read_correct l G) as RC. rewrite rounded_rnd, largest_bpow in RC. fold u in RC.
  rewrite Rlt_bool_true in RC by lra. destruct RC as (y & RY & FY & VY & _). exists y. split; auto. split; auto.
  rewrite VY. pose proof (Rabs_triang (rnd u - u) (u - w)) as TR. replace (rnd u - u + (u - w))%R with (rnd u - w)%R in TR by ring.
  pose proof (Rabs_pos w). nra.
Qed.
