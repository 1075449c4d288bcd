(** Reading back what was printed. *)
From Coq Require Import ZArith List String Ascii Bool SpecFloat Reals Lra Lia.
From Flocq Require Import Core IEEE754.BinarySingleNaN.
From Verif Require Import Outcome Num ModelText TextProofs ModelDouble DoubleProofs.
Local Open Scope string_scope.
Local Open Scope Z_scope.
Local Notation p10 := (bpow radix10).

(** ** The text *)
Lemma take_digits_app s t : every is_digit s ->
  match t with EmptyString => True | String c _ => digit_value c = None end ->
  take_digits (s ++ t) = (s, t).
Proof.
  intros D T. induction s as [|c s IH]; cbn [append].
  - destruct t as [|c t]; cbn [take_digits]; auto. rewrite T. auto.
  - destruct D as ((v & E) & D). cbn [take_digits]. rewrite E, (IH D). auto.
Qed.

Lemma digit_sign c r : is_digit c -> split_sign (String c r) = (false, String c r).
Proof. intros (v & E). destruct c as [[] [] [] [] [] [] [] []]; first [discriminate E|reflexivity]. Qed.

Lemma digit_word c r w : is_digit c -> match w with String x _ => digit_value x = None | EmptyString => True end ->
  String.eqb (lowercase (String c r)) w = false.
Proof.
  intros (v & E) W. apply String.eqb_neq. intros EQ. cbn [lowercase] in EQ. destruct w as [|x w]; [discriminate|].
  injection EQ as EC _. assert (L : lower c = c); [|congruence].
  clear W EC. destruct c as [[] [] [] [] [] [] [] []]; first [discriminate E|reflexivity].
Qed.

Lemma unsigned_digits s v : s <> "" -> digits_value 0 s = Some v -> unsigned_value s = Some v.
Proof. intros H E. destruct s; [congruence|exact E]. Qed.

Lemma split_text s c r : is_digit c -> split_sign (sign_text s ++ String c r) = (s, String c r).
Proof. intros H. destruct s; cbn [sign_text append]; [reflexivity|apply digit_sign; auto]. Qed.

Lemma pad0_dec w k : 0 <= k -> digits_value 0 (pad0 w (dec k)) = Some k /\ pad0 w (dec k) <> "".
Proof.
  intros H. split; [rewrite pad0_value; apply dec_value; auto|].
  destruct (dec_spec k H) as (NE & _). unfold pad0. rewrite repeat_char_app.
  destruct (repeat_char "0" (Z.to_nat w - String.length (dec k)) ""); [exact NE|discriminate].
Qed.

Lemma read_text s n k p : 2 <= p -> 10 ^ (p - 1) <= n < 10 ^ p ->
  read_number (sign_text s ++ mantissa_text n ++ exponent_text k) = double_of_decimal s n (k - (p - 1)).
Proof.
  intros Hp Hn. assert (N1 : 1 <= n) by (pose proof (Z.pow_pos_nonneg 10 (p - 1)); lia).
  pose proof (dec_length_is n p ltac:(lia) Hn) as L. pose proof (dec_value n ltac:(lia)) as V.
  pose proof (dec_every n ltac:(lia)) as D. unfold mantissa_text.
  destruct (dec n) as [|c r] eqn:E; [cbn in L; lia|]. destruct D as (D1 & D2).
  cbn [append]. unfold read_number. rewrite split_text by auto.
  rewrite !digit_word by (auto; reflexivity). cbn [orb].
  change (String c (String "." (r ++ exponent_text k))) with (String c "" ++ String "." (r ++ exponent_text k)).
  rewrite take_digits_app by (cbn; auto).
  assert (X : exists z, exponent_text k = String "e" z).
  { unfold exponent_text. destruct (k <? 0); cbn [append]; eauto. }
  destruct X as (z & X). rewrite X. rewrite take_digits_app by (auto; reflexivity).
  rewrite (unsigned_digits _ n); [|discriminate|exact V].
  change (Ascii.eqb (lower "e") "e") with true. cbv iota.
  destruct (pad0_dec 2 (Z.abs k) ltac:(lia)) as (P1 & P2).
  assert (Z1 : split_sign z = (k <? 0, pad0 2 (dec (Z.abs k)))).
  { unfold exponent_text in X. destruct (k <? 0); cbn [append] in X; injection X as <-; reflexivity. }
  rewrite Z1, (unsigned_digits _ _ P2 P1). f_equal.
  cbn [String.length] in L. destruct (Z.ltb_spec k 0); lia.
Qed.

(** ** Rounding *)
Lemma round_nearest_even_equiv s m l : round_nearest_even m l = choice_mode mode_NE s m l.
Proof. destruct l as [|c]; [reflexivity|]. destruct c; try reflexivity. cbn. unfold Round.cond_incr. destruct (Z.even m); reflexivity. Qed.
Lemma binary_round_aux_equiv s m e l :
  SpecFloat.binary_round_aux 53 1024 s m e l = binary_round_aux 53 1024 mode_NE s m e l.
Proof.
  unfold SpecFloat.binary_round_aux, binary_round_aux. destruct (shr_fexp 53 1024 m e l) as (r, x).
  rewrite (round_nearest_even_equiv s). reflexivity.
Qed.

Local Instance prec53 : Prec_gt_0 53. Proof. reflexivity. Qed.
Local Instance emax1024 : Prec_lt_emax 53 1024. Proof. reflexivity. Qed.

Local Notation fx := (SpecFloat.fexp 53 1024).
Local Notation rnd := (round radix2 fx ZnearestE).

Lemma round_ratio_spec (s : bool) a b :
  let y := ((if s then -1 else 1) * (IZR (Zpos a) / IZR (Zpos b)))%R in
  let z := round_ratio s a b in
  valid_binary 53 1024 z = true /\
  (if Rlt_bool (Rabs (rnd y)) (bpow radix2 1024)
   then SF2R radix2 z = rnd y /\ is_finite_SF z = true /\ sign_SF z = s
   else z = S754_infinity s).
Proof.
  intros y z. pose proof (Bdiv_correct_aux 53 1024 prec53 emax1024 mode_NE s a 0 false b 0) as H. cbv zeta in H.
  unfold z, round_ratio.
  replace (F2R {| Fnum := cond_Zopp s (Zpos a); Fexp := 0 |} / F2R {| Fnum := cond_Zopp false (Zpos b); Fexp := 0 |})%R with y in H.
  2:{ unfold y, F2R. cbn [Fnum Fexp cond_Zopp]. change (bpow radix2 0) with 1%R. unfold cond_Zopp. destruct s; [rewrite opp_IZR|]; field; apply not_0_IZR; lia. }
  destruct (SFdiv_core_binary 53 1024 (Zpos a) 0 (Zpos b) 0) as ((q, e), l).
  rewrite binary_round_aux_equiv. rewrite xorb_false_r in H. exact H.
Qed.

Lemma double_of_decimal_spec (s : bool) n e : 0 < n ->
  let y := ((if s then -1 else 1) * (IZR n * p10 e))%R in
  if Rlt_bool (Rabs (rnd y)) (bpow radix2 1024)
  then exists z, double_of_decimal s n e = Ok z /\ valid_binary 53 1024 z = true /\
         SF2R radix2 z = rnd y /\ is_finite_SF z = true /\ sign_SF z = s
  else double_of_decimal s n e = Throw.
Proof.
  intros Hn y. destruct n as [|a|a]; [lia| |lia]. cbn [double_of_decimal].
  assert (H : exists a' b', (if 0 <=? e then round_ratio s (a * Z.to_pos (10 ^ e)) 1 else round_ratio s a (Z.to_pos (10 ^ (- e)))) = round_ratio s a' b' /\
    y = ((if s then -1 else 1) * (IZR (Zpos a') / IZR (Zpos b')))%R).
  { destruct (Z.leb_spec 0 e) as [L|L].
    - exists (a * Z.to_pos (10 ^ e))%positive, 1%positive. split; auto. unfold y. rewrite p10_Z by auto.
      rewrite Pos2Z.inj_mul, mult_IZR, Z2Pos.id by (apply Z.pow_pos_nonneg; lia). field.
    - exists a, (Z.to_pos (10 ^ (- e))). split; auto. unfold y. rewrite Z2Pos.id by (apply Z.pow_pos_nonneg; lia).
      rewrite <- p10_Z by lia. rewrite p10_opp. field. apply Rgt_not_eq, p10_pos. }
  destruct H as (a' & b' & -> & ->). pose proof (round_ratio_spec s a' b') as H. cbv zeta in H.
  destruct H as (V & H). destruct (Rlt_bool _ _).
  - destruct H as (A & B & C). exists (round_ratio s a' b').
    destruct (round_ratio s a' b') eqn:E; try discriminate B; auto.
  - rewrite H. reflexivity.
Qed.

(** ** Spacing of doubles *)
Local Instance fx_valid : Valid_exp fx := FLT_exp_valid _ _.
Lemma fx_ge m : m - 53 <= fx m.
Proof. unfold SpecFloat.fexp, SpecFloat.emin. lia. Qed.

Lemma gap_above x : (0 < x)%R -> generic_format radix2 fx x -> (x * bpow radix2 (-53) <= succ radix2 fx x - x)%R.
Proof.
  intros P F. rewrite succ_eq_pos by lra. ring_simplify (x + ulp radix2 fx x - x)%R.
  rewrite ulp_neq_0 by lra. unfold cexp. pose proof (bpow_mag_gt radix2 x) as M. rewrite Rabs_pos_eq in M by lra.
  apply Rle_trans with (bpow radix2 (mag radix2 x - 53)); [|apply bpow_le, fx_ge].
  unfold Z.sub. rewrite bpow_plus. apply Rmult_le_compat_r; [apply bpow_ge_0|lra].
Qed.
Lemma gap_below x : (0 < x)%R -> generic_format radix2 fx x -> (x * bpow radix2 (-53) <= x - pred radix2 fx x)%R.
Proof.
  intros P F. rewrite pred_eq_pos by lra. unfold pred_pos. destruct (Req_bool_spec x (bpow radix2 (mag radix2 x - 1))) as [E|E].
  - ring_simplify (x - (x - bpow radix2 (fx (mag radix2 x - 1))))%R.
    rewrite E at 1. rewrite <- bpow_plus. apply bpow_le. pose proof (fx_ge (mag radix2 x - 1)). lia.
  - ring_simplify (x - (x - ulp radix2 fx x))%R. rewrite ulp_neq_0 by lra. unfold cexp.
    pose proof (bpow_mag_gt radix2 x) as M. rewrite Rabs_pos_eq in M by lra.
    apply Rle_trans with (bpow radix2 (mag radix2 x - 53)); [|apply bpow_le, fx_ge].
    unfold Z.sub. rewrite bpow_plus. apply Rmult_le_compat_r; [apply bpow_ge_0|lra].
Qed.
(* a number nearer to x than half of 2^-53 x rounds to x *)
Lemma round_near x y : (0 < x)%R -> generic_format radix2 fx x ->
  (Rabs (y - x) < x * bpow radix2 (-53) / 2)%R -> rnd y = x.
Proof.
  intros P F H. apply Rabs_lt_inv in H. apply Rle_antisym.
  - apply round_N_le_midp; auto with typeclass_instances. pose proof (gap_above x P F). lra.
  - apply round_N_ge_midp; auto with typeclass_instances. pose proof (gap_below x P F). lra.
Qed.
Lemma round_near_signed (s : bool) x y : (0 < x)%R -> generic_format radix2 fx x ->
  (Rabs (y - x) < x * bpow radix2 (-53) / 2)%R -> rnd ((if s then -1 else 1) * y) = ((if s then -1 else 1) * x)%R.
Proof.
  intros P F H. destruct s.
  - replace (-1 * y)%R with (- y)%R by ring. rewrite round_NE_opp, (round_near x y); auto. ring.
  - rewrite !Rmult_1_l. apply round_near; auto.
Qed.

(** ** Doubles as ratios *)
Definition top (e : Z) (m : positive) : Z := Zpos m * 2 ^ Z.max e 0.
Definition bottom (e : Z) : Z := 2 ^ Z.max (- e) 0.
Lemma ratio_value m e : (0 < top e m /\ 0 < bottom e) /\
  (IZR (top e m) / IZR (bottom e) = F2R (Float radix2 (Zpos m) e))%R.
Proof.
  unfold top, bottom. assert (A : 0 < 2 ^ Z.max e 0) by (apply Z.pow_pos_nonneg; lia).
  assert (B : 0 < 2 ^ Z.max (- e) 0) by (apply Z.pow_pos_nonneg; lia). split; [nia|].
  unfold F2R. cbn [Fnum Fexp]. rewrite mult_IZR.
  assert (PW : forall k, 0 <= k -> IZR (2 ^ k) = bpow radix2 k) by (intros k Hk; apply (IZR_Zpower radix2); auto).
  rewrite !PW by lia. destruct (Z.le_gt_cases 0 e).
  - rewrite (Z.max_l e 0), (Z.max_r (- e) 0) by lia. change (bpow radix2 0) with 1%R. field.
  - rewrite (Z.max_r e 0), (Z.max_l (- e) 0) by lia. rewrite bpow_opp. change (bpow radix2 0) with 1%R. field.
    apply Rgt_not_eq, bpow_gt_0.
Qed.

Lemma as_double_ok (x : double) : as_double (B2SF x) = Ok x.
Proof.
  unfold as_double. destruct (bool_dec (valid_binary 53 1024 (B2SF x)) true) as [h|h].
  - rewrite SF2B_B2SF. reflexivity.
  - exfalso. apply h. apply valid_binary_B2SF.
Qed.

Lemma finite_unique (x : double) z : valid_binary 53 1024 z = true -> is_finite x = true -> is_finite_SF z = true ->
  SF2R radix2 z = B2R x -> sign_SF z = Bsign x -> z = B2SF x.
Proof.
  intros V Fx Fz E S. rewrite <- (B2SF_SF2B 53 1024 z V). f_equal.
  apply B2R_Bsign_inj; [rewrite is_finite_SF2B; auto|auto|rewrite B2R_SF2B; auto|rewrite Bsign_SF2B; auto].
Qed.

(** ** Seventeen digits are enough *)
Lemma read_zeros s n : read_number (sign_text s ++ "0." ++ repeat_char "0" n "" ++ "e+00") = Ok (S754_zero s).
Proof.
  cbn [append]. unfold read_number. assert (D0 : is_digit "0") by (exists 0; reflexivity).
  rewrite split_text by auto. rewrite !digit_word by (auto; reflexivity). cbn [orb].
  change (String "0" (String "." (repeat_char "0" n "" ++ "e+00"))) with ("0" ++ String "." (repeat_char "0" n "" ++ "e+00")).
  assert (DR : every is_digit (repeat_char "0" n "")) by (induction n; cbn; auto).
  rewrite take_digits_app by (cbn; auto). rewrite take_digits_app by (auto; reflexivity).
  rewrite (unsigned_digits _ 0); [reflexivity|discriminate|].
  change ("0" ++ repeat_char "0" n "") with (repeat_char "0" (S n) ""). rewrite value_zeros. reflexivity.
Qed.

Lemma p10_16 : (p10 (-16) < bpow radix2 (-53))%R.
Proof.
  change (-16) with (- (16)). change (-53) with (- (53)). rewrite !bpow_opp. apply Rinv_lt_contravar.
  - apply Rmult_lt_0_compat; apply bpow_gt_0.
  - rewrite p10_Z by lia. rewrite <- (IZR_Zpower radix2) by lia. apply IZR_lt. reflexivity.
Qed.

Lemma B2R_finite (s : bool) m e h : B2R (B754_finite s m e h : double) = ((if s then -1 else 1) * F2R (Float radix2 (Zpos m) e))%R.
Proof. cbn [B2R]. unfold F2R. cbn [Fnum Fexp]. unfold cond_Zopp. destruct s; [rewrite opp_IZR|]; ring. Qed.

Lemma read_show_value (x : double) : read_double (show_value x) = Ok x.
Proof.
  unfold show_value, read_double. 
  assert (G : read_number (scientific 17 (B2SF x)) = Ok (B2SF x)).
  { destruct x as [s|s| |s m e h]; cbn [B2SF scientific].
    - apply read_zeros.
    - destruct s; reflexivity.
    - reflexivity.
    - fold (top e m) (bottom e). destruct (ratio_value m e) as ((T & B) & RV).
      destruct (decimal 17 (top e m) (bottom e)) as (n, k) eqn:E.
      destruct (decimal_spec 17 _ _ n k ltac:(lia) T B E) as (Hn & (X & _) & D).
      rewrite (read_text s n k 17) by (auto; lia).
      set (x := B754_finite s m e h : double).
      set (v := F2R (Float radix2 (Zpos m) e)) in *. rewrite RV in X, D.
      assert (PV : (0 < v)%R) by (pose proof (p10_pos (expo10 (top e m) (bottom e))); lra).
      assert (N1 : 0 < n) by (pose proof (Z.pow_pos_nonneg 10 (17 - 1)); lia).
      assert (FV : generic_format radix2 fx v).
      { pose proof (generic_format_B2R 53 1024 (B754_finite false m e h)) as F. rewrite B2R_finite, Rmult_1_l in F. exact F. }
      assert (NEAR : rnd ((if s then -1 else 1) * (IZR n * p10 (k - (17 - 1)))) = ((if s then -1 else 1) * v)%R).
      { apply round_near_signed; auto. apply Rle_lt_trans with (1 := D).
        replace (expo10 (top e m) (bottom e) - (17 - 1)) with (expo10 (top e m) (bottom e) + -16) by lia. rewrite bpow_plus.
        pose proof p10_16. pose proof (p10_pos (-16)). pose proof (p10_pos (expo10 (top e m) (bottom e))). nra. }
      pose proof (double_of_decimal_spec s n (k - (17 - 1)) N1) as Z0. cbv zeta in Z0. rewrite NEAR in Z0.
      assert (BX : B2R x = ((if s then -1 else 1) * v)%R) by apply B2R_finite.
      rewrite <- BX in Z0. rewrite Rlt_bool_true in Z0 by apply abs_B2R_lt_emax.
      destruct Z0 as (z & -> & VZ & RZ & FZ & SZ). f_equal. apply (finite_unique x z); auto. }
  rewrite G. cbn [rbind]. apply as_double_ok.
Qed.
