(** Reading any decimal text; the printed text; seven digits. *)
From Coq Require Import ZArith List String Ascii Bool SpecFloat Reals Lra Lia.
From Flocq Require Import Core IEEE754.BinarySingleNaN.
From Verif Require Import Outcome Num ModelText TextProofs SpecVTK ModelDouble SpecDouble DoubleProofs Double2Proofs.
Import ListNotations.
Local Open Scope string_scope.
Local Open Scope Z_scope.
Local Notation p10 := (bpow radix10).
Local Notation fx := (SpecFloat.fexp 53 1024).
Local Notation rnd := (round radix2 fx ZnearestE).

Lemma p10_powerRZ k : powerRZ 10 k = p10 k.
Proof. symmetry. apply (bpow_powerRZ radix10). Qed.
Lemma largest_bpow : largest = bpow radix2 1024.
Proof. symmetry. apply (bpow_powerRZ radix2). Qed.
Lemma rounded_rnd v : rounded v = rnd v.
Proof. unfold rounded. apply round_ext. - intros x. reflexivity. Qed.

(** ** Written digits *)
Lemma written_char d : 0 <= d <= 9 -> digit_value (ascii_of_nat (48 + Z.to_nat d)) = Some d.
Proof.
  intros H. assert (E : d = 0 \/ d = 1 \/ d = 2 \/ d = 3 \/ d = 4 \/ d = 5 \/ d = 6 \/ d = 7 \/ d = 8 \/ d = 9) by lia.
  repeat (destruct E as [->|E]; [reflexivity|]). subst d. reflexivity.
Qed.
Lemma written_value ds : digits ds -> forall v, digits_value v (written ds) = Some (fold_left (fun n d => 10 * n + d) ds v).
Proof.
  intros D. induction D as [|d ds Hd D IH]; intros v; cbn [written digits_value fold_left]; auto.
  rewrite written_char by auto. apply IH.
Qed.
Lemma written_every ds : digits ds -> every is_digit (written ds).
Proof. intros D. eapply digits_every. apply written_value with (v := 0); auto. Qed.
Lemma written_app a b : written (a ++ b)%list = written a ++ written b.
Proof. induction a as [|d a IH]; cbn [written app append]; [|rewrite IH]; auto. Qed.
Lemma written_length ds : String.length (written ds) = List.length ds.
Proof. induction ds; cbn; auto. Qed.
Lemma number_nonneg ds : digits ds -> 0 <= number ds.
Proof.
  unfold number. intros D. assert (G : forall v, 0 <= v -> 0 <= fold_left (fun n d => 10 * n + d) ds v); [|apply G; lia].
  induction D as [|d ds Hd D IH]; intros v Hv; cbn [fold_left]; auto. apply IH. lia.
Qed.
(* every string of digits is written *)
Lemma digits_of_string s : every is_digit s -> exists ds, digits ds /\ written ds = s.
Proof.
  induction s as [|c s IH]; intros D; [exists []; repeat constructor|].
  destruct D as ((v & E) & D). destruct (IH D) as (ds & A & B). exists (v :: ds).
  pose proof (digit_value_range c v E) as R. split; [constructor; [lia|auto]|]. cbn [written]. rewrite B. f_equal.
  clear - E R. assert (K : Z.of_N (N_of_ascii c) - 48 = v).
  { unfold digit_value in E. destruct ((0 <=? _) && _); congruence. }
  subst v. rewrite <- (ascii_N_embedding c) at 2. unfold ascii_of_nat. f_equal. lia.
Qed.

(** ** The sign *)
Lemma sign_split_literal (mi pl : bool) t : (mi = true -> pl = false) ->
  match t with String c _ => is_digit c \/ c = "."%char | EmptyString => False end ->
  split_sign ((if mi then "-" else if pl then "+" else "") ++ t) = (mi, t).
Proof.
  intros X T. destruct mi, pl; try reflexivity; cbn [append].
  destruct t as [|c t]; [contradiction|]. destruct T as [T| ->]; [apply digit_sign; auto|reflexivity].
Qed.
Lemma exponent_split s ds : (s = "" \/ s = "+" \/ s = "-") -> digits ds -> ds <> [] ->
  split_sign (s ++ written ds) = (String.eqb s "-", written ds).
Proof.
  intros S D N. destruct S as [->|[->| ->]]; try reflexivity. cbn [append]. destruct ds as [|d ds]; [congruence|].
  inversion D; subst. cbn [written]. apply digit_sign. exists d. apply written_char; auto.
Qed.

Lemma not_word c r w : (is_digit c \/ c = "."%char) ->
  match w with String x _ => digit_value x = None /\ x <> "."%char | EmptyString => True end ->
  String.eqb (lowercase (String c r)) w = false.
Proof.
  intros [D| ->] W; [apply digit_word; auto; destruct w; tauto|].
  apply String.eqb_neq. intros E. destruct w as [|x w]; [discriminate|]. injection E as E _. destruct W as (_ & W). apply W. rewrite <- E. reflexivity.
Qed.

(** ** Reading *)
Lemma read_literal l : good_literal l ->
  read_number (literal_text l) =
  double_of_decimal (l_minus l) (number (l_whole l ++ l_fraction l)%list)
    ((match l_exponent l with None => 0 | Some (s, ds) => if String.eqb s "-" then - number ds else number ds end) -
     Z.of_nat (List.length (l_fraction l))).
Proof.
  intros (DW & DF & NE & SG & EX). unfold literal_text, read_number.
  set (tail := match l_exponent l with None => "" | Some (s, ds) => "e" ++ s ++ written ds end).
  assert (HD : exists c r, written (l_whole l) ++ "." ++ written (l_fraction l) ++ tail = String c r /\ (is_digit c \/ c = "."%char)).
  { destruct (l_whole l) as [|d w] eqn:E; cbn [written append]; [eauto|]. inversion DW; subst. do 2 eexists. split; [reflexivity|].
    left. exists d. apply written_char; auto. }
  destruct HD as (c & r & HD & CC). rewrite HD.
  rewrite sign_split_literal by auto.
  rewrite !not_word by first [exact CC|split; [reflexivity|discriminate]]. cbn [orb].
  rewrite <- HD. rewrite take_digits_app by (cbn [append]; auto; apply written_every; auto). cbn [append].
  assert (TE : match tail with EmptyString => True | String x _ => digit_value x = None end).
  { unfold tail. destruct (l_exponent l) as [(s, ds)|]; cbn; auto. }
  rewrite take_digits_app by (auto; apply written_every; auto).
  rewrite <- written_app.
  assert (DA : digits (l_whole l ++ l_fraction l)) by (apply Forall_app; auto).
  rewrite (unsigned_digits _ (number (l_whole l ++ l_fraction l)%list)).
  2:{ destruct (l_whole l ++ l_fraction l)%list; [congruence|discriminate]. }
  2:{ apply written_value; auto. }
  rewrite written_length. unfold tail. destruct (l_exponent l) as [(s, ds)|]; cbn [append].
  - destruct EX as (S & D & N). change (Ascii.eqb (lower "e") "e") with true. cbv iota.
    rewrite exponent_split by auto.
    rewrite (unsigned_digits _ (number ds)).
    2:{ destruct ds; [congruence|discriminate]. }
    2:{ apply written_value; auto. }
    f_equal. destruct (String.eqb s "-"); lia.
  - f_equal.
Qed.

Lemma as_double_valid z : valid_binary 53 1024 z = true -> exists x : double, as_double z = Ok x /\ B2SF x = z.
Proof.
  intros V. exists (SF2B z V). split; [|apply B2SF_SF2B]. rewrite <- (B2SF_SF2B 53 1024 z V) at 1. apply as_double_ok.
Qed.

Lemma read_double_of_decimal s n e : 0 <= n ->
  let y := ((if s : bool then -1 else 1) * (IZR n * p10 e))%R in
  if Rlt_bool (Rabs (rnd y)) (bpow radix2 1024)
  then exists x : double, rbind (double_of_decimal s n e) as_double = Ok x /\ is_finite x = true /\ B2R x = rnd y /\ Bsign x = s
  else rbind (double_of_decimal s n e) as_double = Throw.
Proof.
  intros Hn y. destruct (Z.eq_dec n 0) as [->|N0].
  - assert (Y : rnd y = 0%R) by (unfold y; replace ((if s then -1 else 1) * (0 * p10 e))%R with 0%R by ring; apply round_0; auto with typeclass_instances).
    rewrite Y, Rabs_R0, Rlt_bool_true by apply bpow_gt_0. exists (B754_zero s). split; [|auto].
    cbn [double_of_decimal rbind]. change (S754_zero s) with (B2SF (B754_zero s : double)). apply as_double_ok.
  - pose proof (double_of_decimal_spec s n e ltac:(lia)) as H. cbv zeta in H. fold y in H.
    destruct (Rlt_bool _ _).
    + destruct H as (z & E & V & A & B & C). rewrite E. cbn [rbind].
      destruct (as_double_valid z V) as (x & EX & BX). exists x. split; auto.
      assert (X : x = SF2B z V) by (apply B2SF_inj; rewrite B2SF_SF2B; auto). subst x.
      rewrite is_finite_SF2B, B2R_SF2B, Bsign_SF2B. auto.
    + rewrite H. reflexivity.
Qed.

Lemma read_correct l : good_literal l ->
  if Rlt_bool (Rabs (rounded (literal_value l))) largest
  then exists x : double, read_double (literal_text l) = Ok x /\ is_finite x = true /\ value_of x = rounded (literal_value l) /\
         Bsign x = l_minus l
  else read_double (literal_text l) = Throw.
Proof.
  intros G. unfold read_double. rewrite (read_literal l G). destruct G as (DW & DF & _).
  pose proof (number_nonneg (l_whole l ++ l_fraction l) ltac:(apply Forall_app; auto)) as NN.
  pose proof (read_double_of_decimal (l_minus l) (number (l_whole l ++ l_fraction l)%list)
     ((match l_exponent l with None => 0 | Some (s, ds) => if String.eqb s "-" then - number ds else number ds end) -
     Z.of_nat (List.length (l_fraction l))) NN) as H.
  cbv zeta in H. rewrite rounded_rnd, largest_bpow. unfold literal_value. rewrite p10_powerRZ, Rmult_assoc. exact H.
Qed.

(** ** What is printed *)
Lemma mantissa_digits n : 1 <= n -> exists d ds, digits (d :: ds) /\ mantissa_text n = written [d] ++ "." ++ written ds /\
  dec n = written (d :: ds) /\ number (d :: ds) = n.
Proof.
  intros H. destruct (digits_of_string (dec n) (dec_every n ltac:(lia))) as (ds & D & E).
  destruct ds as [|d ds]; [destruct (dec_spec n ltac:(lia)) as (NE & _); symmetry in E; contradiction|].
  exists d, ds. split; auto. unfold mantissa_text. rewrite <- E. cbn [written]. split; [reflexivity|]. split; auto.
  pose proof (dec_value n ltac:(lia)) as V. rewrite <- E, written_value in V by auto. unfold number. congruence.
Qed.
Lemma exponent_digits k : exists s ds, (s = "" \/ s = "+" \/ s = "-") /\ digits ds /\ ds <> [] /\
  exponent_text k = "e" ++ s ++ written ds /\ (if String.eqb s "-" then - number ds else number ds) = k.
Proof.
  destruct (pad0_dec 2 (Z.abs k) ltac:(lia)) as (V & NE).
  destruct (digits_of_string (pad0 2 (dec (Z.abs k)))) as (ds & D & E).
  { eapply digits_every; eauto. }
  assert (NN : ds <> []) by (intros ->; symmetry in E; contradiction).
  assert (NU : number ds = Z.abs k) by (rewrite <- E, written_value in V by auto; unfold number; congruence).
  unfold exponent_text. rewrite <- E. destruct (Z.ltb_spec k 0) as [L|L].
  - exists "-", ds. repeat split; auto. change (String.eqb "-" "-") with true. cbv iota. lia.
  - exists "+", ds. repeat split; auto. change (String.eqb "+" "-") with false. cbv iota. lia.
Qed.

(* the text printed for a finite double that is not zero *)
Lemma print_literal p s m e h : 2 <= p ->
  let x := B754_finite s m e h : double in
  exists l k, good_literal l /\ scientific p (B2SF x) = literal_text l /\ List.length (l_whole l) = 1%nat /\
    Z.of_nat (List.length (l_fraction l)) = p - 1 /\ l_minus l = s /\ order (value_of x) k /\
    (Rabs (literal_value l - value_of x) <= powerRZ 10 (k - (p - 1)) / 2)%R.
Proof.
  intros Hp x. destruct (ratio_value m e) as ((T & B) & RV).
  destruct (decimal p (top e m) (bottom e)) as (n, k) eqn:E.
  destruct (decimal_spec p _ _ n k Hp T B E) as (Hn & X & D).
  assert (N1 : 1 <= n) by (pose proof (Z.pow_pos_nonneg 10 (p - 1)); lia).
  destruct (mantissa_digits n N1) as (d & ds & D1 & D2 & D3 & D4).
  destruct (exponent_digits k) as (sg & es & E1 & E2 & E3 & E4 & E5).
  pose proof (dec_length_is n p ltac:(lia) Hn) as L. rewrite D3, written_length in L. cbn [List.length] in L.
  assert (LF : Z.of_nat (List.length ds) = p - 1) by lia.
  exists {| l_minus := s; l_plus := false; l_whole := [d]; l_fraction := ds; l_exponent := Some (sg, es) |}, (expo10 (top e m) (bottom e)).
  assert (VX : value_of x = ((if s then -1 else 1) * F2R (Float radix2 (Zpos m) e))%R) by apply B2R_finite.
  rewrite RV in X, D. set (v := F2R (Float radix2 (Zpos m) e)) in *.
  assert (PV : (0 < v)%R) by (pose proof (p10_pos (expo10 (top e m) (bottom e))); lra).
  split; [|split; [|split; [reflexivity|split; [exact LF|split; [reflexivity|split]]]]].
  - unfold good_literal. cbn [l_minus l_plus l_whole l_fraction l_exponent]. inversion D1; subst.
    split; [repeat constructor; lia|]. split; [assumption|]. split; [discriminate|]. split; [reflexivity|]. auto.
  - cbn [B2SF x scientific]. fold (top e m) (bottom e). rewrite E. unfold literal_text. cbn [l_minus l_plus l_whole l_fraction l_exponent].
    rewrite D2, E4. rewrite !append_assoc. destruct s; reflexivity.
  - unfold order. rewrite !p10_powerRZ. rewrite VX.
    replace (Rabs ((if s then -1 else 1) * v)) with v; auto.
    rewrite Rabs_mult, (Rabs_pos_eq v) by lra. destruct s; [rewrite Rabs_left by lra|rewrite Rabs_R1]; lra.
  - rewrite p10_powerRZ, VX. unfold literal_value. cbn [l_minus l_plus l_whole l_fraction l_exponent]. rewrite E5, LF, p10_powerRZ.
    change ([d] ++ ds)%list with (d :: ds). rewrite D4.
    replace ((if s then -1 else 1) * IZR n * p10 (k - (p - 1)) - (if s then -1 else 1) * v)%R
      with ((if s then -1 else 1) * (IZR n * p10 (k - (p - 1)) - v))%R by ring.
    rewrite Rabs_mult. replace (Rabs (if s then -1 else 1)) with 1%R; [rewrite Rmult_1_l; auto|].
    destruct s; [rewrite Rabs_left by lra; lra|rewrite Rabs_R1; auto].
Qed.
