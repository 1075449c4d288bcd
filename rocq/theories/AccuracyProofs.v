(** Rounding errors of double precision: the operations, sums, and expressions. *)
From Coq Require Import Reals Lra ZArith Lia List Permutation.
From Flocq Require Import Core Plus_error Relative BinarySingleNaN.
From Verif Require Import Num ModelDouble SpecDouble SpecAccuracy ModelReduce.
Import ListNotations.
Local Open Scope R_scope.
Local Existing Instance prec_positive.
Local Existing Instance prec_below_emax.
Local Notation u := unit_roundoff.
Local Notation B := value_of.
Local Notation rnd := (round radix2 (SpecFloat.fexp 53 1024) ZnearestE).

Lemma u_pos : 0 < u.
Proof. unfold unit_roundoff. apply Rinv_0_lt_compat, pow_lt. lra. Qed.
Lemma u_small : u <= / 1024.
Proof.
  unfold unit_roundoff. apply Rinv_le_contravar; [lra|]. replace 1024 with (2 ^ 10) by ring. apply Rle_pow; [lra|lia].
Qed.
Lemma tiny_pos : 0 < tiny.
Proof. unfold tiny. apply Rinv_0_lt_compat, pow_lt. lra. Qed.
Lemma bpow_inv n : bpow radix2 (- Z.of_nat n) = / 2 ^ n.
Proof. rewrite bpow_opp, bpow_powerRZ, <- pow_powerRZ. reflexivity. Qed.
Lemma u_bpow : u = bpow radix2 (-53).
Proof. symmetry. exact (bpow_inv 53). Qed.
Lemma u_ro_le : u_ro radix2 53 / (1 + u_ro radix2 53) <= u.
Proof.
  assert (E : u_ro radix2 53 = u).
  { unfold u_ro. rewrite u_bpow. change (- (53) + 1)%Z with (-53 + 1)%Z. rewrite bpow_plus. change (bpow radix2 1) with 2. lra. }
  rewrite E. pose proof u_pos. apply Rmult_le_reg_r with (1 + u); [lra|]. unfold Rdiv. rewrite Rmult_assoc, Rinv_l by lra. nra.
Qed.
Lemma eta_eq : / 2 * bpow radix2 (-1074) = u * tiny.
Proof.
  rewrite u_bpow. assert (E : tiny = bpow radix2 (-1022)) by (unfold tiny; rewrite <- (bpow_inv 1022); reflexivity).
  rewrite E, <- bpow_plus. change (/ 2) with (bpow radix2 (-1)). rewrite <- bpow_plus. reflexivity.
Qed.

Lemma round_plus_error x y : generic_format radix2 (FLT_exp (-1074) 53) x -> generic_format radix2 (FLT_exp (-1074) 53) y ->
  Rabs (rnd (x + y) - (x + y)) <= u * Rabs (x + y).
Proof.
  intros X Y. destruct (FLT_plus_error_N_ex radix2 (-1074) 53 (fun z => negb (Z.even z)) x y X Y) as (e & He & E).
  change (SpecFloat.fexp 53 1024) with (FLT_exp (-1074) 53). rewrite E. replace ((x + y) * (1 + e) - (x + y)) with (e * (x + y)) by ring.
  rewrite Rabs_mult. apply Rmult_le_compat_r; [apply Rabs_pos|]. eapply Rle_trans; [exact He|exact u_ro_le].
Qed.
Lemma round_error x : Rabs (rnd x - x) <= u * (Rabs x + tiny).
Proof.
  destruct (relative_error_N_FLT'_ex radix2 (-1074) 53 eq_refl (fun z => negb (Z.even z)) x) as (e & h & He & Hh & _ & E).
  change (SpecFloat.fexp 53 1024) with (FLT_exp (-1074) 53). rewrite E. replace (x * (1 + e) + h - x) with (e * x + h) by ring.
  eapply Rle_trans; [apply Rabs_triang|]. rewrite Rabs_mult, Rmult_plus_distr_l, <- eta_eq. apply Rplus_le_compat; [|exact Hh].
  apply Rmult_le_compat_r; [apply Rabs_pos|]. eapply Rle_trans; [exact He|exact u_ro_le].
Qed.
Lemma format_double (x : double) : generic_format radix2 (FLT_exp (-1074) 53) (B x).
Proof. exact (generic_format_B2R 53 1024 x). Qed.

Lemma overflow_inf x m s : B2SF (prec := 53) (emax := 1024) x = binary_overflow 53 1024 m s -> m = mode_NE -> is_finite x = true -> False.
Proof. intros E -> F. cbn in E. destruct x; discriminate. Qed.

Lemma plus_error (x y : double) : finite (Bplus mode_NE x y) ->
  finite x /\ finite y /\ Rabs (B (Bplus mode_NE x y) - (B x + B y)) <= u * Rabs (B x + B y).
Proof.
  intros F. assert (FX : finite x) by (destruct x as [|[]| |], y as [|[]| |]; try reflexivity; discriminate F).
  assert (FY : finite y) by (destruct x as [|[]| |], y as [|[]| |]; try reflexivity; discriminate F).
  split; [exact FX|]. split; [exact FY|].
  pose proof (Bplus_correct 53 1024 _ _ mode_NE x y FX FY) as K. cbn [round_mode] in K.
  destruct (Rlt_bool _ _).
  - destruct K as (E & _). unfold value_of at 1. rewrite E. apply round_plus_error; apply format_double.
  - destruct K as (E & _). exfalso. eapply overflow_inf; [exact E|reflexivity|exact F].
Qed.
Lemma minus_error (x y : double) : finite (Bminus mode_NE x y) ->
  finite x /\ finite y /\ Rabs (B (Bminus mode_NE x y) - (B x - B y)) <= u * Rabs (B x - B y).
Proof.
  intros F. assert (FX : finite x) by (destruct x as [|[]| |], y as [|[]| |]; try reflexivity; discriminate F).
  assert (FY : finite y) by (destruct x as [|[]| |], y as [|[]| |]; try reflexivity; discriminate F).
  split; [exact FX|]. split; [exact FY|].
  pose proof (Bminus_correct 53 1024 _ _ mode_NE x y FX FY) as K. cbn [round_mode] in K.
  destruct (Rlt_bool _ _).
  - destruct K as (E & _). unfold value_of at 1. rewrite E. apply round_plus_error; [apply format_double|].
    apply generic_format_opp, format_double.
  - destruct K as (E & _). exfalso. eapply overflow_inf; [exact E|reflexivity|exact F].
Qed.
Lemma mult_error (x y : double) : finite (Bmult mode_NE x y) ->
  finite x /\ finite y /\ Rabs (B (Bmult mode_NE x y) - B x * B y) <= u * (Rabs (B x * B y) + tiny).
Proof.
  intros F. pose proof (Bmult_correct 53 1024 _ _ mode_NE x y) as K. cbn [round_mode] in K.
  destruct (Rlt_bool _ _).
  - destruct K as (E & G & _). unfold finite in F. rewrite G in F. apply andb_prop in F as (F1 & F2). split; [exact F1|]. split; [exact F2|].
    unfold value_of at 1. rewrite E. apply round_error.
  - exfalso. eapply overflow_inf; [exact K|reflexivity|exact F].
Qed.
Lemma div_error (x y : double) : B y <> 0 -> finite (Bdiv mode_NE x y) ->
  finite x /\ Rabs (B (Bdiv mode_NE x y) - B x / B y) <= u * (Rabs (B x / B y) + tiny).
Proof.
  intros NZ F. pose proof (Bdiv_correct 53 1024 _ _ mode_NE x y NZ) as K. cbn [round_mode] in K.
  destruct (Rlt_bool _ _).
  - destruct K as (E & G & _). unfold finite in F. rewrite G in F. split; [exact F|].
    unfold value_of at 1. rewrite E. apply round_error.
  - exfalso. eapply overflow_inf; [exact K|reflexivity|exact F].
Qed.
Lemma opp_error (x : double) : finite (Bopp x) -> finite x /\ B (Bopp x) = - B x.
Proof. unfold finite, value_of. rewrite is_finite_Bopp, B2R_Bopp. auto. Qed.

(** ** Growth *)
Local Notation p k := ((1 + u) ^ k).
Lemma p_ge1 k : 1 <= p k.
Proof. apply pow_R1_Rle. pose proof u_pos. lra. Qed.
Lemma p_mono j k : (j <= k)%nat -> p j <= p k.
Proof. intros. apply Rle_pow; [pose proof u_pos; lra|auto]. Qed.
Lemma growth_pos k : 0 <= growth k.
Proof. unfold growth. pose proof (p_ge1 k). lra. Qed.
Lemma growth_mono j k : (j <= k)%nat -> growth j <= growth k.
Proof. intros H. unfold growth. pose proof (p_mono j k H). lra. Qed.
Lemma growth_S k : growth (S k) = growth k + u * p k.
Proof. unfold growth. cbn [pow]. ring. Qed.

(** The growth of k roundings is below (k + 1) units as long as k^2 <= 2^52. *)
Lemma growth_linear k : (Z.of_nat k <= 2 ^ 25)%Z -> growth k <= INR (S k) * u.
Proof.
  intros H. assert (U : u * IZR (2 ^ 53) = 1).
  { unfold unit_roundoff. rewrite (pow_IZR 2 53). change (2 ^ Z.of_nat 53)%Z with (2 ^ 53)%Z. apply Rinv_l. apply IZR_neq. vm_compute. discriminate. }
  assert (UP := u_pos).
  (* growth k <= k u (1 + k u) *)
  assert (G : forall n, (n <= k)%nat -> growth n <= INR n * u * (1 + INR n * u)).
  { induction n as [|n IH]; intros Hn; [unfold growth; cbn [pow INR]; lra|].
    specialize (IH ltac:(lia)). rewrite growth_S. rewrite S_INR.
    assert (P : p n <= 1 + INR n * u * (1 + INR n * u)) by (unfold growth in IH; lra).
    assert (NU : INR n * u <= / 4).
    { assert (A : INR n <= IZR (2 ^ 25)). { rewrite INR_IZR_INZ. apply IZR_le. lia. }
      apply Rmult_le_reg_r with 4; [lra|]. rewrite Rinv_l by lra.
      apply Rle_trans with (IZR (2 ^ 25) * u * 4); [nra|].
      replace (IZR (2 ^ 53)) with (IZR (2 ^ 25) * IZR (2 ^ 28)) in U by (rewrite <- mult_IZR; reflexivity).
      assert (C : 4 <= IZR (2 ^ 28)) by (apply IZR_le; vm_compute; discriminate). pose proof (IZR_lt 0 (2 ^ 25) eq_refl). nra. }
    pose proof (pos_INR n). set (a := INR n * u) in *. assert (0 <= a) by (unfold a; nra).
    replace ((INR n + 1) * u) with (a + u) by (unfold a; ring). fold a in P. fold a. nra. }
  specialize (G k (Nat.le_refl _)). rewrite S_INR.
  assert (A : INR k <= IZR (2 ^ 25)) by (rewrite INR_IZR_INZ; apply IZR_le; exact H).
  assert (KK : INR k * INR k * u <= 1).
  { pose proof (pos_INR k). apply Rle_trans with (IZR (2 ^ 25) * IZR (2 ^ 25) * u); [apply Rmult_le_compat_r; [lra|]; apply Rmult_le_compat; lra|].
    rewrite <- mult_IZR. rewrite <- U. rewrite (Rmult_comm u). apply Rmult_le_compat_r; [lra|]. apply IZR_le. vm_compute. discriminate. }
  assert (E : INR k * u * (1 + INR k * u) = INR k * u + (INR k * INR k * u) * u) by ring. rewrite E in G.
  apply Rle_trans with (1 := G). rewrite Rmult_plus_distr_r, Rmult_1_l. apply Rplus_le_compat_l.
  apply Rle_trans with (1 * u); [apply Rmult_le_compat_r; lra|lra].
Qed.

(** ** Sums in any order *)
Lemma total_app l1 l2 : total (l1 ++ l2) = total l1 + total l2.
Proof. unfold total. induction l1; cbn [app fold_right]; [lra|]. rewrite IHl1. lra. Qed.
Lemma total_abs_app l1 l2 : total_abs (l1 ++ l2) = total_abs l1 + total_abs l2.
Proof. unfold total_abs. rewrite map_app. apply total_app. Qed.
Lemma total_abs_pos l : 0 <= total_abs l.
Proof. unfold total_abs, total. induction l; cbn [map fold_right]; [lra|]. pose proof (Rabs_pos a). lra. Qed.
Lemma total_le_abs l : Rabs (total l) <= total_abs l.
Proof.
  unfold total_abs, total. induction l; cbn [map fold_right]; [rewrite Rabs_R0; lra|].
  eapply Rle_trans; [apply Rabs_triang|]. lra.
Qed.
Lemma total_perm l l' : Permutation l l' -> total l = total l'.
Proof. induction 1; cbn; try lra; unfold total in *; cbn [fold_right]; lra. Qed.
Lemma total_abs_perm l l' : Permutation l l' -> total_abs l = total_abs l'.
Proof. intros. apply total_perm, Permutation_map, H. Qed.

(** How many of the values are not zero. *)
Fixpoint count (l : list double) : nat :=
  match l with [] => 0%nat | x :: l => if Req_EM_T (B x) 0 then count l else S (count l) end.
Lemma count_app l1 l2 : count (l1 ++ l2) = (count l1 + count l2)%nat.
Proof. induction l1; cbn [app count]; auto. destruct (Req_EM_T (B a) 0); rewrite IHl1; reflexivity. Qed.
Lemma count_perm l l' : Permutation l l' -> count l = count l'.
Proof. induction 1; cbn [count]; try lia; repeat destruct (Req_EM_T _ 0); lia. Qed.
Lemma count_length l : (count l <= length l)%nat.
Proof. induction l; cbn [count length]; auto. destruct (Req_EM_T _ 0); lia. Qed.
Lemma count_zero l : count l = 0%nat -> total (map B l) = 0 /\ total_abs (map B l) = 0.
Proof.
  unfold total_abs, total. induction l as [|x l IH]; cbn [count map fold_right]; [intros; lra|].
  destruct (Req_EM_T (B x) 0) as [E|]; [|discriminate]. intros H. destruct (IH H) as (A & C). rewrite A, C, E, Rabs_R0. lra.
Qed.

Lemma combines_error (l : list double) (v : double) : combines (V := double) (Bplus mode_NE) l v -> finite v ->
  Forall finite l /\ Rabs (B v - total (map B l)) <= growth (count l - 1) * total_abs (map B l).
Proof.
  induction 1 as [x|l1 l2 x y C1 IH1 C2 IH2]; intros F.
  - split; [constructor; auto|]. unfold total_abs, total. cbn [map fold_right count]. rewrite Rplus_0_r, Rminus_diag_eq, Rabs_R0 by lra.
    apply Rmult_le_pos; [apply growth_pos|]. pose proof (Rabs_pos (B x)). lra.
  - destruct (plus_error x y F) as (FX & FY & E). destruct (IH1 FX) as (A1 & E1). destruct (IH2 FY) as (A2 & E2).
    split; [apply Forall_app; auto|]. rewrite map_app, total_app, total_abs_app, count_app.
    set (S1 := total (map B l1)) in *. set (S2 := total (map B l2)) in *.
    set (T1 := total_abs (map B l1)) in *. set (T2 := total_abs (map B l2)) in *.
    change (Rabs (B (Bplus mode_NE x y) - (S1 + S2)) <= growth (count l1 + count l2 - 1) * (T1 + T2)).
    assert (P1 : 0 <= T1) by apply total_abs_pos. assert (P2 : 0 <= T2) by apply total_abs_pos.
    assert (Q1 : Rabs S1 <= T1) by apply total_le_abs. assert (Q2 : Rabs S2 <= T2) by apply total_le_abs.
    assert (Z1 : count l1 = 0%nat -> B x = 0 /\ S1 = 0 /\ T1 = 0).
    { intros Z. destruct (count_zero l1 Z) as (Za & Zb). fold S1 in Za. fold T1 in Zb. rewrite Za, Zb, Rmult_0_r, Rminus_0_r in E1.
      pose proof (Rabs_pos (B x)). split; auto. destruct (Req_dec (B x) 0) as [|NZ]; auto. apply Rabs_pos_lt in NZ. lra. }
    assert (Z2 : count l2 = 0%nat -> B y = 0 /\ S2 = 0 /\ T2 = 0).
    { intros Z. destruct (count_zero l2 Z) as (Za & Zb). fold S2 in Za. fold T2 in Zb. rewrite Za, Zb, Rmult_0_r, Rminus_0_r in E2.
      pose proof (Rabs_pos (B y)). split; auto. destruct (Req_dec (B y) 0) as [|NZ]; auto. apply Rabs_pos_lt in NZ. lra. }
    destruct (Nat.eq_dec (count l1) 0) as [C|C].
    { destruct (Z1 C) as (X0 & X1 & X2). rewrite X1, X2, Rplus_0_l, Rplus_0_l, C. cbn [Nat.add].
      assert (V : B (Bplus mode_NE x y) = B y).
      { pose proof (Bplus_correct 53 1024 _ _ mode_NE x y FX FY) as K. cbn [round_mode] in K. change (B2R x) with (B x) in K. change (B2R y) with (B y) in K.
        rewrite X0, Rplus_0_l in K. destruct (Rlt_bool _ _) in K; destruct K as (K & _); [|exfalso; eapply overflow_inf; [exact K|reflexivity|exact F]].
        unfold value_of at 1. rewrite K. apply round_generic; [apply valid_rnd_N|apply format_double]. }
      rewrite V. exact E2. }
    destruct (Nat.eq_dec (count l2) 0) as [D|D].
    { destruct (Z2 D) as (Y0 & Y1 & Y2). rewrite Y1, Y2, !Rplus_0_r, D, Nat.add_0_r.
      assert (V : B (Bplus mode_NE x y) = B x).
      { pose proof (Bplus_correct 53 1024 _ _ mode_NE x y FX FY) as K. cbn [round_mode] in K. change (B2R x) with (B x) in K. change (B2R y) with (B y) in K.
        rewrite Y0, Rplus_0_r in K. destruct (Rlt_bool _ _) in K; destruct K as (K & _); [|exfalso; eapply overflow_inf; [exact K|reflexivity|exact F]].
        unfold value_of at 1. rewrite K. apply round_generic; [apply valid_rnd_N|apply format_double]. }
      rewrite V. exact E1. }
    clear Z1 Z2. set (j := (count l1 + count l2 - 1 - 1)%nat).
    assert (G1 : growth (count l1 - 1) <= growth j) by (apply growth_mono; unfold j; lia).
    assert (G2 : growth (count l2 - 1) <= growth j) by (apply growth_mono; unfold j; lia).
    replace (count l1 + count l2 - 1)%nat with (S j) by (unfold j; lia). rewrite growth_S.
    assert (E1' : Rabs (B x - S1) <= growth j * T1) by (eapply Rle_trans; [exact E1|]; apply Rmult_le_compat_r; auto).
    assert (E2' : Rabs (B y - S2) <= growth j * T2) by (eapply Rle_trans; [exact E2|]; apply Rmult_le_compat_r; auto).
    assert (M : Rabs (B x + B y) <= p j * (T1 + T2)).
    { replace (B x + B y) with ((B x - S1) + (B y - S2) + (S1 + S2)) by ring.
      eapply Rle_trans; [apply Rabs_triang|]. pose proof (Rabs_triang (B x - S1) (B y - S2)). pose proof (Rabs_triang S1 S2).
      replace (p j) with (growth j + 1) by (unfold growth; ring). lra. }
    replace (B (Bplus mode_NE x y) - (S1 + S2)) with ((B (Bplus mode_NE x y) - (B x + B y)) + ((B x - S1) + (B y - S2))) by ring.
    eapply Rle_trans; [apply Rabs_triang|]. pose proof (Rabs_triang (B x - S1) (B y - S2)).
    assert (u * Rabs (B x + B y) <= u * (p j * (T1 + T2))) by (apply Rmult_le_compat_l; [pose proof u_pos; lra|exact M]). lra.
Qed.

(** A reduction: initial value, contributions and identities in any order and bracketing. *)
Lemma reduction_error (zero : double) (l : list double) (v : double) : B zero = 0 -> reduction (V := double) (Bplus mode_NE) zero zero l v -> finite v ->
  Forall finite l /\ Rabs (B v - total (map B l)) <= growth (length l - 1) * total_abs (map B l).
Proof.
  intros Z (n & l' & P & C) F. destruct (combines_error l' v C F) as (A & E).
  assert (CT : count l' = count l).
  { rewrite <- (count_perm _ _ P). cbn [count]. destruct (Req_EM_T (B zero) 0); [|contradiction]. rewrite count_app.
    replace (count (repeat zero n)) with 0%nat; [reflexivity|]. clear - Z. induction n; cbn [repeat count]; auto. destruct (Req_EM_T (B zero) 0); [auto|contradiction]. }
  assert (TT : total (map B l') = total (map B l) /\ total_abs (map B l') = total_abs (map B l)).
  { rewrite <- (total_perm _ _ (Permutation_map B P)), <- (total_abs_perm _ _ (Permutation_map B P)). cbn [map].
    assert (R : total (map B (repeat zero n)) = 0 /\ total_abs (map B (repeat zero n)) = 0).
    { unfold total_abs, total. clear P. induction n; cbn [repeat map fold_right]; [lra|]. rewrite Z, Rabs_R0. lra. }
    rewrite map_app. split.
    - change (total (B zero :: map B (repeat zero n) ++ map B l)) with (B zero + total (map B (repeat zero n) ++ map B l)). rewrite total_app. lra.
    - change (total_abs (B zero :: map B (repeat zero n) ++ map B l)) with (Rabs (B zero) + total_abs (map B (repeat zero n) ++ map B l)).
      rewrite total_abs_app, Z, Rabs_R0. lra. }
  destruct TT as (T1 & T2). rewrite T1, T2, CT in E. split.
  - apply (Permutation_Forall (Permutation_sym P)) in A. apply Forall_inv_tail in A. apply Forall_app in A. apply A.
  - eapply Rle_trans; [exact E|]. apply Rmult_le_compat_r; [apply total_abs_pos|]. apply growth_mono. pose proof (count_length l). lia.
Qed.
