(** The computed right-hand sides are close to the exact ones. *)
From Coq Require Import Reals Lra ZArith Lia List Psatz.
From Flocq Require Import Core BinarySingleNaN.
From Verif Require Import Outcome ZList Num ModelDisc3D SpecGrid Stencil3Proofs Disc2DProofs ModelCH CHProofs SpecField ModelDouble SpecDouble SpecAccuracy AccuracyProofs Accuracy2Proofs Accuracy3Proofs.
Local Open Scope R_scope.
Local Existing Instance prec_positive.
Local Existing Instance prec_below_emax.
Local Notation u := unit_roundoff.
Local Notation B := value_of.

Section Rates.
  Variable N : Num double.
  Hypothesis IE : ieee N.
  Let mul_is := proj1 (proj2 (proj2 IE)).
  Let int_is := proj1 (proj2 (proj2 (proj2 (proj2 (proj2 IE))))).
  Variables (b : R) (h : double).
  Hypothesis HB : tiny <= b.
  Hypothesis FH : finite h.
  Hypothesis HH : / 2 ^ 250 <= B h <= 2 ^ 250.

  Definition num (z : Z) : ex := Leaf (nint z) (IZR z) (IZR z) 0.
  Definition cst (x : double) : ex := Leaf x (B x) (Rabs (B x)) 0.
  Lemma num_good z : (0 <= z <= 2 ^ 53)%Z -> good (num z).
  Proof.
    intros H _. rewrite int_is. destruct (int_exact z ltac:(lia)) as (F & E). rewrite <- E. apply near_exact; [exact F|].
    rewrite E. rewrite Rabs_pos_eq; [lra|]. apply IZR_le. lia.
  Qed.
  Lemma cst_good x : good (cst x).
  Proof. intros F. apply near_exact; [exact F|lra]. Qed.

  Section Three.
    Variable w : Z -> Z -> Z -> double.
    Hypothesis WB : forall i j k, Rabs (B (w i j k)) <= b.
    Definition at_3 i j k : ex := Leaf (w i j k) (B (w i j k)) b 0.
    Definition lap3_ex (f : Z -> Z -> Z -> ex) i j k : ex :=
      Div (Sub (Add (Add (Add (Add (Add (f (i - 1)%Z j k) (f (i + 1)%Z j k)) (f i (j - 1)%Z k)) (f i (j + 1)%Z k)) (f i j (k - 1)%Z)) (f i j (k + 1)%Z))
        (Mul (num 6) (f i j k))) (h * h)%num (B h ^ 2) 2.
    Definition bih3_ex (f : Z -> Z -> Z -> ex) i j k : ex :=
      Add (Add (Add (Add (Add (Add (Add (Sub (Mul (num 42) (f i j k))
        (Mul (num 12) (Add (Add (Add (Add (Add (f (i + 1)%Z j k) (f i (j + 1)%Z k)) (f i j (k + 1)%Z)) (f (i - 1)%Z j k)) (f i (j - 1)%Z k)) (f i j (k - 1)%Z))))
        (f (i + 2)%Z j k)) (f i (j + 2)%Z k)) (f i j (k + 2)%Z)) (f (i - 2)%Z j k)) (f i (j - 2)%Z k)) (f i j (k - 2)%Z))
        (Mul (num 2) (Add (Add (Add (Add (Add (Add (Add (Add (Add (Add (Add
          (f (i - 1)%Z (j - 1)%Z k) (f (i - 1)%Z (j + 1)%Z k)) (f (i + 1)%Z (j - 1)%Z k)) (f (i + 1)%Z (j + 1)%Z k))
          (f (i - 1)%Z j (k - 1)%Z)) (f (i + 1)%Z j (k - 1)%Z)) (f i (j - 1)%Z (k - 1)%Z)) (f i (j + 1)%Z (k - 1)%Z))
          (f (i - 1)%Z j (k + 1)%Z)) (f (i + 1)%Z j (k + 1)%Z)) (f i (j - 1)%Z (k + 1)%Z)) (f i (j + 1)%Z (k + 1)%Z))).
    Definition ch3_ex (p : ch_params double) (h4 : double) i j k : ex :=
      Sub (Add (Mul (Neg (cst (ch_eps2 p))) (Div (bih3_ex at_3 i j k) h4 (B h ^ 4) 6))
               (lap3_ex (fun i j k => Sub (Pow (at_3 i j k)) (at_3 i j k)) i j k))
          (Mul (cst (ch_sigma p)) (Sub (at_3 i j k) (cst (ch_m p)))).
    Lemma ch3_rounded p h4 i j k : rounded_value N (ch3_ex p h4 i j k) = ch_expr3 p h h4 w i j k.
    Proof. reflexivity. Qed.
    Lemma ch3_depth p h4 i j k : depth (ch3_ex p h4 i j k) = 30%nat.
    Proof. vm_compute. reflexivity. Qed.
    Lemma ch3_exact p h4 i j k : B h <> 0 ->
      exact_value (ch3_ex p h4 i j k) = CH3 (B h) (B (ch_m p)) (B (ch_sigma p)) (B (ch_eps2 p)) (fun i j k => B (w i j k)) i j k.
    Proof.
      intros HZ. unfold ch3_ex, lap3_ex, bih3_ex, at_3, num, cst. cbn [exact_value]. unfold CH3, Lap3, dxx3, dyy3, dzz3. 
      replace (i + 1 + 1)%Z with (i + 2)%Z by lia. replace (j + 1 + 1)%Z with (j + 2)%Z by lia. replace (k + 1 + 1)%Z with (k + 2)%Z by lia.
      replace (i - 1 - 1)%Z with (i - 2)%Z by lia. replace (j - 1 - 1)%Z with (j - 2)%Z by lia. replace (k - 1 - 1)%Z with (k - 2)%Z by lia.
      replace (i + 1 - 1)%Z with i by lia. replace (j + 1 - 1)%Z with j by lia. replace (k + 1 - 1)%Z with k by lia.
      replace (i - 1 + 1)%Z with i by lia. replace (j - 1 + 1)%Z with j by lia. replace (k - 1 + 1)%Z with k by lia.
      field. exact HZ.
    Qed.
    Lemma at3_good i j k : good (at_3 i j k).
    Proof. intros F. apply near_exact; [exact F|apply WB]. Qed.
    Lemma ch3_good p variant i j k : (0 <= variant)%Z -> good (ch3_ex p (dx4_of variant h) i j k).
    Proof.
      intros _. pose proof (h_pos h HH) as HP. pose proof (pow_lt (B h) 2 HP). pose proof (pow_lt (B h) 4 HP).
      pose proof (rel_h2 h FH HH) as (_ & R2).
      assert (R4 : rel (dx4_of variant h) (B h ^ 4) 6).
      { unfold dx4_of. destruct (variant =? 0)%Z; rewrite !mul_is; [apply rel_h4|apply rel_h4']; auto. }
      destruct R4 as (_ & R4).
      unfold ch3_ex, lap3_ex, bih3_ex. cbn [good]. rewrite mul_is.
      repeat apply conj; try apply at3_good; try apply cst_good; try (apply num_good; lia); try lia; try assumption; try (apply Rgt_not_eq; assumption).
    Qed.
    Lemma ch3_mag p h4 i j k : mag (ch3_ex p h4 i j k) <= rate_size (B h) (B (ch_m p)) (B (ch_sigma p)) (B (ch_eps2 p)) b.
    Proof.
      pose proof (h_pos h HH) as HP. pose proof (pow_lt (B h) 2 HP) as H2. pose proof (pow_lt (B h) 4 HP) as H4.
      pose proof tiny_pos as TP.
      unfold ch3_ex, lap3_ex, bih3_ex, at_3, num, cst. cbn [mag]. unfold rate_size.
      rewrite (Rabs_pos_eq (B h ^ 2)), (Rabs_pos_eq (B h ^ 4)) by lra.
      set (x4 := B h ^ 4) in *. set (x2 := B h ^ 2) in *.
      assert (I4 : 0 < / x4) by (apply Rinv_0_lt_compat; lra). assert (I2 : 0 < / x2) by (apply Rinv_0_lt_compat; lra).
      pose proof (Rabs_pos (B (ch_eps2 p))) as PE. pose proof (Rabs_pos (B (ch_sigma p))) as PS. pose proof (Rabs_pos (B (ch_m p))) as PM.
      assert (B3 : 0 <= b ^ 3) by (apply pow_le; lra).
      set (e := Rabs (B (ch_eps2 p))) in *. set (s := Rabs (B (ch_sigma p))) in *. set (q := Rabs (B (ch_m p))) in *.
      unfold Rdiv.
      match goal with |- e * (?X * / x4 + tiny) + tiny + (?Y * / x2 + tiny) + (?Z + tiny) <= _ =>
        assert (X <= 147 * b) by lra; assert (Y <= 25 * (b ^ 3 + b)) by lra;
        assert (X * / x4 <= 147 * b * / x4) by (apply Rmult_le_compat_r; lra);
        assert (Y * / x2 <= 25 * (b ^ 3 + b) * / x2) by (apply Rmult_le_compat_r; lra);
        assert (e * (X * / x4 + tiny) <= e * (147 * b * / x4 + tiny)) by (apply Rmult_le_compat_l; lra)
      end. lra.
    Qed.
    Theorem rate3_near p variant i j k : (0 <= variant)%Z -> finite (ch_expr3 p h (dx4_of variant h) w i j k) ->
      near (ch_expr3 p h (dx4_of variant h) w i j k) (CH3 (B h) (B (ch_m p)) (B (ch_sigma p)) (B (ch_eps2 p)) (fun i j k => B (w i j k)) i j k)
        (rate_size (B h) (B (ch_m p)) (B (ch_sigma p)) (B (ch_eps2 p)) b) 30.
    Proof.
      intros V F. rewrite <- ch3_rounded in F |- *. pose proof (h_pos h HH).
      rewrite <- (ch3_exact p (dx4_of variant h)) by lra. rewrite <- (ch3_depth p (dx4_of variant h) i j k).
      eapply near_weaken; [apply expression_error; [exact IE|apply ch3_good; exact V|exact F]|apply ch3_mag|lia].
    Qed.
  End Three.

  Section Two.
    Variable w : Z -> Z -> double.
    Hypothesis WB : forall i j, Rabs (B (w i j)) <= b.
    Definition at_2 i j : ex := Leaf (w i j) (B (w i j)) b 0.
    Definition lap2_ex (f : Z -> Z -> ex) i j : ex :=
      Add (Div (Add (Sub (f (i - 1)%Z j) (Mul (num 2) (f i j))) (f (i + 1)%Z j)) (h * h)%num (B h ^ 2) 2)
          (Div (Add (Sub (f i (j - 1)%Z) (Mul (num 2) (f i j))) (f i (j + 1)%Z)) (h * h)%num (B h ^ 2) 2).
    Definition bih2_ex (f : Z -> Z -> ex) i j : ex :=
      Div (Add (Add (Sub (Add (Add (Sub (Add (Sub (Add (Add (Sub (Add (f i (j + 2)%Z) (Mul (num 2) (f (i - 1)%Z (j + 1)%Z))) (Mul (num 8) (f i (j + 1)%Z))) (Mul (num 2) (f (i + 1)%Z (j + 1)%Z)))
        (f (i - 2)%Z j)) (Mul (num 8) (f (i - 1)%Z j))) (Mul (num 20) (f i j))) (Mul (num 8) (f (i + 1)%Z j))) (f (i + 2)%Z j))
        (Mul (num 2) (f (i - 1)%Z (j - 1)%Z))) (Mul (num 8) (f i (j - 1)%Z))) (Mul (num 2) (f (i + 1)%Z (j - 1)%Z)))
        (Mul (num 1) (f i (j - 2)%Z))) (h * h * h * h)%num (B h ^ 4) 6.
    Definition ch2_ex (p : ch_params double) i j : ex :=
      Sub (Add (Mul (Neg (cst (ch_eps2 p))) (bih2_ex at_2 i j))
               (lap2_ex (fun i j => Sub (Pow (at_2 i j)) (at_2 i j)) i j))
          (Mul (cst (ch_sigma p)) (Sub (at_2 i j) (cst (ch_m p)))).
    Lemma ch2_rounded p i j : rounded_value N (ch2_ex p i j) = ch_expr2 p h w i j.
    Proof. reflexivity. Qed.
    Lemma ch2_depth p i j : (depth (ch2_ex p i j) <= 30)%nat.
    Proof. apply Nat.leb_le. vm_compute. reflexivity. Qed.
    Lemma ch2_exact p i j : B h <> 0 ->
      exact_value (ch2_ex p i j) = CH2 (B h) (B (ch_m p)) (B (ch_sigma p)) (B (ch_eps2 p)) (fun i j => B (w i j)) i j.
    Proof.
      intros HZ. unfold ch2_ex, lap2_ex, bih2_ex, at_2, num, cst. cbn [exact_value]. unfold CH2, Lap2, dxx2, dyy2.
      replace (i + 1 + 1)%Z with (i + 2)%Z by lia. replace (j + 1 + 1)%Z with (j + 2)%Z by lia.
      replace (i - 1 - 1)%Z with (i - 2)%Z by lia. replace (j - 1 - 1)%Z with (j - 2)%Z by lia.
      replace (i + 1 - 1)%Z with i by lia. replace (j + 1 - 1)%Z with j by lia.
      replace (i - 1 + 1)%Z with i by lia. replace (j - 1 + 1)%Z with j by lia.
      field. exact HZ.
    Qed.
    Lemma at2_good i j : good (at_2 i j).
    Proof. intros F. apply near_exact; [exact F|apply WB]. Qed.
    Lemma ch2_good p i j : good (ch2_ex p i j).
    Proof.
      pose proof (h_pos h HH) as HP. pose proof (pow_lt (B h) 2 HP). pose proof (pow_lt (B h) 4 HP).
      pose proof (rel_h2 h FH HH) as (_ & R2). pose proof (rel_h4 h FH HH) as (_ & R4).
      unfold ch2_ex, lap2_ex, bih2_ex. cbn [good]. rewrite !mul_is.
      repeat apply conj; try apply at2_good; try apply cst_good; try (apply num_good; lia); try lia; try assumption; try (apply Rgt_not_eq; assumption).
    Qed.
    Lemma ch2_mag p i j : mag (ch2_ex p i j) <= rate_size (B h) (B (ch_m p)) (B (ch_sigma p)) (B (ch_eps2 p)) b.
    Proof.
      pose proof (h_pos h HH) as HP. pose proof (pow_lt (B h) 2 HP) as H2. pose proof (pow_lt (B h) 4 HP) as H4.
      pose proof tiny_pos as TP.
      unfold ch2_ex, lap2_ex, bih2_ex, at_2, num, cst. cbn [mag]. unfold rate_size.
      rewrite !(Rabs_pos_eq (B h ^ 2)), !(Rabs_pos_eq (B h ^ 4)) by lra.
      set (x4 := B h ^ 4) in *. set (x2 := B h ^ 2) in *.
      assert (I4 : 0 < / x4) by (apply Rinv_0_lt_compat; lra). assert (I2 : 0 < / x2) by (apply Rinv_0_lt_compat; lra).
      pose proof (Rabs_pos (B (ch_eps2 p))) as PE. pose proof (Rabs_pos (B (ch_sigma p))) as PS. pose proof (Rabs_pos (B (ch_m p))) as PM.
      assert (B3 : 0 <= b ^ 3) by (apply pow_le; lra).
      set (e := Rabs (B (ch_eps2 p))) in *. set (s := Rabs (B (ch_sigma p))) in *. set (q := Rabs (B (ch_m p))) in *.
      unfold Rdiv.
      match goal with |- e * (?X * / x4 + tiny) + tiny + (?Y * / x2 + tiny + (?Y' * / x2 + tiny)) + (?Z + tiny) <= _ =>
        assert (X <= 147 * b) by lra; assert (Y + Y' <= 25 * (b ^ 3 + b)) by lra;
        assert (X * / x4 <= 147 * b * / x4) by (apply Rmult_le_compat_r; lra);
        assert ((Y + Y') * / x2 <= 25 * (b ^ 3 + b) * / x2) by (apply Rmult_le_compat_r; lra);
        assert (e * (X * / x4 + tiny) <= e * (147 * b * / x4 + tiny)) by (apply Rmult_le_compat_l; lra)
      end. lra.
    Qed.
    Theorem rate2_near p i j : finite (ch_expr2 p h w i j) ->
      near (ch_expr2 p h w i j) (CH2 (B h) (B (ch_m p)) (B (ch_sigma p)) (B (ch_eps2 p)) (fun i j => B (w i j)) i j)
        (rate_size (B h) (B (ch_m p)) (B (ch_sigma p)) (B (ch_eps2 p)) b) 30.
    Proof.
      intros F. rewrite <- ch2_rounded in F |- *. pose proof (h_pos h HH).
      rewrite <- ch2_exact by lra.
      eapply near_weaken; [apply expression_error; [exact IE|apply ch2_good|exact F]|apply ch2_mag|apply ch2_depth].
    Qed.
  End Two.
End Rates.
