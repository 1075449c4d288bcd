(** Rounding errors of reported norms. *)
From Coq Require Import Reals Lra ZArith Lia List Psatz Permutation.
From Flocq Require Import Core BinarySingleNaN.
From Verif Require Import Outcome ZList ZListProofs Num ModelReduce ModelDouble SpecDouble SpecAccuracy AccuracyProofs Accuracy2Proofs Accuracy3Proofs.
Import ListNotations.
Local Open Scope R_scope.
Local Existing Instance prec_positive.
Local Existing Instance prec_below_emax.
Local Notation u := unit_roundoff.
Local Notation B := value_of.
Local Notation p k := ((1 + u) ^ k).

Lemma combines_ext {V} (f g : V -> V -> V) l v : (forall x y, f x y = g x y) -> combines f l v -> combines g l v.
Proof. intros E H. induction H; [constructor|]. rewrite E. constructor; assumption. Qed.
Lemma reduction_ext {V} (f g : V -> V -> V) e i l v : (forall x y, f x y = g x y) -> reduction f e i l v -> reduction g e i l v.
Proof. intros E (n & l' & P & C). exists n, l'. split; [exact P|]. eapply combines_ext; eauto. Qed.

Lemma sqrt_error (x : double) : finite (Bsqrt mode_NE x) ->
  finite x /\ 0 <= B x /\ Rabs (B (Bsqrt mode_NE x) - sqrt (B x)) <= u * (sqrt (B x) + tiny).
Proof.
  intros F. destruct (Bsqrt_correct 53 1024 _ _ mode_NE x) as (E & FF & _). unfold finite in *. rewrite F in FF. split; [|split].
  - destruct x as [s|s| |s m e]; try discriminate; reflexivity.
  - destruct x as [s|s| |[|] m e He]; try discriminate; cbn; [lra|]. apply F2R_ge_0. cbn. lia.
  - change (B (Bsqrt mode_NE x)) with (B2R (Bsqrt mode_NE x)). rewrite E. pose proof (round_error (sqrt (B2R x))) as R.
    rewrite (Rabs_pos_eq (sqrt (B2R x))) in R by apply sqrt_pos. exact R.
Qed.

Section Norm.
  Variable N : Num double.
  Hypothesis IE : ieee N.
  Hypothesis IN : ieee_norm N.
  Let add_is := proj1 IE.
  Let div_is := proj1 (proj2 (proj2 (proj2 IE))).
  Let int_is := proj1 (proj2 (proj2 (proj2 (proj2 (proj2 IE))))).

  (** Squares. *)
  Definition sq (x : double) : R := B x ^ 2.
  Lemma squares_error (l : list double) : Forall finite (map npow2 l) ->
    let A := total (map sq l) + INR (length l) * tiny in
    Rabs (total (map B (map npow2 l)) - total (map sq l)) <= growth 4 * A /\ total_abs (map B (map npow2 l)) <= p 4 * A.
  Proof.
    induction l as [|x l IH]; intros H; cbv zeta; unfold total_abs, total in *.
    - cbn. rewrite Rminus_diag_eq, Rabs_R0 by reflexivity. lra.
    - inversion H as [|? ? F1 F2]; subst. destruct (IH F2) as (I1 & I2). cbn [map fold_right length]. rewrite S_INR.
      destruct (proj2 IN x F1) as (_ & E).
      assert (G4 : 4 * u <= growth 4) by (unfold growth; cbn [pow]; pose proof u_pos; nra).
      assert (S2 : 0 <= sq x) by (unfold sq; apply pow2_ge_0). pose proof tiny_pos.
      assert (E' : Rabs (B (npow2 x) - sq x) <= growth 4 * (sq x + tiny)) by (eapply Rle_trans; [exact E|]; apply Rmult_le_compat_r; [unfold sq in *; lra|exact G4]).
      split.
      + match goal with |- Rabs (?a + ?c - (?d + ?e)) <= _ => replace (a + c - (d + e)) with ((a - d) + (c - e)) by ring end.
        eapply Rle_trans; [apply Rabs_triang|]. cbv zeta in I1. lra.
      + assert (Rabs (B (npow2 x)) <= p 4 * (sq x + tiny)).
        { replace (B (npow2 x)) with ((B (npow2 x) - sq x) + sq x) by ring. eapply Rle_trans; [apply Rabs_triang|]. rewrite (Rabs_pos_eq (sq x)) by exact S2.
          replace (p 4) with (growth 4 + 1) by (unfold growth; ring). lra. }
        cbv zeta in I2. lra.
  Qed.

  Theorem norm_error (rsum : double -> list double -> double) (l : list double) (z : Z) :
    (forall k, reduction nadd (nint 0) (nint 0) k (rsum (nint 0) k)) -> z = Z.of_nat (length l) -> (1 <= z <= 2 ^ 24)%Z ->
    let r := total (map sq l) / IZR z in let y := nsqrt (rsum (nint 0) (map npow2 l) / nint z)%num in
    / 2 ^ 500 <= sqrt r -> finite y -> Rabs (B y - sqrt r) <= (2 * IZR z + 16) * u * sqrt r.
  Proof.
    intros HR HZ ZB r y RB F. subst y. rewrite (proj1 IN) in F |- *. destruct (sqrt_error _ F) as (FX & XP & E).
    set (x := (rsum (nint 0) (map npow2 l) / nint z)%num) in *.
    destruct (int_exact z ltac:(lia)) as (FZ & EZ). assert (ZP : 0 < IZR z) by (apply IZR_lt; lia).
    assert (DX : x = Bdiv mode_NE (rsum (nint 0) (map npow2 l)) (double_int z)) by (unfold x; rewrite div_is, (int_is z); reflexivity).
    rewrite DX in FX. destruct (div_error _ _ ltac:(rewrite EZ; lra) FX) as (FS & ED). rewrite <- DX in ED. rewrite EZ in ED.
    set (s := rsum (nint 0) (map npow2 l)) in *.
    assert (R : reduction (V := double) (Bplus mode_NE) (nint 0) (nint 0) (map npow2 l) s) by (eapply reduction_ext; [|apply HR]; intros; apply add_is).
    apply reduction_error in R as (FQ & ES); [|rewrite int_is; apply (int_exact 0); lia|exact FS].
    destruct (squares_error l FQ) as (S1 & S2). rewrite map_length in ES.
    set (T := total (map sq l)) in *. set (n := length l) in *. set (A := T + INR n * tiny) in *.
    assert (TP : 0 <= T). { unfold T, total. clear. induction l as [|a l IH]; cbn [map fold_right]; [lra|]. unfold sq at 1. pose proof (pow2_ge_0 (B a)). lra. }
    assert (NZ : INR n = IZR z) by (rewrite HZ, <- INR_IZR_INZ; reflexivity).
    pose proof tiny_pos as TY. pose proof u_pos as UP. pose proof u_small as US.
    assert (AP : 0 <= A) by (unfold A; rewrite NZ; assert (0 <= IZR z * tiny) by (apply Rmult_le_pos; lra); lra).
    assert (SE : Rabs (B s - T) <= growth (n + 3) * A).
    { replace (B s - T) with ((B s - total (map B (map npow2 l))) + (total (map B (map npow2 l)) - T)) by ring.
      eapply Rle_trans; [apply Rabs_triang|].
      assert (growth (n - 1) * total_abs (map B (map npow2 l)) <= growth (n - 1) * (p 4 * A)) by (apply Rmult_le_compat_l; [apply growth_pos|exact S2]).
      assert (EQ : growth (n + 3) * A = growth (n - 1) * (p 4 * A) + growth 4 * A).
      { replace (n + 3)%nat with ((n - 1) + 4)%nat by lia. unfold growth. rewrite (p_add (n - 1) 4). ring. }
      rewrite EQ. lra. }
    assert (AZ : A / IZR z = r + tiny) by (unfold A, r; rewrite NZ; field; lra).
    assert (RP : 0 <= r) by (unfold r; apply Rmult_le_pos; [exact TP|left; apply Rinv_0_lt_compat; exact ZP]).
    assert (NR : near x r (r + 2 * tiny) (S (n + 3))).
    { apply (near_round x (B s / IZR z) r (r + tiny)); [lra|rewrite DX; exact FX|rewrite Rabs_pos_eq; lra| |].
      - replace (B s / IZR z - r) with ((B s - T) * / IZR z) by (unfold r; field; lra).
        rewrite Rabs_mult, (Rabs_pos_eq (/ IZR z)) by (left; apply Rinv_0_lt_compat; exact ZP).
        rewrite <- AZ. unfold Rdiv. rewrite <- Rmult_assoc. apply Rmult_le_compat_r; [left; apply Rinv_0_lt_compat; exact ZP|exact SE].
      - replace (r + 2 * tiny - (r + tiny)) with tiny by ring. exact ED. }
    destruct NR as (_ & _ & NE).
    assert (RT : 2 * tiny <= r).
    { assert (S : / 2 ^ 1000 <= r).
      { rewrite <- (sqrt_sqrt r RP). replace (/ 2 ^ 1000) with (/ 2 ^ 500 * / 2 ^ 500) by (rewrite <- Rinv_mult, <- pow_add; reflexivity).
        assert (0 < / 2 ^ 500) by (apply Rinv_0_lt_compat, pow_lt; lra). apply Rmult_le_compat; lra. }
      apply Rle_trans with (/ 2 ^ 1000); [|exact S]. unfold tiny. replace (/ 2 ^ 1000) with (2 ^ 22 * / 2 ^ 1022).
      - apply Rmult_le_compat_r; [left; apply Rinv_0_lt_compat, pow_lt; lra|]. cbn. lra.
      - replace 1022%nat with (22 + 1000)%nat by reflexivity. rewrite pow_add, Rinv_mult, <- Rmult_assoc, Rinv_r, Rmult_1_l; [reflexivity|apply pow_nonzero; lra]. }
    set (G := 2 * growth (S (n + 3))).
    assert (GB : 0 <= G <= 2 * (IZR z + 5) * u).
    { unfold G. pose proof (growth_pos (S (n + 3))). pose proof (growth_linear (S (n + 3))) as L.
      assert (growth (S (n + 3)) <= INR (S (S (n + 3))) * u) by (apply L; lia). rewrite !S_INR, plus_INR, NZ in H0. replace (INR 3) with 3 in H0 by (cbn; lra). lra. }
    assert (G1 : G <= 1).
    { apply Rle_trans with (2 * (IZR (2 ^ 24) + 5) * u); [eapply Rle_trans; [apply GB|]; apply Rmult_le_compat_r; [lra|]; pose proof (IZR_le z (2 ^ 24) (proj2 ZB)); lra|].
      change (IZR (2 ^ 24)) with 16777216. unfold unit_roundoff. apply Rmult_le_reg_r with (2 ^ 53); [apply pow_lt; lra|]. rewrite Rmult_assoc, Rinv_l by (apply pow_nonzero; lra).
      apply Rle_trans with (2 ^ 26); [cbn; lra|]. rewrite Rmult_1_l. apply Rle_pow; [lra|lia]. }
    assert (XE : Rabs (B x - r) <= G * r).
    { eapply Rle_trans; [exact NE|]. unfold G. replace (2 * growth (S (n + 3)) * r) with (growth (S (n + 3)) * (2 * r)) by ring. apply Rmult_le_compat_l; [apply growth_pos|lra]. }
    pose proof (sqrt_pos r) as SR. pose proof (sqrt_pos (B x)) as SX.
    assert (SRP : 0 < sqrt r) by (assert (0 < / 2 ^ 500) by (apply Rinv_0_lt_compat, pow_lt; lra); lra).
    assert (SD : Rabs (sqrt (B x) - sqrt r) <= G * sqrt r).
    { apply Rmult_le_reg_r with (sqrt (B x) + sqrt r); [lra|]. rewrite <- (Rabs_pos_eq (sqrt (B x) + sqrt r)) at 1 by lra. rewrite <- Rabs_mult.
      replace ((sqrt (B x) - sqrt r) * (sqrt (B x) + sqrt r)) with (B x - r) by (rewrite <- (sqrt_sqrt (B x) XP) at 1; rewrite <- (sqrt_sqrt r RP) at 1; ring).
      eapply Rle_trans; [exact XE|]. rewrite <- (sqrt_sqrt r RP) at 1. rewrite <- Rmult_assoc.
      apply Rmult_le_compat_l; [apply Rmult_le_pos; lra|lra]. }
    replace (B (Bsqrt mode_NE x) - sqrt r) with ((B (Bsqrt mode_NE x) - sqrt (B x)) + (sqrt (B x) - sqrt r)) by ring.
    eapply Rle_trans; [apply Rabs_triang|].
    assert (SU : sqrt (B x) <= 2 * sqrt r).
    { apply Rabs_le_inv in SD. assert (G * sqrt r <= 1 * sqrt r) by (apply Rmult_le_compat_r; lra). lra. }
    assert (TS : tiny <= sqrt r).
    { apply Rle_trans with (/ 2 ^ 500); [|exact RB]. unfold tiny. apply Rinv_le_contravar; [apply pow_lt; lra|apply Rle_pow; [lra|lia]]. }
    assert (u * (sqrt (B x) + tiny) <= u * (3 * sqrt r)) by (apply Rmult_le_compat_l; lra).
    assert (G * sqrt r <= 2 * (IZR z + 5) * u * sqrt r) by (apply Rmult_le_compat_r; lra).
    assert (0 <= u * sqrt r) by (apply Rmult_le_pos; lra). lra.
  Qed.

  Lemma norm_finite (rsum : double -> list double -> double) (l : list double) (z : Z) :
    (forall k, reduction nadd (nint 0) (nint 0) k (rsum (nint 0) k)) -> (1 <= z <= 2 ^ 24)%Z ->
    finite (nsqrt (rsum (nint 0) (map npow2 l) / nint z)%num) -> Forall finite l.
  Proof.
    intros HR ZB F. rewrite (proj1 IN) in F. destruct (sqrt_error _ F) as (FX & _).
    destruct (int_exact z ltac:(lia)) as (FZ & EZ). assert (ZP : 0 < IZR z) by (apply IZR_lt; lia).
    rewrite div_is, (int_is z) in FX. destruct (div_error _ _ ltac:(rewrite EZ; lra) FX) as (FS & _).
    assert (R : reduction (V := double) (Bplus mode_NE) (nint 0) (nint 0) (map npow2 l) (rsum (nint 0) (map npow2 l))) by (eapply reduction_ext; [|apply HR]; intros; apply add_is).
    apply reduction_error in R as (FQ & _); [|rewrite int_is; apply (int_exact 0); lia|exact FS].
    clear - FQ IN. induction l as [|x l IH]; [constructor|]. inversion FQ; subst. constructor; [apply (proj2 IN); assumption|apply IH; assumption].
  Qed.
End Norm.
