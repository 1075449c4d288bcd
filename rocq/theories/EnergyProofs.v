(** Energy dissipation of the spatial operator. *)
From Coq Require Import ZArith Reals List Lra Lia.
From Verif Require Import ZList ZListProofs Num ModelDisc3D SpecGrid SpecField SumProofs FieldProofs.
Import ListNotations.
Local Open Scope R_scope.

Lemma lim_ext f g x l : (forall t, f t = g t) -> derivable_pt_lim f x l -> derivable_pt_lim g x l.
Proof. intros E H eps He. destruct (H eps He) as (d & Hd). exists d. intros. rewrite <- !E. auto. Qed.

Lemma lim_eq f x l l' : l = l' -> derivable_pt_lim f x l -> derivable_pt_lim f x l'.
Proof. intros ->; auto. Qed.

Lemma quartic_lim a b c d e :
  derivable_pt_lim (fun t => a + b * t + c * t ^ 2 + d * t ^ 3 + e * t ^ 4) 0 b.
Proof.
  eapply lim_eq; cycle 1.
  - apply (derivable_pt_lim_plus (fun t => a + b * t + c * t ^ 2 + d * t ^ 3) (fun t => e * t ^ 4)).
    + apply (derivable_pt_lim_plus (fun t => a + b * t + c * t ^ 2) (fun t => d * t ^ 3)).
      * apply (derivable_pt_lim_plus (fun t => a + b * t) (fun t => c * t ^ 2)).
        -- apply (derivable_pt_lim_plus (fun _ => a) (fun t => b * t)).
           ++ apply derivable_pt_lim_const.
           ++ apply (derivable_pt_lim_scal (fun t => t)). apply derivable_pt_lim_id.
        -- apply (derivable_pt_lim_scal (fun t => t ^ 2)). apply derivable_pt_lim_pow.
      * apply (derivable_pt_lim_scal (fun t => t ^ 3)). apply derivable_pt_lim_pow.
    + apply (derivable_pt_lim_scal (fun t => t ^ 4)). apply derivable_pt_lim_pow.
  - simpl. ring.
Qed.

Lemma lim_Rsum {A} (f : R -> A -> R) (f' : A -> R) x l :
  (forall a, In a l -> derivable_pt_lim (fun t => f t a) x (f' a)) ->
  derivable_pt_lim (fun t => Rsum (map (f t) l)) x (Rsum (map f' l)).
Proof.
  induction l as [|a l IH]; simpl; intros H.
  - apply derivable_pt_lim_const.
  - apply (derivable_pt_lim_plus (fun t => f t a) (fun t => Rsum (map (f t) l))).
    + apply H; auto.
    + apply IH. auto.
Qed.

Lemma lim_sum1 n (f : R -> Z -> R) f' x :
  (forall i, (0 <= i < n)%Z -> derivable_pt_lim (fun t => f t i) x (f' i)) ->
  derivable_pt_lim (fun t => sum1 n (f t)) x (sum1 n f').
Proof. intros H. apply lim_Rsum. intros i Hi. apply H, in_zrange, Hi. Qed.

Lemma lim_sum3 n m l (f : R -> Z -> Z -> Z -> R) f' x :
  (forall i j k, (0 <= i < n)%Z -> (0 <= j < m)%Z -> (0 <= k < l)%Z ->
     derivable_pt_lim (fun t => f t i j k) x (f' i j k)) ->
  derivable_pt_lim (fun t => sum3 n m l (f t)) x (sum3 n m l f').
Proof.
  intros H. apply lim_sum1. intros i Hi. apply lim_sum1. intros j Hj. apply lim_sum1. auto.
Qed.

Lemma lim_sum2 n m (f : R -> Z -> Z -> R) f' x :
  (forall i j, (0 <= i < n)%Z -> (0 <= j < m)%Z -> derivable_pt_lim (fun t => f t i j) x (f' i j)) ->
  derivable_pt_lim (fun t => sum2 n m (f t)) x (sum2 n m f').
Proof. intros H. apply lim_sum1. intros i Hi. apply lim_sum1. auto. Qed.

(** Summation by parts with wrapped indices. *)
Lemma sum1_by_parts n (f g : Z -> R) :
  (1 <= n)%Z ->
  sum1 n (fun i => (f ((i + 1) mod n)%Z - f (i mod n)%Z) * (g ((i + 1) mod n)%Z - g (i mod n)%Z)) =
  - sum1 n (fun i => (f ((i + 1) mod n)%Z - 2 * f (i mod n)%Z + f ((i - 1) mod n)%Z) * g (i mod n)%Z).
Proof.
  intros H.
  assert (SH : forall (F : Z -> Z -> R) s, sum1 n (fun i => F ((i + 1 + s) mod n)%Z ((i + s) mod n)%Z) =
                                          sum1 n (fun i => F ((i + 1) mod n)%Z (i mod n)%Z)).
  { intros F s. pose proof (sum1_shift n s (fun q => F ((q + 1) mod n)%Z q)) as E.
    rewrite (sum1_ext n _ (fun i => F ((i + 1 + s) mod n)%Z ((i + s) mod n)%Z)) in E.
    - rewrite E. apply sum1_ext. intros i Hi. rewrite (Z.mod_small i) by lia. reflexivity.
    - intros i Hi. rewrite Zplus_mod_idemp_l. f_equal. f_equal. lia. }
  rewrite (sum1_ext n _ (fun i => (f ((i + 1) mod n)%Z - f (i mod n)%Z) * g ((i + 1) mod n)%Z
                                  - (f ((i + 1) mod n)%Z - f (i mod n)%Z) * g (i mod n)%Z)) by (intros; ring).
  rewrite sum1_minus.
  rewrite <- (SH (fun a b => (f a - f b) * g a) (-1)%Z).
  rewrite <- sum1_minus, <- sum1_opp. apply sum1_ext. intros i Hi.
  replace (i + 1 + -1)%Z with i by lia. replace (i + -1)%Z with (i - 1)%Z by lia. ring.
Qed.

Section Energy3.
  Variable dom : domain R.
  Hypothesis HV : valid_domain3 dom.
  Variables (h eps2 : R).
  Hypothesis Hh : h <> 0.


  (** Sum of products of forward differences. *)
  Definition grad3 (f g : Z -> Z -> Z -> R) : R :=
    total3 dom (fun i j k =>
      ((f (i + 1)%Z j k - f i j k) / h) * ((g (i + 1)%Z j k - g i j k) / h)
      + ((f i (j + 1)%Z k - f i j k) / h) * ((g i (j + 1)%Z k - g i j k) / h)
      + ((f i j (k + 1)%Z - f i j k) / h) * ((g i j (k + 1)%Z - g i j k) / h)).

  Lemma grad3_by_parts f g :
    grad3 (periodic3 dom f) (periodic3 dom g) =
    - total3 dom (fun i j k => Lap3 h (periodic3 dom f) i j k * periodic3 dom g i j k).
  Proof.
    destruct HV as (H1 & H2 & H3 & _).
    unfold grad3, total3.
    rewrite !sum3_plus.
    rewrite (sum3_ext _ _ _ (fun i j k => Lap3 h (periodic3 dom f) i j k * periodic3 dom g i j k)
      (fun i j k => dxx3 h (periodic3 dom f) i j k * periodic3 dom g i j k
                  + dyy3 h (periodic3 dom f) i j k * periodic3 dom g i j k
                  + dzz3 h (periodic3 dom f) i j k * periodic3 dom g i j k))
      by (intros; unfold Lap3; ring).
    rewrite !sum3_plus, !Ropp_plus_distr.
    assert (SC : forall a b, (a / h) * (b / h) = / (h ^ 2) * (a * b)) by (intros; field; auto).
    assert (SD : forall a b, (a / h ^ 2) * b = / (h ^ 2) * (a * b)) by (intros; field; auto).
    f_equal; [f_equal|].
    - rewrite !sum3_x. unfold sum2. rewrite <- sum1_opp. apply sum1_ext. intros j _.
      rewrite <- sum1_opp. apply sum1_ext. intros k _. unfold periodic3, dxx3.
      rewrite (sum1_ext (nx dom) _ _ (fun i _ => SC _ _)), (sum1_ext (nx dom) _ _ (fun i _ => SD _ _)), !sum1_scal.
      rewrite (sum1_by_parts (nx dom) (fun i => f i (j mod ny dom)%Z (k mod nz dom)%Z) (fun i => g i (j mod ny dom)%Z (k mod nz dom)%Z)) by auto.
      ring.
    - rewrite !sum3_y. unfold sum2. rewrite <- sum1_opp. apply sum1_ext. intros i _.
      rewrite <- sum1_opp. apply sum1_ext. intros k _. unfold periodic3, dyy3.
      rewrite (sum1_ext (ny dom) _ _ (fun i _ => SC _ _)), (sum1_ext (ny dom) _ _ (fun i _ => SD _ _)), !sum1_scal.
      rewrite (sum1_by_parts (ny dom) (fun j => f (i mod nx dom)%Z j (k mod nz dom)%Z) (fun j => g (i mod nx dom)%Z j (k mod nz dom)%Z)) by auto.
      ring.
    - unfold sum3, sum2. rewrite <- sum1_opp. apply sum1_ext. intros i _.
      rewrite <- sum1_opp. apply sum1_ext. intros j _. unfold periodic3, dzz3.
      rewrite (sum1_ext (nz dom) _ _ (fun i _ => SC _ _)), (sum1_ext (nz dom) _ _ (fun i _ => SD _ _)), !sum1_scal.
      rewrite (sum1_by_parts (nz dom) (fun k => f (i mod nx dom)%Z (j mod ny dom)%Z k) (fun k => g (i mod nx dom)%Z (j mod ny dom)%Z k)) by auto.
      ring.
  Qed.

  (** Chemical potential of the (periodic) field w. *)
  Definition mu3 (w : Z -> Z -> Z -> R) (i j k : Z) : R := w i j k ^ 3 - w i j k - eps2 * Lap3 h w i j k.

  Lemma energy3_derivative u r :
    derivable_pt_lim (fun t => energy3 dom h eps2 (fun i j k => u i j k + t * r i j k)) 0
      (total3 dom (fun i j k => mu3 (periodic3 dom u) i j k * r i j k)).
  Proof.
    set (w := periodic3 dom u). set (p := periodic3 dom r).
    set (D := fun i j k : Z =>
      (u i j k ^ 3 - u i j k) * r i j k
      + eps2 * (((w (i + 1)%Z j k - w i j k) / h) * ((p (i + 1)%Z j k - p i j k) / h)
                + ((w i (j + 1)%Z k - w i j k) / h) * ((p i (j + 1)%Z k - p i j k) / h)
                + ((w i j (k + 1)%Z - w i j k) / h) * ((p i j (k + 1)%Z - p i j k) / h))).
    eapply lim_eq; [|unfold energy3, total3; apply (lim_sum3 (nx dom) (ny dom) (nz dom) _ D)].
    - unfold D. unfold total3.
      rewrite sum3_plus, sum3_scal.
      pose proof (grad3_by_parts u r) as G. unfold grad3, total3 in G. fold w p in G. rewrite G. clear G.
      rewrite (sum3_ext (nx dom) (ny dom) (nz dom) (fun i j k => mu3 w i j k * r i j k)
        (fun i j k => (u i j k ^ 3 - u i j k) * r i j k - eps2 * (Lap3 h w i j k * p i j k))).
      + rewrite sum3_minus, sum3_scal. ring.
      + intros i j k Hi Hj Hk. unfold mu3.
        assert (Ew : w i j k = u i j k) by (unfold w, periodic3; rewrite !Z.mod_small by auto; reflexivity).
        assert (Ep : p i j k = r i j k) by (unfold p, periodic3; rewrite !Z.mod_small by auto; reflexivity).
        rewrite Ew, Ep. ring.
    - intros i j k Hi Hj Hk. unfold D.
      set (U := u i j k). set (Q := r i j k).
      set (a1 := (w (i + 1)%Z j k - w i j k) / h). set (b1 := (p (i + 1)%Z j k - p i j k) / h).
      set (a2 := (w i (j + 1)%Z k - w i j k) / h). set (b2 := (p i (j + 1)%Z k - p i j k) / h).
      set (a3 := (w i j (k + 1)%Z - w i j k) / h). set (b3 := (p i j (k + 1)%Z - p i j k) / h).
      eapply lim_ext; cycle 1.
      + eapply lim_eq; [|apply (quartic_lim ((U ^ 2 - 1) ^ 2 / 4 + eps2 / 2 * (a1 ^ 2 + a2 ^ 2 + a3 ^ 2))
          ((U ^ 3 - U) * Q + eps2 * (a1 * b1 + a2 * b2 + a3 * b3))
          (((2 * U * Q) ^ 2 + 2 * (U ^ 2 - 1) * Q ^ 2) / 4 + eps2 / 2 * (b1 ^ 2 + b2 ^ 2 + b3 ^ 2))
          (U * Q ^ 3) (Q ^ 4 / 4))]. ring.
      + intros t. cbv beta. fold U Q.
        assert (P : forall i j k, periodic3 dom (fun i j k => u i j k + t * r i j k) i j k = w i j k + t * p i j k)
          by reflexivity.
        rewrite !P. 
        replace ((w (i + 1)%Z j k + t * p (i + 1)%Z j k - (w i j k + t * p i j k)) / h) with (a1 + t * b1) by (unfold a1, b1; field; auto).
        replace ((w i (j + 1)%Z k + t * p i (j + 1)%Z k - (w i j k + t * p i j k)) / h) with (a2 + t * b2) by (unfold a2, b2; field; auto).
        replace ((w i j (k + 1)%Z + t * p i j (k + 1)%Z - (w i j k + t * p i j k)) / h) with (a3 + t * b3) by (unfold a3, b3; field; auto).
        field.
  Qed.

  Lemma periodic3_mu u i j k : mu3 (periodic3 dom u) i j k = periodic3 dom (mu3 (periodic3 dom u)) i j k.
  Proof.
    unfold mu3. rewrite (Lap3_periodic dom HV). unfold periodic3.
    rewrite !Z.mod_mod by (destruct HV as (? & ? & ? & _); lia). reflexivity.
  Qed.

  Lemma CH3_is_Lap_mu mm w i j k : CH3 h mm 0 eps2 w i j k = Lap3 h (mu3 w) i j k.
  Proof. unfold CH3, mu3, Lap3, dxx3, dyy3, dzz3, Rdiv. ring. Qed.

  Theorem energy3_dissipation u r mm :
    (forall i j k, inside3 dom i j k -> r i j k = CH3 h mm 0 eps2 (periodic3 dom u) i j k) ->
    derivable_pt_lim (fun t => energy3 dom h eps2 (fun i j k => u i j k + t * r i j k)) 0
      (- grad3 (mu3 (periodic3 dom u)) (mu3 (periodic3 dom u))).
  Proof.
    intros HR. eapply lim_eq; [|apply energy3_derivative].
    set (mu := mu3 (periodic3 dom u)).
    assert (G : grad3 mu mu = grad3 (periodic3 dom mu) (periodic3 dom mu)).
    { unfold grad3, total3. apply sum3_ext. intros i j k _ _ _. unfold mu. rewrite <- !periodic3_mu. reflexivity. }
    rewrite G, grad3_by_parts, Ropp_involutive. unfold total3. apply sum3_ext. intros i j k Hi Hj Hk.
    rewrite HR by (unfold inside3; auto). rewrite CH3_is_Lap_mu. fold mu.
    unfold mu at 4. rewrite <- periodic3_mu. fold mu.
    rewrite (Lap3_ext h (periodic3 dom mu) mu) by (intros; unfold mu; symmetry; apply periodic3_mu). ring.
  Qed.

  Lemma grad3_nonneg f : 0 <= grad3 f f.
  Proof.
    unfold grad3. apply sum3_nonneg. intros.
    repeat apply Rplus_le_le_0_compat; apply Rle_0_sqr.
  Qed.
End Energy3.

Section Energy2.
  Variable dom : domain R.
  Hypothesis HV : valid_domain2 dom.
  Variables (h eps2 : R).
  Hypothesis Hh : h <> 0.

  Definition grad2 (f g : Z -> Z -> R) : R :=
    total2 dom (fun i j =>
      ((f (i + 1)%Z j - f i j) / h) * ((g (i + 1)%Z j - g i j) / h)
      + ((f i (j + 1)%Z - f i j) / h) * ((g i (j + 1)%Z - g i j) / h)).

  Lemma grad2_by_parts f g :
    grad2 (periodic2 dom f) (periodic2 dom g) =
    - total2 dom (fun i j => Lap2 h (periodic2 dom f) i j * periodic2 dom g i j).
  Proof.
    destruct HV as (H1 & _).
    unfold grad2, total2. rewrite sum2_plus.
    rewrite (sum2_ext _ _ (fun i j => Lap2 h (periodic2 dom f) i j * periodic2 dom g i j)
      (fun i j => dxx2 h (periodic2 dom f) i j * periodic2 dom g i j
                  + dyy2 h (periodic2 dom f) i j * periodic2 dom g i j))
      by (intros; unfold Lap2; ring).
    rewrite sum2_plus, Ropp_plus_distr.
    assert (SC : forall a b, (a / h) * (b / h) = / (h ^ 2) * (a * b)) by (intros; field; auto).
    assert (SD : forall a b, (a / h ^ 2) * b = / (h ^ 2) * (a * b)) by (intros; field; auto).
    f_equal.
    - rewrite !sum2_x. rewrite <- sum1_opp. apply sum1_ext. intros j _.
      unfold periodic2, dxx2.
      rewrite (sum1_ext (nx dom) _ _ (fun i _ => SC _ _)), (sum1_ext (nx dom) _ _ (fun i _ => SD _ _)), !sum1_scal.
      rewrite (sum1_by_parts (nx dom) (fun i => f i (j mod nx dom)%Z) (fun i => g i (j mod nx dom)%Z)) by auto. ring.
    - unfold sum2. rewrite <- sum1_opp. apply sum1_ext. intros i _.
      unfold periodic2, dyy2.
      rewrite (sum1_ext (nx dom) _ _ (fun i _ => SC _ _)), (sum1_ext (nx dom) _ _ (fun i _ => SD _ _)), !sum1_scal.
      rewrite (sum1_by_parts (nx dom) (fun j => f (i mod nx dom)%Z j) (fun j => g (i mod nx dom)%Z j)) by auto. ring.
  Qed.

  Definition mu2 (w : Z -> Z -> R) (i j : Z) : R := w i j ^ 3 - w i j - eps2 * Lap2 h w i j.

  Lemma energy2_derivative u r :
    derivable_pt_lim (fun t => energy2 dom h eps2 (fun i j => u i j + t * r i j)) 0
      (total2 dom (fun i j => mu2 (periodic2 dom u) i j * r i j)).
  Proof.
    set (w := periodic2 dom u). set (p := periodic2 dom r).
    set (D := fun i j : Z =>
      (u i j ^ 3 - u i j) * r i j
      + eps2 * (((w (i + 1)%Z j - w i j) / h) * ((p (i + 1)%Z j - p i j) / h)
                + ((w i (j + 1)%Z - w i j) / h) * ((p i (j + 1)%Z - p i j) / h))).
    eapply lim_eq; [|unfold energy2, total2; apply (lim_sum2 (nx dom) (nx dom) _ D)].
    - unfold D. unfold total2. rewrite sum2_plus, sum2_scal.
      pose proof (grad2_by_parts u r) as G. unfold grad2, total2 in G. fold w p in G. rewrite G. clear G.
      rewrite (sum2_ext (nx dom) (nx dom) (fun i j => mu2 w i j * r i j)
        (fun i j => (u i j ^ 3 - u i j) * r i j - eps2 * (Lap2 h w i j * p i j))).
      + rewrite sum2_minus, sum2_scal. ring.
      + intros i j Hi Hj. unfold mu2.
        assert (Ew : w i j = u i j) by (unfold w, periodic2; rewrite !Z.mod_small by auto; reflexivity).
        assert (Ep : p i j = r i j) by (unfold p, periodic2; rewrite !Z.mod_small by auto; reflexivity).
        rewrite Ew, Ep. ring.
    - intros i j Hi Hj. unfold D.
      set (U := u i j). set (Q := r i j).
      set (a1 := (w (i + 1)%Z j - w i j) / h). set (b1 := (p (i + 1)%Z j - p i j) / h).
      set (a2 := (w i (j + 1)%Z - w i j) / h). set (b2 := (p i (j + 1)%Z - p i j) / h).
      eapply lim_ext; cycle 1.
      + eapply lim_eq; [|apply (quartic_lim ((U ^ 2 - 1) ^ 2 / 4 + eps2 / 2 * (a1 ^ 2 + a2 ^ 2))
          ((U ^ 3 - U) * Q + eps2 * (a1 * b1 + a2 * b2))
          (((2 * U * Q) ^ 2 + 2 * (U ^ 2 - 1) * Q ^ 2) / 4 + eps2 / 2 * (b1 ^ 2 + b2 ^ 2))
          (U * Q ^ 3) (Q ^ 4 / 4))]. ring.
      + intros t. cbv beta. fold U Q.
        assert (P : forall i j, periodic2 dom (fun i j => u i j + t * r i j) i j = w i j + t * p i j) by reflexivity.
        rewrite !P.
        replace ((w (i + 1)%Z j + t * p (i + 1)%Z j - (w i j + t * p i j)) / h) with (a1 + t * b1) by (unfold a1, b1; field; auto).
        replace ((w i (j + 1)%Z + t * p i (j + 1)%Z - (w i j + t * p i j)) / h) with (a2 + t * b2) by (unfold a2, b2; field; auto).
        field.
  Qed.

  Lemma periodic2_mu u i j : mu2 (periodic2 dom u) i j = periodic2 dom (mu2 (periodic2 dom u)) i j.
  Proof.
    unfold mu2. rewrite (periodic2_Lap dom) by auto. unfold periodic2.
    rewrite !Z.mod_mod by (destruct HV; lia). reflexivity.
  Qed.

  Lemma CH2_is_Lap_mu mm w i j : CH2 h mm 0 eps2 w i j = Lap2 h (mu2 w) i j.
  Proof. unfold CH2, mu2, Lap2, dxx2, dyy2, Rdiv. ring. Qed.

  Theorem energy2_dissipation u r mm :
    (forall i j, inside2 dom i j -> r i j = CH2 h mm 0 eps2 (periodic2 dom u) i j) ->
    derivable_pt_lim (fun t => energy2 dom h eps2 (fun i j => u i j + t * r i j)) 0
      (- grad2 (mu2 (periodic2 dom u)) (mu2 (periodic2 dom u))).
  Proof.
    intros HR. eapply lim_eq; [|apply energy2_derivative].
    set (mu := mu2 (periodic2 dom u)).
    assert (G : grad2 mu mu = grad2 (periodic2 dom mu) (periodic2 dom mu)).
    { unfold grad2, total2. apply sum2_ext. intros i j _ _. unfold mu. rewrite <- !periodic2_mu. reflexivity. }
    rewrite G, grad2_by_parts, Ropp_involutive. unfold total2. apply sum2_ext. intros i j Hi Hj.
    rewrite HR by (unfold inside2; auto). rewrite CH2_is_Lap_mu. fold mu.
    unfold mu at 4. rewrite <- periodic2_mu. fold mu.
    rewrite (Lap2_ext h (periodic2 dom mu) mu) by (intros; unfold mu; symmetry; apply periodic2_mu). ring.
  Qed.

  Lemma grad2_nonneg f : 0 <= grad2 f f.
  Proof.
    unfold grad2. apply sum2_nonneg. intros.
    repeat apply Rplus_le_le_0_compat; apply Rle_0_sqr.
  Qed.
End Energy2.
