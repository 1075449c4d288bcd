(** Exactness of the discrete operators on polynomials. *)
From Coq Require Import ZArith Reals List Lra Lia.
From Verif Require Import ZList SpecField SpecPoly SumProofs.
Import ListNotations.
Local Open Scope R_scope.

Lemma peval_app p q x y z : peval (p ++ q) x y z = peval p x y z + peval q x y z.
Proof. unfold peval. rewrite map_app, Rsum_app. reflexivity. Qed.

(** The formal derivatives are the derivatives. *)
Lemma mono_dx q x y z :
  derivable_pt_lim (fun x => meval q x y z) x
    (meval {| mc := mc q * INR (ma q); ma := pred (ma q); mb := mb q; me := me q |} x y z).
Proof.
  unfold meval. simpl.
  replace (mc q * INR (ma q) * x ^ pred (ma q) * y ^ mb q * z ^ me q)
    with (mc q * y ^ mb q * z ^ me q * (INR (ma q) * x ^ pred (ma q))) by ring.
  assert (E : forall g, derivable_pt_lim (fun t => mc q * y ^ mb q * z ^ me q * t ^ ma q) x g ->
              derivable_pt_lim (fun t => mc q * t ^ ma q * y ^ mb q * z ^ me q) x g).
  { intros g H eps He. destruct (H eps He) as (d & Hd). exists d. intros h h0 hd.
    replace (mc q * (x + h) ^ ma q * y ^ mb q * z ^ me q) with (mc q * y ^ mb q * z ^ me q * (x + h) ^ ma q) by ring.
    replace (mc q * x ^ ma q * y ^ mb q * z ^ me q) with (mc q * y ^ mb q * z ^ me q * x ^ ma q) by ring.
    apply Hd; auto. }
  apply E. apply (derivable_pt_lim_scal (fun t => t ^ ma q)). apply derivable_pt_lim_pow.
Qed.

Lemma swap_lim f g x l : (forall t, f t = g t) -> derivable_pt_lim f x l -> derivable_pt_lim g x l.
Proof. intros E H eps He. destruct (H eps He) as (d & Hd). exists d. intros. rewrite <- !E. auto. Qed.

Lemma mono_dy q x y z :
  derivable_pt_lim (fun y => meval q x y z) y
    (meval {| mc := mc q * INR (mb q); ma := ma q; mb := pred (mb q); me := me q |} x y z).
Proof.
  pose proof (mono_dx {| mc := mc q; ma := mb q; mb := ma q; me := me q |} y x z) as H.
  unfold meval in *. simpl in *.
  replace (mc q * INR (mb q) * x ^ ma q * y ^ pred (mb q) * z ^ me q)
    with (mc q * INR (mb q) * y ^ pred (mb q) * x ^ ma q * z ^ me q) by ring.
  eapply swap_lim; [|exact H]. intros; simpl; ring.
Qed.

Lemma mono_dz q x y z :
  derivable_pt_lim (fun z => meval q x y z) z
    (meval {| mc := mc q * INR (me q); ma := ma q; mb := mb q; me := pred (me q) |} x y z).
Proof.
  pose proof (mono_dx {| mc := mc q; ma := me q; mb := mb q; me := ma q |} z y x) as H.
  unfold meval in *. simpl in *.
  replace (mc q * INR (me q) * x ^ ma q * y ^ mb q * z ^ pred (me q))
    with (mc q * INR (me q) * z ^ pred (me q) * y ^ mb q * x ^ ma q) by ring.
  eapply swap_lim; [|exact H]. intros; simpl; ring.
Qed.

Lemma derivable_const0 x : derivable_pt_lim (fun _ => 0) x 0.
Proof. apply derivable_pt_lim_const. Qed.

Lemma pdx_derivative p x y z : derivable_pt_lim (fun x => peval p x y z) x (peval (pdx p) x y z).
Proof.
  unfold peval, pdx. induction p as [|q p IH]; simpl; [apply derivable_const0|].
  apply (derivable_pt_lim_plus (fun x => meval q x y z)); [apply mono_dx|exact IH].
Qed.
Lemma pdy_derivative p x y z : derivable_pt_lim (fun y => peval p x y z) y (peval (pdy p) x y z).
Proof.
  unfold peval, pdy. induction p as [|q p IH]; simpl; [apply derivable_const0|].
  apply (derivable_pt_lim_plus (fun y => meval q x y z)); [apply mono_dy|exact IH].
Qed.
Lemma pdz_derivative p x y z : derivable_pt_lim (fun z => peval p x y z) z (peval (pdz p) x y z).
Proof.
  unfold peval, pdz. induction p as [|q p IH]; simpl; [apply derivable_const0|].
  apply (derivable_pt_lim_plus (fun z => meval q x y z)); [apply mono_dz|exact IH].
Qed.

Lemma peval_cons q p x y z : peval (q :: p) x y z = meval q x y z + peval p x y z.
Proof. reflexivity. Qed.

Lemma plap_cons q p x y z : peval (plap (q :: p)) x y z = peval (plap [q]) x y z + peval (plap p) x y z.
Proof. unfold plap, pdx, pdy, pdz. simpl. repeat (rewrite peval_app || rewrite peval_cons || rewrite !peval_cons). unfold peval at 2 4 6; simpl; lra. Qed.

Lemma plap_app p q x y z : peval (plap (p ++ q)) x y z = peval (plap p) x y z + peval (plap q) x y z.
Proof.
  induction p as [|r p IH]; simpl app.
  - unfold plap at 2. simpl. unfold peval at 2. simpl. lra.
  - rewrite plap_cons, IH, (plap_cons r p). lra.
Qed.

Lemma Lap3_add h f g i j k : Lap3 h (fun i j k => f i j k + g i j k) i j k = Lap3 h f i j k + Lap3 h g i j k.
Proof. unfold Lap3, dxx3, dyy3, dzz3, Rdiv. ring. Qed.

Lemma Lap3_eq h f g i j k : (forall i j k, f i j k = g i j k) -> Lap3 h f i j k = Lap3 h g i j k.
Proof. intros E. unfold Lap3, dxx3, dyy3, dzz3. rewrite !E. reflexivity. Qed.

Section Poly.
  Variables (h x0 y0 z0 : R).
  Hypothesis Hh : h <> 0.
  Let X (i : Z) := x0 + h * IZR i.
  Let Y (j : Z) := y0 + h * IZR j.
  Let W (k : Z) := z0 + h * IZR k.

  Lemma shift_p (o : R) i : o + h * IZR (i + 1) = o + h * IZR i + h.
  Proof. rewrite plus_IZR. ring. Qed.
  Lemma shift_m (o : R) i : o + h * IZR (i - 1) = o + h * IZR i - h.
  Proof. rewrite minus_IZR. ring. Qed.

  Lemma mono_lap q i j k :
    (ma q + mb q + me q <= 3)%nat ->
    Lap3 h (fun i j k => meval q (X i) (Y j) (W k)) i j k = peval (plap [q]) (X i) (Y j) (W k).
  Proof.
    intros D. unfold Lap3, dxx3, dyy3, dzz3, X, Y, W. rewrite !shift_p, !shift_m.
    generalize (x0 + h * IZR i), (y0 + h * IZR j), (z0 + h * IZR k). intros x y z.
    destruct q as [c a b e]. unfold meval, peval, plap, pdx, pdy, pdz, meval. simpl in D.
    cbn [mc ma mb me map app].
    destruct a as [|[|[|[|a]]]]; try lia; destruct b as [|[|[|[|b]]]]; try lia;
      destruct e as [|[|[|[|e]]]]; try lia; cbn [pred pow Rsum fold_right]; rewrite ?INR_IZR_INZ; cbn [Z.of_nat Pos.of_succ_nat Pos.succ]; field; auto.
  Qed.

  Theorem poly_lap p i j k :
    degree_le p 3 ->
    Lap3 h (fun i j k => peval p (X i) (Y j) (W k)) i j k = peval (plap p) (X i) (Y j) (W k).
  Proof.
    induction p as [|q p IH]; intros D.
    - unfold peval, plap. simpl. unfold Lap3, dxx3, dyy3, dzz3. field. auto.
    - inversion D; subst. rewrite plap_cons, <- IH, <- mono_lap by auto. rewrite <- Lap3_add.
      apply Lap3_eq. intros; apply peval_cons.
  Qed.

  Lemma shift_2 (o : R) i : o + h * IZR (i + 1 + 1) = o + h * IZR i + 2 * h.
  Proof. rewrite !plus_IZR. ring. Qed.

  Lemma mono_bih q i j k :
    (ma q + mb q + me q <= 5)%nat ->
    Lap3 h (Lap3 h (fun i j k => meval q (X i) (Y j) (W k))) i j k = peval (plap (plap [q])) (X i) (Y j) (W k).
  Proof.
    intros D. unfold Lap3, dxx3, dyy3, dzz3, X, Y, W.
    replace (i + 1 - 1)%Z with i by lia. replace (i - 1 + 1)%Z with i by lia.
    replace (j + 1 - 1)%Z with j by lia. replace (j - 1 + 1)%Z with j by lia.
    replace (k + 1 - 1)%Z with k by lia. replace (k - 1 + 1)%Z with k by lia.
    rewrite !shift_p, !shift_m.
    generalize (x0 + h * IZR i), (y0 + h * IZR j), (z0 + h * IZR k). intros x y z.
    destruct q as [c a b e]. unfold meval, peval, plap, pdx, pdy, pdz, meval. simpl in D.
    cbn [mc ma mb me map app].
    destruct a as [|[|[|[|[|[|a]]]]]]; try lia; destruct b as [|[|[|[|[|[|b]]]]]]; try lia;
      destruct e as [|[|[|[|[|[|e]]]]]]; try lia; cbn [pred pow Rsum fold_right]; rewrite ?INR_IZR_INZ; cbn [Z.of_nat Pos.of_succ_nat Pos.succ]; field; auto.
  Qed.

  Theorem poly_bih p i j k :
    degree_le p 5 ->
    Lap3 h (Lap3 h (fun i j k => peval p (X i) (Y j) (W k))) i j k = peval (plap (plap p)) (X i) (Y j) (W k).
  Proof.
    induction p as [|q p IH]; intros D.
    - unfold peval, plap. simpl. unfold Lap3, dxx3, dyy3, dzz3. field. auto.
    - inversion D; subst.
      transitivity (peval (plap (plap [q])) (X i) (Y j) (W k) + peval (plap (plap p)) (X i) (Y j) (W k)).
      + rewrite <- IH, <- mono_bih by auto. rewrite <- Lap3_add.
        apply Lap3_eq. intros. rewrite <- Lap3_add. apply Lap3_eq. intros; apply peval_cons.
      + change (plap (q :: p)) with (plap ([q] ++ p)).
        assert (XA : forall a b, pdx (a ++ b) = pdx a ++ pdx b) by (intros; unfold pdx; apply map_app).
        assert (YA : forall a b, pdy (a ++ b) = pdy a ++ pdy b) by (intros; unfold pdy; apply map_app).
        assert (ZA : forall a b, pdz (a ++ b) = pdz a ++ pdz b) by (intros; unfold pdz; apply map_app).
        unfold plap. repeat (rewrite XA || rewrite YA || rewrite ZA || rewrite peval_app). ring.
  Qed.
End Poly.
