(** Sums over index boxes and cyclic shifts. *)
From Coq Require Import ZArith Reals List Permutation Lra Lia.
From Verif Require Import ZList ZListProofs Gather ModelDisc3D SpecGrid SpecField.
Import ListNotations.
Local Open Scope R_scope.

Lemma Rsum_app l1 l2 : Rsum (l1 ++ l2) = Rsum l1 + Rsum l2.
Proof. induction l1 as [|x l IH]; simpl; [|rewrite IH]; lra. Qed.

Lemma Rsum_perm l1 l2 : Permutation l1 l2 -> Rsum l1 = Rsum l2.
Proof. induction 1; simpl; lra. Qed.

Lemma Rsum_map_ext {A} (f g : A -> R) l : (forall x, In x l -> f x = g x) -> Rsum (map f l) = Rsum (map g l).
Proof. intros E. f_equal. apply map_ext_in; auto. Qed.

Lemma Rsum_map_plus {A} (f g : A -> R) l : Rsum (map (fun x => f x + g x) l) = Rsum (map f l) + Rsum (map g l).
Proof. induction l as [|x l IH]; simpl; [lra|rewrite IH; lra]. Qed.

Lemma Rsum_map_scal {A} c (f : A -> R) l : Rsum (map (fun x => c * f x) l) = c * Rsum (map f l).
Proof. induction l as [|x l IH]; simpl; [lra|rewrite IH; lra]. Qed.

Lemma Rsum_map_const {A} c (l : list A) : Rsum (map (fun _ => c) l) = INR (length l) * c.
Proof. induction l as [|x l IH]; cbn [map Rsum fold_right length]; [simpl; lra|]. rewrite S_INR. unfold Rsum in IH. rewrite IH. lra. Qed.

Lemma Rsum_map_nonneg {A} (f : A -> R) l : (forall x, In x l -> 0 <= f x) -> 0 <= Rsum (map f l).
Proof.
  induction l as [|x l IH]; simpl; intros H; [lra|].
  pose proof (H x (or_introl eq_refl)). pose proof (IH (fun y Hy => H y (or_intror Hy))). lra.
Qed.

Lemma Rsum_map_le {A} (f g : A -> R) l : (forall x, In x l -> f x <= g x) -> Rsum (map f l) <= Rsum (map g l).
Proof.
  induction l as [|x l IH]; simpl; intros H; [lra|].
  pose proof (H x (or_introl eq_refl)). pose proof (IH (fun y Hy => H y (or_intror Hy))). lra.
Qed.

Lemma Rsum_map_swap {A B} (f : A -> B -> R) l1 l2 :
  Rsum (map (fun x => Rsum (map (f x) l2)) l1) = Rsum (map (fun y => Rsum (map (fun x => f x y) l1)) l2).
Proof.
  induction l1 as [|x l1 IH]; simpl.
  - induction l2; simpl; lra.
  - rewrite IH, <- Rsum_map_plus. reflexivity.
Qed.

(** ** One index *)

Lemma sum1_ext n f g : (forall i, (0 <= i < n)%Z -> f i = g i) -> sum1 n f = sum1 n g.
Proof. intros E. apply Rsum_map_ext. intros i Hi. apply E, in_zrange, Hi. Qed.
Lemma sum1_plus n f g : sum1 n (fun i => f i + g i) = sum1 n f + sum1 n g.
Proof. apply Rsum_map_plus. Qed.
Lemma sum1_scal n c f : sum1 n (fun i => c * f i) = c * sum1 n f.
Proof. apply Rsum_map_scal. Qed.
Lemma sum1_opp n f : sum1 n (fun i => - f i) = - sum1 n f.
Proof. rewrite (sum1_ext n _ (fun i => -1 * f i)) by (intros; lra). rewrite sum1_scal. lra. Qed.
Lemma sum1_minus n f g : sum1 n (fun i => f i - g i) = sum1 n f - sum1 n g.
Proof. unfold Rminus. rewrite sum1_plus, sum1_opp. reflexivity. Qed.
Lemma sum1_div n f c : sum1 n (fun i => f i / c) = sum1 n f / c.
Proof. rewrite (sum1_ext n _ (fun i => / c * f i)) by (intros; unfold Rdiv; lra). rewrite sum1_scal. unfold Rdiv; lra. Qed.
Lemma sum1_const n c : (0 <= n)%Z -> sum1 n (fun _ => c) = IZR n * c.
Proof.
  intros H. unfold sum1. rewrite Rsum_map_const. f_equal. rewrite INR_IZR_INZ. f_equal.
  change (Z.of_nat (length (zrange 0 n))) with (zlen (zrange 0 n)). rewrite zlen_zrange. lia.
Qed.
Lemma sum1_nonneg n f : (forall i, (0 <= i < n)%Z -> 0 <= f i) -> 0 <= sum1 n f.
Proof. intros H. apply Rsum_map_nonneg. intros i Hi. apply H, in_zrange, Hi. Qed.
Lemma sum1_le n f g : (forall i, (0 <= i < n)%Z -> f i <= g i) -> sum1 n f <= sum1 n g.
Proof. intros H. apply Rsum_map_le. intros i Hi. apply H, in_zrange, Hi. Qed.
Lemma sum1_swap n m f : sum1 n (fun i => sum1 m (fun j => f i j)) = sum1 m (fun j => sum1 n (fun i => f i j)).
Proof. apply (Rsum_map_swap f). Qed.

(** Cyclic shifts permute the indices. *)
Lemma shift_perm n s : Permutation (map (fun i => (i + s) mod n)%Z (zrange 0 n)) (zrange 0 n).
Proof.
  apply NoDup_Permutation_bis.
  - apply nodup_map_inj; [apply nodup_zrange|]. intros x y Hx Hy E. apply in_zrange in Hx, Hy.
    assert (((x + s) - (y + s)) mod n = 0)%Z by (rewrite Zminus_mod, E, Z.sub_diag; apply Z.mod_0_l; lia).
    replace (x + s - (y + s))%Z with (x - y)%Z in H by lia.
    destruct (Z.eq_dec x y); auto. exfalso.
    apply Z.mod_divide in H; [|lia]. destruct H as (q & H).
    assert (q = 0 \/ q <= -1 \/ 1 <= q)%Z as [->|[Q|Q]] by lia; nia.
  - rewrite map_length. lia.
  - intros x Hx. apply in_map_iff in Hx as (i & <- & Hi). apply in_zrange in Hi. apply in_zrange.
    apply Z.mod_pos_bound. lia.
Qed.

Lemma sum1_shift n s f : sum1 n (fun i => f ((i + s) mod n)%Z) = sum1 n f.
Proof.
  unfold sum1. rewrite <- (Rsum_perm _ _ (Permutation_map f (shift_perm n s))), map_map. reflexivity.
Qed.

(** First and last term. *)
Lemma sum1_first n f : (1 <= n)%Z -> sum1 n f = f 0%Z + sum1 (n - 1) (fun i => f (i + 1)%Z).
Proof.
  intros H. unfold sum1. rewrite zrange_cons by lia. simpl. f_equal. f_equal.
  change (0 + 1)%Z with 1%Z. unfold zrange. rewrite !Z.sub_0_r. clear H.
  assert (G : forall k lo, map f (zseq (lo + 1) k) = map (fun i => f (i + 1)%Z) (zseq lo k)).
  { induction k as [|k IH]; intros lo; simpl; auto. rewrite IH. reflexivity. }
  apply (G (Z.to_nat (n - 1)) 0%Z).
Qed.
Lemma sum1_last n f : (1 <= n)%Z -> sum1 n f = sum1 (n - 1) f + f (n - 1)%Z.
Proof.
  intros H. unfold sum1. rewrite zrange_snoc by lia. rewrite map_app, Rsum_app. simpl. lra.
Qed.

(** ** Two and three indices *)

Lemma sum2_ext n m f g : (forall i j, (0 <= i < n)%Z -> (0 <= j < m)%Z -> f i j = g i j) -> sum2 n m f = sum2 n m g.
Proof. intros E. apply sum1_ext. intros i Hi. apply sum1_ext. auto. Qed.
Lemma sum2_plus n m f g : sum2 n m (fun i j => f i j + g i j) = sum2 n m f + sum2 n m g.
Proof.
  unfold sum2. rewrite <- sum1_plus. apply sum1_ext. intros i _. apply sum1_plus.
Qed.
Lemma sum2_minus n m f g : sum2 n m (fun i j => f i j - g i j) = sum2 n m f - sum2 n m g.
Proof. unfold sum2. rewrite <- sum1_minus. apply sum1_ext. intros i _. apply sum1_minus. Qed.
Lemma sum2_scal n m c f : sum2 n m (fun i j => c * f i j) = c * sum2 n m f.
Proof. unfold sum2. rewrite <- sum1_scal. apply sum1_ext. intros i _. apply sum1_scal. Qed.
Lemma sum2_div n m f c : sum2 n m (fun i j => f i j / c) = sum2 n m f / c.
Proof. unfold sum2. rewrite <- sum1_div. apply sum1_ext. intros i _. apply sum1_div. Qed.
Lemma sum2_const n m c : (0 <= n)%Z -> (0 <= m)%Z -> sum2 n m (fun _ _ => c) = IZR n * IZR m * c.
Proof.
  intros. unfold sum2. rewrite (sum1_ext n _ (fun _ => IZR m * c)) by (intros; apply sum1_const; auto).
  rewrite sum1_const by auto. lra.
Qed.
Lemma sum2_nonneg n m f : (forall i j, (0 <= i < n)%Z -> (0 <= j < m)%Z -> 0 <= f i j) -> 0 <= sum2 n m f.
Proof. intros H. apply sum1_nonneg. intros. apply sum1_nonneg. auto. Qed.
Lemma sum2_shift n m s t f : sum2 n m (fun i j => f ((i + s) mod n)%Z ((j + t) mod m)%Z) = sum2 n m f.
Proof.
  unfold sum2. rewrite (sum1_shift n s (fun i => sum1 m (fun j => f i ((j + t) mod m)%Z))).
  apply sum1_ext. intros i _. apply (sum1_shift m t (f i)).
Qed.

Lemma sum3_ext n m l f g :
  (forall i j k, (0 <= i < n)%Z -> (0 <= j < m)%Z -> (0 <= k < l)%Z -> f i j k = g i j k) ->
  sum3 n m l f = sum3 n m l g.
Proof. intros E. apply sum1_ext. intros i Hi. apply sum2_ext. auto. Qed.
Lemma sum3_plus n m l f g : sum3 n m l (fun i j k => f i j k + g i j k) = sum3 n m l f + sum3 n m l g.
Proof. unfold sum3. rewrite <- sum1_plus. apply sum1_ext. intros i _. apply sum2_plus. Qed.
Lemma sum3_minus n m l f g : sum3 n m l (fun i j k => f i j k - g i j k) = sum3 n m l f - sum3 n m l g.
Proof. unfold sum3. rewrite <- sum1_minus. apply sum1_ext. intros i _. apply sum2_minus. Qed.
Lemma sum3_scal n m l c f : sum3 n m l (fun i j k => c * f i j k) = c * sum3 n m l f.
Proof. unfold sum3. rewrite <- sum1_scal. apply sum1_ext. intros i _. apply sum2_scal. Qed.
Lemma sum3_div n m l f c : sum3 n m l (fun i j k => f i j k / c) = sum3 n m l f / c.
Proof. unfold sum3. rewrite <- sum1_div. apply sum1_ext. intros i _. apply sum2_div. Qed.
Lemma sum3_const n m l c : (0 <= n)%Z -> (0 <= m)%Z -> (0 <= l)%Z ->
  sum3 n m l (fun _ _ _ => c) = IZR n * IZR m * IZR l * c.
Proof.
  intros. unfold sum3. rewrite (sum1_ext n _ (fun _ => IZR m * IZR l * c)) by (intros; apply sum2_const; auto).
  rewrite sum1_const by auto. lra.
Qed.
Lemma sum3_nonneg n m l f :
  (forall i j k, (0 <= i < n)%Z -> (0 <= j < m)%Z -> (0 <= k < l)%Z -> 0 <= f i j k) -> 0 <= sum3 n m l f.
Proof. intros H. apply sum1_nonneg. intros. apply sum2_nonneg. auto. Qed.
Lemma sum3_shift n m l s t r f :
  sum3 n m l (fun i j k => f ((i + s) mod n)%Z ((j + t) mod m)%Z ((k + r) mod l)%Z) = sum3 n m l f.
Proof.
  unfold sum3. rewrite (sum1_shift n s (fun i => sum2 m l (fun j k => f i ((j + t) mod m)%Z ((k + r) mod l)%Z))).
  apply sum1_ext. intros i _. apply (sum2_shift m l t r (f i)).
Qed.

(** Each index may be summed innermost. *)
Lemma sum3_x n m l f : sum3 n m l f = sum2 m l (fun j k => sum1 n (fun i => f i j k)).
Proof.
  unfold sum3, sum2. rewrite sum1_swap. apply sum1_ext. intros j _. apply sum1_swap.
Qed.
Lemma sum3_y n m l f : sum3 n m l f = sum2 n l (fun i k => sum1 m (fun j => f i j k)).
Proof. unfold sum3, sum2. apply sum1_ext. intros i _. apply sum1_swap. Qed.
Lemma sum3_z n m l f : sum3 n m l f = sum2 n m (fun i j => sum1 l (fun k => f i j k)).
Proof. reflexivity. Qed.
Lemma sum2_x n m f : sum2 n m f = sum1 m (fun j => sum1 n (fun i => f i j)).
Proof. apply sum1_swap. Qed.

Lemma sum1_zero n : sum1 n (fun _ => 0) = 0.
Proof. unfold sum1. rewrite Rsum_map_const. lra. Qed.
Lemma sum2_zero n m f : (forall i j, f i j = 0) -> sum2 n m f = 0.
Proof.
  intros E. rewrite (sum2_ext n m f (fun _ _ => 0)) by auto. unfold sum2.
  rewrite (sum1_ext n _ (fun _ => 0)) by (intros; apply sum1_zero). apply sum1_zero.
Qed.

(** Second differences of an extended field sum to zero, for wrapped and clamped ends. *)
Lemma sum1_second_difference bc n f :
  (1 <= n)%Z ->
  sum1 n (fun i => f (extend1 bc n (i + 1)) - 2 * f (extend1 bc n i) + f (extend1 bc n (i - 1))) = 0.
Proof.
  intros H.
  assert (PER : forall s, sum1 n (fun i => f ((i + s) mod n)%Z) = sum1 n f) by (intros; apply sum1_shift).
  destruct (match bc with Neumann => true | _ => false end) eqn:EB.
  - destruct bc; try discriminate. simpl.
    assert (CL : sum1 n (fun i => f (clampZ n i)) = sum1 n f).
    { apply sum1_ext. intros i Hi. f_equal. unfold clampZ. lia. }
    rewrite (sum1_ext n _ (fun i => (f (clampZ n (i + 1)) - f (clampZ n i)) - (f (clampZ n i) - f (clampZ n (i - 1)))))
      by (intros; lra).
    rewrite sum1_minus, !sum1_minus.
    assert (UP : sum1 n (fun i => f (clampZ n (i + 1))) = sum1 n f - f 0%Z + f (n - 1)%Z).
    { rewrite (sum1_last n _ H). rewrite (sum1_first n f H).
      replace (clampZ n (n - 1 + 1)) with (n - 1)%Z by (unfold clampZ; lia).
      rewrite (sum1_ext (n - 1) _ (fun i => f (i + 1)%Z)); [lra|].
      intros i Hi. f_equal. unfold clampZ. lia. }
    assert (DN : sum1 n (fun i => f (clampZ n (i - 1))) = sum1 n f + f 0%Z - f (n - 1)%Z).
    { rewrite (sum1_first n _ H). rewrite (sum1_last n f H).
      replace (clampZ n (0 - 1)) with 0%Z by (unfold clampZ; lia).
      rewrite (sum1_ext (n - 1) _ f); [lra|].
      intros i Hi. f_equal. unfold clampZ. lia. }
    rewrite UP, DN, CL. lra.
  - assert (EX : forall x, extend1 bc n x = (x mod n)%Z) by (destruct bc; try discriminate; reflexivity).
    rewrite (sum1_ext n _ (fun i => f ((i + 1) mod n)%Z - 2 * f ((i + 0) mod n)%Z + f ((i + -1) mod n)%Z)).
    + rewrite sum1_plus, sum1_minus, sum1_scal, !PER. lra.
    + intros i Hi. rewrite !EX, Z.add_0_r. reflexivity.
Qed.
