(** The discrete operators in exact arithmetic: conservation, mean, energy. *)
From Coq Require Import ZArith Reals List Lra Lia.
From Verif Require Import ZList ZListProofs Num Kernel Gather ModelIndex ModelDisc3D ModelDisc2D ModelCH
  SpecGrid SpecField SumProofs Disc3DProofs Stencil3Proofs BC3Proofs Disc2DProofs CHProofs.
Import ListNotations.
Local Open Scope R_scope.

Ltac zs := repeat match goal with
  | |- context [(?i + 1 + 1)%Z] => replace (i + 1 + 1)%Z with (i + 2)%Z by lia
  | |- context [(?i - 1 - 1)%Z] => replace (i - 1 - 1)%Z with (i - 2)%Z by lia
  | |- context [(?i + 1 - 1)%Z] => replace (i + 1 - 1)%Z with i by lia
  | |- context [(?i - 1 + 1)%Z] => replace (i - 1 + 1)%Z with i by lia
  end.

Lemma lap_expr3_R h u i j k : lap_expr3 h u i j k = Lap3 h u i j k.
Proof. unfold lap_expr3, Lap3, dxx3, dyy3, dzz3. simpl. rewrite Rmult_1_r. unfold Rdiv. ring. Qed.

Lemma bih_sum3_R h u i j k : bih_sum3 u i j k * / (h * h) * / (h * h) = Lap3 h (Lap3 h u) i j k.
Proof.
  unfold bih_sum3, Lap3, dxx3, dyy3, dzz3. simpl. rewrite Rmult_1_r. zs. unfold Rdiv. ring.
Qed.

Lemma bih_expr3_R h u i j k : bih_expr3 h u i j k = Lap3 h (Lap3 h u) i j k.
Proof.
  rewrite <- bih_sum3_R. unfold bih_expr3. simpl. unfold Rdiv. rewrite !Rinv_mult. ring.
Qed.

Lemma lap_expr2_R h u i j : lap_expr2 h u i j = Lap2 h u i j.
Proof. unfold lap_expr2, Lap2, dxx2, dyy2. simpl. rewrite Rmult_1_r. unfold Rdiv. ring. Qed.

Lemma bih_expr2_R h u i j : bih_expr2 h u i j = Lap2 h (Lap2 h u) i j.
Proof.
  unfold bih_expr2, Lap2, dxx2, dyy2. simpl. rewrite Rmult_1_r. zs. unfold Rdiv. rewrite !Rinv_mult. ring.
Qed.

Lemma Lap3_ext h f g i j k : (forall i j k, f i j k = g i j k) -> Lap3 h f i j k = Lap3 h g i j k.
Proof. intros E. unfold Lap3, dxx3, dyy3, dzz3. rewrite !E. reflexivity. Qed.
Lemma Lap2_ext h f g i j : (forall i j, f i j = g i j) -> Lap2 h f i j = Lap2 h g i j.
Proof. intros E. unfold Lap2, dxx2, dyy2. rewrite !E. reflexivity. Qed.

Lemma dx4_of_R v h : dx4_of v h = h * h * (h * h).
Proof. unfold dx4_of. destruct (v =? 0)%Z; simpl; ring. Qed.

Lemma ch_expr3_R p v h w i j k :
  ch_expr3 p h (dx4_of v h) w i j k = CH3 h (ch_m p) (ch_sigma p) (ch_eps2 p) w i j k.
Proof.
  unfold ch_expr3, CH3. rewrite dx4_of_R, lap_expr3_R.
  rewrite (Lap3_ext h (fun i j k => nsub (npow3 (w i j k)) (w i j k)) (fun i j k => w i j k ^ 3 - w i j k))
    by (intros; simpl; ring).
  rewrite <- bih_sum3_R. simpl. unfold Rdiv. rewrite !Rinv_mult. ring.
Qed.

Lemma ch_expr2_R p h w i j :
  ch_expr2 p h w i j = CH2 h (ch_m p) (ch_sigma p) (ch_eps2 p) w i j.
Proof.
  unfold ch_expr2, CH2. rewrite bih_expr2_R, lap_expr2_R.
  rewrite (Lap2_ext h (fun i j => nsub (npow3 (w i j)) (w i j)) (fun i j => w i j ^ 3 - w i j))
    by (intros; simpl; ring). simpl. ring.
Qed.

(** ** Sums of the operators *)

Definition as_periodic (dom : domain R) : domain R :=
  {| nx := nx dom; ny := ny dom; nz := nz dom;
     xbeg := xbeg dom; xend := xend dom; ybeg := ybeg dom; yend := yend dom;
     zbeg := zbeg dom; zend := zend dom;
     xbc := Periodic; ybc := Periodic; zbc := Periodic; nhalo := nhalo dom |}.

Section Sums3gen.
  Variable dom : domain R.
  Hypothesis HV : valid_domain3 dom.

  Lemma total3_dxx h u : total3 dom (dxx3 h (extend3 dom u)) = 0.
  Proof.
    unfold total3. rewrite sum3_x. apply sum2_zero. intros j k. unfold dxx3. rewrite sum1_div.
    unfold extend3. rewrite (sum1_second_difference _ _ (fun i => u i _ _)); [unfold Rdiv; ring|apply HV].
  Qed.
  Lemma total3_dyy h u : total3 dom (dyy3 h (extend3 dom u)) = 0.
  Proof.
    unfold total3. rewrite sum3_y. apply sum2_zero. intros i k. unfold dyy3. rewrite sum1_div.
    unfold extend3. rewrite (sum1_second_difference _ _ (fun j => u _ j _)); [unfold Rdiv; ring|apply HV].
  Qed.
  Lemma total3_dzz h u : total3 dom (dzz3 h (extend3 dom u)) = 0.
  Proof.
    unfold total3. rewrite sum3_z. apply sum2_zero. intros i j. unfold dzz3. rewrite sum1_div.
    unfold extend3. rewrite (sum1_second_difference _ _ (fun k => u _ _ k)); [unfold Rdiv; ring|apply HV].
  Qed.

  Theorem total3_Lap_gen h u : total3 dom (Lap3 h (extend3 dom u)) = 0.
  Proof.
    unfold total3, Lap3. rewrite !sum3_plus. fold (total3 dom (dxx3 h (extend3 dom u))).
    fold (total3 dom (dyy3 h (extend3 dom u))). fold (total3 dom (dzz3 h (extend3 dom u))).
    rewrite total3_dxx, total3_dyy, total3_dzz. ring.
  Qed.

End Sums3gen.

Section Sums3.
  Variable dom : domain R.
  Hypothesis HV : valid_domain3 dom.

  Theorem total3_Lap h u : total3 dom (Lap3 h (extend3 dom u)) = 0.
  Proof. apply total3_Lap_gen; auto. Qed.

  (** Wrapping is compatible with shifting. *)
  Lemma periodic3_wrap u i j k : periodic3 dom (periodic3 dom u) i j k = periodic3 dom u i j k.
  Proof. unfold periodic3. rewrite !Z.mod_mod by (destruct HV as (?&?&?&?); lia). reflexivity. Qed.

  Lemma mod_add_l a b q : (1 <= q)%Z -> ((a mod q + b) mod q = (a + b) mod q)%Z.
  Proof. intros. apply Zplus_mod_idemp_l. Qed.
  Lemma mod_sub_l a b q : (1 <= q)%Z -> ((a mod q - b) mod q = (a - b) mod q)%Z.
  Proof. intros. apply Zminus_mod_idemp_l. Qed.

  Lemma Lap3_periodic h u i j k :
    Lap3 h (periodic3 dom u) i j k = periodic3 dom (Lap3 h (periodic3 dom u)) i j k.
  Proof.
    destruct HV as (H1 & H2 & H3 & _).
    unfold periodic3, Lap3, dxx3, dyy3, dzz3.
    rewrite !mod_add_l, !mod_sub_l, !Z.mod_mod by lia. reflexivity.
  Qed.

  Lemma total3_Lap_periodic h u : total3 dom (Lap3 h (periodic3 dom u)) = 0.
  Proof. exact (total3_Lap_gen (as_periodic dom) HV h u). Qed.

  Theorem total3_bih h u : total3 dom (Lap3 h (Lap3 h (periodic3 dom u))) = 0.
  Proof.
    rewrite <- (total3_Lap_periodic h (Lap3 h (periodic3 dom u))). unfold total3. apply sum3_ext.
    intros i j k _ _ _. apply Lap3_ext. intros; apply Lap3_periodic.
  Qed.

  Definition all_periodic : Prop := xbc dom <> Neumann /\ ybc dom <> Neumann /\ zbc dom <> Neumann.

  Lemma extend3_periodic {W} (u : Z -> Z -> Z -> W) i j k :
    xbc dom <> Neumann /\ ybc dom <> Neumann /\ zbc dom <> Neumann ->
    u (extend1 (xbc dom) (nx dom) i) (extend1 (ybc dom) (ny dom) j) (extend1 (zbc dom) (nz dom) k) =
    u (i mod nx dom)%Z (j mod ny dom)%Z (k mod nz dom)%Z.
  Proof.
    intros (A & B & C). destruct (xbc dom), (ybc dom), (zbc dom); try congruence; reflexivity.
  Qed.
End Sums3.

Lemma all_periodic_extend (dom : domain R) u i j k : all_periodic dom -> extend3 dom u i j k = periodic3 dom u i j k.
Proof. intros A. unfold extend3, periodic3. rewrite extend3_periodic; auto. Qed.

Lemma Lap3_inside_ext h f g i j k :
  f i j k = g i j k ->
  f (i + 1)%Z j k = g (i + 1)%Z j k -> f (i - 1)%Z j k = g (i - 1)%Z j k ->
  f i (j + 1)%Z k = g i (j + 1)%Z k -> f i (j - 1)%Z k = g i (j - 1)%Z k ->
  f i j (k + 1)%Z = g i j (k + 1)%Z -> f i j (k - 1)%Z = g i j (k - 1)%Z ->
  Lap3 h f i j k = Lap3 h g i j k.
Proof. intros. unfold Lap3, dxx3, dyy3, dzz3. congruence. Qed.

Theorem total3_CH (dom : domain R) h m sigma eps2 u :
  valid_domain3 dom -> all_periodic dom ->
  total3 dom (CH3 h m sigma eps2 (extend3 dom u)) =
  - sigma * total3 dom (fun i j k => u i j k - m).
Proof.
  intros HV AP. unfold CH3, total3.
  rewrite sum3_minus, sum3_minus, !sum3_scal.
  assert (E1 : sum3 (nx dom) (ny dom) (nz dom) (Lap3 h (fun i j k => extend3 dom u i j k ^ 3 - extend3 dom u i j k)) = 0).
  { apply (total3_Lap dom HV h (fun i j k => u i j k ^ 3 - u i j k)). }
  assert (E2 : sum3 (nx dom) (ny dom) (nz dom) (Lap3 h (Lap3 h (extend3 dom u))) = 0).
  { rewrite <- (total3_bih dom HV h u). apply sum3_ext. intros i j k _ _ _.
    apply Lap3_ext. intros. apply Lap3_ext. intros. apply all_periodic_extend; auto. }
  assert (E3 : sum3 (nx dom) (ny dom) (nz dom) (fun i j k => extend3 dom u i j k - m) =
               sum3 (nx dom) (ny dom) (nz dom) (fun i j k => u i j k - m)).
  { apply sum3_ext. intros i j k Hi Hj Hk. rewrite all_periodic_extend by auto. unfold periodic3.
    rewrite !Z.mod_small by auto. reflexivity. }
  match goal with |- ?a - eps2 * ?b - sigma * ?c = _ => change a with (sum3 (nx dom) (ny dom) (nz dom) (Lap3 h (fun i j k => extend3 dom u i j k ^ 3 - extend3 dom u i j k))) end.
  rewrite E1. rewrite E3.
  match goal with |- 0 - eps2 * ?b - _ = _ => change b with (sum3 (nx dom) (ny dom) (nz dom) (Lap3 h (Lap3 h (extend3 dom u)))) end.
  rewrite E2. ring.
Qed.

(** ** The same in 2D *)

Lemma periodic2_Lap (dom : domain R) h u i j : valid_domain2 dom ->
  Lap2 h (periodic2 dom u) i j = periodic2 dom (Lap2 h (periodic2 dom u)) i j.
Proof.
  intros (H1 & _). unfold periodic2, Lap2, dxx2, dyy2.
  rewrite !Zplus_mod_idemp_l, !Zminus_mod_idemp_l, !Z.mod_mod by lia. reflexivity.
Qed.

Theorem total2_Lap (dom : domain R) h u : valid_domain2 dom -> total2 dom (Lap2 h (periodic2 dom u)) = 0.
Proof.
  intros (H1 & _). unfold total2, Lap2. rewrite sum2_plus. 
  assert (A : sum2 (nx dom) (nx dom) (dxx2 h (periodic2 dom u)) = 0).
  { rewrite sum2_x. rewrite (sum1_ext _ _ (fun _ => 0)); [apply sum1_zero|]. intros j _. unfold dxx2.
    rewrite sum1_div. unfold periodic2.
    pose proof (sum1_second_difference Periodic (nx dom) (fun i => u i (j mod nx dom)%Z) H1) as E. simpl in E.
    rewrite E. unfold Rdiv; ring. }
  assert (B : sum2 (nx dom) (nx dom) (dyy2 h (periodic2 dom u)) = 0).
  { unfold sum2. rewrite (sum1_ext _ _ (fun _ => 0)); [apply sum1_zero|]. intros i _. unfold dyy2.
    rewrite sum1_div. unfold periodic2.
    pose proof (sum1_second_difference Periodic (nx dom) (fun j => u (i mod nx dom)%Z j) H1) as E. simpl in E.
    rewrite E. unfold Rdiv; ring. }
  change (sum2 (nx dom) (nx dom) (dxx2 h (periodic2 dom u)) + sum2 (nx dom) (nx dom) (dyy2 h (periodic2 dom u)) = 0).
  rewrite A, B. ring.
Qed.

Theorem total2_bih (dom : domain R) h u : valid_domain2 dom -> total2 dom (Lap2 h (Lap2 h (periodic2 dom u))) = 0.
Proof.
  intros HV. rewrite <- (total2_Lap dom h (Lap2 h (periodic2 dom u)) HV). unfold total2. apply sum2_ext.
  intros i j _ _. apply Lap2_ext. intros; apply periodic2_Lap; auto.
Qed.

Theorem total2_CH (dom : domain R) h m sigma eps2 u :
  valid_domain2 dom ->
  total2 dom (CH2 h m sigma eps2 (periodic2 dom u)) = - sigma * total2 dom (fun i j => u i j - m).
Proof.
  intros HV. unfold CH2, total2. rewrite sum2_minus, sum2_minus, !sum2_scal.
  assert (E1 : sum2 (nx dom) (nx dom) (Lap2 h (fun i j => periodic2 dom u i j ^ 3 - periodic2 dom u i j)) = 0).
  { apply (total2_Lap dom h (fun i j => u i j ^ 3 - u i j) HV). }
  assert (E2 := total2_bih dom h u HV). unfold total2 in E2.
  assert (E3 : sum2 (nx dom) (nx dom) (fun i j => periodic2 dom u i j - m) =
               sum2 (nx dom) (nx dom) (fun i j => u i j - m)).
  { apply sum2_ext. intros i j Hi Hj. unfold periodic2. rewrite !Z.mod_small by auto. reflexivity. }
  match goal with |- ?a - eps2 * ?b - sigma * ?c = _ =>
    change (sum2 (nx dom) (nx dom) (Lap2 h (fun i j => periodic2 dom u i j ^ 3 - periodic2 dom u i j))
            - eps2 * sum2 (nx dom) (nx dom) (Lap2 h (Lap2 h (periodic2 dom u))) - sigma * c =
            - sigma * sum2 (nx dom) (nx dom) (fun i j => u i j - m)) end.
  rewrite E1, E2, E3. ring.
Qed.
