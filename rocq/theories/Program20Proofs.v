(** One level of the implicit integrator approaches the steady solution of Poisson's equation. *)
From Coq Require Import String Reals Lra.
From Verif Require Import ModelLogger ModelOptions Outcome ZList Num ModelIndex ModelDisc3D ModelDisc2D ModelTime ModelProgram SpecGrid Disc3DProofs SpecField FieldProofs SpecMon SpecTime Time2Proofs Step1Proofs StepFinal SpecProgram
  Program3Proofs Program6Proofs ModelMG ModelMGCH SpecMG MG3Proofs SpecImplicit Program14Proofs SpecPoissonRun BC3Proofs Program15Proofs Program16Proofs Program18Proofs.
From Coq Require Import Lia ZifyBool ZifyNat List.
Import ListNotations.
Local Open Scope list_scope.
Local Open Scope Z_scope.

Lemma coarse_dom_0 {V} (dom : domain V) : coarse_dom dom 0 = dom.
Proof. destruct dom. unfold coarse_dom. cbn. rewrite !Z.div_1_r. reflexivity. Qed.

(** ** The two third-order methods agree for a linear equation *)
Section Linear.
  Variables (dom : domain R).
  Local Open Scope R_scope.
  Let X : Type := Z -> Z -> Z -> R.

  Definition flatten (w : X) : X := fun i j k =>
    if ((0 <=? k) && (k <? nz dom))%Z then w (i mod nx dom)%Z (j mod ny dom)%Z k else 0.
  Definition lin (w : X) : X := Lap3 (spacing dom) (flatten w).

  Lemma extend_affine (u w : X) c x i j k : (forall i j k, x i j k = u i j k + c * w i j k) ->
    poisson_extend dom x i j k = poisson_extend dom u i j k + c * flatten w i j k.
  Proof. intros E. unfold poisson_extend, flatten. destruct (_ && _)%bool; [apply E|lra]. Qed.
  Lemma flatten_affine (u w : X) c x i j k : (forall i j k, x i j k = u i j k + c * w i j k) ->
    flatten x i j k = flatten u i j k + c * flatten w i j k.
  Proof. intros E. unfold flatten. destruct (_ && _)%bool; [apply E|lra]. Qed.

  Lemma rate_affine (u w : X) c x i j k : (forall i j k, x i j k = u i j k + c * w i j k) ->
    poisson_rate dom x i j k = poisson_rate dom u i j k + c * lin w i j k.
  Proof.
    intros E. unfold poisson_rate, lin, Lap3, dxx3, dyy3, dzz3. rewrite !(extend_affine u w c x) by exact E. unfold Rdiv. ring.
  Qed.
  Lemma lin_affine (u w : X) c x i j k : (forall i j k, x i j k = u i j k + c * w i j k) ->
    lin x i j k = lin u i j k + c * lin w i j k.
  Proof.
    intros E. unfold lin, Lap3, dxx3, dyy3, dzz3. rewrite !(flatten_affine u w c x) by exact E. unfold Rdiv. ring.
  Qed.

  Lemma lin_mix (u1 u2 : X) c x i j k : (forall i j k, x i j k = u1 i j k + c * u2 i j k) -> lin x i j k = lin u1 i j k + c * lin u2 i j k.
  Proof. apply lin_affine. Qed.

  Lemma bs_ssp3 dt (u : X) i j k : bs_step3 (poisson_rate dom) dt u i j k = ssp3_3 (poisson_rate dom) dt u i j k.
  Proof.
    set (F := poisson_rate dom). set (A := lin).
    unfold bs_step3, bs_rate3, ssp3_3.
    set (k1 := F u). 
    assert (E1 : forall c x, (forall i j k, x i j k = u i j k + c * k1 i j k) -> forall i j k, F x i j k = k1 i j k + c * A k1 i j k).
    { intros c x E i' j' k'. apply rate_affine. exact E. }
    assert (E2 : forall c e x, (forall i j k, x i j k = u i j k + c * (k1 i j k + e * A k1 i j k)) ->
      forall i j k, F x i j k = k1 i j k + c * (A k1 i j k + e * A (A k1) i j k)).
    { intros c e x E i' j' k'. unfold F. rewrite (rate_affine u (fun i j k => k1 i j k + e * A k1 i j k) c x) by exact E.
      rewrite (lin_affine k1 (A k1) e (fun i j k => k1 i j k + e * A k1 i j k)) by reflexivity. reflexivity. }
    set (x2 := fun i j k => u i j k + dt / 2 * k1 i j k).
    assert (F2 : forall i j k, F x2 i j k = k1 i j k + dt / 2 * A k1 i j k) by (apply E1; reflexivity).
    set (x3 := fun i j k => u i j k + 3 / 4 * dt * F x2 i j k).
    assert (F3 : forall i j k, F x3 i j k = k1 i j k + 3 / 4 * dt * (A k1 i j k + dt / 2 * A (A k1) i j k)).
    { apply E2. intros. unfold x3. rewrite F2. reflexivity. }
    set (y1 := fun i j k => u i j k + dt * k1 i j k).
    assert (G1 : forall i j k, F y1 i j k = k1 i j k + dt * A k1 i j k) by (apply E1; reflexivity).
    set (y2 := fun i j k => 3 / 4 * u i j k + 1 / 4 * (y1 i j k + dt * F y1 i j k)).
    assert (G2 : forall i j k, F y2 i j k = k1 i j k + dt / 2 * (A k1 i j k + dt / 2 * A (A k1) i j k)).
    { apply E2. intros. unfold y2. rewrite G1. unfold y1. field. }
    unfold bs_rate3. fold k1. fold x2.
    rewrite G2. unfold y2. rewrite G1. unfold y1.
    first [rewrite F3 | fold x3; rewrite F3]. rewrite F2. field.
  Qed.
End Linear.

Section OneLevel.
  Variables (dom : domain R).
  Hypothesis HV : valid_domain3 dom.
  Hypothesis HZ : 1 <= nz dom.
  Hypothesis HN : 1 <= nhalo dom.
  Local Open Scope R_scope.
  Local Notation h := (spacing dom).
  Local Notation W := (barrier_top dom).
  Hypothesis H0 : h <> 0.
  Variables (v : Z -> Z -> Z -> R) (tau : R).
  Hypothesis T0 : 0 <= tau.
  Hypothesis HF : forall i j k, inside3 dom i j k -> Rabs (poisson_rate dom v i j k) <= tau.

  Local Notation near := (near dom v tau).
  Local Notation F := (fun _ : R => onto3 dom dom (poisson_rate dom)).
  Local Notation ext := (onto3 dom dom (poisson_extend dom)).

  Lemma onto_inside G (w : field R) i j k : inside3 dom i j k -> cells_of dom (onto3 dom dom G w) i j k = G (cells_of dom w) i j k.
  Proof.
    intros I. unfold cells_of at 1, onto3.
    exact (of3_slot dom (G (cells_of dom w)) O i j k ltac:(apply inside_padded3; [destruct HV; lia|exact I])).
  Qed.

  Lemma smooth_near t dt b w : 0 <= dt <= h * h / 6 -> 0 <= b -> near b (cells_of dom w) ->
    near (b * exp (- (dt / W))) (cells_of dom (smooth F ext t dt w)).
  Proof.
    intros D B N i j k I. unfold smooth. rewrite onto_inside by exact I.
    assert (PE : forall u, poisson_extend dom u i j k = u i j k).
    { intros u. destruct I as (I1 & I2 & I3). unfold poisson_extend.
      replace ((0 <=? k) && (k <? nz dom))%Z with true by lia. rewrite !Z.mod_small by lia. reflexivity. }
    rewrite PE.
    assert (EQ : cells_of dom (fun e z => nadd (w e z) (nmul dt (SpecMG.slope F t dt w e z))) i j k = ssp3_3 (poisson_rate dom) dt (cells_of dom w) i j k).
    { rewrite <- bs_ssp3.
      refine (proj1 (bs_fields dom F (poisson_rate dom) _ t dt w (cells_of dom w) _) i j k I).
      - intros t' a u A i' j' k' I'. exact (eq_trans (onto_inside (poisson_rate dom) a i' j' k' I') (poisson_rate_ext dom _ _ HV A i' j' k')).
      - intros i' j' k' I'. reflexivity. }
    rewrite EQ. apply (rk3_near dom HV HZ H0 v tau T0 HF dt b (cells_of dom w) D B N). exact I.
  Qed.

  Variables (c : R).
  Hypothesis C0 : 0 <= c <= h * h / 6.
  Let gain (n : nat) : R := exp (- (INR n * c / W)).

  Lemma gain_add a b : gain (a + b) = gain a * gain b.
  Proof. unfold gain. rewrite plus_INR, <- exp_plus. f_equal. field. pose proof (top_pos dom HZ H0). lra. Qed.
  Lemma gain_pos n : 0 < gain n.
  Proof. apply exp_pos. Qed.
  Lemma gain_0 : gain 0 = 1.
  Proof. unfold gain. cbn [INR]. replace (- (0 * c / W)) with 0 by (field; pose proof (top_pos dom HZ H0); lra). apply exp_0. Qed.
  Lemma gain_1 : exp (- (c / W)) = gain 1.
  Proof. unfold gain. cbn [INR]. f_equal. field. pose proof (top_pos dom HZ H0). lra. Qed.
  Lemma gain_le1 n : gain n <= 1.
  Proof.
    unfold gain. pose proof (top_pos dom HZ H0). rewrite <- exp_0.
    assert (P : 0 <= INR n * c / W). { apply Rmult_le_pos; [apply Rmult_le_pos; [apply pos_INR|lra]|apply Rlt_le, Rinv_0_lt_compat; lra]. }
    destruct (Req_dec (INR n * c / W) 0) as [->|NE]; [rewrite Ropp_0; lra|]. apply Rlt_le, exp_increasing. lra.
  Qed.

  Lemma smooths_near t : forall n b w, 0 <= b -> near b (cells_of dom w) -> near (b * gain n) (cells_of dom (smooths F ext t c c n w)).
  Proof.
    induction n as [|n IH]; intros b w B N; cbn [smooths].
    - rewrite gain_0, Rmult_1_r. exact N.
    - pose proof (smooth_near t c b w C0 B N) as N1. rewrite gain_1 in N1.
      replace (b * gain (S n)) with (b * gain 1 * gain n) by (rewrite Rmult_assoc, <- gain_add; reflexivity).
      apply IH; [|exact N1]. apply Rmult_le_pos; [exact B|apply Rlt_le, gain_pos].
  Qed.

  Lemma smooths_first t d n b w : 0 <= d <= h * h / 6 -> 0 <= b -> near b (cells_of dom w) ->
    near (b * gain n) (cells_of dom (smooths F ext t d c (S n) w)).
  Proof.
    intros D B N. cbn [smooths]. apply smooths_near; [exact B|].
    pose proof (smooth_near t d b w D B N) as N1. eapply (near_le dom H0 v tau HF); [|exact N1].
    pose proof (top_pos dom HZ H0). rewrite <- (Rmult_1_r b) at 2. apply Rmult_le_compat_l; [exact B|].
    rewrite <- exp_0. destruct (Req_dec (d / W) 0) as [->|NE]; [rewrite Ropp_0; lra|]. apply Rlt_le, exp_increasing.
    assert (0 <= d / W) by (apply Rmult_le_pos; [lra|apply Rlt_le, Rinv_0_lt_compat; lra]). lra.
  Qed.

  Lemma vcycle_near t d n relax crelax b w : 0 <= d <= h * h / 6 -> 0 <= b -> near b (cells_of dom w) ->
    near (b * gain (2 * n + 1)) (cells_of dom (vcycle (S n) t F ext d c relax crelax [] w)).
  Proof.
    intros D B N. unfold vcycle. cbn [vcycle_pre]. replace (S n - 1)%nat with n by lia.
    assert (P : forall n, 0 <= b * gain n) by (intros; apply Rmult_le_pos; [exact B|apply Rlt_le, gain_pos]).
    pose proof (smooths_first t d n b w D B N) as N1.
    pose proof (smooths_near t n _ _ (P n) N1) as N2.
    rewrite Rmult_assoc, <- gain_add in N2.
    pose proof (smooth_near t c _ _ C0 (P (n + n)%nat) N2) as N3. rewrite gain_1, Rmult_assoc, <- gain_add in N3.
    replace (2 * n + 1)%nat with (n + n + 1)%nat by lia. exact N3.
  Qed.
  Lemma vcycle_near' t n relax crelax b w : 0 <= b -> near b (cells_of dom w) ->
    near (b * gain (2 * n + 2)) (cells_of dom (vcycle (S n) t F ext c c relax crelax [] w)).
  Proof.
    intros B N. unfold vcycle. cbn [vcycle_pre]. replace (S n - 1)%nat with n by lia.
    assert (P : forall n, 0 <= b * gain n) by (intros; apply Rmult_le_pos; [exact B|apply Rlt_le, gain_pos]).
    pose proof (smooths_near t (S n) b w B N) as N1.
    pose proof (smooths_near t n _ _ (P (S n)) N1) as N2.
    rewrite Rmult_assoc, <- gain_add in N2.
    pose proof (smooth_near t c _ _ C0 (P (S n + n)%nat) N2) as N3. rewrite gain_1, Rmult_assoc, <- gain_add in N3.
    replace (2 * n + 2)%nat with (S n + n + 1)%nat by lia. exact N3.
  Qed.

  Lemma vcycles_near' t n relax crelax : forall j b w, 0 <= b -> near b (cells_of dom w) ->
    near (b * gain (j * (2 * n + 2))) (cells_of dom (vcycles j (S n) t F ext c c relax crelax [] w)).
  Proof.
    induction j as [|j IH]; intros b w B N; cbn [vcycles map].
    - rewrite Nat.mul_0_l, gain_0, Rmult_1_r. exact N.
    - replace (b * gain (S j * (2 * n + 2))) with (b * gain (2 * n + 2) * gain (j * (2 * n + 2))).
      2: { rewrite Rmult_assoc, <- gain_add. f_equal. }
      apply IH; [apply Rmult_le_pos; [exact B|apply Rlt_le, gain_pos]|]. apply vcycle_near'; assumption.
  Qed.

  (** Any positive number of cycles: at least the gain of one of them. *)
  Lemma less_gain b m k w : 0 <= b -> (m <= k)%nat -> near (b * gain k) w -> near (b * gain m) w.
  Proof.
    intros B K N. eapply (near_le dom H0 v tau HF); [|exact N]. apply Rmult_le_compat_l; [exact B|].
    replace k with (m + (k - m))%nat by lia. rewrite gain_add. pose proof (gain_le1 (k - m)). pose proof (gain_pos m). nra.
  Qed.
  Lemma cycles_near t d n relax crelax j b w : (0 < j)%nat -> 0 <= d <= h * h / 6 -> 0 <= b -> near b (cells_of dom w) ->
    near (b * gain (2 * n + 1)) (cells_of dom (vcycles j (S n) t F ext d c relax crelax [] w)) /\
    (d = c -> near (b * gain (2 * n + 2)) (cells_of dom (vcycles j (S n) t F ext d c relax crelax [] w))).
  Proof.
    intros J D B N. destruct j as [|j]; [lia|]. split.
    - cbn [vcycles map]. pose proof (vcycle_near t d n relax crelax b w D B N) as N1.
      assert (P : 0 <= b * gain (2 * n + 1)) by (apply Rmult_le_pos; [exact B|apply Rlt_le, gain_pos]).
      pose proof (vcycles_near' t n relax crelax j _ _ P N1) as N2. rewrite Rmult_assoc, <- gain_add in N2.
      eapply less_gain; [exact B| |exact N2]. lia.
    - intros ->. pose proof (vcycles_near' t n relax crelax (S j) b w B N) as N2.
      eapply less_gain; [exact B| |exact N2]. lia.
  Qed.

  Lemma near_table b u : near b u -> near b (cells_of dom (table_of dom u)).
  Proof.
    intros N i j k I. unfold cells_of. pose proof (of3_slot dom u O i j k ltac:(apply inside_padded3; [destruct HV; lia|exact I])) as E.
    unfold of3 in E. unfold table_of. rewrite E. apply N. exact I.
  Qed.

  Variables (q : mg_options R) (prol : (Z -> Z -> Z -> R) -> Z -> Z -> Z -> R).
  Hypothesis ST : q_steady q = true.
  Hypothesis LV : q_levels q = 1%Z.
  Hypothesis NS : (1 <= q_nsmooth q)%Z.
  Hypothesis MC : (0 < q_max_cycles q)%Z.
  Hypothesis EC : c = poisson_smoothing (q_cfl q) dom 0.
  Let n : nat := (Z.to_nat (q_nsmooth q) - 1)%nat.

  Lemma step_near first t dt b u u' r : 0 <= first 0%Z <= h * h / 6 -> 0 <= b -> near b u ->
    implicit_step q dom (poisson_levels q dom prol) (poisson_smoothing (q_cfl q) dom) first t dt u u' r ->
    near (b * gain (2 * n + 1)) u' /\ (first 0%Z = c -> near (b * gain (2 * n + 2)) u').
  Proof.
    intros D B N (j & _ & J & EZ & _). specialize (J MC).
    unfold implicit_cycles in EZ. rewrite ST, LV in EZ. change (Z.to_nat (1 - 1)) with 0%nat in EZ. cbn [seq map implicit_rhs] in EZ.
    unfold poisson_levels in EZ at 1 2. cbv zeta in EZ. cbn [l_f l_ext] in EZ. rewrite coarse_dom_0 in EZ.
    apply (f_equal fst) in EZ. cbn [fst] in EZ. rewrite cycled_state, <- EC in EZ. subst u'.
    replace (Z.to_nat (q_nsmooth q)) with (S n) by (unfold n; lia).
    apply cycles_near; auto. apply near_table. exact N.
  Qed.

  Lemma course_near : forall first k u steps l b m, 0 <= first 0%Z <= h * h / 6 -> 0 <= b -> near (b * gain m) u ->
    implicit_course q dom (poisson_levels q dom prol) (poisson_smoothing (q_cfl q) dom) first k u steps l ->
    first 0%Z = c ->
    Forall (fun x => let '(i, _, _, p) := x in near (b * gain (m + Z.to_nat (i - k) * (2 * n + 2))) (fst p) /\ (k < i)%Z) l.
  Proof.
    intros first k u steps l b m D B N CO. revert b m D B N. induction CO as [|first k u t dt u' r steps l S CO IH]; intros b m D B N EF; [constructor|].
    assert (P : forall m, 0 <= b * gain m) by (intros; apply Rmult_le_pos; [exact B|apply Rlt_le, gain_pos]).
    destruct (step_near first t dt _ u u' r D (P m) N S) as (_ & N1). specialize (N1 EF). rewrite Rmult_assoc, <- gain_add in N1.
    constructor.
    - cbn [fst]. split; [|lia]. replace (k + 1 - k)%Z with 1%Z by lia. change (Z.to_nat 1) with 1%nat. rewrite Nat.mul_1_l. exact N1.
    - assert (D' : 0 <= poisson_smoothing (q_cfl q) dom 0 <= h * h / 6) by (rewrite <- EC; exact C0).
      specialize (IH b (m + (2 * n + 2))%nat D' B N1 (eq_sym EC)).
      eapply Forall_impl; [|exact IH]. intros (((i, t'), dt'), p) (H & K). split; [|lia].
      replace (m + Z.to_nat (i - k) * (2 * n + 2))%nat with (m + (2 * n + 2) + Z.to_nat (i - (k + 1)) * (2 * n + 2))%nat; [exact H|].
      replace (Z.to_nat (i - k)) with (Datatypes.S (Z.to_nat (i - (k + 1)))) by lia. lia.
  Qed.

  Lemma course_first first k u steps l b : 0 <= first 0%Z <= h * h / 6 -> 0 <= b -> near b u ->
    implicit_course q dom (poisson_levels q dom prol) (poisson_smoothing (q_cfl q) dom) first k u steps l ->
    Forall (fun x => let '(i, _, _, p) := x in near (b * gain (Z.to_nat (2 * q_nsmooth q * (i - k) - 1))) (fst p) /\ (k < i)%Z) l.
  Proof.
    intros D B N CO. revert D B N. destruct CO as [|first k u t dt u' r steps' l' S CO']; intros D B N; [constructor|].
    destruct (step_near first t dt b u u' r D B N S) as (N1 & _). constructor.
    - cbn [fst]. split; [|lia]. replace (Z.to_nat (2 * q_nsmooth q * (k + 1 - k) - 1)) with (2 * n + 1)%nat by (unfold n; lia). exact N1.
    - assert (D' : 0 <= poisson_smoothing (q_cfl q) dom 0 <= h * h / 6) by (rewrite <- EC; exact C0).
      pose proof (course_near _ _ _ _ _ b (2 * n + 1)%nat D' B N1 CO' (eq_sym EC)) as G.
      eapply Forall_impl; [|exact G]. intros (((i, t'), dt'), p) (H & K). split; [|lia].
      replace (Z.to_nat (2 * q_nsmooth q * (i - k) - 1)) with (2 * n + 1 + Z.to_nat (i - (k + 1)) * (2 * n + 2))%nat; [exact H|]. unfold n. nia.
  Qed.
End OneLevel.
