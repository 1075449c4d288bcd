(** Runs with Poisson's equation approach its solution. *)
From Coq Require Import String Reals Lra.
From Verif Require Import ModelLogger ModelOptions Outcome ZList Num ModelDisc3D ModelDisc2D ModelTime ModelProgram SpecGrid SpecField SpecMon SpecProgram SpecPoissonRun.
From Verif Require Import BC3Proofs Program15Proofs.
From Coq Require Import Lia ZifyBool ZifyNat List.
Import ListNotations.
Local Open Scope list_scope.
Local Open Scope Z_scope.

Lemma abs_bounds x a : (Rabs x <= a -> - a <= x <= a)%R.
Proof. intros H. pose proof (Rle_abs x). pose proof (Rle_abs (- x)). rewrite Rabs_Ropp in *. lra. Qed.

(** ** The method's polynomial *)
Lemma taylor_le x : (0 <= x -> 1 - x + x * x / 2 - x * x * x / 6 <= exp (- x))%R.
Proof.
  intros H. set (g := fun x => (exp x * (1 - x + x * x / 2 - x * x * x / 6))%R).
  assert (D : forall y, derivable_pt_lim g y (exp y * (- (y * y * y) / 6))%R).
  { intros y. unfold g.
    pose proof (derivable_pt_lim_exp y) as D1.
    assert (D2 : derivable_pt_lim (fun x => (1 - x + x * x / 2 - x * x * x / 6)%R) y (-1 + y - y * y / 2)%R).
    { assert (E : forall z, (1 - z + z * z / 2 - z * z * z / 6)%R = (1 + - z + / 2 * z ^ 2 + - / 6 * z ^ 3)%R) by (intros; field).
      apply (derivable_pt_lim_ext (fun z => (1 + - z + / 2 * z ^ 2 + - / 6 * z ^ 3)%R)); [intros; symmetry; apply E|].
      replace (-1 + y - y * y / 2)%R with (0 + - (1) + / 2 * (INR 2 * y ^ pred 2) + - / 6 * (INR 3 * y ^ pred 3))%R by (cbn; field).
      apply (derivable_pt_lim_plus (fun z => (1 + - z + / 2 * z ^ 2)%R) (fun z => (- / 6 * z ^ 3)%R)).
      - apply (derivable_pt_lim_plus (fun z => (1 + - z)%R) (fun z => (/ 2 * z ^ 2)%R)).
        + apply (derivable_pt_lim_plus (fun _ => 1%R) (fun z => (- z)%R)); [apply derivable_pt_lim_const|].
          apply (derivable_pt_lim_opp (fun z => z)). apply derivable_pt_lim_id.
        + apply (derivable_pt_lim_scal (fun z => (z ^ 2)%R)). apply derivable_pt_lim_pow.
      - apply (derivable_pt_lim_scal (fun z => (z ^ 3)%R)). apply derivable_pt_lim_pow. }
    replace (exp y * (- (y * y * y) / 6))%R with (exp y * (1 - y + y * y / 2 - y * y * y / 6) + exp y * (-1 + y - y * y / 2))%R by field.
    apply (derivable_pt_lim_mult exp (fun x => (1 - x + x * x / 2 - x * x * x / 6)%R)); assumption. }
  assert (G : (g x <= 1)%R).
  { destruct H as [H| <-]; [|unfold g; rewrite exp_0; lra].
    destruct (MVT_cor2 g (fun y => (exp y * (- (y * y * y) / 6))%R) 0 x H) as (c & E & C1 & C2); [intros; apply D|].
    assert (g 0 = 1)%R by (unfold g; rewrite exp_0; lra).
    assert (0 < exp c)%R by apply exp_pos. assert (0 < c * c * c)%R by (repeat apply Rmult_lt_0_compat; lra).
    assert (exp c * (- (c * c * c) / 6) <= 0)%R. { apply Ropp_le_cancel. rewrite Ropp_0. replace (- (exp c * (- (c * c * c) / 6)))%R with (exp c * (c * c * c / 6))%R by field. apply Rlt_le, Rmult_lt_0_compat; lra. }
    nra. }
  unfold g in G. rewrite exp_Ropp. pose proof (exp_pos x).
  apply (Rmult_le_reg_l (exp x)); [assumption|]. rewrite Rinv_r by lra. exact G.
Qed.

Section Converge.
  Variables (dom : domain R).
  Hypothesis HV : valid_domain3 dom.
  Hypothesis HZ : 1 <= nz dom.
  Local Open Scope R_scope.
  Local Notation h := (spacing dom).
  Local Notation W := (barrier_top dom).
  Hypothesis H0 : h <> 0.

  Definition barrier (k : Z) : R := h * h / 2 * IZR (k + 1) * IZR (nz dom - k).

  Lemma hh : 0 < h * h.
  Proof. nra. Qed.
  Lemma barrier_nonneg k : (-1 <= k <= nz dom)%Z -> 0 <= barrier k.
  Proof.
    intros K. unfold barrier. pose proof hh. assert (0 <= IZR (k + 1)) by (apply IZR_le; lia). assert (0 <= IZR (nz dom - k)) by (apply IZR_le; lia).
    apply Rmult_le_pos; [|assumption]. apply Rmult_le_pos; lra.
  Qed.
  Lemma barrier_top_le k : barrier k <= W.
  Proof.
    unfold barrier, barrier_top. rewrite !plus_IZR, minus_IZR. pose proof hh.
    assert (4 * ((IZR k + 1) * (IZR (nz dom) - IZR k)) <= (IZR (nz dom) + 1) * (IZR (nz dom) + 1)).
    { pose proof (Rle_0_sqr ((IZR k + 1) - (IZR (nz dom) - IZR k))) as Q. unfold Rsqr in Q. nra. }
    replace (h * h / 2 * (IZR k + 1) * (IZR (nz dom) - IZR k)) with (h * h / 8 * (4 * ((IZR k + 1) * (IZR (nz dom) - IZR k)))) by field.
    replace (h * h * (IZR (nz dom) + 1) * (IZR (nz dom) + 1) / 8) with (h * h / 8 * ((IZR (nz dom) + 1) * (IZR (nz dom) + 1))) by field.
    apply Rmult_le_compat_l; [lra|assumption].
  Qed.
  Lemma barrier_low k : (0 <= k < nz dom)%Z -> h * h / 2 * IZR (nz dom) <= barrier k.
  Proof.
    intros K. unfold barrier. rewrite Rmult_assoc. pose proof hh. apply Rmult_le_compat_l; [lra|]. rewrite <- mult_IZR. apply IZR_le. nia.
  Qed.
  Lemma barrier_diff k : barrier (k - 1) + barrier (k + 1) - 2 * barrier k = - (h * h).
  Proof. unfold barrier. repeat (rewrite plus_IZR || rewrite minus_IZR). field. Qed.
  Lemma top_large : h * h / 6 <= W.
  Proof.
    unfold barrier_top. pose proof hh. assert (2 <= IZR (nz dom + 1)) by (apply (IZR_le 2); lia).
    assert (4 <= IZR (nz dom + 1) * IZR (nz dom + 1)) by nra. nra.
  Qed.
  Lemma top_pos : 0 < W.
  Proof. pose proof top_large. pose proof hh. lra. Qed.

  Lemma inside_extend u i j k : inside3 dom i j k -> poisson_extend dom u i j k = u i j k.
  Proof. intros (A & B & C). unfold poisson_extend. replace ((0 <=? k) && (k <? nz dom))%bool with true by lia. rewrite !Z.mod_small by lia. reflexivity. Qed.

  Variables (v : Z -> Z -> Z -> R) (tau : R).
  Hypothesis T0 : 0 <= tau.
  Hypothesis HF : forall i j k, inside3 dom i j k -> Rabs (poisson_rate dom v i j k) <= tau.

  Definition near (b : R) (u : Z -> Z -> Z -> R) : Prop := forall i j k, inside3 dom i j k -> Rabs (u i j k - v i j k) <= (tau + b) * barrier k.

  Lemma near_ext b u i j k : 0 <= b -> near b u -> (-1 <= k <= nz dom)%Z ->
    Rabs (poisson_extend dom u i j k - poisson_extend dom v i j k) <= (tau + b) * barrier k.
  Proof.
    intros B N K. destruct HV as (A1 & A2 & A3 & _). unfold poisson_extend. destruct ((0 <=? k) && (k <? nz dom))%bool eqn:E.
    - apply N. repeat split; try lia; apply Z.mod_pos_bound; lia.
    - rewrite Rminus_diag_eq by reflexivity. rewrite Rabs_R0. apply Rmult_le_pos; [lra|]. apply barrier_nonneg. lia.
  Qed.


  (** One step of Euler's method. *)
  Lemma euler_near dt b u : 0 <= dt <= h * h / 6 -> 0 <= b -> near b u ->
    near (b * (1 - dt / W)) (fun i j k => u i j k + dt * poisson_rate dom u i j k).
  Proof.
    intros (D0 & D1) B N i j k I. pose proof hh as HH. pose proof top_pos as TP. pose proof (HF i j k I) as HF1. pose proof I as (_ & _ & K).
    set (lam := dt / (h * h)).
    assert (L0 : 0 <= lam) by (unfold lam; apply Rmult_le_pos; [lra|]; apply Rlt_le, Rinv_0_lt_compat; assumption).
    assert (L1 : lam <= 1 / 6). { unfold lam. apply (Rmult_le_reg_r (h * h)); [assumption|]. field_simplify; [|assumption]. lra. }
    set (E := fun i j k => poisson_extend dom u i j k - poisson_extend dom v i j k).
    assert (ED : u i j k + dt * poisson_rate dom u i j k - v i j k =
      (1 - 6 * lam) * E i j k + lam * (E (i - 1)%Z j k + E (i + 1)%Z j k + E i (j - 1)%Z k + E i (j + 1)%Z k + E i j (k - 1)%Z + E i j (k + 1)%Z) + dt * poisson_rate dom v i j k).
    { unfold E, lam, poisson_rate, Lap3, dxx3, dyy3, dzz3. rewrite !(inside_extend _ i j k I). field. assumption. }
    rewrite ED.
    pose proof (near_ext b u i j k B N ltac:(lia)) as N0. pose proof (near_ext b u (i - 1)%Z j k B N ltac:(lia)) as N1. pose proof (near_ext b u (i + 1)%Z j k B N ltac:(lia)) as N2.
    pose proof (near_ext b u i (j - 1)%Z k B N ltac:(lia)) as N3. pose proof (near_ext b u i (j + 1)%Z k B N ltac:(lia)) as N4.
    pose proof (near_ext b u i j (k - 1)%Z B N ltac:(lia)) as N5. pose proof (near_ext b u i j (k + 1)%Z B N ltac:(lia)) as N6.
    fold (E i j k) in N0. fold (E (i - 1)%Z j k) in N1. fold (E (i + 1)%Z j k) in N2. fold (E i (j - 1)%Z k) in N3. fold (E i (j + 1)%Z k) in N4.
    fold (E i j (k - 1)%Z) in N5. fold (E i j (k + 1)%Z) in N6.
    set (w := barrier k) in *. set (wm := barrier (k - 1)) in *. set (wp := barrier (k + 1)) in *.
    assert (BD : wm + wp - 2 * w = - (h * h)) by apply barrier_diff.
    assert (LH : lam * (h * h) = dt) by (unfold lam; field; assumption).
    assert (WT : dt * b * (w / W) <= dt * b).
    { rewrite <- (Rmult_1_r (dt * b)) at 2. apply Rmult_le_compat_l; [nra|]. apply (Rmult_le_reg_r W); [assumption|]. field_simplify; [|lra]. unfold w. pose proof (barrier_top_le k). lra. }
    apply Rle_trans with ((1 - 6 * lam) * ((tau + b) * w) + lam * (4 * ((tau + b) * w) + (tau + b) * wm + (tau + b) * wp) + dt * tau).
    2:{ replace ((1 - 6 * lam) * ((tau + b) * w) + lam * (4 * ((tau + b) * w) + (tau + b) * wm + (tau + b) * wp) + dt * tau)
          with ((tau + b) * (w + lam * (wm + wp - 2 * w)) + dt * tau) by ring.
        rewrite BD. replace (w + lam * - (h * h)) with (w - dt) by (rewrite <- LH; ring).
        replace ((tau + b * (1 - dt / W)) * w) with ((tau + b) * w - dt * b * (w / W)) by (field; lra). nra. }
    apply Rabs_le. apply abs_bounds in N0, N1, N2, N3, N4, N5, N6, HF1.
    generalize dependent ((tau + b) * w). generalize dependent ((tau + b) * wm). generalize dependent ((tau + b) * wp). intros xp N6 xm N5 x N0 N1 N2 N3 N4.
    generalize dependent (E i j k). generalize dependent (E (i - 1)%Z j k). generalize dependent (E (i + 1)%Z j k). generalize dependent (E i (j - 1)%Z k). generalize dependent (E i (j + 1)%Z k).
    generalize dependent (E i j (k - 1)%Z). generalize dependent (E i j (k + 1)%Z). generalize dependent (poisson_rate dom v i j k).
    intros. split; nra.
  Qed.

  Lemma near_mix a b c u u' : 0 <= a <= 1 -> near b u -> near c u' ->
    near (a * b + (1 - a) * c) (fun i j k => a * u i j k + (1 - a) * u' i j k).
  Proof.
    intros (A0 & A1) N M i j k I. specialize (N i j k I). specialize (M i j k I).
    replace (a * u i j k + (1 - a) * u' i j k - v i j k) with (a * (u i j k - v i j k) + (1 - a) * (u' i j k - v i j k)) by ring.
    eapply Rle_trans; [apply Rabs_triang|]. rewrite !Rabs_mult, (Rabs_right a), (Rabs_right (1 - a)) by lra.
    replace ((tau + (a * b + (1 - a) * c)) * barrier k) with (a * ((tau + b) * barrier k) + (1 - a) * ((tau + c) * barrier k)) by ring.
    apply Rplus_le_compat; apply Rmult_le_compat_l; lra.
  Qed.
  Lemma near_eq b c u u' : b = c -> (forall i j k, u i j k = u' i j k) -> near b u -> near c u'.
  Proof. intros <- E N i j k I. rewrite <- E. auto. Qed.
  Lemma near_le b c u : b <= c -> near b u -> near c u.
  Proof. intros E N i j k I. eapply Rle_trans; [apply N; auto|]. apply Rmult_le_compat_r; [apply barrier_nonneg; destruct I as (_ & _ & K); lia|lra]. Qed.

  Lemma rk3_near dt b u : 0 <= dt <= h * h / 6 -> 0 <= b -> near b u -> near (b * exp (- (dt / W))) (ssp3_3 (poisson_rate dom) dt u).
  Proof.
    intros D B N. pose proof top_large as TL. pose proof top_pos as TP. set (x := dt / W).
    assert (X0 : 0 <= x) by (unfold x; apply Rmult_le_pos; [lra|apply Rlt_le, Rinv_0_lt_compat; assumption]).
    assert (X1 : x <= 1). { unfold x. apply (Rmult_le_reg_r W); [assumption|]. field_simplify; lra. }
    pose proof (euler_near dt b u D B N) as N1. fold x in N1. set (u1 := fun i j k => u i j k + dt * poisson_rate dom u i j k) in N1.
    assert (B1 : 0 <= b * (1 - x)) by (apply Rmult_le_pos; lra).
    pose proof (euler_near dt _ u1 D B1 N1) as N2. fold x in N2.
    pose proof (near_mix (3 / 4) _ _ _ _ ltac:(lra) N N2) as N3. cbv beta in N3.
    assert (B3 : 0 <= 3 / 4 * b + (1 - 3 / 4) * (b * (1 - x) * (1 - x))). { apply Rplus_le_le_0_compat; [lra|]. apply Rmult_le_pos; [lra|]. apply Rmult_le_pos; lra. }
    pose proof (euler_near dt _ _ D B3 N3) as N4. fold x in N4.
    pose proof (near_mix (1 / 3) _ _ _ _ ltac:(lra) N N4) as N5. cbv beta in N5.
    apply (near_le (b * (1 - x + x * x / 2 - x * x * x / 6))); [apply Rmult_le_compat_l; [assumption|apply taylor_le; assumption]|].
    assert (EU : forall i j k, 3 / 4 * u i j k + (1 - 3 / 4) * (u1 i j k + dt * poisson_rate dom u1 i j k) = 3 / 4 * u i j k + 1 / 4 * (u1 i j k + dt * poisson_rate dom u1 i j k)) by (intros; field).
    refine (near_eq _ _ _ _ _ _ N5); [field|]. intros i j k.
    change (ssp3_3 (poisson_rate dom) dt u i j k) with (1 / 3 * u i j k + 2 / 3 * (3 / 4 * u i j k + 1 / 4 * (u1 i j k + dt * poisson_rate dom u1 i j k) +
      dt * poisson_rate dom (fun i j k => 3 / 4 * u i j k + 1 / 4 * (u1 i j k + dt * poisson_rate dom u1 i j k)) i j k)).
    pose proof (poisson_rate_ext dom _ _ HV (fun i j k _ => EU i j k) i j k) as EF. cbv beta in EF. rewrite EF.
    rewrite EU. field.
  Qed.

  (** Along a run: every step is within the limit, and none goes back in time. *)
  Lemma run_near tf limit i0 t0 dt0 last steps e : marches (fun dt p => p = dt) tf limit i0 t0 dt0 last steps e ->
    forall u b, 0 <= dt0 <= h * h / 6 -> t0 + dt0 <= tf -> 0 <= b -> near b u ->
    Forall (fun x => let '(_, t, _, u') := x in near (b * exp (- (t - t0) / W)) u') (reached (fun _ => ssp3_3 (poisson_rate dom)) i0 u steps).
  Proof.
    pose proof top_pos as TP.
    assert (G : forall t dt b u, 0 <= dt <= h * h / 6 -> 0 <= b -> near b u -> near (b * exp (- (t + dt - t) / W)) (ssp3_3 (poisson_rate dom) dt u)).
    { intros t dt b u D B N. replace (- (t + dt - t) / W) with (- (dt / W)) by (field; lra). apply rk3_near; assumption. }
    induction 1 as [k t dt|k t dt p PP L|k t dt p l e PP L M IH]; intros u b D TF B N.
    - constructor; [|constructor]. apply G; assumption.
    - constructor; [|constructor]. apply G; assumption.
    - cbn [reached]. constructor; [apply G; assumption|]. subst p. cbn [nadd Num_R] in IH |- *.
      assert (S : 0 <= shortened tf (t + dt) dt <= h * h / 6 /\ t + dt + shortened tf (t + dt) dt <= tf).
      { unfold shortened. cbn [nadd nsub Num_R]. destruct (ngeb _ tf) eqn:E.
        - split; [|lra]. split; [lra|]. unfold ngeb in E. cbn [nltb neqb Num_R] in E. unfold Rltb, Reqb in E.
          match type of E with context [Rlt_dec ?a ?b] => destruct (Rlt_dec a b) as [Q|Q] end; [cbn [nadd Num_R] in Q; lra|]. match type of E with context [Req_EM_T ?a ?b] => destruct (Req_EM_T a b) as [Q2|Q2] end; [cbn [nadd Num_R] in Q2; lra|discriminate E].
        - split; [lra|]. unfold ngeb in E. cbn [nltb neqb Num_R] in E. unfold Rltb, Reqb in E.
          match type of E with context [Rlt_dec ?a ?b] => destruct (Rlt_dec a b) as [Q|Q] end; [discriminate E|]. cbn [nadd Num_R] in Q. lra. }
      destruct S as (S1 & S2).
      assert (B' : 0 <= b * exp (- (t + dt - t) / W)) by (apply Rmult_le_pos; [assumption|apply Rlt_le, exp_pos]).
      specialize (IH (ssp3_3 (poisson_rate dom) dt u) _ S1 S2 B' (G t dt b u D B N)).
      eapply Forall_impl; [|exact IH]. intros (((i, t'), d'), u') H. refine (near_eq _ _ _ _ _ (fun _ _ _ => eq_refl) H).
      rewrite Rmult_assoc, <- exp_plus. f_equal. f_equal. field. lra.
  Qed.

  Lemma near_settles size t0 t u : near (2 * size / (h * h * IZR (nz dom)) * exp (- (t - t0) / W)) u -> 0 <= size -> settles dom v tau size t0 t u.
  Proof.
    intros N S i j k I. eapply Rle_trans; [apply N; assumption|]. rewrite Rmult_comm. apply Rmult_le_compat_r; [|apply barrier_top_le].
    pose proof hh. assert (0 < IZR (nz dom)) by (apply IZR_lt; lia). apply Rplus_le_le_0_compat; [assumption|]. apply Rmult_le_pos; [|apply Rlt_le, exp_pos].
    apply Rmult_le_pos; [lra|]. apply Rlt_le, Rinv_0_lt_compat, Rmult_lt_0_compat; assumption.
  Qed.

  Lemma zero_near size : (forall i j k, inside3 dom i j k -> Rabs (v i j k) <= size) -> 0 <= size ->
    near (2 * size / (h * h * IZR (nz dom))) (fun _ _ _ => 0) /\ 0 <= 2 * size / (h * h * IZR (nz dom)).
  Proof.
    intros M S. pose proof hh. assert (NZ : 0 < IZR (nz dom)) by (apply IZR_lt; lia). assert (P : 0 < h * h * IZR (nz dom)) by (apply Rmult_lt_0_compat; assumption).
    assert (B : 0 <= 2 * size / (h * h * IZR (nz dom))) by (apply Rmult_le_pos; [lra|apply Rlt_le, Rinv_0_lt_compat; assumption]).
    split; [|exact B]. intros i j k I. rewrite Rminus_0_l, Rabs_Ropp. pose proof I as (_ & _ & K).
    eapply Rle_trans; [apply M; assumption|]. pose proof (barrier_low k K).
    apply Rle_trans with (2 * size / (h * h * IZR (nz dom)) * (h * h / 2 * IZR (nz dom))); [right; field; lra|].
    apply Rle_trans with (2 * size / (h * h * IZR (nz dom)) * barrier k); [apply Rmult_le_compat_l; assumption|].
    apply Rmult_le_compat_r; [|lra]. apply barrier_nonneg. lia.
  Qed.
End Converge.
