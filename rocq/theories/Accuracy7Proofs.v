(** The drift of the mean over a run in doubles, 3D and 2D. *)
From Coq Require Import Reals Lra ZArith Lia List Psatz.
From Flocq Require Import Core BinarySingleNaN.
From Verif Require Import Outcome ZList ZListProofs Num Kernel ModelIndex IndexProofs ModelDisc3D ModelDisc2D ModelCH
  SpecGrid Disc3DProofs BC3Proofs Make3Proofs Disc2DProofs Make2Proofs Stencil3Proofs CHProofs SpecField SumProofs FieldProofs
  ModelReduce ReduceProofs ModelTime ModelRun SpecTime Time1Proofs Time2Proofs Time3Proofs Step1Proofs
  ModelDouble SpecDouble SpecAccuracy AccuracyProofs Accuracy2Proofs Accuracy3Proofs Accuracy4Proofs Accuracy5Proofs Accuracy6Proofs.
Import ListNotations.
Local Open Scope R_scope.
Local Notation u := unit_roundoff.
Local Notation B := value_of.

(** The same domain with real coordinates. *)
Definition real_domain (dom : domain double) : domain R :=
  {| nx := nx dom; ny := ny dom; nz := nz dom; xbeg := B (xbeg dom); xend := B (xend dom); ybeg := B (ybeg dom); yend := B (yend dom);
     zbeg := B (zbeg dom); zend := B (zend dom); xbc := xbc dom; ybc := ybc dom; zbc := zbc dom; nhalo := nhalo dom |}.

Lemma g30 : growth 30 <= 31 * u.
Proof. pose proof (growth_linear 30 ltac:(vm_compute; discriminate)) as G. replace (INR 31) with 31 in G by (cbn; lra). exact G. Qed.

Lemma rate_size_pos h m sigma eps2 b : 0 < h -> 0 <= b -> 4 * tiny <= rate_size h m sigma eps2 b.
Proof.
  intros H HB. pose proof tiny_pos. unfold rate_size.
  assert (0 <= 147 * b / h ^ 4) by (apply Rmult_le_pos; [lra|left; apply Rinv_0_lt_compat, pow_lt; exact H]).
  assert (0 <= 25 * (b ^ 3 + b) / h ^ 2) by (apply Rmult_le_pos; [pose proof (pow_le b 3 HB); lra|left; apply Rinv_0_lt_compat, pow_lt; exact H]).
  assert (0 <= Rabs eps2 * (147 * b / h ^ 4 + tiny)) by (apply Rmult_le_pos; [apply Rabs_pos|lra]).
  assert (0 <= Rabs sigma * (b + Rabs m)) by (apply Rmult_le_pos; [apply Rabs_pos|pose proof (Rabs_pos m); lra]). lra.
Qed.

(** A run of steps, each of which keeps an invariant indexed by an error bound. *)
Lemma run_steps_drift {X} (N : Num double) (step : X -> double -> double -> res X) (J : R -> X -> Prop) (G : double -> Prop) (F : X -> Prop) (g : double -> R) :
  (forall e x t dt x', G dt -> J e x -> F x' -> step x t dt = Ok x' -> J (e + g dt) x') -> (forall dt, G dt -> 0 <= g dt) ->
  forall dts x t xs e, Forall G dts -> J e x -> run_steps step x t dts = Ok xs -> Forall F xs ->
  forall x', In x' xs -> exists e', e' <= e + total (map g dts) /\ J e' x'.
Proof.
  intros ST GP dts. induction dts as [|d ds IH]; intros x t xs e HG HJ; cbn [run_steps].
  - intros E _ x' Hx. injection E as <-. destruct Hx.
  - inversion HG as [|? ? G1 G2]; subst. destruct (step x t d) as [x1| | |] eqn:E1; try discriminate.
    destruct (run_steps step x1 (nadd t d) ds) as [l| | |] eqn:E2; try discriminate.
    intros E FF x' Hx. injection E as <-. inversion FF as [|? ? F1 F2]; subst.
    assert (TP : 0 <= total (map g ds)).
    { clear - GP G2. induction G2 as [|y l Hy _ IH]; cbn [map total fold_right]; [unfold total; cbn; lra|]. unfold total in *. cbn. pose proof (GP y Hy). lra. }
    pose proof (ST _ _ _ _ _ G1 HJ F1 E1) as J1. change (total (map g (d :: ds))) with (g d + total (map g ds)).
    destruct Hx as [<-|Hx]; [exists (e + g d); split; [lra|exact J1]|].
    destruct (IH x1 (nadd t d) l (e + g d) G2 J1 E2 F2 x' Hx) as (e' & LE & J'). exists e'. split; [lra|exact J'].
Qed.

Section Three.
  Variable N : Num double.
  Hypothesis IE : ieee N.
  Variables (dom : domain double) (d : disc3 double) (variant : Z) (p : ch_params double) (b c : R).
  Hypothesis HV : valid_domain3 dom.
  Hypothesis HN : (2 <= nhalo dom)%Z.
  Hypothesis HT : (nhalo dom <= nx dom /\ nhalo dom <= ny dom /\ nhalo dom <= nz dom)%Z.
  Hypothesis NP : xbc dom <> Neumann /\ ybc dom <> Neumann /\ zbc dom <> Neumann.
  Hypothesis HM : make3 dom = Ok d.
  Hypothesis VR : (0 <= variant <= 2)%Z.
  Hypothesis HB : tiny <= b.
  Hypothesis FH : finite (d3_dx d).
  Hypothesis HH : / 2 ^ 250 <= B (d3_dx d) <= 2 ^ 250.
  Local Notation size := (rate_size (B (d3_dx d)) (B (ch_m p)) (B (ch_sigma p)) (B (ch_eps2 p)) b).
  Local Notation cells := (IZR (nx dom) * IZR (ny dom) * IZR (nz dom)).

  Lemma cells_pos3 : 0 < cells.
  Proof. destruct HV as (A1 & A2 & A3 & _). repeat apply Rmult_lt_0_compat; apply IZR_lt; lia. Qed.

  Definition M3 (f : Z -> R) : R := sum3 (nx dom) (ny dom) (nz dom) (fun i j k => f (slot3 dom i j k)) / cells.
  Lemma M3_lin f g a : M3 (fun i => f i + a * g i) = M3 f + a * M3 g.
  Proof. unfold M3. rewrite sum3_plus, sum3_scal. field. pose proof cells_pos3. repeat split; intros E; rewrite E in H; lra. Qed.
  Lemma sum3_abs f e : (forall i j k, inside3 dom i j k -> Rabs (f i j k) <= e) -> Rabs (sum3 (nx dom) (ny dom) (nz dom) f) <= cells * e.
  Proof.
    intros H. destruct HV as (A1 & A2 & A3 & _). rewrite <- (sum3_const (nx dom) (ny dom) (nz dom) e) by lia. apply Rabs_le.
    assert (L : 0 <= sum3 (nx dom) (ny dom) (nz dom) (fun i j k => e - f i j k)).
    { apply sum3_nonneg. intros i j k Hi Hj Hk. specialize (H i j k ltac:(repeat split; lia)). apply Rabs_le_inv in H. lra. }
    assert (R : 0 <= sum3 (nx dom) (ny dom) (nz dom) (fun i j k => e + f i j k)).
    { apply sum3_nonneg. intros i j k Hi Hj Hk. specialize (H i j k ltac:(repeat split; lia)). apply Rabs_le_inv in H. lra. }
    rewrite sum3_minus in L. rewrite sum3_plus in R. lra.
  Qed.
  Lemma mean3_abs f e : (forall i j k, inside3 dom i j k -> Rabs (f i j k) <= e) -> Rabs (sum3 (nx dom) (ny dom) (nz dom) f / cells) <= e.
  Proof.
    intros H. apply sum3_abs in H. pose proof cells_pos3 as CP. unfold Rdiv. rewrite Rabs_mult, (Rabs_pos_eq (/ cells)) by (left; apply Rinv_0_lt_compat; exact CP).
    apply Rmult_le_reg_r with cells; [exact CP|]. rewrite Rmult_assoc, Rinv_l, Rmult_1_r by lra. lra.
  Qed.
  Lemma M3_bound f e : (forall i, P3 dom i -> Rabs (f i) <= e) -> Rabs (M3 f) <= e.
  Proof. intros H. apply mean3_abs. intros i j k I. apply H. exists i, j, k. auto. Qed.

  Local Notation F := (ch_f3 dom variant p (d3_dx d)).
  Lemma F_slot t w i j k : inside3 dom i j k -> F t w O (slot3 dom i j k) = ch_expr3 p (d3_dx d) (dx4_of variant (d3_dx d)) (extend3 dom (at3 dom w)) i j k.
  Proof. intros I. unfold ch_f3. rewrite of3_slot by (destruct HV as (_ & _ & _ & NH); apply inside_padded3; auto). reflexivity. Qed.
  Lemma extend_tame w : tame (P3 dom) b w -> forall i j k, Rabs (B (extend3 dom (at3 dom w) i j k)) <= b.
  Proof.
    intros T i j k. apply T. destruct HV as (A1 & A2 & A3 & _). unfold P3. do 3 eexists. split; [|reflexivity].
    repeat split; apply extend1_range; auto.
  Qed.
  Lemma F_near t w i j k : tame (P3 dom) b w -> inside3 dom i j k -> finite (F t w O (slot3 dom i j k)) ->
    near (F t w O (slot3 dom i j k)) (CH3 (B (d3_dx d)) (B (ch_m p)) (B (ch_sigma p)) (B (ch_eps2 p)) (fun i j k => B (extend3 dom (at3 dom w) i j k)) i j k) size 30.
  Proof.
    intros T I FF. rewrite F_slot in * by exact I. apply (rate3_near N IE b (d3_dx d) HB FH HH); auto; [apply extend_tame; exact T|lia].
  Qed.
  Lemma size_pos3 : 4 * tiny <= size.
  Proof. apply rate_size_pos; [apply h_pos; exact HH|pose proof tiny_pos; lra]. Qed.
  Lemma F_bound t w i : tame (P3 dom) b w -> P3 dom i -> finite (F t w O i) -> Rabs (B (F t w O i)) <= 3 / 2 * size.
  Proof.
    intros T (x & y & z & I & ->) FF. pose proof (F_near t w x y z T I FF) as NR. apply near_up in NR.
    pose proof (p100 30 ltac:(lia)) as P30. pose proof size_pos3. pose proof tiny_pos.
    eapply Rle_trans; [exact NR|]. apply Rmult_le_compat_r; lra.
  Qed.
  Hypothesis HC : B (ch_sigma p) = 0 \/ c = B (ch_m p).
  Lemma F_mean t w : tame (P3 dom) b w -> all_finite (P3 dom) (F t w) ->
    Rabs (avg M3 (F t w) + B (ch_sigma p) * (avg M3 w - c)) <= 31 * u * size.
  Proof.
    intros T FF. pose proof cells_pos3 as CP. pose proof size_pos3 as SP. pose proof tiny_pos as TP.
    set (G := CH3 (B (d3_dx d)) (B (ch_m p)) (B (ch_sigma p)) (B (ch_eps2 p)) (extend3 (real_domain dom) (fun i j k => B (at3 dom w i j k)))).
    assert (TG : sum3 (nx dom) (ny dom) (nz dom) G = - B (ch_sigma p) * (cells * (avg M3 w - B (ch_m p)))).
    { pose proof (total3_CH (real_domain dom) (B (d3_dx d)) (B (ch_m p)) (B (ch_sigma p)) (B (ch_eps2 p)) (fun i j k => B (at3 dom w i j k)) HV NP) as T3.
      unfold total3 in T3. cbn [nx ny nz real_domain] in T3. fold G in T3. rewrite T3, sum3_minus. destruct HV as (A1 & A2 & A3 & _). rewrite sum3_const by lia.
      unfold avg, M3, at3. field. repeat split; intros E; rewrite E in CP; lra. }
    assert (TC : B (ch_sigma p) * (avg M3 w - c) = - (sum3 (nx dom) (ny dom) (nz dom) G / cells)).
    { rewrite TG. destruct HC as [Z| ->]; [rewrite Z|]; field; repeat split; intros E; rewrite E in CP; lra. }
    rewrite TC. unfold avg, M3.
    match goal with |- Rabs (?a / cells + - (?g / cells)) <= _ => replace (a / cells + - (g / cells)) with (sum3 (nx dom) (ny dom) (nz dom) (fun i j k => B (F t w O (slot3 dom i j k)) - G i j k) / cells)
      by (rewrite sum3_minus; field; repeat split; intros E; rewrite E in CP; lra) end.
    apply mean3_abs. intros i j k I.
    assert (FI : finite (F t w O (slot3 dom i j k))) by (apply FF; exists i, j, k; auto).
    destruct (F_near t w i j k T I FI) as (_ & _ & E). eapply Rle_trans; [exact E|]. apply Rmult_le_compat_r; [lra|apply g30].
  Qed.

  Hypothesis SG : 0 <= B (ch_sigma p).

  Lemma bounded_tame s w : bounded3 dom b s -> state_holds 1 (cells3 dom) (P3 dom) s w -> tame (P3 dom) b w.
  Proof.
    intros (a & v & -> & HI & HF) HS i (x & y & z & I & ->). destruct HV as (_ & _ & _ & NH).
    apply state3 in HS; [|exact NH]. destruct HI as (_ & HI). destruct HS as (_ & HS). specialize (HS x y z I). rewrite HI in HS by exact I. unfold at3 in HS. injection HS as <-. auto.
  Qed.
  Lemma finite_all s w : finite3 dom s -> state_holds 1 (cells3 dom) (P3 dom) s w -> all_finite (P3 dom) w.
  Proof.
    intros (a & v & -> & HI & HF) HS i (x & y & z & I & ->). destruct HV as (_ & _ & _ & NH).
    apply state3 in HS; [|exact NH]. destruct HI as (_ & HI). destruct HS as (_ & HS). specialize (HS x y z I). rewrite HI in HS by exact I. unfold at3 in HS. injection HS as <-. auto.
  Qed.

  Theorem run_drift3 (W : Type) eval' (x : rk3_world double (scratch double) W) (c0 : list double) u0 t0 dts xs :
    (forall k, In k [r_k1 (k_int x); r_k2 (k_int x); r_k3 (k_int x); r_stage (k_int x)] -> shaped 1 (cells3 dom) k) ->
    scratch_fits (cells3 dom) (k_sc x) -> shaped 1 (cells3 dom) (k_du x) ->
    k_u x = [c0] -> holds_inside3 dom c0 u0 ->
    Forall (fun dt => tiny <= B dt /\ B (ch_sigma p) * B dt <= 1) dts ->
    restricts eval' (ch_rhs3 d variant p) (bounded3 dom b) -> run_steps (rk3_do eval') x t0 dts = Ok xs -> Forall (fun x' => finite3 dom (k_u x')) xs ->
    forall x', In x' xs -> exists c' u', k_u x' = [c'] /\ holds_inside3 dom c' u' /\
      Rabs (true_mean3 dom u' - c) <= Rabs (true_mean3 dom u0 - c) + 128 * u * total (map (fun dt => b + B dt * size) dts).
  Proof.
    intros SK SF SD EU HC0 HD RS RUN FIN x' Hx.
    pose proof (ch3_computes dom d variant p HV HN HT HM VR) as C. destruct HV as (A1 & A2 & A3 & NH).
    set (J := fun (e : R) (y : rk3_world double (scratch double) W) => rk3_shaped 1 (cells3 dom) (k_int y) /\ scratch_fits (cells3 dom) (k_sc y) /\ shaped 1 (cells3 dom) (k_du y) /\
      exists w, state_holds 1 (cells3 dom) (P3 dom) (k_u y) w /\ Rabs (avg M3 w - c) <= e).
    set (g := fun dt => 128 * u * (b + B dt * size)).
    destruct (run_steps_drift N (rk3_do eval') J (fun dt => tiny <= B dt /\ B (ch_sigma p) * B dt <= 1) (fun x' => finite3 dom (k_u x')) g) with (dts := dts) (x := x) (t := t0) (xs := xs) (e := Rabs (true_mean3 dom u0 - c)) (x' := x') as (e' & LE & J'); auto.
    - intros e y t dt y' (D1 & D2) (J1 & J2 & J3 & w & J4 & J5) FY. unfold rk3_do.
      destruct (rk3_step eval' (k_int y) (k_sc y) (k_u y) (k_du y) t dt) as [q| | |] eqn:EQ; try discriminate.
      destruct (rk3_step_inv _ _ _ _ _ _ _ _ C RS _ _ _ _ _ _ _ _ J1 J2 J4 J3 EQ) as (o' & sc' & u' & du' & -> & I1 & I2 & I3 & I4 & Q0 & (s1 & Q1 & H1) & (s2 & Q2 & H2)).
      cbn [rbind]. intros EE. injection EE as <-. cbn [k_u] in FY. split; [exact I1|]. split; [exact I2|]. split; [exact (proj1 I4)|]. eexists. split; [exact I3|].
      eapply Rle_trans; [apply (step_drift N IE (P3 dom) M3 M3_lin M3_bound F b size (B (ch_sigma p)) c F_bound F_mean HB size_pos3 t dt w D1 SG D2)|unfold g; lra].
      + exact (bounded_tame _ _ Q0 J4).
      + exact (bounded_tame _ _ Q1 H1).
      + exact (bounded_tame _ _ Q2 H2).
      + exact (finite_all _ _ FY I3).
    - intros dt (D1 & _). unfold g. pose proof u_pos. pose proof tiny_pos. pose proof size_pos3. assert (0 <= B dt * size) by (apply Rmult_le_pos; lra). apply Rmult_le_pos; lra.
    - split; [repeat split; apply SK; simpl; auto 6|]. split; [exact SF|]. split; [exact SD|]. exists (of3 dom u0). split.
      + rewrite EU. apply state3; auto. split; [apply HC0|]. intros i j k I. unfold at3. rewrite of3_slot by (apply inside_padded3; auto). apply HC0. exact I.
      + apply Req_le. f_equal. f_equal. unfold avg, M3, true_mean3. f_equal. apply sum3_ext. intros i j k Hi Hj Hk. rewrite of3_slot by (apply inside_padded3; [auto|repeat split; lia]). reflexivity.
    - destruct J' as (_ & _ & _ & w & HW & LW). destruct (proj1 (one_array _ _) (proj1 HW)) as (c' & EC & L). exists c', (at3 dom w). split; [exact EC|]. rewrite EC in HW. split; [apply state3; auto|].
      eapply Rle_trans; [exact LW|]. eapply Rle_trans; [exact LE|]. apply Rplus_le_compat_l. apply Req_le.
      clear. unfold g, total. induction dts as [|a l IH]; cbn [map fold_right]; [ring|]. rewrite IH. ring.
  Qed.
End Three.

Section Two.
  Variable N : Num double.
  Hypothesis IE : ieee N.
  Variables (dom : domain double) (d : disc2 double) (p : ch_params double) (b c : R).
  Hypothesis HV : valid_domain2 dom.
  Hypothesis HN : (2 <= nhalo dom)%Z.
  Hypothesis HT : (nhalo dom <= nx dom)%Z.
  Hypothesis HM : make2 dom = Ok d.
  Hypothesis HB : tiny <= b.
  Hypothesis FH : finite (d2_dx d).
  Hypothesis HH : / 2 ^ 250 <= B (d2_dx d) <= 2 ^ 250.
  Local Notation size := (rate_size (B (d2_dx d)) (B (ch_m p)) (B (ch_sigma p)) (B (ch_eps2 p)) b).
  Local Notation cells := (IZR (nx dom) * IZR (nx dom)).

  Lemma cells_pos2 : 0 < cells.
  Proof. destruct HV as (A1 & _). repeat apply Rmult_lt_0_compat; apply IZR_lt; lia. Qed.

  Definition M2 (f : Z -> R) : R := sum2 (nx dom) (nx dom) (fun i j => f (slot2 dom i j)) / cells.
  Lemma M2_lin f g a : M2 (fun i => f i + a * g i) = M2 f + a * M2 g.
  Proof. unfold M2. rewrite sum2_plus, sum2_scal. field. pose proof cells_pos2. repeat split; intros E; rewrite E in H; lra. Qed.
  Lemma sum2_abs f e : (forall i j, inside2 dom i j -> Rabs (f i j) <= e) -> Rabs (sum2 (nx dom) (nx dom) f) <= cells * e.
  Proof.
    intros H. destruct HV as (A1 & _). rewrite <- (sum2_const (nx dom) (nx dom) e) by lia. apply Rabs_le.
    assert (L : 0 <= sum2 (nx dom) (nx dom) (fun i j => e - f i j)).
    { apply sum2_nonneg. intros i j Hi Hj. specialize (H i j ltac:(repeat split; lia)). apply Rabs_le_inv in H. lra. }
    assert (R : 0 <= sum2 (nx dom) (nx dom) (fun i j => e + f i j)).
    { apply sum2_nonneg. intros i j Hi Hj. specialize (H i j ltac:(repeat split; lia)). apply Rabs_le_inv in H. lra. }
    rewrite sum2_minus in L. rewrite sum2_plus in R. lra.
  Qed.
  Lemma mean2_abs f e : (forall i j, inside2 dom i j -> Rabs (f i j) <= e) -> Rabs (sum2 (nx dom) (nx dom) f / cells) <= e.
  Proof.
    intros H. apply sum2_abs in H. pose proof cells_pos2 as CP. unfold Rdiv. rewrite Rabs_mult, (Rabs_pos_eq (/ cells)) by (left; apply Rinv_0_lt_compat; exact CP).
    apply Rmult_le_reg_r with cells; [exact CP|]. rewrite Rmult_assoc, Rinv_l, Rmult_1_r by lra. lra.
  Qed.
  Lemma M2_bound f e : (forall i, P2 dom i -> Rabs (f i) <= e) -> Rabs (M2 f) <= e.
  Proof. intros H. apply mean2_abs. intros i j I. apply H. exists i, j. auto. Qed.

  Local Notation F := (ch_f2 dom p (d2_dx d)).
  Lemma F_slot2 t w i j : inside2 dom i j -> F t w O (slot2 dom i j) = ch_expr2 p (d2_dx d) (periodic2 dom (at2 dom w)) i j.
  Proof. intros I. unfold ch_f2. rewrite of2_slot by (destruct HV as (_ & NH); apply inside_padded2; auto). reflexivity. Qed.
  Lemma extend_tame2 w : tame (P2 dom) b w -> forall i j, Rabs (B (periodic2 dom (at2 dom w) i j)) <= b.
  Proof.
    intros T i j. apply T. destruct HV as (A1 & _). unfold P2. do 2 eexists. split; [|reflexivity].
    split; apply Z.mod_pos_bound; lia.
  Qed.
  Lemma F_near2 t w i j : tame (P2 dom) b w -> inside2 dom i j -> finite (F t w O (slot2 dom i j)) ->
    near (F t w O (slot2 dom i j)) (CH2 (B (d2_dx d)) (B (ch_m p)) (B (ch_sigma p)) (B (ch_eps2 p)) (fun i j => B (periodic2 dom (at2 dom w) i j)) i j) size 30.
  Proof.
    intros T I FF. rewrite F_slot2 in * by exact I. apply (rate2_near N IE b (d2_dx d) HB FH HH); auto. apply extend_tame2; exact T.
  Qed.
  Lemma size_pos2 : 4 * tiny <= size.
  Proof. apply rate_size_pos; [apply h_pos; exact HH|pose proof tiny_pos; lra]. Qed.
  Lemma F_bound2 t w i : tame (P2 dom) b w -> P2 dom i -> finite (F t w O i) -> Rabs (B (F t w O i)) <= 3 / 2 * size.
  Proof.
    intros T (x & y & I & ->) FF. pose proof (F_near2 t w x y T I FF) as NR. apply near_up in NR.
    pose proof (p100 30 ltac:(lia)) as P20. pose proof size_pos2. pose proof tiny_pos.
    eapply Rle_trans; [exact NR|]. apply Rmult_le_compat_r; lra.
  Qed.
  Hypothesis HC : B (ch_sigma p) = 0 \/ c = B (ch_m p).
  Lemma F_mean2 t w : tame (P2 dom) b w -> all_finite (P2 dom) (F t w) ->
    Rabs (avg M2 (F t w) + B (ch_sigma p) * (avg M2 w - c)) <= 31 * u * size.
  Proof.
    intros T FF. pose proof cells_pos2 as CP. pose proof size_pos2 as SP. pose proof tiny_pos as TP.
    set (G := CH2 (B (d2_dx d)) (B (ch_m p)) (B (ch_sigma p)) (B (ch_eps2 p)) (periodic2 (real_domain dom) (fun i j => B (at2 dom w i j)))).
    assert (TG : sum2 (nx dom) (nx dom) G = - B (ch_sigma p) * (cells * (avg M2 w - B (ch_m p)))).
    { pose proof (total2_CH (real_domain dom) (B (d2_dx d)) (B (ch_m p)) (B (ch_sigma p)) (B (ch_eps2 p)) (fun i j => B (at2 dom w i j)) HV) as T3.
      unfold total2 in T3. cbn [nx real_domain] in T3. fold G in T3. rewrite T3, sum2_minus. destruct HV as (A1 & _). rewrite sum2_const by lia.
      unfold avg, M2, at2. field. repeat split; intros E; rewrite E in CP; lra. }
    assert (TC : B (ch_sigma p) * (avg M2 w - c) = - (sum2 (nx dom) (nx dom) G / cells)).
    { rewrite TG. destruct HC as [Z| ->]; [rewrite Z|]; field; repeat split; intros E; rewrite E in CP; lra. }
    rewrite TC. unfold avg, M2.
    match goal with |- Rabs (?a / cells + - (?g / cells)) <= _ => replace (a / cells + - (g / cells)) with (sum2 (nx dom) (nx dom) (fun i j => B (F t w O (slot2 dom i j)) - G i j) / cells)
      by (rewrite sum2_minus; field; repeat split; intros E; rewrite E in CP; lra) end.
    apply mean2_abs. intros i j I.
    assert (FI : finite (F t w O (slot2 dom i j))) by (apply FF; exists i, j; auto).
    destruct (F_near2 t w i j T I FI) as (_ & _ & E). eapply Rle_trans; [exact E|]. apply Rmult_le_compat_r; [lra|apply g30].
  Qed.

  Hypothesis SG : 0 <= B (ch_sigma p).

  Lemma bounded_tame2 s w : bounded2 dom b s -> state_holds 1 (cells2 dom) (P2 dom) s w -> tame (P2 dom) b w.
  Proof.
    intros (a & v & -> & HI & HF) HS i (x & y & I & ->). destruct HV as (_ & NH).
    apply state2 in HS; [|exact NH]. destruct HI as (_ & HI). destruct HS as (_ & HS). specialize (HS x y I). rewrite HI in HS by exact I. unfold at2 in HS. injection HS as <-. auto.
  Qed.
  Lemma finite_all2 s w : finite2 dom s -> state_holds 1 (cells2 dom) (P2 dom) s w -> all_finite (P2 dom) w.
  Proof.
    intros (a & v & -> & HI & HF) HS i (x & y & I & ->). destruct HV as (_ & NH).
    apply state2 in HS; [|exact NH]. destruct HI as (_ & HI). destruct HS as (_ & HS). specialize (HS x y I). rewrite HI in HS by exact I. unfold at2 in HS. injection HS as <-. auto.
  Qed.

  Theorem run_drift2 (W : Type) eval' (x : rk3_world double (scratch double) W) (c0 : list double) u0 t0 dts xs :
    (forall k, In k [r_k1 (k_int x); r_k2 (k_int x); r_k3 (k_int x); r_stage (k_int x)] -> shaped 1 (cells2 dom) k) ->
    scratch_fits (cells2 dom) (k_sc x) -> shaped 1 (cells2 dom) (k_du x) ->
    k_u x = [c0] -> holds_inside2 dom c0 u0 ->
    Forall (fun dt => tiny <= B dt /\ B (ch_sigma p) * B dt <= 1) dts ->
    restricts eval' (ch_rhs2 d p) (bounded2 dom b) -> run_steps (rk3_do eval') x t0 dts = Ok xs -> Forall (fun x' => finite2 dom (k_u x')) xs ->
    forall x', In x' xs -> exists c' u', k_u x' = [c'] /\ holds_inside2 dom c' u' /\
      Rabs (true_mean2 dom u' - c) <= Rabs (true_mean2 dom u0 - c) + 128 * u * total (map (fun dt => b + B dt * size) dts).
  Proof.
    intros SK SF SD EU HC0 HD RS RUN FIN x' Hx.
    pose proof (ch2_computes dom d p HV HN HT HM) as C. destruct HV as (A1 & NH).
    set (J := fun (e : R) (y : rk3_world double (scratch double) W) => rk3_shaped 1 (cells2 dom) (k_int y) /\ scratch_fits (cells2 dom) (k_sc y) /\ shaped 1 (cells2 dom) (k_du y) /\
      exists w, state_holds 1 (cells2 dom) (P2 dom) (k_u y) w /\ Rabs (avg M2 w - c) <= e).
    set (g := fun dt => 128 * u * (b + B dt * size)).
    destruct (run_steps_drift N (rk3_do eval') J (fun dt => tiny <= B dt /\ B (ch_sigma p) * B dt <= 1) (fun x' => finite2 dom (k_u x')) g) with (dts := dts) (x := x) (t := t0) (xs := xs) (e := Rabs (true_mean2 dom u0 - c)) (x' := x') as (e' & LE & J'); auto.
    - intros e y t dt y' (D1 & D2) (J1 & J2 & J3 & w & J4 & J5) FY. unfold rk3_do.
      destruct (rk3_step eval' (k_int y) (k_sc y) (k_u y) (k_du y) t dt) as [q| | |] eqn:EQ; try discriminate.
      destruct (rk3_step_inv _ _ _ _ _ _ _ _ C RS _ _ _ _ _ _ _ _ J1 J2 J4 J3 EQ) as (o' & sc' & u' & du' & -> & I1 & I2 & I3 & I4 & Q0 & (s1 & Q1 & H1) & (s2 & Q2 & H2)).
      cbn [rbind]. intros EE. injection EE as <-. cbn [k_u] in FY. split; [exact I1|]. split; [exact I2|]. split; [exact (proj1 I4)|]. eexists. split; [exact I3|].
      eapply Rle_trans; [apply (step_drift N IE (P2 dom) M2 M2_lin M2_bound F b size (B (ch_sigma p)) c F_bound2 F_mean2 HB size_pos2 t dt w D1 SG D2)|unfold g; lra].
      + exact (bounded_tame2 _ _ Q0 J4).
      + exact (bounded_tame2 _ _ Q1 H1).
      + exact (bounded_tame2 _ _ Q2 H2).
      + exact (finite_all2 _ _ FY I3).
    - intros dt (D1 & _). unfold g. pose proof u_pos. pose proof tiny_pos. pose proof size_pos2. assert (0 <= B dt * size) by (apply Rmult_le_pos; lra). apply Rmult_le_pos; lra.
    - split; [repeat split; apply SK; simpl; auto 6|]. split; [exact SF|]. split; [exact SD|]. exists (of2 dom u0). split.
      + rewrite EU. apply state2; auto. split; [apply HC0|]. intros i j I. unfold at2. rewrite of2_slot by (apply inside_padded2; auto). apply HC0. exact I.
      + apply Req_le. f_equal. f_equal. unfold avg, M2, true_mean2. f_equal. apply sum2_ext. intros i j Hi Hj. rewrite of2_slot by (apply inside_padded2; [auto|repeat split; lia]). reflexivity.
    - destruct J' as (_ & _ & _ & w & HW & LW). destruct (proj1 (one_array _ _) (proj1 HW)) as (c' & EC & L). exists c', (at2 dom w). split; [exact EC|]. rewrite EC in HW. split; [apply state2; auto|].
      eapply Rle_trans; [exact LW|]. eapply Rle_trans; [exact LE|]. apply Rplus_le_compat_l. apply Req_le.
      clear. unfold g, total. induction dts as [|a l IH]; cbn [map fold_right]; [ring|]. rewrite IH. ring.
  Qed.
End Two.
