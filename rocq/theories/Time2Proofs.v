(** The RK3SSP and ODE23 steps. *)
From Verif Require Import Outcome ZList ZListProofs Num Kernel ModelTime SpecTime Time1Proofs.
From Coq Require Import Lia Reals Lra FunctionalExtensionality.
Local Open Scope Z_scope.

Lemma Forall2_len {A B} (Q : A -> B -> Prop) l l' : Forall2 Q l l' -> length l = length l'.
Proof. induction 1; simpl; auto. Qed.

Section Steps.
  Context {V : Type} `{N : Num V}.
  Context {S : Type} (eval : rhs_fun V S) (ok : S -> Prop) (nv : nat) (size : Z) (P : Z -> Prop)
    (f : V -> (nat -> Z -> V) -> nat -> Z -> V).
  Hypothesis C : computes eval ok nv size P f.
  Local Open Scope num_scope.

  Definition rk3_shaped (o : rk3 V) : Prop :=
    shaped nv size (r_k1 o) /\ shaped nv size (r_k2 o) /\ shaped nv size (r_k3 o) /\
    shaped nv size (r_stage o).

  Ltac get_holds :=
    match goal with
    | H : state_holds _ _ _ ?s _ |- shaped _ _ ?s => exact (proj1 H)
    | H : shaped _ _ ?s |- shaped _ _ ?s => exact H
    end.

  Lemma stage1_holds dt a (out u k1 : state V) wu wk :
    shaped nv size out -> state_holds nv size P u wu -> state_holds nv size P k1 wk ->
    exists out', for_vecs nv (stage1_body dt a) out [u; k1] = Ok out' /\
      state_holds nv size P out' (fun e i => wu e i + dt * a * wk e i).
  Proof.
    intros HO HU HK.
    destruct (for_vecs_holds nv size P (stage1_body dt a) [1%nat; 2%nat]
      (fun l => match l with [s; k] => s + dt * a * k | _ => nint 0 end) [u; k1] out
      (fun a => match a with 1%nat => wu | _ => wk end)) as (o & E & H); auto.
    - intros s [<-|[<-|[]]]; get_holds.
    - intros b [<-|[<-|[]]]; simpl; split; auto.
    - exists o. split; auto.
  Qed.

  Lemma stage2_holds dt a b (out u k1 k2 : state V) wu w1 w2 :
    shaped nv size out -> state_holds nv size P u wu -> state_holds nv size P k1 w1 ->
    state_holds nv size P k2 w2 ->
    exists out', for_vecs nv (stage2_body dt a b) out [u; k1; k2] = Ok out' /\
      state_holds nv size P out' (fun e i => wu e i + dt * (a * w1 e i + b * w2 e i)).
  Proof.
    intros HO HU H1 H2.
    destruct (for_vecs_holds nv size P (stage2_body dt a b) [1%nat; 2%nat; 3%nat]
      (fun l => match l with [s; k1; k2] => s + dt * (a * k1 + b * k2) | _ => nint 0 end) [u; k1; k2] out
      (fun a => match a with 1%nat => wu | 2%nat => w1 | _ => w2 end)) as (o & E & H); auto.
    - intros s [<-|[<-|[<-|[]]]]; get_holds.
    - intros c [<-|[<-|[<-|[]]]]; simpl; split; auto.
    - exists o. split; auto.
  Qed.

  Lemma residual_holds a b c (out k1 k2 k3 : state V) w1 w2 w3 :
    shaped nv size out -> state_holds nv size P k1 w1 ->
    state_holds nv size P k2 w2 -> state_holds nv size P k3 w3 ->
    exists out', for_vecs nv (residual_body a b c) out [k1; k2; k3] = Ok out' /\
      state_holds nv size P out' (fun e i => a * w1 e i + b * w2 e i + c * w3 e i).
  Proof.
    intros HO H1 H2 H3.
    destruct (for_vecs_holds nv size P (residual_body a b c) [1%nat; 2%nat; 3%nat]
      (fun l => match l with [k1; k2; k3] => a * k1 + b * k2 + c * k3 | _ => nint 0 end) [k1; k2; k3] out
      (fun a => match a with 1%nat => w1 | 2%nat => w2 | _ => w3 end)) as (o & E & H); auto.
    - intros s [<-|[<-|[<-|[]]]]; get_holds.
    - intros d [<-|[<-|[<-|[]]]]; simpl; split; auto.
    - exists o. split; auto.
  Qed.

  Lemma update_holds dt (u r : state V) wu wr :
    state_holds nv size P u wu -> state_holds nv size P r wr ->
    exists out', for_vecs nv (update_body dt) u [r] = Ok out' /\
      state_holds nv size P out' (fun e i => wu e i + dt * wr e i).
  Proof.
    intros HU HR.
    destruct (for_vecs_holds nv size P (update_body dt) [0%nat; 1%nat]
      (fun l => match l with [s; r] => s + dt * r | _ => nint 0 end) [r] u
      (fun a => match a with 0%nat => wu | _ => wr end)) as (o & E & H); auto.
    - get_holds.
    - intros s [<-|[]]; get_holds.
    - intros d [<-|[<-|[]]]; simpl; split; auto.
    - exists o. split; auto.
  Qed.

  Lemma copy_holds (out r : state V) wr :
    shaped nv size out -> state_holds nv size P r wr ->
    exists out', for_vecs nv copy_body out [r] = Ok out' /\ state_holds nv size P out' wr.
  Proof.
    intros HU HR.
    destruct (for_vecs_holds nv size P copy_body [1%nat]
      (fun l => match l with [r] => r | _ => nint 0 end) [r] out (fun a => wr)) as (o & E & H); auto.
    - intros s [<-|[]]; get_holds.
    - intros d [<-|[]]; simpl; split; auto.
    - exists o. split; auto.
  Qed.

  (** The values of the stages and of the result, as the code computes them. *)
  Definition rk3_k1 (t : V) (u : nat -> Z -> V) := f t u.
  Definition rk3_k2 (t dt : V) u := f (t + nint 1 * dt) (fun e i => u e i + dt * nint 1 * rk3_k1 t u e i).
  Definition rk3_k3 (t dt : V) u :=
    f (t + nrat 1 2 * dt) (fun e i => u e i + dt * (nrat 1 4 * rk3_k1 t u e i + nrat 1 4 * rk3_k2 t dt u e i)).
  Definition rk3_slope (t dt : V) u e i :=
    nrat 1 6 * rk3_k1 t u e i + nrat 1 6 * rk3_k2 t dt u e i + nrat 2 3 * rk3_k3 t dt u e i.
  Definition rk3_next (t dt : V) (u : nat -> Z -> V) : nat -> Z -> V :=
    fun e i => u e i + dt * rk3_slope t dt u e i.

  Lemma rk3_step_spec (o : rk3 V) sc (u du : state V) t dt w :
    rk3_shaped o -> ok sc -> state_holds nv size P u w -> shaped nv size du ->
    exists o' sc' u' du', rk3_step eval o sc u du t dt = Ok (o', sc', u', du') /\
      rk3_shaped o' /\ ok sc' /\ state_holds nv size P u' (rk3_next t dt w) /\
      state_holds nv size P du' (rk3_slope t dt w).
  Proof.
    intros (S1 & S2 & S3 & S4) HO HU HD. unfold rk3_step.
    assert (length u = nv) as -> by apply HU.
    destruct (C sc u t (r_k1 o) w HO HU S1) as (sc1 & u1 & k1 & E1 & O1 & HU1 & HK1).
    rewrite E1. cbn [rbind].
    destruct (stage1_holds dt (nint 1) (r_stage o) u1 k1 w (f t w) S4 HU1 HK1) as (st & Es & Hst).
    rewrite Es. cbn [rbind].
    destruct (C sc1 st (t + nint 1 * dt) (r_k2 o) _ O1 Hst S2) as (sc2 & st2 & k2 & E2 & O2 & Hst2 & HK2).
    rewrite E2. cbn [rbind].
    destruct (stage2_holds dt (nrat 1 4) (nrat 1 4) st2 u1 k1 k2 _ _ _ (proj1 Hst2) HU1 HK1 HK2) as (st3 & E3 & Hst3).
    rewrite E3. cbn [rbind].
    destruct (C sc2 st3 (t + nrat 1 2 * dt) (r_k3 o) _ O2 Hst3 S3) as (sc3 & st4 & k3 & E4 & O3 & Hst4 & HK3).
    rewrite E4. cbn [rbind].
    destruct (residual_holds (nrat 1 6) (nrat 1 6) (nrat 2 3) du k1 k2 k3 _ _ _ HD HK1 HK2 HK3) as (du' & E5 & Hdu).
    rewrite E5. cbn [rbind].
    destruct (update_holds dt u1 du' _ _ HU1 Hdu) as (u' & E6 & Hu').
    rewrite E6. cbn [rbind].
    do 4 eexists. split; [reflexivity|]. split.
    - split; [exact (proj1 HK1)|]. split; [exact (proj1 HK2)|]. split; [exact (proj1 HK3)|]. exact (proj1 Hst4).
    - split; [exact O3|]. split; [exact Hu'|exact Hdu].
  Qed.

  Definition ode23_shaped (o : ode23 V) : Prop :=
    shaped nv size (o_k1 o) /\ shaped nv size (o_k2 o) /\ shaped nv size (o_k3 o) /\
    shaped nv size (o_k4 o) /\ shaped nv size (o_stage o).

  (** The stages of an ODE23 step that starts from the first stage k1. *)
  Definition bs2 (t dt : V) (u k1 : nat -> Z -> V) :=
    f (t + nrat 1 2 * dt) (fun e i => u e i + dt * nrat 1 2 * k1 e i).
  Definition bs3 (t dt : V) u k1 :=
    f (t + nrat 3 4 * dt) (fun e i => u e i + dt * (nint 0 * k1 e i + nrat 3 4 * bs2 t dt u k1 e i)).
  Definition bs_slope (t dt : V) u k1 e i :=
    nrat 2 9 * k1 e i + nrat 1 3 * bs2 t dt u k1 e i + nrat 4 9 * bs3 t dt u k1 e i.
  Definition bs_next (t dt : V) u k1 : nat -> Z -> V := fun e i => u e i + dt * bs_slope t dt u k1 e i.

  Lemma error_step_ok rmax dt k1 k2 k3 k4 du e0 e :
    (e < nv)%nat ->
    shaped nv size k1 -> shaped nv size k2 -> shaped nv size k3 -> shaped nv size k4 -> shaped nv size du ->
    exists l, error_step rmax dt k1 k2 k3 k4 du (Ok e0) e = Ok (nmax e0 (dt * rmax e0 l)) /\
      zlen l = size /\
      forall i, 0 <= i < size -> exists a b c d r,
        cell k1 e i = Some a /\ cell k2 e i = Some b /\ cell k3 e i = Some c /\ cell k4 e i = Some d /\
        cell du e i = Some r /\
        zget l i = Some (nabs (r - (nrat 7 24 * a + nrat 1 4 * b + nrat 1 3 * c + nrat 1 8 * d))).
  Proof.
    intros He (L1 & Z1) (L2 & Z2) (L3 & Z3) (L4 & Z4) (L5 & Z5).
    assert (G : forall k : state V, length k = nv -> exists a, nth_error k e = Some a).
    { intros k Hk. destruct (nth_error k e) eqn:E; eauto. apply nth_error_None in E. lia. }
    destruct (G k1 L1) as (a1 & E1). destruct (G k2 L2) as (a2 & E2). destruct (G k3 L3) as (a3 & E3).
    destruct (G k4 L4) as (a4 & E4). destruct (G du L5) as (a5 & E5).
    pose proof (Z1 _ _ E1). pose proof (Z2 _ _ E2). pose proof (Z3 _ _ E3). pose proof (Z4 _ _ E4). pose proof (Z5 _ _ E5).
    assert (CO : forall js, (forall j, In j js -> 0 <= j < size) ->
      exists l, collect (error_cell a1 a2 a3 a4 a5) js = Ok l /\
        Forall2 (fun j x => error_cell a1 a2 a3 a4 a5 j = Ok x) js l).
    { induction js as [|j js IH]; intros Hj.
      - exists []. split; auto.
      - destruct IH as (l & El & F2). { intros; apply Hj; right; auto. }
        assert (0 <= j < size) by (apply Hj; left; auto).
        destruct (zget_some a1 j) as (x1 & X1); [lia|]. destruct (zget_some a2 j) as (x2 & X2); [lia|].
        destruct (zget_some a3 j) as (x3 & X3); [lia|]. destruct (zget_some a4 j) as (x4 & X4); [lia|].
        destruct (zget_some a5 j) as (x5 & X5); [lia|].
        assert (exists x, error_cell a1 a2 a3 a4 a5 j = Ok x) as (x & X).
        { unfold error_cell. rewrite X1, X2, X3, X4, X5. cbn [of_opt rbind]. eauto. }
        exists (x :: l). cbn [collect]. rewrite X. cbn [rbind]. rewrite El. cbn [rbind]. split; auto. }
    destruct (CO (zrange 0 size)) as (l & El & F2).
    { intros j Hj. apply in_zrange in Hj. auto. }
    exists l. split.
    - unfold error_step. cbn [rbind]. rewrite E1, E2, E3, E4, E5. cbn [of_opt rbind]. unfold error_vec.
      rewrite H3, El. reflexivity.
    - assert (0 <= size) by (rewrite <- H; apply zlen_nonneg).
      assert (LL : zlen l = size).
      { unfold zlen. rewrite <- (Forall2_len _ _ _ F2). change (zlen (zrange 0 size) = size). rewrite zlen_zrange. lia. }
      split; auto. intros i Hi.
      destruct (zget_some a1 i) as (x1 & X1); [lia|]. destruct (zget_some a2 i) as (x2 & X2); [lia|].
      destruct (zget_some a3 i) as (x3 & X3); [lia|]. destruct (zget_some a4 i) as (x4 & X4); [lia|].
      destruct (zget_some a5 i) as (x5 & X5); [lia|].
      exists x1, x2, x3, x4, x5. unfold cell. rewrite E1, E2, E3, E4, E5. repeat (split; [assumption|]).
      destruct (zget_some l i) as (y & Y); [lia|].
      assert (ZR : zget (zrange 0 size) i = Some i). { rewrite zget_zrange by lia. f_equal; lia. }
      assert (FG : forall js l', Forall2 (fun j x => error_cell a1 a2 a3 a4 a5 j = Ok x) js l' ->
         forall n j y, nth_error js n = Some j -> nth_error l' n = Some y -> error_cell a1 a2 a3 a4 a5 j = Ok y).
      { induction 1; intros [|n] j' y' A B; simpl in *; try discriminate; [congruence|eauto]. }
      unfold zget in ZR, Y. destruct (i <? 0)%Z; try discriminate.
      pose proof (FG _ _ F2 _ _ _ ZR Y) as Q.
      unfold error_cell in Q. rewrite X1, X2, X3, X4, X5 in Q. cbn [of_opt rbind] in Q. injection Q as <-.
      unfold zget. destruct (Z.ltb_spec i 0); [lia|exact Y].
  Qed.

  Lemma error_fold_ok rmax dt k1 k2 k3 k4 du :
    shaped nv size k1 -> shaped nv size k2 -> shaped nv size k3 -> shaped nv size k4 -> shaped nv size du ->
    forall n, (n <= nv)%nat ->
    exists err, fold_left (error_step rmax dt k1 k2 k3 k4 du) (seq 0 n) (Ok (nint 0)) = Ok err.
  Proof.
    intros H1 H2 H3 H4 H5. induction n as [|n IH]; intros Hn.
    - exists (nint 0). reflexivity.
    - destruct IH as (err & E); [lia|]. rewrite seq_S, fold_left_app, E. simpl.
      destruct (error_step_ok rmax dt k1 k2 k3 k4 du err n) as (l & El & _); auto. eauto.
  Qed.

  Lemma ode23_step_spec rmax (o : ode23 V) sc (u du : state V) t dt w wk :
    ode23_shaped o -> ok sc -> state_holds nv size P u w -> shaped nv size du ->
    (o_first o = true -> wk = f t w) ->
    (o_first o = false -> state_holds nv size P (o_k4 o) wk) ->
    exists o' sc' u' du', ode23_step rmax eval o sc u du t dt = Ok (o', sc', u', du') /\
      ode23_shaped o' /\ ok sc' /\ o_first o' = false /\
      state_holds nv size P u' (bs_next t dt w wk) /\
      state_holds nv size P du' (bs_slope t dt w wk) /\
      state_holds nv size P (o_k1 o') wk /\
      state_holds nv size P (o_k2 o') (bs2 t dt w wk) /\
      state_holds nv size P (o_k3 o') (bs3 t dt w wk) /\
      state_holds nv size P (o_k4 o') (f (t + nint 1 * dt) (bs_next t dt w wk)) /\
      fold_left (error_step rmax dt (o_k1 o') (o_k2 o') (o_k3 o') (o_k4 o') du') (seq 0 nv) (Ok (nint 0))
        = Ok (o_err o').
  Proof.
    intros (S1 & S2 & S3 & S4 & S5) HO HU HD K1 K4. unfold ode23_step.
    assert (length u = nv) as -> by apply HU.
    assert (F : exists sc1 u1 k1,
      (if o_first o then eval sc u t (o_k1 o)
       else (k1 <- for_vecs nv copy_body (o_k1 o) [o_k4 o] ;; Ok (sc, u, k1))%res) = Ok (sc1, u1, k1) /\
      ok sc1 /\ state_holds nv size P u1 w /\ state_holds nv size P k1 wk).
    { destruct (o_first o).
      - rewrite (K1 eq_refl). destruct (C sc u t (o_k1 o) w HO HU S1) as (sc1 & u1 & k1 & E1 & O1 & HU1 & HK1).
        exists sc1, u1, k1. auto.
      - destruct (copy_holds (o_k1 o) (o_k4 o) wk S1 (K4 eq_refl)) as (k1 & E & HK). rewrite E. cbn [rbind].
        exists sc, u, k1. auto. }
    destruct F as (sc1 & u1 & k1 & E1 & O1 & HU1 & HK1). rewrite E1. cbn [rbind].
    destruct (stage1_holds dt (nrat 1 2) (o_stage o) u1 k1 w wk S5 HU1 HK1) as (st & Es & Hst).
    rewrite Es. cbn [rbind].
    destruct (C sc1 st (t + nrat 1 2 * dt) (o_k2 o) _ O1 Hst S2) as (sc2 & st2 & k2 & E2 & O2 & Hst2 & HK2).
    rewrite E2. cbn [rbind].
    destruct (stage2_holds dt (nint 0) (nrat 3 4) st2 u1 k1 k2 _ _ _ (proj1 Hst2) HU1 HK1 HK2) as (st3 & E3 & Hst3).
    rewrite E3. cbn [rbind].
    destruct (C sc2 st3 (t + nrat 3 4 * dt) (o_k3 o) _ O2 Hst3 S3) as (sc3 & st4 & k3 & E4 & O3 & Hst4 & HK3).
    rewrite E4. cbn [rbind].
    destruct (residual_holds (nrat 2 9) (nrat 1 3) (nrat 4 9) du k1 k2 k3 _ _ _ HD HK1 HK2 HK3) as (du' & E5 & Hdu).
    rewrite E5. cbn [rbind].
    destruct (update_holds dt u1 du' _ _ HU1 Hdu) as (u' & E6 & Hu').
    rewrite E6. cbn [rbind].
    destruct (C sc3 u' (t + nint 1 * dt) (o_k4 o) _ O3 Hu' S4) as (sc4 & u'' & k4 & E7 & O4 & Hu'' & HK4).
    rewrite E7. cbn [rbind].
    destruct (error_fold_ok rmax dt k1 k2 k3 k4 du' (proj1 HK1) (proj1 HK2) (proj1 HK3) (proj1 HK4) (proj1 Hdu)
      nv (Nat.le_refl nv)) as (err & Ee).
    rewrite Ee. cbn [rbind].
    do 4 eexists. split; [reflexivity|]. cbn [o_k1 o_k2 o_k3 o_k4 o_first o_err].
    split. { split; [exact (proj1 HK1)|]. split; [exact (proj1 HK2)|]. split; [exact (proj1 HK3)|].
             split; [exact (proj1 HK4)|]. exact (proj1 Hst4). }
    split; [exact O4|]. split; [reflexivity|]. split; [exact Hu''|]. split; [exact Hdu|].
    split; [exact HK1|]. split; [exact HK2|]. split; [exact HK3|]. split; [exact HK4|]. exact Ee.
  Qed.
End Steps.

(** * Exact arithmetic. *)
Section Exact.
  Context {S : Type} (eval : rhs_fun R S) (ok : S -> Prop) (nv : nat) (size : Z) (P : Z -> Prop)
    (f : R -> (nat -> Z -> R) -> nat -> Z -> R).
  Local Open Scope R_scope.

  Lemma rk3_next_shu_osher t dt u : rk3_next f t dt u = shu_osher f t dt u.
  Proof.
    unfold rk3_next, rk3_slope, rk3_k3, rk3_k2, rk3_k1, shu_osher.
    cbn [nadd nmul nint nrat Num_R].
    replace (t + 1 * dt) with (t + dt) by ring.
    replace (t + 1 / 2 * dt) with (t + dt / 2) by field.
    replace (fun (e : nat) (i : Z) => u e i + dt * 1 * f t u e i)
      with (fun (e : nat) (i : Z) => u e i + dt * f t u e i)
      by (extensionality e; extensionality i; ring).
    replace (fun (e : nat) (i : Z) => u e i +
        dt * (1 / 4 * f t u e i + 1 / 4 * f (t + dt) (fun (e0 : nat) (i0 : Z) => u e0 i0 + dt * f t u e0 i0) e i))
      with (fun (e : nat) (i : Z) => 3 / 4 * u e i + 1 / 4 * (u e i + dt * f t u e i + dt *
               f (t + dt) (fun (e0 : nat) (i0 : Z) => u e0 i0 + dt * f t u e0 i0) e i))
      by (extensionality e; extensionality i; field).
    extensionality e. extensionality i. field.
  Qed.

  Lemma bs_next_spec t dt u : bs_next f t dt u (f t u) = bogacki_shampine f t dt u.
  Proof.
    unfold bs_next, bs_slope, bs3, bs2, bogacki_shampine, bs_k3, bs_k2, bs_k1.
    cbn [nadd nmul nint nrat Num_R].
    replace (t + 1 / 2 * dt) with (t + dt / 2) by field.
    replace (fun (e : nat) (i : Z) => u e i + dt * (1 / 2) * f t u e i)
      with (fun (e : nat) (i : Z) => u e i + dt / 2 * f t u e i)
      by (extensionality e; extensionality i; field).
    replace (fun (e : nat) (i : Z) => u e i + dt * (0 * f t u e i + 3 / 4 *
        f (t + dt / 2) (fun (e0 : nat) (i0 : Z) => u e0 i0 + dt / 2 * f t u e0 i0) e i))
      with (fun (e : nat) (i : Z) => u e i + 3 / 4 * dt *
        f (t + dt / 2) (fun (e0 : nat) (i0 : Z) => u e0 i0 + dt / 2 * f t u e0 i0) e i)
      by (extensionality e; extensionality i; field).
    extensionality e. extensionality i. reflexivity.
  Qed.
End Exact.
