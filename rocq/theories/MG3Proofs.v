(** The multigrid cycle in exact arithmetic: fixed points and conserved quantities. *)
From Verif Require Import Outcome ZList Num SpecTime SpecMG.
From Coq Require Import Lia Reals Lra.
Local Open Scope R_scope.

Ltac num := cbn [nadd nsub nmul ndiv nopp nint nrat Num_R] in *.

Section Exact.
  Variables (nv : nat) (size : nat -> Z) (P Q : nat -> Z -> Prop)
    (ext : nat -> field R -> field R) (f : nat -> R -> field R -> field R)
    (rest prol : nat -> field R -> field R) (cfl : nat -> R) (n : nat).
  Notation zero := (fun (_ : nat) (_ : Z) => 0).
  Notation sameP k := (same_on nv (size k) (P k)).
  Notation sameQ k := (same_on nv (size k) (Q k)).

  Hypothesis extP : forall k u, sameP k (ext k u) u.

  Lemma same_refl s (A : Z -> Prop) (u : field R) : same_on nv s A u u.
  Proof. intros e i _ _ _. reflexivity. Qed.
  Lemma same_sym s (A : Z -> Prop) (u w : field R) : same_on nv s A u w -> same_on nv s A w u.
  Proof. intros H e i He Hi HP. symmetry. auto. Qed.
  Lemma same_trans s (A : Z -> Prop) (u w x : field R) : same_on nv s A u w -> same_on nv s A w x -> same_on nv s A u x.
  Proof. intros H1 H2 e i He Hi HP. rewrite H1, H2; auto. Qed.

  Definition respects (k : nat) (F : R -> field R -> field R) : Prop :=
    forall t u w, sameP k u w -> sameP k (F t u) (F t w).

  (** ** Fixed points *)
  Section Fixed.
    Hypothesis extQ : forall k u w, sameP k u w -> sameQ k (ext k u) (ext k w).
    Hypothesis fP : forall k, (k <= n)%nat -> respects k (f k).
    Hypothesis restP : forall k u w, (k < n)%nat -> sameP k u w -> sameP (1 + k) (rest (1 + k) u) (rest (1 + k) w).
    Hypothesis rest0 : forall k, (k < n)%nat -> sameP (1 + k) (rest (1 + k) zero) zero.
    Hypothesis prolQ : forall k u w, (k < n)%nat -> sameQ (1 + k) u w -> sameP k (prol (1 + k) u) (prol (1 + k) w).
    Hypothesis prol0 : forall k, (k < n)%nat -> sameP k (prol (1 + k) zero) zero.
    Hypothesis auto : forall k t t' u, (k <= n)%nat -> sameP k (f k t u) (f k t' u).

    Lemma slope_zero k F t d u : respects k F -> (forall s, sameP k (F s u) zero) -> sameP k (slope F t d u) zero.
    Proof.
      intros HF H0. unfold slope. num.
      assert (A : sameP k (fun e i => u e i + d * (1 / 2) * F t u e i) u).
      { intros e i He Hi HP. rewrite (H0 t) by auto. lra. }
      set (u2 := fun (e : nat) (i : Z) => u e i + d * (1 / 2) * F t u e i) in *.
      assert (K2 : sameP k (F (t + 1 / 2 * d) u2) zero) by (eapply same_trans; [apply HF; exact A|apply H0]).
      assert (B : sameP k (fun e i => u e i + d * (0 * F t u e i + 3 / 4 * F (t + 1 / 2 * d) u2 e i)) u).
      { intros e i He Hi HP. rewrite K2, (H0 t) by auto. lra. }
      set (u3 := fun (e : nat) (i : Z) => u e i + d * (0 * F t u e i + 3 / 4 * F (t + 1 / 2 * d) u2 e i)) in *.
      assert (K3 : sameP k (F (t + 3 / 4 * d) u3) zero) by (eapply same_trans; [apply HF; exact B|apply H0]).
      intros e i He Hi HP. rewrite K2, K3, (H0 t) by auto. lra.
    Qed.

    Lemma smooth_fixed k F t d u : respects k F -> (forall s, sameP k (F s u) zero) ->
      sameP k (smooth F (ext k) t d u) u.
    Proof.
      intros HF H0. unfold smooth. eapply same_trans; [apply extP|]. num. intros e i He Hi HP.
      rewrite (slope_zero k F t d u HF H0) by auto. lra.
    Qed.

    Lemma fixed_trans k F u w : respects k F -> (forall s, sameP k (F s u) zero) -> sameP k w u ->
      forall s, sameP k (F s w) zero.
    Proof. intros HF H0 H s. eapply same_trans; [apply HF; exact H|apply H0]. Qed.

    Lemma smooths_fixed k F t c : respects k F -> forall m d u, (forall s, sameP k (F s u) zero) ->
      sameP k (smooths F (ext k) t d c m u) u.
    Proof.
      intros HF. induction m as [|m IH]; intros d u H0; cbn [smooths]; [apply same_refl|].
      pose proof (smooth_fixed k F t d u HF H0) as H1.
      eapply same_trans; [|exact H1]. apply IH. eapply fixed_trans; eauto.
    Qed.

    (** With a stationary state, the source keeps the restricted state stationary. *)
    Lemma vcycle_pre_fixed ns t (dts : nat -> R) crelax : forall m l F d c relax u,
      (l + m)%nat = n -> respects l F -> (forall s, sameP l (F s u) zero) ->
      sameP l (vcycle_pre ns t F (ext l) d c relax crelax
                 (map (fun k => {| l_f := f k; l_ext := ext k; l_rest := rest k; l_prol := prol k; l_cfl := cfl k; l_dt := dts k |})
                    (seq (1 + l) m)) u) u.
    Proof.
      induction m as [|m IH]; intros l F d c relax u LM HF H0.
      - cbn [seq map vcycle_pre].
        pose proof (smooths_fixed l F t c HF ns d u H0) as H1.
        eapply same_trans; [|exact H1]. apply smooths_fixed; auto. eapply fixed_trans; eauto.
      - change (seq (1 + l) (S m)) with ((1 + l)%nat :: seq (1 + (1 + l)) m). cbn [map vcycle_pre].
        cbn [l_f l_ext l_rest l_prol l_cfl l_dt]. num.
        set (last := match ns with 1%nat => d | _ => c end).
        set (u1 := smooths F (ext l) t d c ns u).
        pose proof (smooths_fixed l F t c HF ns d u H0) as H1. fold u1 in H1.
        pose proof (fixed_trans l F u u1 HF H0 H1) as HZ1.
        set (v0 := ext (1 + l) (rest (1 + l) u1)).
        set (r := rest (1 + l) (F (t + 1 * last) u1)).
        set (fc := with_source (f (1 + l)) t v0 r).
        assert (Hl : (l < n)%nat) by lia.
        assert (Hr : sameP (1 + l) r zero).
        { unfold r. eapply same_trans; [apply restP; [auto|apply HZ1]|apply rest0; auto]. }
        assert (HFc : respects (1 + l) fc).
        { intros s a b Hab e i He Hi HP. unfold fc, with_source. num.
          rewrite (fP (1 + l) Hl s a b Hab e i) by auto. reflexivity. }
        assert (HZ : forall s, sameP (1 + l) (fc s v0) zero).
        { intros s e i He Hi HP. unfold fc, with_source. num. rewrite Hr by auto.
          rewrite (auto (1 + l) s t v0 Hl e i) by auto. lra. }
        set (wp := vcycle_pre ns t fc (ext (1 + l)) (dts (1 + l)%nat) (cfl (1 + l)) crelax crelax _ v0).
        assert (HW : sameP (1 + l) wp v0) by (apply IH; [lia|exact HFc|exact HZ]).
        assert (HQ : sameQ (1 + l) (smooth fc (ext (1 + l)) t (cfl (1 + l)) wp) v0).
        { unfold smooth. unfold v0 at 1. apply extQ.
          pose proof (slope_zero (1 + l) fc t (cfl (1 + l)%nat) wp HFc (fixed_trans _ _ _ _ HFc HZ HW)) as HSl.
          intros e i He Hi HP. num. rewrite HSl by auto. rewrite HW by auto. unfold v0. rewrite extP by auto. lra. }
        assert (HD : sameP l (prol (1 + l) (fun e i => smooth fc (ext (1 + l)) t (cfl (1 + l)) wp e i - v0 e i)) zero).
        { eapply same_trans; [|apply prol0; auto]. apply prolQ; auto. intros e i He Hi HP. rewrite HQ by auto. lra. }
        assert (H2 : sameP l (fun e i => u1 e i + relax *
            prol (1 + l) (fun e i => smooth fc (ext (1 + l)) t (cfl (1 + l)) wp e i - v0 e i) e i) u).
        { intros e i He Hi HP. rewrite HD by auto. rewrite H1 by auto. lra. }
        eapply same_trans; [|exact H2]. apply (smooths_fixed l F t c HF). apply (fixed_trans l F u _ HF H0 H2).
    Qed.

    Lemma vcycle_fixed ns t (dts : nat -> R) crelax m l F d c relax u :
      (l + m)%nat = n -> respects l F -> (forall s, sameP l (F s u) zero) ->
      let gs := map (fun k => {| l_f := f k; l_ext := ext k; l_rest := rest k; l_prol := prol k; l_cfl := cfl k; l_dt := dts k |})
                    (seq (1 + l) m) in
      sameP l (vcycle ns t F (ext l) d c relax crelax gs u) u /\
      sameP l (slope F t c (vcycle_pre ns t F (ext l) d c relax crelax gs u)) zero.
    Proof.
      intros LM HF H0 gs. pose proof (vcycle_pre_fixed ns t dts crelax m l F d c relax u LM HF H0) as H. fold gs in H.
      pose proof (fixed_trans _ _ _ _ HF H0 H) as HZ. split.
      - unfold vcycle. eapply same_trans; [|exact H]. apply smooth_fixed; auto.
      - apply slope_zero; auto.
    Qed.

    Lemma settled_map (dts : nat -> R) m l :
      map settled (map (fun k => {| l_f := f k; l_ext := ext k; l_rest := rest k; l_prol := prol k; l_cfl := cfl k; l_dt := dts k |})
                    (seq l m))
      = map (fun k => {| l_f := f k; l_ext := ext k; l_rest := rest k; l_prol := prol k; l_cfl := cfl k; l_dt := cfl k |})
                    (seq l m).
    Proof. rewrite map_map. reflexivity. Qed.

    Lemma vcycles_fixed ns t crelax F relax c : respects 0 F ->
      forall j (dts : nat -> R) d u, (forall s, sameP 0 (F s u) zero) ->
      sameP 0 (vcycles j ns t F (ext 0) d c relax crelax
        (map (fun k => {| l_f := f k; l_ext := ext k; l_rest := rest k; l_prol := prol k; l_cfl := cfl k; l_dt := dts k |})
                    (seq 1 n)) u) u.
    Proof.
      intros HF. induction j as [|j IH]; intros dts d u H0; cbn [vcycles]; [apply same_refl|].
      destruct (vcycle_fixed ns t dts crelax n 0 F d c relax u eq_refl HF H0) as (H1 & _).
      eapply same_trans; [|exact H1]. rewrite (settled_map dts n 1). apply IH. eapply fixed_trans; eauto.
    Qed.
  End Fixed.

  (** ** Conserved totals.  T k is a linear quantity of the fields of level k that depends on
      the cells in P only; the right-hand sides change it at a rate affine in it. *)
  Section Conserved.
    Variables (T : nat -> field R -> R) (kappa : R) (c0 : nat -> R) (Z0 : R).
    Hypothesis Tsame : forall k u w, sameP k u w -> T k u = T k w.
    Hypothesis Tlin : forall k a b u w, T k (fun e i => a * u e i + b * w e i) = a * T k u + b * T k w.
    Hypothesis Tf : forall k t u, (k <= n)%nat -> T k (f k t u) = kappa * T k u + c0 k.
    Hypothesis Trest : forall k u, (k < n)%nat -> T (1 + k)%nat (rest (1 + k) u) = Z0 * T k u.
    Hypothesis Tprol : forall k u w, (k < n)%nat -> T (1 + k)%nat u = T (1 + k)%nat w ->
      T k (prol (1 + k) (fun e i => ext (1 + k) u e i - ext (1 + k) w e i)) = 0.

    Lemma Tsum k a u w : T k (fun e i => u e i + a * w e i) = T k u + a * T k w.
    Proof.
      rewrite <- (Rmult_1_l (T k u)). rewrite <- Tlin. apply Tsame. intros e i _ _ _. lra.
    Qed.

    (** F keeps the total tau. *)
    Definition keeps (k : nat) (F : R -> field R -> field R) (tau : R) : Prop :=
      forall t u, T k u = tau -> T k (F t u) = 0.

    Lemma slope_keeps k F tau t d u : keeps k F tau -> T k u = tau -> T k (slope F t d u) = 0.
    Proof.
      intros HK HU. unfold slope. num.
      set (k1 := F t u). assert (K1 : T k k1 = 0) by (apply HK; auto).
      set (u2 := fun (e : nat) (i : Z) => u e i + d * (1 / 2) * k1 e i).
      assert (HU2 : T k u2 = tau) by (unfold u2; rewrite Tsum, K1; lra).
      set (k2 := F (t + 1 / 2 * d) u2). assert (K2 : T k k2 = 0) by (apply HK; auto).
      set (u3 := fun (e : nat) (i : Z) => u e i + d * (0 * k1 e i + 3 / 4 * k2 e i)).
      assert (HU3 : T k u3 = tau).
      { unfold u3. rewrite (Tsum k d u (fun e i => 0 * k1 e i + 3 / 4 * k2 e i)), Tlin, K1, K2. lra. }
      set (k3 := F (t + 3 / 4 * d) u3). assert (K3 : T k k3 = 0) by (apply HK; auto).
      rewrite (Tsum k (4 / 9) (fun e i => 2 / 9 * k1 e i + 1 / 3 * k2 e i) k3), Tlin, K1, K2, K3. lra.
    Qed.

    Lemma smooth_keeps k F tau t d u : keeps k F tau -> T k u = tau -> T k (smooth F (ext k) t d u) = tau.
    Proof.
      intros HK HU. unfold smooth. rewrite (Tsame k _ _ (extP k _)). num.
      rewrite Tsum, (slope_keeps k F tau) by auto. lra.
    Qed.

    Lemma smooths_keeps k F tau t c : keeps k F tau -> forall m d u, T k u = tau ->
      T k (smooths F (ext k) t d c m u) = tau.
    Proof.
      intros HK. induction m as [|m IH]; intros d u HU; cbn [smooths]; auto.
      apply IH. apply smooth_keeps; auto.
    Qed.

    Lemma vcycle_pre_keeps ns t (dts : nat -> R) crelax : forall m l F d c relax u tau,
      (l + m)%nat = n -> keeps l F tau -> T l u = tau ->
      T l (vcycle_pre ns t F (ext l) d c relax crelax
                 (map (fun k => {| l_f := f k; l_ext := ext k; l_rest := rest k; l_prol := prol k; l_cfl := cfl k; l_dt := dts k |})
                    (seq (1 + l) m)) u) = tau.
    Proof.
      induction m as [|m IH]; intros l F d c relax u tau LM HK HU.
      - cbn [seq map vcycle_pre]. repeat apply smooths_keeps; auto.
      - change (seq (1 + l) (S m)) with ((1 + l)%nat :: seq (1 + (1 + l)) m). cbn [map vcycle_pre].
        cbn [l_f l_ext l_rest l_prol l_cfl l_dt]. num.
        set (last := match ns with 1%nat => d | _ => c end).
        set (u1 := smooths F (ext l) t d c ns u).
        assert (HU1 : T l u1 = tau) by (apply smooths_keeps; auto).
        set (v0 := ext (1 + l) (rest (1 + l) u1)).
        set (r := rest (1 + l) (F (t + 1 * last) u1)).
        set (fc := with_source (f (1 + l)) t v0 r).
        assert (Hl : (l < n)%nat) by lia.
        assert (Hr : T (1 + l)%nat r = 0) by (unfold r; rewrite Trest, (HK _ u1 HU1) by auto; lra).
        assert (HKc : keeps (1 + l) fc (T (1 + l)%nat v0)).
        { intros s v Hv. unfold fc, with_source. num.
          transitivity (T (1 + l)%nat (fun e i => f (1 + l)%nat s v e i + 1 * ((-1) * f (1 + l)%nat t v0 e i + 1 * r e i))).
          { apply Tsame. intros e i _ _ _. lra. }
          rewrite (Tsum (1 + l) 1 (f (1 + l)%nat s v) (fun e i => (-1) * f (1 + l)%nat t v0 e i + 1 * r e i)).
          rewrite Tlin, !Tf by auto. rewrite Hr, Hv. lra. }
        set (wp := vcycle_pre ns t fc (ext (1 + l)) (dts (1 + l)%nat) (cfl (1 + l)) crelax crelax _ v0).
        assert (HW : T (1 + l)%nat wp = T (1 + l)%nat v0) by (apply IH; [lia|exact HKc|reflexivity]).
        apply smooths_keeps; auto.
        rewrite (Tsum l relax u1 (prol (1 + l) (fun e i => smooth fc (ext (1 + l)) t (cfl (1 + l)) wp e i - v0 e i))).
        unfold smooth, v0 at 1. rewrite Tprol; [lra|auto|].
        num. rewrite Tsum, (slope_keeps _ fc (T (1 + l)%nat v0)), HW by auto.
        unfold v0. rewrite (Tsame _ _ _ (extP (1 + l) (rest (1 + l) u1))). lra.
    Qed.

    Lemma vcycles_keep ns t crelax F relax c tau : keeps 0 F tau ->
      forall j (dts : nat -> R) d u, T 0%nat u = tau ->
      T 0%nat (vcycles j ns t F (ext 0) d c relax crelax
        (map (fun k => {| l_f := f k; l_ext := ext k; l_rest := rest k; l_prol := prol k; l_cfl := cfl k; l_dt := dts k |})
                    (seq 1 n)) u) = tau.
    Proof.
      intros HK. induction j as [|j IH]; intros dts d u HU; cbn [vcycles]; auto.
      rewrite (settled_map dts n 1). apply IH. unfold vcycle. apply smooth_keeps; auto.
      apply (vcycle_pre_keeps ns t dts crelax n 0 F d c relax u tau); auto.
    Qed.

    (** The implicit right-hand side keeps the starting total when the spatial one does. *)
    Lemma implicit_keeps steady dt w : kappa * T 0%nat w + c0 0%nat = 0 ->
      keeps 0 (implicit_rhs steady (f 0) dt w) (T 0%nat w).
    Proof.
      intros HW t u HU. unfold implicit_rhs. destruct steady.
      - rewrite Tf, HU by lia. exact HW.
      - num. transitivity (T 0%nat (fun e i => f 0%nat t u e i + (- (1 / dt)) * (1 * u e i + (-1) * w e i))).
        { apply Tsame. intros e i _ _ _. lra. }
        rewrite (Tsum 0 (- (1 / dt)) (f 0%nat t u) (fun e i => 1 * u e i + (-1) * w e i)), Tlin, Tf, HU by lia.
        rewrite HW. lra.
    Qed.
  End Conserved.
End Exact.
