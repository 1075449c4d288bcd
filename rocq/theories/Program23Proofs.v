(** Interrupting a run with the implicit integrator changes what it computes: after a restart the first smoothing is short again. *)
From Coq Require Import String Reals Lra FunctionalExtensionality.
From Verif Require Import ModelLogger ModelOptions Outcome ZList Num ModelIndex ModelDisc3D ModelDisc2D ModelTime ModelProgram SpecGrid Disc3DProofs SpecField FieldProofs SpecMon SpecTime Time2Proofs Step1Proofs StepFinal SpecProgram
  Program3Proofs Program6Proofs ModelMG ModelMGCH SpecMG MG3Proofs SpecImplicit Program14Proofs BC3Proofs Program15Proofs Program16Proofs Program18Proofs Program20Proofs.
From Coq Require Import Lia ZifyBool ZifyNat List.
Import ListNotations.
Local Open Scope list_scope.
Local Open Scope Z_scope.

Section Uniform.
  Variables (dom : domain R) (m sigma eps2 : R).
  Hypothesis HV : valid_domain3 dom.
  Local Open Scope R_scope.

  Definition uni (a : R) (w : field R) : Prop := forall i j k, inside3 dom i j k -> cells_of dom w i j k = a.
  Definition fch (_ : R) : field R -> field R := onto3 dom dom (fun u => CH3 (spacing_at dom 0) m sigma eps2 (extend3 dom u)).
  Local Notation F := fch.
  Local Notation ext := (onto3 dom dom (extend3 dom)).

  Lemma onto_in G (w : field R) i j k : inside3 dom i j k -> cells_of dom (onto3 dom dom G w) i j k = G (cells_of dom w) i j k.
  Proof.
    intros I. unfold cells_of at 1, onto3.
    exact (of3_slot dom (G (cells_of dom w)) O i j k ltac:(apply inside_padded3; [destruct HV; lia|exact I])).
  Qed.

  Lemma ext_in u a i j k : (forall i j k, inside3 dom i j k -> u i j k = a) -> extend3 dom u i j k = a.
  Proof.
    intros H. unfold extend3. apply H. unfold inside3. destruct HV as (H1 & H2 & H3 & H4). 
    assert (G : forall b n i, (1 <= n)%Z -> (0 <= extend1 b n i < n)%Z).
    { intros b n x Hn. unfold extend1, clampZ. destruct b; try (apply Z.mod_pos_bound; lia); lia. }
    repeat split; apply G; lia.
  Qed.

  Lemma uni_ext a w : uni a w -> uni a (ext w).
  Proof. intros H i j k I. rewrite onto_in by exact I. apply ext_in. exact H. Qed.

  Lemma uni_f t a w : uni a w -> uni (- sigma * (a - m)) (F t w).
  Proof.
    intros H i j k I. unfold fch. rewrite onto_in by exact I. unfold CH3, Lap3, dxx3, dyy3, dzz3.
    rewrite !(ext_in _ a) by exact H. unfold Rdiv. ring.
  Qed.

  Definition gain1 (x : R) : R := 1 - x + x ^ 2 / 2 - x ^ 3 / 6.

  Lemma uni_smooth t dt a w : uni a w -> uni (m + (a - m) * gain1 (sigma * dt)) (smooth F ext t dt w).
  Proof.
    intros H. unfold smooth. apply uni_ext. unfold SpecMG.slope.
    pose proof (uni_f t a w H) as K1.
    assert (U2 : uni (a + dt / 2 * (- sigma * (a - m))) (fun e i => nadd (w e i) (nmul (nmul dt (nrat 1 2)) (F t w e i)))).
    { intros i j k I. specialize (K1 i j k I). specialize (H i j k I). unfold cells_of in *. cbv beta in *. rewrite H, K1. cbn [nadd nmul nint nrat Num_R]. field. }
    pose proof (uni_f (nadd t (nmul (nrat 1 2) dt)) _ _ U2) as K2.
    set (k1 := F t w) in *. set (k2 := F (nadd t (nmul (nrat 1 2) dt)) _) in *.
    assert (U3 : uni (a + 3 / 4 * dt * (- sigma * (a + dt / 2 * (- sigma * (a - m)) - m)))
      (fun e i => nadd (w e i) (nmul dt (nadd (nmul (nint 0) (k1 e i)) (nmul (nrat 3 4) (k2 e i)))))).
    { intros i j k I. specialize (K1 i j k I). specialize (K2 i j k I). specialize (H i j k I). unfold cells_of in *. rewrite H, K1, K2. cbn [nadd nmul nint nrat Num_R]. field. }
    pose proof (uni_f (nadd t (nmul (nrat 3 4) dt)) _ _ U3) as K3.
    set (k3 := F (nadd t (nmul (nrat 3 4) dt)) _) in *.
    intros i j k I. specialize (K1 i j k I). specialize (K2 i j k I). specialize (K3 i j k I). specialize (H i j k I).
    unfold cells_of in *. cbv beta zeta. rewrite H, K1, K2, K3. unfold gain1. cbn [nadd nmul nint nrat Num_R]. field.
  Qed.
End Uniform.

Section Step.
  Variables (dom : domain R) (s : settings R) (q : mg_options R) (prol : (Z -> Z -> Z -> R) -> Z -> Z -> Z -> R).
  Hypothesis HV : valid_domain3 dom.
  Hypothesis QL : q_levels q = 1.
  Hypothesis QN : q_nsmooth q = 1.
  Hypothesis QC : q_max_cycles q = 1.
  Hypothesis QS : q_steady q = true.
  Local Open Scope R_scope.
  Let c := smoothing_step (q_cfl q) dom 0.
  Let grown (first a : R) : R := s_m s + (a - s_m s) * gain1 (s_sigma s * first) * gain1 (s_sigma s * c).

  Lemma one_cycle first t dt u a : (forall i j k, inside3 dom i j k -> u i j k = a) -> forall i j k, inside3 dom i j k ->
    fst (implicit_cycles q dom (ch_levels q s dom prol) (smoothing_step (q_cfl q) dom) first t dt u 1) i j k = grown (first 0%Z) a.
  Proof.
    intros U i j k I. unfold implicit_cycles. rewrite QL, QN, QS. cbn [Z.to_nat Pos.to_nat Pos.iter_op seq map Z.sub Z.opp Z.add Z.pos_sub Nat.add fst].
    change (seq 1 (Z.to_nat (1 - 1))) with (@nil nat). cbn [map]. change (Z.to_nat 1) with 1%nat. cbn [cycled vcycle_pre Nat.sub smooths fst].
    unfold implicit_rhs. unfold ch_levels, ch_level3. cbn [l_f l_ext]. rewrite !coarse_dom_0.
    assert (U0 : uni dom a (table_of dom u)).
    { intros i' j' k' I'. unfold cells_of. transitivity (u i' j' k'); [|apply U; exact I'].
      exact (of3_slot dom u O i' j' k' ltac:(apply inside_padded3; [destruct HV; lia|exact I'])). }
    pose proof (uni_smooth dom (s_m s) (s_sigma s) (s_eps2 s) HV t (first 0%Z) a _ U0) as U1.
    pose proof (uni_smooth dom (s_m s) (s_sigma s) (s_eps2 s) HV t c _ _ U1) as U2.
    etransitivity; [exact (U2 i j k I)|]. unfold grown. ring.
  Qed.

  Lemma one_step first t dt u a : (forall i j k, inside3 dom i j k -> u i j k = a) ->
    exists u' v, implicit_step q dom (ch_levels q s dom prol) (smoothing_step (q_cfl q) dom) first t dt u u' v /\
      forall i j k, inside3 dom i j k -> u' i j k = grown (first 0%Z) a.
  Proof.
    intros U. pose proof (one_cycle first t dt u a U) as E.
    destruct (implicit_cycles q dom (ch_levels q s dom prol) (smoothing_step (q_cfl q) dom) first t dt u 1) as (u', v) eqn:EZ.
    exists u', v. split; [|exact E]. exists 1%nat. rewrite QC. change (Z.to_nat 1) with 1%nat.
    split; [lia|]. split; [intros; lia|]. split; [exact EZ|]. intros _. split; [intros k Hk; lia|left; reflexivity].
  Qed.

  (** The third smoothing of a run is a full one; after a restart it is the first again. *)
  Lemma interrupted first t dt t' dt' u a : (forall i j k, inside3 dom i j k -> u i j k = a) ->
    exists x1 x2 y, implicit_course q dom (ch_levels q s dom prol) (smoothing_step (q_cfl q) dom) first 0 u [(t, dt); (t', dt')] [x1; x2] /\
      implicit_course q dom (ch_levels q s dom prol) (smoothing_step (q_cfl q) dom) first 1 (fst (snd x1)) [(t', dt')] [y] /\
      forall i j k, inside3 dom i j k -> fst (snd x2) i j k = grown c (grown (first 0%Z) a) /\ fst (snd y) i j k = grown (first 0%Z) (grown (first 0%Z) a).
  Proof.
    intros U. destruct (one_step first t dt u a U) as (u1 & v1 & S1 & E1).
    destruct (one_step (smoothing_step (q_cfl q) dom) t' dt' u1 _ E1) as (u2 & v2 & S2 & E2).
    destruct (one_step first t' dt' u1 _ E1) as (w & z & S3 & E3).
    exists (1%Z, t + dt, dt, (u1, v1)), (2%Z, t' + dt', dt', (u2, v2)), (2%Z, t' + dt', dt', (w, z)).
    split; [|split].
    - exact (course_step _ _ _ _ first 0 u t dt u1 v1 _ _ S1 (course_step _ _ _ _ _ 1 u1 t' dt' u2 v2 _ _ S2 (course_end _ _ _ _ _ _ _))).
    - exact (course_step _ _ _ _ first 1 u1 t' dt' w z _ _ S3 (course_end _ _ _ _ _ _ _)).
    - intros i j k I. split; [exact (E2 i j k I)|exact (E3 i j k I)].
  Qed.
End Step.
