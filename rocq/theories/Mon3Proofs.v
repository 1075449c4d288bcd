(** Initial conditions and copies to and from the external solver's vectors. *)
From Verif Require Import Outcome ZList ZListProofs Num Kernel KernelProofs Gather Loop
  ModelIndex IndexProofs ModelDisc3D ModelDisc2D ModelCH SpecGrid Disc3DProofs Stencil3Proofs Make3Proofs
  BC3Proofs Disc2DProofs Make2Proofs CHProofs SpecField SumProofs ModelTime SpecTime ModelMon SpecMon Mon1Proofs.
From Coq Require Import Reals String Lra Permutation ZifyBool ZifyNat List.
Local Open Scope list_scope.
Local Open Scope Z_scope.

Lemma nodup_nth {A} (l : list A) p p' x : NoDup l -> nth_error l p = Some x -> nth_error l p' = Some x -> p = p'.
Proof.
  intros ND E E'. apply (proj1 (NoDup_nth_error l) ND).
  - eapply nth_error_lt; eauto.
  - congruence.
Qed.

Lemma zget_nat {A} (l : list A) p : zget l (Z.of_nat p) = nth_error l p.
Proof. unfold zget. destruct (Z.ltb_spec (Z.of_nat p) 0); try lia. rewrite Nat2Z.id. reflexivity. Qed.

Section Fill.
  Context {V : Type} `{N : Num V}.

  Lemma shift_fill_spec (s : V) (idx : list Z) : NoDup idx -> forall c,
    (forall q, In q idx -> 0 <= q < zlen c) ->
    exists c', shift_fill s idx c = Ok c' /\ zlen c' = zlen c /\
      (forall q v, In q idx -> zget c q = Some v -> zget c' q = Some (v - s)%num) /\
      (forall q, ~ In q idx -> zget c' q = zget c q).
  Proof.
    induction 1 as [|q idx NI ND IH]; intros c B.
    - exists c. cbn. repeat split; auto. contradiction.
    - cbn [shift_fill]. destruct (zget_some c q (B q (or_introl eq_refl))) as (v & Ev). rewrite Ev. cbn [of_opt rbind].
      pose proof (zset_some c q (v - s)%num (B q (or_introl eq_refl))) as E1; set (c1 := upd _ _ _) in E1. rewrite E1. cbn [of_opt rbind].
      assert (L1 : zlen c1 = zlen c) by (eapply zlen_zset; eauto).
      destruct (IH c1) as (c' & E & L & T & F).
      { intros q' Hq. rewrite L1. apply B. right; auto. }
      exists c'. split; auto. split; [congruence|]. split.
      + intros q' v' [<-|Hq] Ev'.
        * rewrite F by auto. replace v' with v by congruence. eapply zget_zset_same; eauto.
        * apply T; auto. erewrite zget_zset_other; eauto. intros ->. contradiction.
      + intros q' Hq. rewrite F by (intros C; apply Hq; right; auto).
        erewrite zget_zset_other; eauto. intros ->. apply Hq. left; auto.
  Qed.

  Lemma constant_initial_spec (value : V) (idx : list Z) (c : list V) :
    NoDup idx -> (forall q, In q idx -> 0 <= q < zlen c) ->
    exists c', constant_initial value idx c = Ok c' /\ zlen c' = zlen c /\
      (forall q, In q idx -> zget c' q = Some value) /\
      (forall q, ~ In q idx -> zget c' q = zget c q) /\
      schedule_independent (map (constant_body value idx) (zrange 0 (zlen idx))) [c] [c'].
  Proof.
    intros ND B. unfold constant_initial, forall_loop, constant_body. rewrite flat_map_loop.
    destruct (cell_loop idx (fun q => q) (fun q => Wr 0%nat q value Done) [(0%nat, fun _ => value)] [c])
      as (m' & SI & SH & T & F); auto.
    - repeat constructor; simpl; auto.
    - intros q Hq. prove_uses ltac:(simpl; auto).
    - intros q Hq. specialize (B q Hq). cbn [map fst snd]. prove_stores idtac ltac:(apply inb_0; lia).
    - apply same_shape_one in SH as (c' & -> & L).
      exists c'. split; [destruct SI as (-> & _); reflexivity|]. split; [congruence|]. split; [|split; auto].
      + intros q Hq. apply (T 0%nat (fun _ => value) q); simpl; auto.
      + intros q Hq. apply (F 0%nat q). right. intros x Hx ->. auto.
  Qed.

  Lemma copy_from_vec_spec (idx : list Z) (s x : list V) :
    NoDup idx -> (forall q, In q idx -> 0 <= q < zlen s) -> zlen idx <= zlen x ->
    exists s', copy_from_vec idx s x = Ok (s', x) /\ zlen s' = zlen s /\
      (forall p q, nth_error idx p = Some q -> zget s' q = nth_error x p) /\
      (forall q, ~ In q idx -> zget s' q = zget s q).
  Proof.
    intros ND B LX. unfold copy_from_vec, forall_loop.
    set (slot := fun ii => match zget idx ii with Some q => q | None => 0 end).
    set (val := fun ii => match zget x ii with Some v => v | None => nint 0 end).
    assert (SL : forall ii, 0 <= ii < zlen idx -> zget idx ii = Some (slot ii) /\ In (slot ii) idx).
    { intros ii Hi. destruct (zget_some idx ii Hi) as (q & Eq). unfold slot. rewrite Eq. split; auto.
      unfold zget in Eq. destruct (ii <? 0); [discriminate|]. eapply nth_error_In; eauto. }
    assert (VL : forall ii, 0 <= ii < zlen idx -> zget x ii = Some (val ii)).
    { intros ii Hi. destruct (zget_some x ii ltac:(lia)) as (v & Ev). unfold val. rewrite Ev. auto. }
    destruct (cell_loop (zrange 0 (zlen idx)) slot (from_vec_body idx) [(0%nat, val)] [s; x])
      as (m' & SI & SH & T & F).
    - apply nodup_zrange.
    - intros a b Ha Hb E. apply in_zrange in Ha, Hb. destruct (SL a Ha) as (Ea & _). destruct (SL b Hb) as (Eb & _).
      rewrite E in Ea. unfold zget in Ea, Eb.
      destruct (Z.ltb_spec a 0); [lia|]. destruct (Z.ltb_spec b 0); [lia|].
      pose proof (nodup_nth _ _ _ _ ND Ea Eb). lia.
    - repeat constructor; simpl; auto.
    - intros ii Hi. apply in_zrange in Hi. destruct (SL ii Hi) as (Eq & Iq). unfold from_vec_body, at_flat. rewrite Eq.
      prove_uses ltac:(first [split; [apply inb_1; lia|simpl; intros [C|[]]; discriminate] | simpl; auto]).
    - intros ii Hi. apply in_zrange in Hi. destruct (SL ii Hi) as (Eq & Iq). unfold from_vec_body, at_flat. rewrite Eq.
      cbn [map fst snd]. prove_stores ltac:(exact (VL ii Hi)) ltac:(apply inb_0; auto).
    - apply same_shape_two in SH as (s' & x' & -> & L1 & L2).
      assert (x' = x) as ->.
      { apply unread_eq; auto. intros q. apply (F 1%nat q). left. simpl. intros [C|[]]; discriminate. }
      exists s'. split; [destruct SI as (-> & _); reflexivity|]. split; [congruence|]. split.
      + intros p q Hp. pose proof (nth_error_lt _ _ _ Hp) as Hlt.
        assert (Hr : 0 <= Z.of_nat p < zlen idx) by (unfold zlen; lia).
        pose proof (T 0%nat val (Z.of_nat p) (or_introl eq_refl) (proj2 (in_zrange _ _ _) Hr)) as G.
        destruct (SL _ Hr) as (Eq & _). rewrite zget_nat, Hp in Eq. injection Eq as Eq. rewrite <- Eq in G.
        pose proof (VL _ Hr) as Ev. rewrite zget_nat in Ev. rewrite Ev. exact G.
      + intros q Hq. apply (F 0%nat q). right. intros ii Hi ->. apply in_zrange in Hi. apply Hq. apply SL; auto.
  Qed.

  Lemma copy_to_vec_spec (idx : list Z) (s x : list V) :
    (forall q, In q idx -> 0 <= q < zlen s) -> zlen idx <= zlen x ->
    exists x', copy_to_vec idx s x = Ok x' /\ zlen x' = zlen x /\
      (forall p q, nth_error idx p = Some q -> nth_error x' p = zget s q) /\
      (forall ii, zlen idx <= ii -> zget x' ii = zget x ii).
  Proof.
    intros B LX. unfold copy_to_vec.
    set (val := fun ii => match zget idx ii with
                          | Some q => match zget s q with Some v => v | None => nint 0 end
                          | None => nint 0 end).
    assert (SL : forall ii, 0 <= ii < zlen idx -> exists q, zget idx ii = Some q /\ 0 <= q < zlen s /\ zget s q = Some (val ii)).
    { intros ii Hi. destruct (zget_some idx ii Hi) as (q & Eq). exists q. split; auto.
      assert (I : In q idx).
      { unfold zget in Eq. destruct (ii <? 0); [discriminate|]. eapply nth_error_In; eauto. }
      split; auto. destruct (zget_some s q (B q I)) as (v & Ev). unfold val. rewrite Eq, Ev. auto. }
    destruct (range_loop 0 (zlen idx) (to_vec_body idx) [(0%nat, val)] [x; s]) as (m' & SI & E & SH & T & F).
    - repeat constructor; simpl; auto.
    - intros ii Hi. destruct (SL ii Hi) as (q & Eq & Bq & Ev). unfold to_vec_body, at_flat. rewrite Eq.
      prove_uses ltac:(first [split; [apply inb_1; lia|simpl; intros [C|[]]; discriminate] | simpl; auto]).
    - intros ii Hi. destruct (SL ii Hi) as (q & Eq & Bq & Ev). unfold to_vec_body, at_flat. rewrite Eq.
      cbn [map fst snd]. prove_stores ltac:(exact Ev) ltac:(apply inb_0; lia).
    - apply same_shape_two in SH as (x' & s' & -> & L1 & L2). rewrite E. cbn [two rbind].
      exists x'. split; [reflexivity|]. split; [congruence|]. split.
      + intros p q Hp. pose proof (nth_error_lt _ _ _ Hp) as Hlt.
        assert (Hr : 0 <= Z.of_nat p < zlen idx) by (unfold zlen; lia).
        destruct (SL _ Hr) as (q' & Eq & _ & Ev). rewrite zget_nat, Hp in Eq. injection Eq as <-. rewrite Ev.
        rewrite <- zget_nat. apply (T 0%nat val (Z.of_nat p) (or_introl eq_refl) Hr).
      + intros ii Hi. apply (F 0%nat ii). right. lia.
  Qed.
End Fill.

Section Random.
  Local Open Scope R_scope.
  Variables (draw : nat -> R) (m : R).

  Lemma random_fill_spec (idx : list Z) : NoDup idx -> forall n (c : list R) s,
    (forall q, In q idx -> (0 <= q < zlen c)%Z) ->
    exists c', random_fill draw m n idx c s 0 =
        Ok (c', s + Rsum (map (fun p => m + draw p) (seq n (length idx)))) /\
      zlen c' = zlen c /\
      (forall p q, nth_error idx p = Some q -> zget c' q = Some (m + draw (n + p)%nat)) /\
      (forall q, ~ In q idx -> zget c' q = zget c q).
  Proof.
    induction 1 as [|q idx NI ND IH]; intros n c s B.
    - exists c. cbn. rewrite Rplus_0_r. repeat split; auto. intros [|p]; discriminate.
    - cbn [random_fill]. cbn [nadd nsub Num_R].
      pose proof (zset_some c q (m + draw n) (B q (or_introl eq_refl))) as E1; set (c1 := upd _ _ _) in E1. rewrite E1. cbn [of_opt rbind].
      rewrite (zget_zset_same _ _ _ _ E1). cbn [of_opt rbind].
      replace (s + (m + draw n - 0) - s - (m + draw n - 0)) with 0 by ring.
      assert (L1 : zlen c1 = zlen c) by (eapply zlen_zset; eauto).
      destruct (IH (S n) c1 (s + (m + draw n - 0))) as (c' & E & L & T & F).
      { intros q' Hq. rewrite L1. apply B. right; auto. }
      exists c'. split; [|split; [congruence|split]].
      + rewrite E. cbn [length seq map]. f_equal. f_equal. unfold Rsum. cbn [fold_right]. ring.
      + intros [|p] q' Hp; cbn in Hp.
        * injection Hp as <-. rewrite F by auto. rewrite (zget_zset_same _ _ _ _ E1). rewrite Nat.add_0_r. auto.
        * rewrite (T p q' Hp). f_equal. f_equal. f_equal. lia.
      + intros q' Hq. rewrite F by (intros C; apply Hq; right; auto).
        erewrite zget_zset_other; eauto. intros ->. apply Hq. left; auto.
  Qed.

  Lemma Rsum_draws l : Rsum (map (fun p => m + draw p) l) = INR (length l) * m + Rsum (map draw l).
  Proof. rewrite Rsum_map_plus, Rsum_map_const. ring. Qed.

  Lemma random_initial_spec (idx : list Z) (c : list R) :
    NoDup idx -> (forall q, In q idx -> (0 <= q < zlen c)%Z) -> idx <> [] ->
    let avg := Rsum (map draw (seq 0 (length idx))) / INR (length idx) in
    exists c', random_initial draw m idx c = Ok c' /\ zlen c' = zlen c /\
      (forall p q, nth_error idx p = Some q -> zget c' q = Some (m + (draw p - avg))) /\
      (forall q, ~ In q idx -> zget c' q = zget c q).
  Proof.
    intros ND B NE avg. unfold random_initial. change (@nint R Num_R 0) with 0.
    destruct (random_fill_spec idx ND 0 c 0 B) as (c1 & E1 & L1 & T1 & F1). rewrite E1. cbn [rbind].
    cbn [nsub ndiv nint Num_R]. rewrite Rsum_draws, seq_length.
    destruct (shift_fill_spec (N:=Num_R) ((0 + (INR (length idx) * m + Rsum (map draw (seq 0 (length idx))))) / IZR (zlen idx) - m) idx ND c1)
      as (c2 & E2 & L2 & T2 & F2).
    { intros q Hq. rewrite L1. auto. }
    cbn [nsub Num_R] in *. exists c2. split; auto. split; [congruence|]. split.
    - intros p q Hp. erewrite T2; [|eapply nth_error_In; eauto|apply T1; eauto]. f_equal.
      unfold avg. unfold zlen. rewrite <- INR_IZR_INZ.
      assert (INR (length idx) <> 0). { apply not_0_INR. destruct idx; [congruence|discriminate]. }
      cbn [Nat.add]. field. auto.
    - intros q Hq. rewrite F2, F1; auto.
  Qed.
End Random.
