(** The loops of the Cahn-Hilliard right-hand sides and what the right-hand sides compute. *)
From Verif Require Import Outcome ZList ZListProofs Num Kernel KernelProofs Gather Loop
  ModelIndex IndexProofs ModelDisc3D ModelDisc2D ModelCH SpecGrid Disc3DProofs Stencil3Proofs Make3Proofs
  BC3Proofs Disc2DProofs Make2Proofs.
From Coq Require Import ZifyBool ZifyNat.

Section FlatLoops.
  Context {V : Type} `{N : Num V}.

  Lemma cube_loop_spec (c arg : list V) :
    zlen arg = zlen c ->
    exists arg', cube_loop c arg = Ok (c, arg') /\ zlen arg' = zlen c /\
      (forall q v, zget c q = Some v -> zget arg' q = Some (npow3 v - v)%num) /\
      schedule_independent (map cube_body (zrange 0 (zlen c))) [c; arg] [c; arg'].
  Proof.
    intros L.
    set (val := fun q => match zget c q with Some v => (npow3 v - v)%num | None => nint 0 end).
    destruct (range_loop 0 (zlen c) cube_body [(1%nat, val)] [c; arg]) as (m' & SI & E & SH & T & F).
    - repeat constructor; simpl; auto.
    - intros ii Hi. unfold cube_body.
      prove_uses ltac:(first [split; [apply inb_0; lia|simpl; intros [C|[]]; discriminate] | simpl; auto]).
    - intros ii Hi. unfold cube_body. destruct (zget_some c ii Hi) as (v & Ev).
      cbn [map fst snd]. unfold val. rewrite Ev.
      prove_stores ltac:(exact Ev) ltac:(apply inb_1; lia).
    - apply same_shape_two in SH as (c' & arg' & -> & L1 & L2).
      assert (c' = c) as ->.
      { apply unread_eq; auto. intros q. apply (F 0%nat q). left. simpl. intros [C|[]]; discriminate. }
      exists arg'. unfold cube_loop. rewrite E. split; [reflexivity|]. split; [congruence|]. split; auto.
      intros q v Hq. assert (R : 0 <= q < zlen c) by (eapply zget_range; eauto).
      pose proof (T 1%nat val q (or_introl eq_refl) R) as G. unfold val in G. rewrite Hq in G. exact G.
  Qed.

  Lemma zero_loop_spec (r : list V) :
    exists r', zero_loop r = Ok r' /\ zlen r' = zlen r /\
      (forall q, 0 <= q < zlen r -> zget r' q = Some (nint 0)) /\
      schedule_independent (map zero_body (zrange 0 (zlen r))) [r] [r'].
  Proof.
    destruct (range_loop 0 (zlen r) zero_body [(0%nat, fun _ => nint 0)] [r]) as (m' & SI & E & SH & T & F).
    - repeat constructor; simpl; auto.
    - intros ii Hi. unfold zero_body. prove_uses ltac:(simpl; auto).
    - intros ii Hi. unfold zero_body. prove_stores idtac ltac:(apply inb_0; lia).
    - apply same_shape_one in SH as (r' & -> & L). exists r'. unfold zero_loop. rewrite E.
      split; [reflexivity|]. split; [congruence|]. split; auto.
      intros q Hq. apply (T 0%nat (fun _ => nint 0) q); simpl; auto.
  Qed.

  Lemma flat_map_loop (idx : list Z) (body : Z -> prog V) :
    map (fun ii => at_flat idx ii body) (zrange 0 (zlen idx)) = map body idx.
  Proof.
    unfold at_flat. rewrite (map_over_list (fun o => match o with None => Bad | Some q => body q end)).
    reflexivity.
  Qed.

  Lemma linear_loop_spec p (idx : list Z) (c term : list V) :
    NoDup idx -> (forall q, In q idx -> 0 <= q < zlen c) -> zlen term = zlen c ->
    exists t', linear_loop p idx c term = Ok (c, t') /\ zlen t' = zlen c /\
      (forall q v, In q idx -> zget c q = Some v -> zget t' q = Some (ch_sigma p * (v - ch_m p))%num) /\
      (forall q, ~ In q idx -> zget t' q = zget term q) /\
      schedule_independent (map (linear_body p idx) (zrange 0 (zlen idx))) [c; term] [c; t'].
  Proof.
    intros ND B L. unfold linear_loop, forall_loop, linear_body. rewrite flat_map_loop.
    set (val := fun q => match zget c q with Some v => (ch_sigma p * (v - ch_m p))%num | None => nint 0 end).
    destruct (cell_loop idx (fun q => q)
      (fun i => Rd 0%nat i (fun v => Wr 1%nat i (ch_sigma p * (v - ch_m p))%num Done))
      [(1%nat, val)] [c; term]) as (m' & SI & SH & T & F); auto.
    - repeat constructor; simpl; auto.
    - intros q Hq. specialize (B q Hq).
      prove_uses ltac:(first [split; [apply inb_0; lia|simpl; intros [C|[]]; discriminate] | simpl; auto]).
    - intros q Hq. specialize (B q Hq). destruct (zget_some c q B) as (v & Ev).
      cbn [map fst snd]. unfold val. rewrite Ev.
      prove_stores ltac:(exact Ev) ltac:(apply inb_1; lia).
    - apply same_shape_two in SH as (c' & t' & -> & L1 & L2).
      assert (c' = c) as ->.
      { apply unread_eq; auto. intros q. apply (F 0%nat q). left. simpl. intros [C|[]]; discriminate. }
      exists t'. split; [destruct SI as (-> & _); reflexivity|]. split; [congruence|]. split; [|split; auto].
      + intros q v Hq Hv. pose proof (T 1%nat val q (or_introl eq_refl) Hq) as G. unfold val in G.
        rewrite Hv in G. exact G.
      + intros q Hq. apply (F 1%nat q). right. intros x Hx ->. auto.
  Qed.

  Lemma same_shape_four (a b c e : list V) m' : same_shape [a; b; c; e] m' ->
    exists a' b' c' e', m' = [a'; b'; c'; e'] /\ zlen a' = zlen a /\ zlen b' = zlen b /\
      zlen c' = zlen c /\ zlen e' = zlen e.
  Proof.
    unfold same_shape. destruct m' as [|a' [|b' [|c' [|e' [|? ?]]]]]; simpl; try discriminate.
    intros E. injection E as E1 E2 E3 E4. exists a', b', c', e'. unfold zlen. repeat split; congruence.
  Qed.

  Lemma combine_loop_spec p (idx : list Z) (r a b s : list V) :
    NoDup idx -> (forall q, In q idx -> 0 <= q < zlen r) ->
    zlen a = zlen r -> zlen b = zlen r -> zlen s = zlen r ->
    exists r', combine_loop p idx r a b s = Ok (r', a, b, s) /\ zlen r' = zlen r /\
      (forall q x y z, In q idx -> zget a q = Some x -> zget b q = Some y -> zget s q = Some z ->
         zget r' q = Some (- ch_eps2 p * x + y - z)%num) /\
      (forall q, ~ In q idx -> zget r' q = zget r q) /\
      schedule_independent (map (combine_body p idx) (zrange 0 (zlen idx))) [r; a; b; s] [r'; a; b; s].
  Proof.
    intros ND B La Lb Ls. unfold combine_loop, forall_loop, combine_body. rewrite flat_map_loop.
    set (val := fun q => match zget a q, zget b q, zget s q with
                         | Some x, Some y, Some z => (- ch_eps2 p * x + y - z)%num | _, _, _ => nint 0 end).
    destruct (cell_loop idx (fun q => q)
      (fun i => Rd 1%nat i (fun x => Rd 2%nat i (fun y => Rd 3%nat i (fun z =>
                Wr 0%nat i (- ch_eps2 p * x + y - z)%num Done))))
      [(0%nat, val)] [r; a; b; s]) as (m' & SI & SH & T & F); auto.
    - repeat constructor; simpl; auto.
    - intros q Hq. specialize (B q Hq).
      prove_uses ltac:(first [split; [eapply inb_nth; [reflexivity|lia]|simpl; intros [C|[]]; discriminate] | simpl; auto]).
    - intros q Hq. specialize (B q Hq).
      destruct (zget_some a q ltac:(lia)) as (x & Ex). destruct (zget_some b q ltac:(lia)) as (y & Ey).
      destruct (zget_some s q ltac:(lia)) as (z & Ez).
      cbn [map fst snd]. unfold val. rewrite Ex, Ey, Ez.
      prove_stores ltac:(first [exact Ex|exact Ey|exact Ez]) ltac:(apply inb_0; lia).
    - apply same_shape_four in SH as (r' & a' & b' & s' & -> & L1 & L2 & L3 & L4).
      assert (a' = a) as ->.
      { apply unread_eq; auto. intros q. apply (F 1%nat q). left. simpl. intros [C|[]]; discriminate. }
      assert (b' = b) as ->.
      { apply unread_eq; auto. intros q. apply (F 2%nat q). left. simpl. intros [C|[]]; discriminate. }
      assert (s' = s) as ->.
      { apply unread_eq; auto. intros q. apply (F 3%nat q). left. simpl. intros [C|[]]; discriminate. }
      exists r'. split; [destruct SI as (-> & _); reflexivity|]. split; [congruence|]. split; [|split; auto].
      + intros q x y z Hq Hx Hy Hz. pose proof (T 0%nat val q (or_introl eq_refl) Hq) as G. unfold val in G.
        rewrite Hx, Hy, Hz in G. exact G.
      + intros q Hq. apply (F 0%nat q). right. intros x Hx ->. auto.
  Qed.
End FlatLoops.

Section CH3.
  Context {V : Type} `{N : Num V}.
  Implicit Types (d : disc3 V) (p : ch_params V).

  (** The right-hand side at a cell, in the code's order of operations, for a value of dx^4. *)
  Definition ch_expr3 (p : ch_params V) (dx dx4 : V) (w : Z -> Z -> Z -> V) (i j k : Z) : V :=
    (- ch_eps2 p * (bih_sum3 w i j k / dx4)
     + lap_expr3 dx (fun i j k => npow3 (w i j k) - w i j k) i j k
     - ch_sigma p * (w i j k - ch_m p))%num.

  (** dx^4 as variant 0, respectively variants 1 and 2, compute it. *)
  Definition dx4_of (variant : Z) (dx : V) : V :=
    (if variant =? 0 then dx * dx * dx * dx else (dx * dx) * (dx * dx))%num.

  Lemma holds3_map dom (f g : list V) u (h : V -> V) :
    holds3 dom f u -> zlen g = zlen f -> (forall q v, zget f q = Some v -> zget g q = Some (h v)) ->
    holds3 dom g (fun i j k => h (u i j k)).
  Proof. intros (L & H) Lg M. split; [congruence|]. intros i j k P. apply M, H; auto. Qed.

  Lemma interior_nodup d : wf3 d -> NoDup (d3_interior d).
  Proof.
    intros W. rewrite (wf_interior _ W). apply nodup_map_inj; [apply nodup_box3|].
    intros x y Hx Hy E. eapply slot3_inside_inj; eauto.
  Qed.

  Lemma in_interior_slot d q : wf3 d ->
    In q (d3_interior d) <-> exists i j k, inside3 (d3_domain d) i j k /\ q = slot3 (d3_domain d) i j k.
  Proof.
    intros W. rewrite (wf_interior _ W), in_map_iff. split.
    - intros ([[i j] k] & <- & H). apply in_box3 in H. exists i, j, k. auto.
    - intros (i & j & k & H & ->). exists (i, j, k). split; auto. apply in_box3; auto.
  Qed.

  Lemma slot_not_interior d i j k : wf3 d -> padded3 (d3_domain d) i j k -> ~ inside3 (d3_domain d) i j k ->
    ~ In (slot3 (d3_domain d) i j k) (d3_interior d).
  Proof.
    intros W P NI H. apply in_interior_slot in H as (i' & j' & k' & H & E); auto.
    destruct (wf_valid _ W) as (_ & _ & _ & Hh).
    destruct (slot3_inj (d3_domain d) i j k i' j' k') as (-> & -> & ->); auto using inside_padded3.
  Qed.

  (** What an evaluation leaves in the halo of the right-hand side array. *)
  Definition rhs_halo (variant : Z) (dom : domain V) (r r' : list V) : Prop :=
    if variant =? 0 then
      forall i j k, padded3 dom i j k -> ~ inside3 dom i j k -> zget r' (slot3 dom i j k) = Some (nint 0)
    else same_halo3 dom r r'.

  Lemma interior_range d q : wf3 d -> In q (d3_interior d) -> 0 <= q < cells3 (d3_domain d).
  Proof.
    intros W H. apply in_interior_slot in H as (i & j & k & H & ->); auto.
    destruct (wf_valid _ W) as (_ & _ & _ & Hh). apply slot3_range, inside_padded3; auto.
  Qed.

  Theorem eval_rhs3_full d variant p s c rhs u :
    wf3 d -> thick (d3_domain d) -> 2 <= nhalo (d3_domain d) -> 0 <= variant <= 2 ->
    holds3 (d3_domain d) c u -> zlen rhs = cells3 (d3_domain d) ->
    scratch_fits (cells3 (d3_domain d)) s ->
    exists s' c' r', eval_rhs3 d variant p s c rhs = Ok (s', c', r') /\
      scratch_fits (cells3 (d3_domain d)) s' /\
      holds3 (d3_domain d) c' (extend3 (d3_domain d) u) /\
      holds_inside3 (d3_domain d) r'
        (ch_expr3 p (d3_dx d) (dx4_of variant (d3_dx d)) (extend3 (d3_domain d) u)) /\
      rhs_halo variant (d3_domain d) rhs r'.
  Proof.
    intros W TH Hh Hv HC HR (F1 & F2 & F3 & F4). set (dom := d3_domain d) in *.
    destruct (apply_bcs3_full d c u W TH HC) as (c1 & c2 & E1 & E2 & HC2).
    fold dom in HC2. set (w := extend3 dom u) in *.
    destruct (cube_loop_spec c2 (sc_arg s)) as (arg & E3 & La & Ma & _).
    { rewrite (proj1 HC2); auto. }
    assert (HA : holds3 dom arg (fun i j k => (npow3 (w i j k) - w i j k)%num))
      by (eapply (holds3_map dom c2 arg w (fun v => (npow3 v - v)%num)); eauto).
    assert (CV : variant = 0 \/ variant = 1 \/ variant = 2) by lia.
    destruct CV as [->|[->| ->]]; unfold eval_rhs3, rhs_halo, dx4_of;
      [change (0 =? 0) with true | change (1 =? 0) with false; change (1 =? 1) with true
       | change (2 =? 0) with false; change (2 =? 1) with false; change (2 =? 2) with true];
      cbv beta iota.
    - unfold eval_rhs_basic3. rewrite E1. cbn [rbind]. rewrite E2. cbn [rbind]. rewrite E3. cbn [rbind].
      destruct (laplacian3_full d arg (sc_lap s) _ W ltac:(fold dom; lia) HA F1) as (lap & E4 & H4 & SH4 & _).
      rewrite E4. cbn [rbind].
      destruct (biharmonic3_full d c2 (sc_bih s) w W Hh HC2 F3) as (bih & E5 & H5 & SH5 & _).
      rewrite E5. cbn [rbind].
      destruct (linear_loop_spec p (d3_interior d) c2 (sc_lin s)) as (lin & E6 & L6 & M6 & _ & _).
      { apply interior_nodup; auto. }
      { intros q Hq. rewrite (proj1 HC2). apply interior_range; auto. }
      { rewrite (proj1 HC2); auto. }
      rewrite E6. cbn [rbind].
      destruct (zero_loop_spec rhs) as (r0 & E7 & L7 & Z7 & _). rewrite E7. cbn [rbind].
      fold dom in H4, H5, SH4, SH5.
      destruct (combine_loop_spec p (d3_interior d) r0 bih lap lin) as (r & E8 & L8 & M8 & O8 & _).
      { apply interior_nodup; auto. }
      { intros q Hq. rewrite L7, HR. apply interior_range; auto. }
      { rewrite (proj1 H5), L7; auto. }
      { rewrite (proj1 H4), L7; auto. }
      { rewrite L6, (proj1 HC2), L7; auto. }
      rewrite E8. cbn [rbind].
      eexists _, c2, r. split; [reflexivity|]. split; [|split; [auto|split]].
      + unfold scratch_fits. simpl. rewrite (proj1 H4), (proj1 HA), (proj1 H5), L6, (proj1 HC2). auto.
      + split; [rewrite L8, L7; auto|]. intros i j k H.
        apply M8; [apply in_interior_slot; eauto 6| | |].
        * apply H5; auto.
        * apply H4; auto.
        * apply M6; [apply in_interior_slot; eauto 6|]. apply HC2. apply inside_padded3; auto. lia.
      + intros i j k P NI. rewrite O8 by (apply slot_not_interior; auto).
        apply Z7. rewrite HR. apply slot3_range; auto.
    - unfold eval_rhs_fused3. rewrite E1. cbn [rbind]. rewrite E2. cbn [rbind]. rewrite E3. cbn [rbind].
      destruct (interior_loop3 d (fun i j k =>
          Rd 0%nat (ix3 d (i - 1) j k) (fun a => Rd 0%nat (ix3 d (i + 1) j k) (fun b =>
          Rd 0%nat (ix3 d i (j - 1) k) (fun c => Rd 0%nat (ix3 d i (j + 1) k) (fun e =>
          Rd 0%nat (ix3 d i j (k - 1)) (fun f => Rd 0%nat (ix3 d i j (k + 1)) (fun g =>
          Rd 0%nat (ix3 d i j k) (fun o =>
          fused_tail d p 1%nat 2%nat i j k ((a + b + c + e + f + g - nint 6 * o) / (d3_dx d * d3_dx d))%num))))))))
        [(2%nat, ch_expr3 p (d3_dx d) (d3_dx d * d3_dx d * (d3_dx d * d3_dx d))%num w)] [arg; c2; rhs])
        as (m' & SI & E4 & SH & T & F); auto.
      { repeat constructor; simpl; auto. }
      { intros i j k (Hi & Hj & Hk). fold dom in Hi, Hj, Hk. unfold fused_tail.
        prove_uses ltac:(rewrite ix3_slot by auto; fold dom; first
          [ split; [eapply inb_nth; [reflexivity|]; first [rewrite (proj1 HA)|rewrite (proj1 HC2)];
                    apply slot3_range; unfold padded3; lia
                   | simpl; intros [C|[]]; discriminate]
          | split; [simpl; auto|reflexivity] ]). }
      { intros i j k (Hi & Hj & Hk). fold dom in Hi, Hj, Hk. unfold fused_tail. rewrite !ix3_slot by auto. fold dom.
        prove_stores ltac:(unfold mread; cbn [nth_error]; first [apply HA|apply HC2]; unfold padded3; lia)
          ltac:(eapply inb_nth; [reflexivity|]; rewrite HR; apply slot3_range; unfold padded3; lia). }
      unfold fused_body3. rewrite E4.
      apply same_shape_three in SH as (arg' & c2' & r & -> & L1 & L2 & L3).
      assert (arg' = arg) as ->.
      { apply unread_eq; auto. intros q. apply (F 0%nat q). left. simpl. intros [C|[]]; discriminate. }
      assert (c2' = c2) as ->.
      { apply unread_eq; auto. intros q. apply (F 1%nat q). left. simpl. intros [C|[]]; discriminate. }
      cbn [three rbind].
      eexists _, c2, r. split; [reflexivity|]. split; [|split; [auto|split]].
      + unfold scratch_fits. simpl. rewrite (proj1 HA). auto.
      + split; [congruence|]. intros i j k H. apply (T 2%nat _ i j k (or_introl eq_refl) H).
      + split; [auto|]. intros i j k P NI. symmetry. apply (F 2%nat). right.
        intros i' j' k' H' C. apply NI. fold dom in H', C.
        destruct (slot3_inj dom i j k i' j' k') as (-> & -> & ->); auto. apply inside_padded3; auto. lia.
    - unfold eval_rhs_fully_fused3. rewrite E1. cbn [rbind]. rewrite E2. cbn [rbind].
      destruct (interior_kernel2 d (fun i j k =>
          Rd 0%nat (ix3 d (i - 1) j k) (fun a => Rd 0%nat (ix3 d (i + 1) j k) (fun b =>
          Rd 0%nat (ix3 d i (j - 1) k) (fun c => Rd 0%nat (ix3 d i (j + 1) k) (fun e =>
          Rd 0%nat (ix3 d i j (k - 1)) (fun f => Rd 0%nat (ix3 d i j (k + 1)) (fun g =>
          Rd 0%nat (ix3 d i j k) (fun o =>
          let la (v : V) := (npow3 v - v)%num in
          fused_tail d p 0%nat 1%nat i j k
            ((la a + la b + la c + la e + la f + la g - nint 6 * la o) / (d3_dx d * d3_dx d))%num))))))))
        c2 rhs (ch_expr3 p (d3_dx d) (d3_dx d * d3_dx d * (d3_dx d * d3_dx d))%num w)) as (r & E4 & H4 & SH & _); auto.
      { intros i j k (Hi & Hj & Hk). fold dom in Hi, Hj, Hk. unfold fused_tail.
        prove_uses ltac:(rewrite ix3_slot by auto; fold dom; split; [reflexivity|]; first
          [ reflexivity | rewrite (proj1 HC2); apply slot3_range; unfold padded3; lia ]). }
      { intros i j k (Hi & Hj & Hk). fold dom in Hi, Hj, Hk. unfold fused_tail. rewrite !ix3_slot by auto. fold dom.
        prove_stores ltac:(unfold mread; cbn [nth_error]; apply HC2; unfold padded3; lia)
          ltac:(eapply inb_nth; [reflexivity|]; rewrite HR; apply slot3_range; unfold padded3; lia). }
      assert (E4' : two (forall_loop 0 (zlen (d3_interior d)) (fully_fused_body3 d p) [c2; rhs]) = Ok (c2, r)) by exact E4.
      rewrite E4'. cbn [rbind].
      eexists s, c2, r. split; [reflexivity|]. split; [|split; [auto|split; auto]].
      unfold scratch_fits. auto.
  Qed.
End CH3.

Section CH2.
  Context {V : Type} `{N : Num V}.
  Implicit Types (d : disc2 V) (p : ch_params V).

  Definition ch_expr2 (p : ch_params V) (dx : V) (w : Z -> Z -> V) (i j : Z) : V :=
    (- ch_eps2 p * bih_expr2 dx w i j
     + lap_expr2 dx (fun i j => npow3 (w i j) - w i j) i j
     - ch_sigma p * (w i j - ch_m p))%num.

  Lemma interior_nodup2 d : wf2 d -> NoDup (d2_interior d).
  Proof.
    intros W. rewrite (wf2_interior _ W). apply nodup_map_inj; [apply nodup_box2|].
    intros x y Hx Hy E. eapply pslot2_inside_inj; eauto.
  Qed.

  Lemma in_interior_slot2 d q : wf2 d ->
    In q (d2_interior d) <-> exists i j, inside2 (d2_domain d) i j /\ q = slot2 (d2_domain d) i j.
  Proof.
    intros W. rewrite (wf2_interior _ W), in_map_iff. split.
    - intros ([i j] & <- & H). apply in_box2 in H. exists i, j. auto.
    - intros (i & j & H & ->). exists (i, j). split; auto. apply in_box2; auto.
  Qed.

  Lemma slot_not_interior2 d i j : wf2 d -> padded2 (d2_domain d) i j -> ~ inside2 (d2_domain d) i j ->
    ~ In (slot2 (d2_domain d) i j) (d2_interior d).
  Proof.
    intros W P NI H. apply in_interior_slot2 in H as (i' & j' & H & E); auto.
    destruct (wf2_valid _ W) as (_ & Hh).
    destruct (slot2_inj (d2_domain d) i j i' j') as (-> & ->); auto using inside_padded2.
  Qed.

  Lemma interior_range2 d q : wf2 d -> In q (d2_interior d) -> 0 <= q < cells2 (d2_domain d).
  Proof.
    intros W H. apply in_interior_slot2 in H as (i & j & H & ->); auto.
    destruct (wf2_valid _ W) as (_ & Hh). apply slot2_range, inside_padded2; auto.
  Qed.

  Theorem eval_rhs2_full d p s c rhs u :
    wf2 d -> nhalo (d2_domain d) <= nx (d2_domain d) -> 2 <= nhalo (d2_domain d) ->
    holds2 (d2_domain d) c u -> zlen rhs = cells2 (d2_domain d) ->
    scratch_fits (cells2 (d2_domain d)) s ->
    exists s' c' r', eval_rhs2 d p s c rhs = Ok (s', c', r') /\
      scratch_fits (cells2 (d2_domain d)) s' /\
      holds2 (d2_domain d) c' (periodic2 (d2_domain d) u) /\
      holds_inside2 (d2_domain d) r' (ch_expr2 p (d2_dx d) (periodic2 (d2_domain d) u)) /\
      (forall i j, padded2 (d2_domain d) i j -> ~ inside2 (d2_domain d) i j ->
         zget r' (slot2 (d2_domain d) i j) = Some (nint 0)).
  Proof.
    intros W TH Hh HC HR (F1 & F2 & F3 & F4). set (dom := d2_domain d) in *.
    destruct (apply_periodic2_full d c u W TH HC) as (b1 & b2 & b3 & c2 & E1 & HC2 & _).
    fold dom in HC2. set (w := periodic2 dom u) in *.
    destruct (cube_loop_spec c2 (sc_arg s)) as (arg & E3 & La & Ma & _).
    { rewrite (proj1 HC2); auto. }
    assert (HA : holds2 dom arg (fun i j => (npow3 (w i j) - w i j)%num)).
    { destruct HC2 as (L & H). split; [congruence|]. intros i j P. apply Ma, H; auto. }
    unfold eval_rhs2. rewrite E1. cbn [rbind]. rewrite E3. cbn [rbind].
    destruct (laplacian2_full d arg (sc_lap s) _ W ltac:(fold dom; lia) HA F1) as (lap & E4 & H4 & SH4 & _).
    rewrite E4. cbn [rbind].
    destruct (biharmonic2_full d c2 (sc_bih s) w W Hh HC2 F3) as (bih & E5 & H5 & SH5 & _).
    rewrite E5. cbn [rbind].
    destruct (linear_loop_spec p (d2_interior d) c2 (sc_lin s)) as (lin & E6 & L6 & M6 & _ & _).
    { apply interior_nodup2; auto. }
    { intros q Hq. rewrite (proj1 HC2). apply interior_range2; auto. }
    { rewrite (proj1 HC2); auto. }
    rewrite E6. cbn [rbind].
    destruct (zero_loop_spec rhs) as (r0 & E7 & L7 & Z7 & _). rewrite E7. cbn [rbind].
    fold dom in H4, H5, SH4, SH5.
    destruct (combine_loop_spec p (d2_interior d) r0 bih lap lin) as (r & E8 & L8 & M8 & O8 & _).
    { apply interior_nodup2; auto. }
    { intros q Hq. rewrite L7, HR. apply interior_range2; auto. }
    { rewrite (proj1 H5), L7; auto. }
    { rewrite (proj1 H4), L7; auto. }
    { rewrite L6, (proj1 HC2), L7; auto. }
    rewrite E8. cbn [rbind].
    eexists _, c2, r. split; [reflexivity|]. split; [|split; [auto|split]].
    + unfold scratch_fits. simpl. rewrite (proj1 H4), (proj1 HA), (proj1 H5), L6, (proj1 HC2). auto.
    + split; [rewrite L8, L7; auto|]. intros i j H.
      apply M8; [apply in_interior_slot2; eauto 6| | |].
      * apply H5; auto.
      * apply H4; auto.
      * apply M6; [apply in_interior_slot2; eauto 6|]. apply HC2. apply inside_padded2; auto. lia.
    + intros i j P NI. rewrite O8 by (apply slot_not_interior2; auto).
      apply Z7. rewrite HR. apply slot2_range; auto.
  Qed.
End CH2.

Section ScratchMake.
  Context {V : Type} `{N : Num V}.

  Lemma make_ch3_inv d variant s : wf3 d -> make_ch3 d variant = Ok s ->
    0 <= variant <= 2 /\ scratch_fits (cells3 (d3_domain d)) s.
  Proof.
    intros W E. unfold make_ch3 in E. destruct ((0 <=? variant) && (variant <=? 2)) eqn:B; [|discriminate].
    injection E as <-. split; [lia|]. unfold scratch_fits, create_real_array3. cbn.
    rewrite zlen_new_array; rewrite (wf_ni d W), (wf_nj d W), (wf_nk d W), (wf_nh d W).
    - auto.
    - rewrite storage3_cells. apply cells3_nonneg, wf_valid, W.
  Qed.

  Lemma make_ch2_fits d : wf2 d -> scratch_fits (cells2 (d2_domain d)) (make_ch2 d).
  Proof.
    intros W. unfold make_ch2, scratch_fits, create_real_array2. cbn.
    rewrite zlen_new_array; rewrite (wf2_ni d W), (wf2_nh d W).
    - auto.
    - apply (cells2_nonneg (d2_domain d)), wf2_valid, W.
  Qed.

  Lemma inside3_dec (dom : domain V) i j k : inside3 dom i j k \/ ~ inside3 dom i j k.
  Proof. unfold inside3. lia. Qed.
  Lemma inside2_dec (dom : domain V) i j : inside2 dom i j \/ ~ inside2 dom i j.
  Proof. unfold inside2. lia. Qed.

  Lemma same_interior_halo3 (dom : domain V) (f g : list V) u :
    valid_domain3 dom -> holds_inside3 dom f u -> holds_inside3 dom g u -> same_halo3 dom f g -> f = g.
  Proof.
    intros HV (LF & HF) (LG & HG) (_ & HH).
    destruct (holds3_exists dom f HV LF) as (x & Hx).
    apply (holds3_unique dom f g x HV Hx). split; auto. intros i j k P.
    destruct Hx as (_ & Hx). rewrite <- Hx by auto.
    destruct (inside3_dec dom i j k) as [I|I]; [rewrite HF, HG by auto; reflexivity|].
    symmetry. apply HH; auto.
  Qed.
End ScratchMake.
