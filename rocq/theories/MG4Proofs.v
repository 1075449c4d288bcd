(** The multigrid integrator of the 3D Cahn-Hilliard equation: the hypotheses of the general
    theorems hold on every level. *)
From Verif Require Import Outcome ZList ZListProofs Num Kernel ModelIndex IndexProofs ModelDisc3D ModelCH
  SpecGrid Disc3DProofs BC3Proofs Make3Proofs Stencil3Proofs CHProofs SpecField SumProofs FieldProofs
  Transfer3Proofs TransferFinal ModelTime ModelRun SpecTime Time1Proofs Step1Proofs
  ModelMG ModelMGCH SpecMG MG1Proofs MG2Proofs MG3Proofs.
From Coq Require Import Lia Reals Lra.
Local Open Scope Z_scope.

Section Inst.
  Context {V : Type} `{N : Num V}.

  (** All cells including the halo. *)
  Definition Q3 (dom : domain V) (z : Z) : Prop := exists i j k, padded3 dom i j k /\ z = slot3 dom i j k.
  Definition ext3 (dom : domain V) (u : field V) : field V := of3 dom (extend3 dom (at3 dom u)).
  Definition rest3 (domf domc : domain V) (u : field V) : field V := of3 domc (restrict_expr3 (at3 domf u)).
  Definition prol3 (opt : mg_interp) (domc domf : domain V) (u : field V) : field V :=
    match opt with
    | MGLinear => of3 domf (prolong_linear_expr3 (at3 domc u))
    | _ => of3 domf (fun i j k => at3 domc u (i / 2) (j / 2) (k / 2))
    end.

  Lemma state3_pad dom c u : 0 <= nhalo dom ->
    state_holds 1 (cells3 dom) (Q3 dom) [c] u <-> holds3 dom c (at3 dom u).
  Proof.
    intros NH. split.
    - intros (S & H). apply one_array in S as (c' & E & L). injection E as <-. split; auto.
      intros i j k I. change (cell [c] 0 (slot3 dom i j k) = Some (u O (slot3 dom i j k))).
      apply H; [lia|apply slot3_range; auto|]. exists i, j, k. auto.
    - intros (L & H). split; [apply one_array; eauto|]. intros e i Le Li (a & b & c' & I & ->).
      destruct e; [|lia]. apply H. auto.
  Qed.

  Lemma PQ3 dom z : 0 <= nhalo dom -> P3 dom z -> Q3 dom z.
  Proof. intros H (i & j & k & I & ->). exists i, j, k. split; auto. apply inside_padded3; auto. Qed.

  Lemma ext3_same dom u : 0 <= nhalo dom -> same_on 1 (cells3 dom) (P3 dom) (ext3 dom u) u.
  Proof.
    intros H e z He Hz (i & j & k & I & ->). destruct e; [|lia]. unfold ext3.
    rewrite of3_slot by (apply inside_padded3; auto). unfold extend3. destruct I as (I1 & I2 & I3).
    rewrite !extend1_inside by auto. reflexivity.
  Qed.

  Lemma same3 dom (u w : field V) : 0 <= nhalo dom ->
    same_on 1 (cells3 dom) (P3 dom) u w <-> forall i j k, inside3 dom i j k -> at3 dom u i j k = at3 dom w i j k.
  Proof.
    intros NH. split.
    - intros H i j k I. apply H; [lia|apply slot3_range, inside_padded3; auto|]. exists i, j, k. auto.
    - intros H e z He Hz (i & j & k & I & ->). destruct e; [|lia]. apply H. auto.
  Qed.

  Lemma same3_pad dom (u w : field V) : 0 <= nhalo dom ->
    same_on 1 (cells3 dom) (Q3 dom) u w <-> forall i j k, padded3 dom i j k -> at3 dom u i j k = at3 dom w i j k.
  Proof.
    intros NH. split.
    - intros H i j k I. apply H; [lia|apply slot3_range; auto|]. exists i, j, k. auto.
    - intros H e z He Hz (i & j & k & I & ->). destruct e; [|lia]. apply H. auto.
  Qed.

  Lemma ext3_ext dom (u w : field V) : valid_domain3 dom ->
    same_on 1 (cells3 dom) (P3 dom) u w -> forall e z, ext3 dom u e z = ext3 dom w e z.
  Proof.
    intros HV H e z. assert (NH : 0 <= nhalo dom) by apply HV. rewrite same3 in H by auto.
    unfold ext3, of3. destruct (getIJK _ _ _ _) as [[i j] k]. apply extend3_inside_ext; auto.
  Qed.

  Lemma ch_f3_ext dom variant p h t (u w : field V) : valid_domain3 dom ->
    same_on 1 (cells3 dom) (P3 dom) u w -> forall e z, ch_f3 dom variant p h t u e z = ch_f3 dom variant p h t w e z.
  Proof.
    intros HV H e z. assert (NH : 0 <= nhalo dom) by apply HV. rewrite same3 in H by auto.
    unfold ch_f3, of3. destruct (getIJK _ _ _ _) as [[i j] k]. apply ch_expr3_ext. apply extend3_inside_ext; auto.
  Qed.

  Theorem ch3_computes_ext d variant p :
    wf3 d -> 2 <= nhalo (d3_domain d) -> thick (d3_domain d) -> 0 <= variant <= 2 ->
    let dom := d3_domain d in
    computes_ext (ch_rhs3 d variant p) (scratch_fits (cells3 dom)) 1 (cells3 dom) (P3 dom) (Q3 dom) (ext3 dom)
      (ch_f3 dom variant p (d3_dx d)).
  Proof.
    intros W HN HT VR dom sc s t r u OK HS SR. pose proof (wf_valid d W) as HV. fold dom in HV, HN, HT.
    apply one_array in SR as (rhs & -> & LR).
    destruct (proj1 (one_array _ _) (proj1 HS)) as (c & -> & LC).
    assert (NH : 0 <= nhalo dom) by lia.
    pose proof (proj1 (state3 dom c u NH) HS) as HI.
    destruct (holds3_exists dom c HV LC) as (w & HW).
    destruct (eval_rhs3_full d variant p sc c rhs w W HT HN VR HW LR OK) as (sc1 & c1 & r1 & E1 & F1 & HC1 & HR1 & _).
    fold dom in HC1, HR1, F1.
    assert (AG : forall i j k, inside3 dom i j k -> w i j k = at3 dom u i j k).
    { intros i j k I. destruct HW as (_ & HW). destruct HI as (_ & HI). specialize (HI i j k I). fold dom in HW.
      rewrite HW in HI by (apply inside_padded3; auto). congruence. }
    unfold ch_rhs3. cbn [nth_error of_opt rbind]. rewrite E1. cbn [rbind upd].
    do 3 eexists. split; [reflexivity|]. split; [exact F1|]. split; [|split].
    - apply state3; auto. split; [apply HC1|]. intros i j k I.
      rewrite (proj2 HC1) by (apply inside_padded3; auto). f_equal. rewrite <- AG by auto.
      unfold extend3. destruct I as (I1 & I2 & I3). rewrite !extend1_inside by auto. reflexivity.
    - apply state3_pad; auto. split; [apply HC1|]. intros i j k I. rewrite (proj2 HC1) by auto. f_equal.
      unfold at3 at 1, ext3. rewrite of3_slot by auto. apply extend3_inside_ext; auto.
    - apply state3; auto. split; [apply HR1|]. intros i j k I. rewrite (proj2 HR1) by auto. f_equal.
      unfold at3, ch_f3. rewrite of3_slot by (apply inside_padded3; auto).
      apply ch_expr3_ext. apply extend3_inside_ext; auto.
  Qed.

  Lemma restrict3_transfers df dc : wf3 df -> wf3 dc -> halves3 (d3_domain dc) (d3_domain df) ->
    transfers (transfer1 (restrict3 df dc)) 1 (cells3 (d3_domain df)) (P3 (d3_domain df))
      (cells3 (d3_domain dc)) (P3 (d3_domain dc)) (rest3 (d3_domain df) (d3_domain dc)).
  Proof.
    intros Wf Wc H a b u HA SB. destruct (proj1 (one_array _ _) (proj1 HA)) as (x & -> & LX).
    apply one_array in SB as (y & -> & LY).
    pose proof (wf_valid _ Wf) as Vf. pose proof (wf_valid _ Wc) as Vc.
    assert (NF : 0 <= nhalo (d3_domain df)) by apply Vf. assert (NC : 0 <= nhalo (d3_domain dc)) by apply Vc.
    destruct (restrict3_full df dc x y _ Wf Wc H (proj1 (state3 _ _ _ NF) HA) LY) as (c' & E & HC & _).
    cbn [transfer1]. rewrite E. cbn [rbind]. eexists. split; [reflexivity|]. apply state3; auto.
    split; [apply HC|]. intros i j k I. rewrite (proj2 HC) by auto. unfold at3 at 2, rest3.
    rewrite of3_slot by (apply inside_padded3; auto). reflexivity.
  Qed.

  Lemma prolong3_transfers opt df dc : wf3 df -> wf3 dc -> halves3 (d3_domain dc) (d3_domain df) ->
    1 <= nhalo (d3_domain dc) -> opt <> MGOther ->
    transfers (transfer1 (prolong3 opt dc df)) 1 (cells3 (d3_domain dc)) (Q3 (d3_domain dc))
      (cells3 (d3_domain df)) (P3 (d3_domain df)) (prol3 opt (d3_domain dc) (d3_domain df)).
  Proof.
    intros Wf Wc H H1 HO a b u HA SB. destruct (proj1 (one_array _ _) (proj1 HA)) as (x & -> & LX).
    apply one_array in SB as (y & -> & LY).
    pose proof (wf_valid _ Wf) as Vf. pose proof (wf_valid _ Wc) as Vc.
    assert (NF : 0 <= nhalo (d3_domain df)) by apply Vf. assert (NC : 0 <= nhalo (d3_domain dc)) by apply Vc.
    pose proof (proj1 (state3_pad _ _ _ NC) HA) as HX. cbn [transfer1].
    destruct opt; [| |contradiction].
    - assert (HI : holds_inside3 (d3_domain dc) x (at3 (d3_domain dc) u)).
      { split; [apply HX|]. intros i j k I. apply HX, inside_padded3; auto. }
      destruct (prolong_nearest3_full df dc x y _ Wf Wc H HI LY) as (f' & E & HF & _).
      rewrite E. cbn [rbind]. eexists. split; [reflexivity|]. apply state3; auto.
      split; [apply HF|]. intros i j k I. rewrite (proj2 HF) by auto. unfold at3 at 2, prol3.
      rewrite of3_slot by (apply inside_padded3; auto). reflexivity.
    - destruct (prolong_linear3_full df dc x y _ Wf Wc H H1 HX LY) as (f' & E & L & HF & _).
      rewrite E. cbn [rbind]. eexists. split; [reflexivity|]. apply state3; auto.
      split; [exact L|]. intros i j k I. rewrite HF by (unfold near3; destruct I as (I1 & I2 & I3); lia).
      unfold at3 at 2, prol3.
      rewrite of3_slot by (apply inside_padded3; auto). reflexivity.
  Qed.

  (** ** The grids of the levels *)
  Lemma make_grids_inv n : forall d ds, wf3 d -> make_grids n d = Ok ds ->
    length ds = (1 + n)%nat /\ nth_error ds 0 = Some d /\
    (forall k x, nth_error ds k = Some x -> wf3 x) /\
    (forall k x y, nth_error ds k = Some x -> nth_error ds (1 + k) = Some y ->
       halves3 (d3_domain y) (d3_domain x) /\ coarsen3 x = Ok y).
  Proof.
    induction n as [|n IH]; intros d ds W E; cbn [make_grids] in E.
    - injection E as <-. split; auto. split; auto. split.
      + intros [|[|k]] x H; try discriminate. injection H as <-. auto.
      + intros [|[|k]] x y H H'; discriminate.
    - destruct (coarsen3 d) as [dc| | |] eqn:EC; try discriminate. cbn [rbind] in E.
      destruct (make_grids n dc) as [ds'| | |] eqn:EG; try discriminate. cbn [rbind] in E. injection E as <-.
      destruct (coarsen3_inv d dc W EC) as (Wc & Hc).
      destruct (IH dc ds' Wc EG) as (L & H0 & HW & HH). split; [cbn [length]; lia|]. split; [reflexivity|]. split.
      + intros [|k] x H; [injection H as <-; auto|exact (HW k x H)].
      + intros [|k] x y H H'.
        * injection H as <-. change (nth_error ds' 0 = Some y) in H'. rewrite H0 in H'. injection H' as <-. auto.
        * exact (HH k x y H H').
  Qed.

  Lemma grids_thick n d ds : wf3 d -> make_grids n d = Ok ds -> thick_at (Z.of_nat n) (d3_domain d) ->
    forall k x, nth_error ds k = Some x -> nhalo (d3_domain x) = nhalo (d3_domain d) /\
      thick_at (Z.of_nat (n - k)) (d3_domain x).
  Proof.
    intros W E T. destruct (make_grids_inv n d ds W E) as (L & H0 & HW & HH).
    induction k as [|k IH]; intros x HX.
    - rewrite H0 in HX. injection HX as <-. rewrite Nat.sub_0_r. auto.
    - assert (KL : (S k < length ds)%nat) by (apply nth_error_Some; congruence).
      destruct (nth_error ds k) as [y|] eqn:EY; [|apply nth_error_None in EY; lia].
      destruct (IH y eq_refl) as (NH & T1 & T2 & T3). destruct (HH k y x EY HX) as ((A & B & C & D) & _).
      split; [congruence|]. unfold thick_at.
      replace (Z.of_nat (n - k)) with (Z.succ (Z.of_nat (n - S k))) in * by lia.
      rewrite Z.pow_succ_r in T1, T2, T3 by lia. rewrite A, B, C, D in *. nia.
  Qed.

  Lemma thick_of m (dom : domain V) : 0 <= m -> 0 <= nhalo dom -> thick_at m dom -> thick dom.
  Proof.
    intros Hm NH (A & B & C). assert (1 <= 2 ^ m) by (apply (Z.pow_le_mono_r 2 0 m); lia).
    unfold thick. nia.
  Qed.
End Inst.

Section Setup.
  Context {V : Type} `{N : Num V}.
  Variables (q : mg_options V) (d : disc3 V) (variant : Z) (p : ch_params V) (sc0 : scratch V)
    (rmax : V -> list V -> V) (rsum : list V -> V) (pw : V -> V -> V) (u0 du0 : state V)
    (g : mg_config V (scratch V)) (b0 : mg_world V (scratch V)).
  Hypothesis W : wf3 d.
  Hypothesis HN : 2 <= nhalo (d3_domain d).
  Hypothesis SC : make_ch3 d variant = Ok sc0.
  Hypothesis INT : q_interp q <> MGOther.
  Hypothesis U0 : shaped 1 (cells3 (d3_domain d)) u0.
  Hypothesis DU0 : shaped 1 (cells3 (d3_domain d)) du0.
  Hypothesis TH : thick_at (q_levels q - 1) (d3_domain d).
  Hypothesis NEW : bdf_new q d variant p sc0 rmax rsum pw u0 du0 = Ok (g, b0).

  Lemma new_inv : exists ds vs,
    get_mg_cycle (q_levels q) (q_nsmooth q) = Ok (g_cycle g) /\
    make_grids (Z.to_nat (q_levels q - 1)) d = Ok ds /\ new_coarse_levels variant d (tl ds) = Ok vs /\
    g = mg_ch3 q variant p (g_cycle g) rmax rsum pw ds /\
    b0 = {| b_levels := {| v_sc := sc0; v_u := u0; v_du := du0; v_sm := new_smoother d; v_c := None |} :: vs;
           b_res0 := new_state3 d; b_ncycles := 0%Z; b_rate := nint 0 |}.
  Proof.
    pose proof NEW as E. unfold bdf_new in E.
    destruct (get_mg_cycle _ _) as [cy| | |] eqn:X1; cbn [rbind] in E; try discriminate.
    destruct (make_grids _ _) as [ds| | |] eqn:X2; cbn [rbind] in E; try discriminate.
    destruct (new_coarse_levels _ _ _) as [vs| | |] eqn:X3; cbn [rbind] in E; try discriminate.
    injection E as Eg Eb. exists ds, vs. rewrite <- Eg, <- Eb. cbn [g_cycle mg_ch3].
    split; [reflexivity|]. split; [reflexivity|]. split; [exact X3|]. split; reflexivity.
  Qed.

  (** The grid and the operators of level k. *)
  Definition grids : list (disc3 V) := match make_grids (Z.to_nat (q_levels q - 1)) d with Ok ds => ds | _ => [] end.
  Definition grid (k : nat) : disc3 V := nth k grids d.
  Definition gdom (k : nat) : domain V := d3_domain (grid k).
  Definition gok (k : nat) : scratch V -> Prop := scratch_fits (cells3 (gdom k)).
  Definition gsize (k : nat) : Z := cells3 (gdom k).
  Definition gP (k : nat) : Z -> Prop := P3 (gdom k).
  Definition gQ (k : nat) : Z -> Prop := Q3 (gdom k).
  Definition gext (k : nat) : field V -> field V := ext3 (gdom k).
  Definition gf (k : nat) : V -> field V -> field V := ch_f3 (gdom k) variant p (d3_dx (grid k)).
  Definition grest (k : nat) : field V -> field V := rest3 (gdom (k - 1)) (gdom k).
  Definition gprol (k : nat) : field V -> field V := prol3 (q_interp q) (gdom k) (gdom (k - 1)).
  Definition gn : nat := Z.to_nat (q_levels q - 1).

  Lemma new_range : 1 <= q_levels q <= 6 /\ 0 <= q_nsmooth q.
  Proof.
    destruct new_inv as (ds & vs & E & _). destruct (Z_lt_le_dec (q_nsmooth q) 0) as [L|L].
    - rewrite get_mg_cycle_throws in E by auto. discriminate.
    - split; auto. destruct (Z_le_dec 1 (q_levels q)), (Z_le_dec (q_levels q) 6); try lia;
        rewrite get_mg_cycle_rejects in E by lia; discriminate.
  Qed.

  Lemma grids_eq : make_grids gn d = Ok grids /\ g = mg_ch3 q variant p (g_cycle g) rmax rsum pw grids /\
    g_cycle g = cyc (Z.to_nat (q_nsmooth q)) gn.
  Proof.
    destruct new_inv as (ds & vs & E1 & E2 & E3 & E4 & _). unfold grids, gn. rewrite E2. repeat split; auto.
    destruct new_range as (R1 & R2). rewrite get_mg_cycle_cyc in E1 by auto. congruence.
  Qed.

  Lemma grids_facts : length grids = (1 + gn)%nat /\ nth_error grids 0 = Some d /\
    (forall k, (k <= gn)%nat -> nth_error grids k = Some (grid k)) /\ grid 0 = d /\
    (forall k, wf3 (grid k)) /\ (forall k, 2 <= nhalo (gdom k) /\ thick (gdom k)) /\
    (forall k, (k < gn)%nat -> halves3 (gdom (1 + k)) (gdom k) /\ coarsen3 (grid k) = Ok (grid (1 + k))).
  Proof.
    destruct grids_eq as (E & _). destruct (make_grids_inv gn d grids W E) as (L & E0 & HW & HH).
    destruct new_range as (R1 & R2).
    assert (TH' : thick_at (Z.of_nat gn) (d3_domain d)) by (unfold gn; rewrite Z2Nat.id by lia; exact TH).
    pose proof (grids_thick gn d grids W E TH') as GT.
    assert (NT : forall k, (k <= gn)%nat -> nth_error grids k = Some (grid k))
      by (intros k Hk; apply nth_error_nth'; lia).
    assert (DF : forall k, ~ (k <= gn)%nat -> grid k = d) by (intros k Hk; apply nth_overflow; lia).
    split; auto. split; auto. split; auto. split.
    { specialize (NT 0%nat ltac:(lia)). congruence. }
    split.
    { intros k. destruct (le_dec k gn) as [H|H]; [apply (HW k), NT; auto|rewrite DF by auto; auto]. }
    split.
    { intros k. unfold gdom. destruct (le_dec k gn) as [H|H].
      - destruct (GT k _ (NT k H)) as (A & B). split; [lia|]. apply (thick_of (Z.of_nat (gn - k))); [lia|lia|exact B].
      - rewrite DF by auto. split; auto. apply (thick_of (Z.of_nat gn)); [lia|lia|exact TH']. }
    intros k Hk. apply (HH k); [apply NT; lia|apply (NT (1 + k)%nat); lia].
  Qed.

  Lemma gh k : 0 <= nhalo (gdom k).
  Proof. destruct grids_facts as (_ & _ & _ & _ & _ & H & _). destruct (H k). lia. Qed.

  Lemma gPQ k u : same_on 1 (gsize k) (gP k) (gext k u) u.
  Proof. apply ext3_same, gh. Qed.
  Lemma gPQ' k i : gP k i -> gQ k i.
  Proof. apply PQ3, gh. Qed.

  Lemma gCE k : (k <= gn)%nat -> computes_ext (g_eval g k) (gok k) 1 (gsize k) (gP k) (gQ k) (gext k) (gf k).
  Proof.
    intros Hk. destruct grids_eq as (_ & -> & _). cbn [g_eval mg_ch3].
    destruct grids_facts as (_ & _ & NT & _ & HW & HT & _). rewrite (NT k Hk). destruct (HT k) as (H2 & H3).
    exact (ch3_computes_ext (grid k) variant p (HW k) H2 H3 (proj1 (make_ch3_inv d variant sc0 W SC))).
  Qed.

  Lemma gCR k : (k < gn)%nat ->
    transfers (g_restrict g (1 + k)) 1 (gsize k) (gP k) (gsize (1 + k)) (gP (1 + k)) (grest (1 + k)).
  Proof.
    intros Hk. destruct grids_eq as (_ & -> & _). cbn [g_restrict mg_ch3].
    destruct grids_facts as (_ & _ & NT & _ & HW & HT & HH). replace (1 + k - 1)%nat with k by lia.
    rewrite (NT k), (NT (1 + k)%nat) by lia. unfold grest. replace (1 + k - 1)%nat with k by lia.
    exact (restrict3_transfers (grid k) (grid (1 + k)) (HW k) (HW (1 + k)%nat) (proj1 (HH k Hk))).
  Qed.

  Lemma gCP k : (k < gn)%nat ->
    transfers (g_prolong g (1 + k)) 1 (gsize (1 + k)) (gQ (1 + k)) (gsize k) (gP k) (gprol (1 + k)).
  Proof.
    intros Hk. destruct grids_eq as (_ & -> & _). cbn [g_prolong mg_ch3].
    destruct grids_facts as (_ & _ & NT & _ & HW & HT & HH). replace (1 + k - 1)%nat with k by lia.
    rewrite (NT k), (NT (1 + k)%nat) by lia. unfold gprol. replace (1 + k - 1)%nat with k by lia.
    assert (H1 : 1 <= nhalo (gdom (1 + k))) by (destruct (HT (1 + k)%nat); lia).
    exact (prolong3_transfers (q_interp q) (grid k) (grid (1 + k)) (HW k) (HW (1 + k)%nat) (proj1 (HH k Hk)) H1 INT).
  Qed.

  Lemma gIN i : In i (g_interior g) -> 0 <= i < gsize 0.
  Proof.
    destruct grids_eq as (_ & -> & _). destruct grids_facts as (_ & E0 & _ & EG & HW & _). cbn [g_interior mg_ch3].
    destruct grids as [|x l]; [discriminate|]. injection E0 as ->. intros H. unfold gsize, gdom. rewrite EG.
    apply (in_interior_slot d i W) in H as (a & b & c & I & ->). apply slot3_range, inside_padded3; [lia|exact I].
  Qed.

  (** ** Every reached world is well formed. *)
  Definition world_ok (b : mg_world V (scratch V)) : Prop :=
    levels_ok gok 1 gsize gn (b_levels b) /\ shaped 1 (gsize 0) (b_res0 b).

  Lemma new_shaped k x : grid k = x -> shaped 1 (gsize k) (new_state3 x).
  Proof.
    intros <-. apply one_array. exists (create_real_array3 (grid k)). split; auto.
    destruct grids_facts as (_ & _ & _ & _ & HW & _). specialize (HW k). unfold create_real_array3.
    rewrite zlen_new_array; rewrite (wf_ni _ HW), (wf_nj _ HW), (wf_nk _ HW), (wf_nh _ HW).
    - reflexivity.
    - rewrite storage3_cells. apply cells3_nonneg, wf_valid, HW.
  Qed.

  Lemma coarse_levels_ok : forall ds vs k df, new_coarse_levels variant df ds = Ok vs ->
    grid k = df -> (forall j x, nth_error ds j = Some x -> grid (1 + k + j) = x) ->
    length vs = length ds /\ forall j v, nth_error vs j = Some v -> level_ok gok 1 gsize (1 + k + j) v.
  Proof.
    induction ds as [|dc ds IH]; intros vs k df E GF HG; cbn [new_coarse_levels] in E.
    - injection E as <-. split; auto. intros [|j] v H; discriminate.
    - unfold new_coarse_level in E. destruct (make_ch3 dc variant) as [sc| | |] eqn:EM; cbn [rbind] in E; try discriminate.
      destruct (new_coarse_levels variant dc ds) as [vs'| | |] eqn:EL; cbn [rbind] in E; try discriminate.
      injection E as <-.
      assert (GC : grid (1 + k) = dc) by (specialize (HG 0%nat dc eq_refl); rewrite Nat.add_0_r in HG; exact HG).
      destruct (IH vs' (1 + k)%nat dc EL GC) as (L & H).
      { intros j x Hj. specialize (HG (S j) x Hj). rewrite <- HG. f_equal. lia. }
      split; [cbn [length]; congruence|]. intros [|j] v Hv.
      + injection Hv as <-. rewrite Nat.add_0_r. pose proof (new_shaped (1 + k) dc GC) as SH.
        pose proof (new_shaped k df GF) as SF.
        destruct grids_facts as (_ & _ & _ & _ & HW & _).
        split. { cbn [v_sc]. unfold gok, gdom. rewrite GC. apply (make_ch3_inv dc variant sc); auto. rewrite <- GC. apply HW. }
        split; [exact SH|]. split; [exact SH|]. split; [split; [|split; [|split; [|split]]]; exact SH|].
        cbn [Nat.add v_c]. split; [exact SH|]. split; [exact SH|]. split; [exact SH|]. split; [exact SH|]. split; [exact SH|exact SF].
      + specialize (H j v Hv). replace (1 + k + S j)%nat with (1 + (1 + k) + j)%nat by lia. exact H.
  Qed.

  Lemma world_ok_new : world_ok b0.
  Proof.
    destruct new_inv as (ds & vs & _ & E2 & E3 & _ & EB). destruct grids_eq as (EG & _). rewrite EB. clear EB.
    assert (ds = grids) as -> by (unfold gn in EG; congruence).
    destruct grids_facts as (L & E0 & NT & G0 & HW & _).
    pose proof (new_shaped 0 d G0) as SH.
    destruct grids as [|x l] eqn:EQ; [discriminate|]. injection E0 as ->. cbn [tl] in E3.
    destruct (coarse_levels_ok l vs 0 d E3 G0) as (LV & HL).
    { intros j y Hj. pose proof (nth_error_Some l j) as (X & _). specialize (X ltac:(congruence)).
      cbn [length] in L. specialize (NT (1 + j)%nat ltac:(lia)).
      change (nth_error l j = Some (grid (1 + j))) in NT. cbn [Nat.add] in *. congruence. }
    split; cbn [b_levels b_res0].
    - split; [cbn [length] in *; lia|]. intros [|k] v Hv.
      + injection Hv as <-. assert (G0' : gsize 0 = cells3 (d3_domain d)) by (unfold gsize, gdom; rewrite G0; auto).
        split. { cbn [v_sc]. unfold gok, gdom. rewrite G0. apply (make_ch3_inv d variant sc0); auto. }
        cbn [v_u v_du v_sm v_c]. rewrite G0'. split; [exact U0|]. split; [exact DU0|]. split; auto.
        rewrite <- G0'. split; [|split; [|split; [|split]]]; exact SH.
      + exact (HL k v Hv).
    - exact SH.
  Qed.
End Setup.
