(** The Jacobian is the derivative of the right-hand side. *)
From Verif Require Import Outcome ZList ZListProofs Num Kernel KernelProofs Gather ModelIndex ModelDisc3D
  ModelCH ModelCSR ModelJac SpecGrid SpecField SpecMatrix SpecJac Loop Disc3DProofs Make3Proofs CHProofs CSRProofs CSR2Proofs
  Jac1Proofs Jac2Proofs Jac3Proofs.
From Coq Require Import ZifyBool ZifyNat Reals Lra.

Lemma dense_unique (jv : Z -> R) c l : NoDup l ->
  Rsum (map snd (filter (fun e => fst e =? c) (map (fun c => (c, jv c)) l)))
  = (if in_dec Z.eq_dec c l then jv c else 0)%R.
Proof.
  induction l as [|x l IH]; intros ND; [reflexivity|]. inversion ND as [|? ? NI ND']; subst.
  cbn [map filter fst]. destruct (x =? c) eqn:E.
  - assert (x = c) by lia. subst x. cbn [map snd Rsum fold_right].
    assert (R0 : Rsum (map snd (filter (fun e => fst e =? c) (map (fun c => (c, jv c)) l))) = 0%R).
    { rewrite IH by auto. destruct (in_dec Z.eq_dec c l); [contradiction|reflexivity]. }
    change (Rsum (jv c :: map snd (filter (fun e => fst e =? c) (map (fun c => (c, jv c)) l))) =
            (if in_dec Z.eq_dec c (c :: l) then jv c else 0)%R).
    destruct (in_dec Z.eq_dec c (c :: l)) as [_|NN]; [|exfalso; apply NN; left; reflexivity].
    simpl. unfold Rsum in *. simpl in *. rewrite R0. ring.
  - rewrite IH by auto. destruct (in_dec Z.eq_dec c l) as [I|I], (in_dec Z.eq_dec c (x :: l)) as [J|J]; auto.
    + exfalso. apply J. right. exact I.
    + exfalso. destruct J as [->|J]; [lia|contradiction].
Qed.

Section RowsR.
  Context {V : Type} `{N : Num V}.
  (** The (column, value) pairs of a row after evalJacobian. *)
  Lemma jac_row_entries dom (A : csr V) v (jv : Z -> V) i j k :
    five_cells dom -> valid_domain3 dom -> jac_shape dom A -> zlen v = zlen (m_vals A) -> inside3 dom i j k ->
    (forall q c, 25 * cellno dom i j k <= q < 25 * cellno dom i j k + 25 -> zget (m_col A) q = Some c -> zget v q = Some (jv c)) ->
    row_entries (set_values A v) (cellno dom i j k)
    = map (fun c => (c, jv c)) (row_columns i j k (nx dom) (ny dom) (nz dom)).
  Proof.
    intros F VD SH L I H. assert (WF := shape_wf dom A F VD SH).
    assert (WF' : csr_wf (set_values A v)).
    { unfold csr_wf in *. simpl. rewrite L. tauto. }
    assert (RG := cellno_range dom i j k I). fold (ncells dom) in RG.
    assert (FULL : zlen (row_columns i j k (nx dom) (ny dom) (nz dom)) = 25).
    { apply row_columns_full, pushed_nodup; auto. }
    pose proof SH as (NR & _ & _ & _ & _ & _ & CO).
    rewrite (row_entries_map (set_values A v) WF') by (simpl; lia).
    change (rlo (set_values A v)) with (rlo A). rewrite !(shape_rlo dom A) by (auto; lia).
    apply zget_ext.
    - rewrite !zlen_map, FULL, zlen_zrange. lia.
    - intros s Hs. rewrite zlen_map, zlen_zrange in Hs.
      rewrite !zget_map, zget_zrange by lia. cbn [option_map].
      assert (C := CO i j k s I ltac:(lia)).
      destruct (zget_some (row_columns i j k (nx dom) (ny dom) (nz dom)) s) as (c & Ec); [lia|].
      rewrite Ec in C. rewrite Ec. cbn [option_map]. unfold ecol, eval. cbn [m_col m_vals set_values].
      rewrite C, (H _ c) by (auto; lia). reflexivity.
  Qed.
End RowsR.

(** The stencil indicator of column cell (a,b,e). *)
Definition hit (dom : domain R) (a b e : Z) (x y z : Z) : R :=
  if (x mod nx dom =? a) && (y mod ny dom =? b) && (z mod nz dom =? e) then 1%R else 0%R.

Lemma replaced_linear (dom : domain R) u a b e t x y z :
  periodic3 dom (replaced u a b e t) x y z
  = (periodic3 dom u x y z + hit dom a b e x y z * (t - u a b e))%R.
Proof.
  unfold periodic3, replaced, hit.
  destruct ((x mod nx dom =? a) && (y mod ny dom =? b) && (z mod nz dom =? e)) eqn:E; [|ring].
  apply andb_prop in E as (E & E3). apply andb_prop in E as (E1 & E2).
  apply Z.eqb_eq in E1, E2, E3. rewrite E1, E2, E3. ring.
Qed.

Lemma dl_ext f g t l : (forall x, f x = g x) -> derivable_pt_lim f t l -> derivable_pt_lim g t l.
Proof.
  intros E H eps Heps. destruct (H eps Heps) as (del & D). exists del. intros h Hh Hd. rewrite <- !E. auto.
Qed.

Lemma dl_val f t l l' : l = l' -> derivable_pt_lim f t l -> derivable_pt_lim f t l'.
Proof. intros <-; auto. Qed.

Lemma Lap3_derive h (f : R -> Z -> Z -> Z -> R) f' t i j k :
  (forall x y z, derivable_pt_lim (fun s => f s x y z) t (f' x y z)) ->
  derivable_pt_lim (fun s => Lap3 h (f s) i j k) t (Lap3 h f' i j k).
Proof.
  intros H. unfold Lap3, dxx3, dyy3, dzz3.
  assert (S2 : forall x1 y1 z1 x2 y2 z2 x3 y3 z3,
    derivable_pt_lim (fun s => (f s x1 y1 z1 - 2 * f s x2 y2 z2 + f s x3 y3 z3) / h ^ 2)%R t
      ((f' x1 y1 z1 - 2 * f' x2 y2 z2 + f' x3 y3 z3) / h ^ 2)%R).
  { intros. unfold Rdiv.
    apply (dl_ext (mult_real_fct (/ h ^ 2) ((fun s => f s x1 y1 z1) - mult_real_fct 2 (fun s => f s x2 y2 z2) + (fun s => f s x3 y3 z3))%F)).
    { intros s. unfold mult_real_fct, plus_fct, minus_fct. ring. }
    replace ((f' x1 y1 z1 - 2 * f' x2 y2 z2 + f' x3 y3 z3) * / h ^ 2)%R
      with (/ h ^ 2 * (f' x1 y1 z1 - 2 * f' x2 y2 z2 + f' x3 y3 z3))%R by ring.
    apply derivable_pt_lim_scal. apply derivable_pt_lim_plus; [|apply H].
    apply derivable_pt_lim_minus; [apply H|]. apply derivable_pt_lim_scal. apply H. }
  apply (derivable_pt_lim_plus (fun s => _ + _)%R); [apply (derivable_pt_lim_plus (fun s => _ / _)%R)|]; apply S2.
Qed.

Definition jac_deriv dom u a b e h sigma eps2 i j k : R :=
  (Lap3 h (fun x y z => (3 * periodic3 dom u x y z ^ 2 - 1) * hit dom a b e x y z)%R i j k
   - eps2 * Lap3 h (Lap3 h (hit dom a b e)) i j k - sigma * hit dom a b e i j k)%R.

Lemma CH3_derive dom u a b e h m sigma eps2 i j k :
  derivable_pt_lim (fun t => CH3 h m sigma eps2 (periodic3 dom (replaced u a b e t)) i j k) (u a b e)
    (jac_deriv dom u a b e h sigma eps2 i j k).
Proof.
  assert (W : forall x y z, derivable_pt_lim (fun t => periodic3 dom (replaced u a b e t) x y z) (u a b e)
                              (hit dom a b e x y z)).
  { intros. eapply dl_ext; [intros t; symmetry; apply replaced_linear|].
    apply (dl_val _ _ (0 + hit dom a b e x y z * (1 - 0))%R); [ring|].
    apply (derivable_pt_lim_plus (fun _ => periodic3 dom u x y z) (fun t => hit dom a b e x y z * (t - u a b e))%R).
    - apply derivable_pt_lim_const.
    - apply (derivable_pt_lim_scal (fun t => t - u a b e)%R).
      apply (derivable_pt_lim_minus (fun t => t) (fun _ => u a b e)).
      + apply derivable_pt_lim_id.
      + apply derivable_pt_lim_const. }
  unfold CH3, jac_deriv.
  apply (derivable_pt_lim_minus
     (fun t => Lap3 h (fun i j k => periodic3 dom (replaced u a b e t) i j k ^ 3 - periodic3 dom (replaced u a b e t) i j k)%R i j k
               - eps2 * Lap3 h (Lap3 h (periodic3 dom (replaced u a b e t))) i j k)%R
     (fun t => sigma * (periodic3 dom (replaced u a b e t) i j k - m))%R).
  - apply (derivable_pt_lim_minus
     (fun t => Lap3 h (fun i j k => periodic3 dom (replaced u a b e t) i j k ^ 3 - periodic3 dom (replaced u a b e t) i j k)%R i j k)
     (fun t => eps2 * Lap3 h (Lap3 h (periodic3 dom (replaced u a b e t))) i j k)%R).
    + apply (Lap3_derive h (fun t i j k => periodic3 dom (replaced u a b e t) i j k ^ 3 - periodic3 dom (replaced u a b e t) i j k)%R).
      intros x y z.
      replace ((3 * periodic3 dom u x y z ^ 2 - 1) * hit dom a b e x y z)%R
        with ((INR 3 * (periodic3 dom (replaced u a b e (u a b e)) x y z) ^ Init.Nat.pred 3) * hit dom a b e x y z - hit dom a b e x y z)%R.
      * apply (derivable_pt_lim_minus (comp (fun y => y ^ 3)%R (fun t => periodic3 dom (replaced u a b e t) x y z))).
        -- apply derivable_pt_lim_comp; [apply W|]. apply derivable_pt_lim_pow.
        -- apply W.
      * rewrite replaced_linear. simpl. ring.
    + apply (derivable_pt_lim_scal (fun t => Lap3 h (Lap3 h (periodic3 dom (replaced u a b e t))) i j k)).
      apply (Lap3_derive h (fun t => Lap3 h (periodic3 dom (replaced u a b e t)))).
      intros x y z. apply (Lap3_derive h (fun t => periodic3 dom (replaced u a b e t))). exact W.
  - apply (derivable_pt_lim_scal (fun t => periodic3 dom (replaced u a b e t) i j k - m)%R).
    apply (dl_val _ _ (hit dom a b e i j k - 0)%R); [ring|].
    apply (derivable_pt_lim_minus (fun t => periodic3 dom (replaced u a b e t) i j k) (fun _ => m)).
    + apply W.
    + apply derivable_pt_lim_const.
Qed.

Section Value.
  Variables (dom : domain R) (d : disc3 R) (p : ch_params R).
  Hypotheses (W : wf3 d) (D : d3_domain d = dom) (F : five_cells dom).

  Lemma jac_value_R w a b e i j k : inside3 dom i j k -> inside3 dom a b e ->
    jac_value d p w (cellno dom i j k) (cellno dom a b e) i j k
    = (Lap3 (d3_dx d) (fun x y z => (3 * w x y z ^ 2 - 1) * hit dom a b e x y z) i j k
       - ch_eps2 p * Lap3 (d3_dx d) (Lap3 (d3_dx d) (hit dom a b e)) i j k - ch_sigma p * hit dom a b e i j k)%R.
  Proof.
    intros I I'. set (icol := cellno dom a b e).
    assert (HIT : forall x y z, hit dom a b e x y z
       = if icol =? cellno dom (x mod nx dom) (y mod ny dom) (z mod nz dom) then 1%R else 0%R).
    { intros x y z. unfold hit.
      assert (VD : inside3 dom (x mod nx dom) (y mod ny dom) (z mod nz dom)).
      { unfold five_cells in F. unfold inside3. repeat split; try (apply Z.mod_pos_bound; lia). }
      destruct (icol =? cellno dom (x mod nx dom) (y mod ny dom) (z mod nz dom)) eqn:E.
      - apply Z.eqb_eq in E. apply cellno_inj in E; auto. destruct E as (E1 & E2 & E3).
        rewrite <- E1, <- E2, <- E3, !Z.eqb_refl. reflexivity.
      - destruct ((x mod nx dom =? a) && (y mod ny dom =? b) && (z mod nz dom =? e)) eqn:E'; auto.
        exfalso. apply andb_prop in E' as (E' & E3). apply andb_prop in E' as (E1 & E2).
        apply Z.eqb_eq in E1, E2, E3. apply Z.eqb_neq in E. apply E. rewrite E1, E2, E3. reflexivity. }
    assert (PI : forall x y z a' b' e', x = i + a' -> y = j + b' -> z = k + e' ->
        -2 <= a' <= 2 /\ -2 <= b' <= 2 /\ -2 <= e' <= 2 ->
        periodic_idx x y z (nx dom) (ny dom) (nz dom) = stencil_col dom i j k (a', b', e')).
    { intros x y z a' b' e' -> -> -> (H1 & H2 & H3). unfold five_cells in F. apply periodic_idx_cell; auto; lia. }
    assert (SELF : cellno dom i j k = stencil_col dom i j k (0, 0, 0)).
    { unfold stencil_col. rewrite !Z.add_0_r. destruct I as (H1 & H2 & H3). rewrite !Z.mod_small by lia. reflexivity. }
    assert (exists a0 b0 e0, forall a' b' e', Z.abs a' + Z.abs b' + Z.abs e' <= 2 ->
        (icol =? stencil_col dom i j k (a', b', e')) = (a' =? a0) && (b' =? b0) && (e' =? e0) /\
        (In (a0, b0, e0) offsets \/ (a0, b0, e0) = (3, 0, 0))) as (a0 & b0 & e0 & ST).
    { destruct (in_dec Z.eq_dec icol (map (stencil_col dom i j k) offsets)) as [IN|NI].
      - apply in_map_iff in IN as (((a0, b0), e0) & E0 & H0). exists a0, b0, e0. intros a' b' e' HB. split; [|auto].
        assert (B0 := proj1 (offsets_ball _ _ _) H0). rewrite <- E0.
        destruct ((a' =? a0) && (b' =? b0) && (e' =? e0)) eqn:E.
        + apply andb_prop in E as (E & E3). apply andb_prop in E as (E1 & E2).
          apply Z.eqb_eq in E1, E2, E3. subst. apply Z.eqb_refl.
        + apply Z.eqb_neq. intros C. apply (stencil_inj dom) in C; [|exact F|clear - B0 HB; lia..].
          destruct C as (-> & -> & ->). rewrite !Z.eqb_refl in E. discriminate.
      - exists 3, 0, 0. intros a' b' e' HB. split; [|auto].
        replace ((a' =? 3) && (b' =? 0) && (e' =? 0)) with false by lia.
        apply Z.eqb_neq. intros C. apply NI. rewrite C. apply in_map. apply offsets_ball. auto. }
    assert (HB : forall x y z a' b' e', x = i + a' -> y = j + b' -> z = k + e' ->
        Z.abs a' + Z.abs b' + Z.abs e' <= 2 ->
        hit dom a b e x y z = if (a' =? a0) && (b' =? b0) && (e' =? e0) then 1%R else 0%R).
    { intros x y z a' b' e' E1 E2 E3 HB. rewrite HIT. rewrite <- (proj1 (ST a' b' e' HB)). subst x y z. reflexivity. }
    assert (PB : forall x y z a' b' e', x = i + a' -> y = j + b' -> z = k + e' ->
        Z.abs a' + Z.abs b' + Z.abs e' <= 2 ->
        (icol =? periodic_idx x y z (nx dom) (ny dom) (nz dom)) = (a' =? a0) && (b' =? b0) && (e' =? e0)).
    { intros x y z a' b' e' E1 E2 E3 HB'. rewrite (PI x y z a' b' e') by lia. apply ST. auto. }
    unfold jac_value, jac_terms. cbv zeta. rewrite (wf_ni _ W), (wf_nj _ W), (wf_nk _ W), D.
    rewrite SELF, (proj1 (ST 0 0 0 ltac:(lia))).
    rewrite (PB (i + 1) j k 1 0 0 ltac:(lia) ltac:(lia) ltac:(lia) ltac:(lia)).
    rewrite (PB i (j + 1) k 0 1 0 ltac:(lia) ltac:(lia) ltac:(lia) ltac:(lia)).
    rewrite (PB i j (k + 1) 0 0 1 ltac:(lia) ltac:(lia) ltac:(lia) ltac:(lia)).
    rewrite (PB (i - 1) j k (-1) 0 0 ltac:(lia) ltac:(lia) ltac:(lia) ltac:(lia)).
    rewrite (PB i (j - 1) k 0 (-1) 0 ltac:(lia) ltac:(lia) ltac:(lia) ltac:(lia)).
    rewrite (PB i j (k - 1) 0 0 (-1) ltac:(lia) ltac:(lia) ltac:(lia) ltac:(lia)).
    rewrite (PB (i + 2) j k 2 0 0 ltac:(lia) ltac:(lia) ltac:(lia) ltac:(lia)).
    rewrite (PB i (j + 2) k 0 2 0 ltac:(lia) ltac:(lia) ltac:(lia) ltac:(lia)).
    rewrite (PB i j (k + 2) 0 0 2 ltac:(lia) ltac:(lia) ltac:(lia) ltac:(lia)).
    rewrite (PB (i - 2) j k (-2) 0 0 ltac:(lia) ltac:(lia) ltac:(lia) ltac:(lia)).
    rewrite (PB i (j - 2) k 0 (-2) 0 ltac:(lia) ltac:(lia) ltac:(lia) ltac:(lia)).
    rewrite (PB i j (k - 2) 0 0 (-2) ltac:(lia) ltac:(lia) ltac:(lia) ltac:(lia)).
    rewrite (PB (i - 1) (j - 1) k (-1) (-1) 0 ltac:(lia) ltac:(lia) ltac:(lia) ltac:(lia)).
    rewrite (PB (i - 1) (j + 1) k (-1) 1 0 ltac:(lia) ltac:(lia) ltac:(lia) ltac:(lia)).
    rewrite (PB (i + 1) (j - 1) k 1 (-1) 0 ltac:(lia) ltac:(lia) ltac:(lia) ltac:(lia)).
    rewrite (PB (i + 1) (j + 1) k 1 1 0 ltac:(lia) ltac:(lia) ltac:(lia) ltac:(lia)).
    rewrite (PB (i - 1) j (k - 1) (-1) 0 (-1) ltac:(lia) ltac:(lia) ltac:(lia) ltac:(lia)).
    rewrite (PB (i + 1) j (k - 1) 1 0 (-1) ltac:(lia) ltac:(lia) ltac:(lia) ltac:(lia)).
    rewrite (PB i (j - 1) (k - 1) 0 (-1) (-1) ltac:(lia) ltac:(lia) ltac:(lia) ltac:(lia)).
    rewrite (PB i (j + 1) (k - 1) 0 1 (-1) ltac:(lia) ltac:(lia) ltac:(lia) ltac:(lia)).
    rewrite (PB (i - 1) j (k + 1) (-1) 0 1 ltac:(lia) ltac:(lia) ltac:(lia) ltac:(lia)).
    rewrite (PB (i + 1) j (k + 1) 1 0 1 ltac:(lia) ltac:(lia) ltac:(lia) ltac:(lia)).
    rewrite (PB i (j - 1) (k + 1) 0 (-1) 1 ltac:(lia) ltac:(lia) ltac:(lia) ltac:(lia)).
    rewrite (PB i (j + 1) (k + 1) 0 1 1 ltac:(lia) ltac:(lia) ltac:(lia) ltac:(lia)).
    unfold Lap3, dxx3, dyy3, dzz3.
    replace (i + 1 + 1) with (i + 2) by lia. replace (i + 1 - 1) with i by lia.
    replace (i - 1 + 1) with i by lia. replace (i - 1 - 1) with (i - 2) by lia.
    replace (j + 1 + 1) with (j + 2) by lia. replace (j + 1 - 1) with j by lia.
    replace (j - 1 + 1) with j by lia. replace (j - 1 - 1) with (j - 2) by lia.
    replace (k + 1 + 1) with (k + 2) by lia. replace (k + 1 - 1) with k by lia.
    replace (k - 1 + 1) with k by lia. replace (k - 1 - 1) with (k - 2) by lia.
    rewrite (HB i j k 0 0 0 ltac:(lia) ltac:(lia) ltac:(lia) ltac:(lia)).
    rewrite (HB (i + 1) j k 1 0 0 ltac:(lia) ltac:(lia) ltac:(lia) ltac:(lia)).
    rewrite (HB i (j + 1) k 0 1 0 ltac:(lia) ltac:(lia) ltac:(lia) ltac:(lia)).
    rewrite (HB i j (k + 1) 0 0 1 ltac:(lia) ltac:(lia) ltac:(lia) ltac:(lia)).
    rewrite (HB (i - 1) j k (-1) 0 0 ltac:(lia) ltac:(lia) ltac:(lia) ltac:(lia)).
    rewrite (HB i (j - 1) k 0 (-1) 0 ltac:(lia) ltac:(lia) ltac:(lia) ltac:(lia)).
    rewrite (HB i j (k - 1) 0 0 (-1) ltac:(lia) ltac:(lia) ltac:(lia) ltac:(lia)).
    rewrite (HB (i + 2) j k 2 0 0 ltac:(lia) ltac:(lia) ltac:(lia) ltac:(lia)).
    rewrite (HB i (j + 2) k 0 2 0 ltac:(lia) ltac:(lia) ltac:(lia) ltac:(lia)).
    rewrite (HB i j (k + 2) 0 0 2 ltac:(lia) ltac:(lia) ltac:(lia) ltac:(lia)).
    rewrite (HB (i - 2) j k (-2) 0 0 ltac:(lia) ltac:(lia) ltac:(lia) ltac:(lia)).
    rewrite (HB i (j - 2) k 0 (-2) 0 ltac:(lia) ltac:(lia) ltac:(lia) ltac:(lia)).
    rewrite (HB i j (k - 2) 0 0 (-2) ltac:(lia) ltac:(lia) ltac:(lia) ltac:(lia)).
    rewrite (HB (i - 1) (j - 1) k (-1) (-1) 0 ltac:(lia) ltac:(lia) ltac:(lia) ltac:(lia)).
    rewrite (HB (i - 1) (j + 1) k (-1) 1 0 ltac:(lia) ltac:(lia) ltac:(lia) ltac:(lia)).
    rewrite (HB (i + 1) (j - 1) k 1 (-1) 0 ltac:(lia) ltac:(lia) ltac:(lia) ltac:(lia)).
    rewrite (HB (i + 1) (j + 1) k 1 1 0 ltac:(lia) ltac:(lia) ltac:(lia) ltac:(lia)).
    rewrite (HB (i - 1) j (k - 1) (-1) 0 (-1) ltac:(lia) ltac:(lia) ltac:(lia) ltac:(lia)).
    rewrite (HB (i + 1) j (k - 1) 1 0 (-1) ltac:(lia) ltac:(lia) ltac:(lia) ltac:(lia)).
    rewrite (HB i (j - 1) (k - 1) 0 (-1) (-1) ltac:(lia) ltac:(lia) ltac:(lia) ltac:(lia)).
    rewrite (HB i (j + 1) (k - 1) 0 1 (-1) ltac:(lia) ltac:(lia) ltac:(lia) ltac:(lia)).
    rewrite (HB (i - 1) j (k + 1) (-1) 0 1 ltac:(lia) ltac:(lia) ltac:(lia) ltac:(lia)).
    rewrite (HB (i + 1) j (k + 1) 1 0 1 ltac:(lia) ltac:(lia) ltac:(lia) ltac:(lia)).
    rewrite (HB i (j - 1) (k + 1) 0 (-1) 1 ltac:(lia) ltac:(lia) ltac:(lia) ltac:(lia)).
    rewrite (HB i (j + 1) (k + 1) 0 1 1 ltac:(lia) ltac:(lia) ltac:(lia) ltac:(lia)).
    destruct (proj2 (ST 0 0 0 ltac:(lia))) as [IN|E0].
    - clear - IN. unfold offsets in IN.
      repeat (destruct IN as [E0|IN]; [injection E0 as <- <- <-;
        cbn [Z.eqb Pos.eqb andb orb when app fold_left term_val nadd nsub nmul ndiv nopp nint npow2 Num_R];
        unfold Rdiv; replace (d3_dx d ^ 2)%R with (d3_dx d * d3_dx d)%R by ring; rewrite ?Rinv_mult; ring|]).
      destruct IN.
    - injection E0 as -> -> ->.
      cbn [Z.eqb Pos.eqb andb orb when app fold_left term_val nadd nsub nmul ndiv nopp nint npow2 Num_R].
      unfold Rdiv. replace (d3_dx d ^ 2)%R with (d3_dx d * d3_dx d)%R by ring. rewrite ?Rinv_mult. ring.
  Qed.
End Value.
