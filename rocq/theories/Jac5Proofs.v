(** Which statements evalJacobian executes for which stencil column, for any arithmetic. *)
From Verif Require Import Outcome ZList ZListProofs Num Kernel KernelProofs Gather ModelIndex ModelDisc3D
  ModelCH ModelCSR ModelJac SpecGrid SpecField SpecMatrix SpecJac Loop Disc3DProofs Make3Proofs CHProofs CSRProofs CSR2Proofs
  Jac1Proofs Jac2Proofs Jac3Proofs Jac4Proofs.
From Coq Require Import ZifyBool ZifyNat.

Section Entries.
  Context {V : Type} `{N : Num V}.
  Variables (dom : domain V) (d : disc3 V) (p : ch_params V).
  Hypotheses (W : wf3 d) (D : d3_domain d = dom) (F : five_cells dom).

  (** The entry for the neighbour at offset (a,b,e), |a|+|b|+|e| <= 2. *)
  Definition entry_value (w : Z -> Z -> Z -> V) (i j k a b e : Z) : V :=
    let dx2 := (d3_dx d * d3_dx d)%num in
    let dx4 := (dx2 * dx2)%num in
    let dW v := (nint 3 * npow2 v - nint 1)%num in
    if Z.abs a + Z.abs b + Z.abs e =? 0 then
      (nint 0 + - ch_sigma p + - ch_eps2 p * nint 42 / dx4 + nint (-6) * dW (w i j k) / dx2)%num
    else if Z.abs a + Z.abs b + Z.abs e =? 1 then
      (nint 0 + dW (w (i + a)%Z (j + b)%Z (k + e)%Z) / dx2 + nint 12 * ch_eps2 p / dx4)%num
    else if Z.max (Z.abs a) (Z.max (Z.abs b) (Z.abs e)) =? 2 then
      (nint 0 + - ch_eps2 p / dx4)%num
    else (nint 0 + - ch_eps2 p * nint 2 / dx4)%num.

  Lemma jac_entry w i j k a0 b0 e0 : inside3 dom i j k -> Z.abs a0 + Z.abs b0 + Z.abs e0 <= 2 ->
    jac_value d p w (cellno dom i j k)
      (cellno dom ((i + a0) mod nx dom) ((j + b0) mod ny dom) ((k + e0) mod nz dom)) i j k
    = entry_value w i j k a0 b0 e0.
  Proof.
    intros I B0. set (icol := cellno dom ((i + a0) mod nx dom) ((j + b0) mod ny dom) ((k + e0) mod nz dom)).
    assert (E0 : icol = stencil_col dom i j k (a0, b0, e0)) by reflexivity.
    assert (SELF : cellno dom i j k = stencil_col dom i j k (0, 0, 0)).
    { unfold stencil_col. rewrite !Z.add_0_r. destruct I as (H1 & H2 & H3). rewrite !Z.mod_small by lia. reflexivity. }
    assert (ST : forall a' b' e', -2 <= a' <= 2 -> -2 <= b' <= 2 -> -2 <= e' <= 2 ->
        (icol =? stencil_col dom i j k (a', b', e')) = (a' =? a0) && (b' =? b0) && (e' =? e0)).
    { intros a' b' e' HA HB HE. rewrite E0.
      destruct ((a' =? a0) && (b' =? b0) && (e' =? e0)) eqn:E.
      + apply andb_prop in E as (E & E3). apply andb_prop in E as (E1 & E2).
        apply Z.eqb_eq in E1, E2, E3. subst. apply Z.eqb_refl.
      + apply Z.eqb_neq. intros C. apply (stencil_inj dom) in C; [|exact F|clear - B0 HA HB HE; lia..].
        destruct C as (-> & -> & ->). rewrite !Z.eqb_refl in E. discriminate. }
    assert (PB : forall x y z a' b' e', x = i + a' -> y = j + b' -> z = k + e' ->
        -2 <= a' <= 2 -> -2 <= b' <= 2 -> -2 <= e' <= 2 ->
        (icol =? periodic_idx x y z (nx dom) (ny dom) (nz dom)) = (a' =? a0) && (b' =? b0) && (e' =? e0)).
    { intros x y z a' b' e' -> -> -> HA HB HE.
      rewrite (periodic_idx_cell dom) by (auto; unfold five_cells in F; lia). apply ST; auto. }
    clearbody icol.
    unfold jac_value, jac_terms. cbv zeta. rewrite (wf_ni _ W), (wf_nj _ W), (wf_nk _ W), D.
    rewrite SELF, (ST 0 0 0) by lia.
    assert (IN : In (a0, b0, e0) offsets) by (apply offsets_ball; exact B0).
    clear E0 SELF ST B0 I.
    rewrite (PB (i + 1) j k 1 0 0) by (clear; lia).
    rewrite (PB i (j + 1) k 0 1 0) by (clear; lia).
    rewrite (PB i j (k + 1) 0 0 1) by (clear; lia).
    rewrite (PB (i - 1) j k (-1) 0 0) by (clear; lia).
    rewrite (PB i (j - 1) k 0 (-1) 0) by (clear; lia).
    rewrite (PB i j (k - 1) 0 0 (-1)) by (clear; lia).
    rewrite (PB (i + 2) j k 2 0 0) by (clear; lia).
    rewrite (PB i (j + 2) k 0 2 0) by (clear; lia).
    rewrite (PB i j (k + 2) 0 0 2) by (clear; lia).
    rewrite (PB (i - 2) j k (-2) 0 0) by (clear; lia).
    rewrite (PB i (j - 2) k 0 (-2) 0) by (clear; lia).
    rewrite (PB i j (k - 2) 0 0 (-2)) by (clear; lia).
    rewrite (PB (i - 1) (j - 1) k (-1) (-1) 0) by (clear; lia).
    rewrite (PB (i - 1) (j + 1) k (-1) 1 0) by (clear; lia).
    rewrite (PB (i + 1) (j - 1) k 1 (-1) 0) by (clear; lia).
    rewrite (PB (i + 1) (j + 1) k 1 1 0) by (clear; lia).
    rewrite (PB (i - 1) j (k - 1) (-1) 0 (-1)) by (clear; lia).
    rewrite (PB (i + 1) j (k - 1) 1 0 (-1)) by (clear; lia).
    rewrite (PB i (j - 1) (k - 1) 0 (-1) (-1)) by (clear; lia).
    rewrite (PB i (j + 1) (k - 1) 0 1 (-1)) by (clear; lia).
    rewrite (PB (i - 1) j (k + 1) (-1) 0 1) by (clear; lia).
    rewrite (PB (i + 1) j (k + 1) 1 0 1) by (clear; lia).
    rewrite (PB i (j - 1) (k + 1) 0 (-1) 1) by (clear; lia).
    rewrite (PB i (j + 1) (k + 1) 0 1 1) by (clear; lia).
    clear PB. unfold offsets in IN. unfold entry_value. cbv zeta.
    repeat (destruct IN as [E0|IN]; [injection E0 as <- <- <-; rewrite ?Z.add_0_r;
      cbn [Z.eqb Z.abs Z.add Z.max Z.compare Pos.add Pos.compare Pos.compare_cont Pos.eqb andb orb when app fold_left term_val]; reflexivity|]).
    destruct IN.
  Qed.
End Entries.
