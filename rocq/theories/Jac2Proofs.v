(** Building the Jacobian matrix and filling it. *)
From Verif Require Import Outcome ZList ZListProofs Num Kernel KernelProofs Gather ModelIndex ModelDisc3D
  ModelCH ModelCSR ModelJac SpecGrid SpecMatrix SpecJac Loop Disc3DProofs Make3Proofs CHProofs CSRProofs CSR2Proofs
  Jac1Proofs.
From Coq Require Import ZifyBool ZifyNat Sorting.Sorted.

Lemma copy_columns_ok (cols : list Z) (n : nat) : forall start t col,
  0 <= start -> 0 <= t -> t + Z.of_nat n <= zlen cols -> start + t + Z.of_nat n <= zlen col ->
  exists col', fold_cells (fun csr_col icol =>
                  rbind (of_opt (zget cols (icol - start))) (fun c => of_opt (zset csr_col icol c)))
               (zseq (start + t) n) col = Ok col' /\ zlen col' = zlen col /\
    (forall q, start + t <= q < start + t + Z.of_nat n -> zget col' q = zget cols (q - start)) /\
    (forall q, ~ start + t <= q < start + t + Z.of_nat n -> zget col' q = zget col q).
Proof.
  induction n as [|n IH]; intros start t col H0 H1 H2 H3.
  - exists col. simpl. repeat split; auto. intros; lia.
  - cbn [zseq fold_cells]. replace (start + t - start) with t by lia.
    destruct (zget_some cols t) as (c & Ec); [lia|]. rewrite Ec. cbn [of_opt rbind].
    destruct (zset col (start + t) c) as [col1|] eqn:E1; [|rewrite zset_some in E1 by lia; discriminate]. cbn [of_opt rbind].
    assert (L1 := zlen_zset _ _ _ _ E1).
    destruct (IH start (t + 1) col1) as (col' & E & L & A & B); try lia.
    rewrite Z.add_assoc in E. exists col'. split; [exact E|]. split; [lia|]. split.
    + intros q Hq. destruct (Z.eq_dec q (start + t)) as [->|NE].
      * rewrite B by lia. rewrite (zget_zset_same _ _ _ _ E1). replace (start + t - start) with t by lia. auto.
      * apply A. lia.
    + intros q Hq. rewrite B by lia. apply (zget_zset_other _ _ _ _ _ E1). lia.
Qed.

Lemma copy_columns_short (cols : list Z) (n : nat) : forall start t col,
  0 <= t <= zlen cols -> zlen cols < t + Z.of_nat n ->
  fold_cells (fun csr_col icol =>
                  rbind (of_opt (zget cols (icol - start))) (fun c => of_opt (zset csr_col icol c)))
               (zseq (start + t) n) col = UB.
Proof.
  induction n as [|n IH]; intros start t col H1 H2; [lia|].
  cbn [zseq fold_cells]. replace (start + t - start) with t by lia.
  destruct (Z.eq_dec t (zlen cols)) as [->|NE].
  - rewrite zget_none by lia. reflexivity.
  - destruct (zget_some cols t) as (c & Ec); [lia|]. rewrite Ec. cbn [of_opt rbind].
    destruct (zset col (start + t) c) as [col1|]; [|reflexivity]. cbn [of_opt rbind].
    rewrite <- Z.add_assoc. apply IH; lia.
Qed.

Section Create.
  Context {V : Type} `{N : Num V}.

  Lemma fold_columns ni nj nk row cells : forall n col,
    0 <= n -> (forall c, In c cells -> let '(i, j, k) := c in zlen (row_columns i j k ni nj nk) = 25) ->
    (forall r, 0 <= r <= n + zlen cells -> zget row r = Some (25 * r)) ->
    25 * (n + zlen cells) <= zlen col ->
    exists col', fold_cells (column_step ni nj nk row) cells (n, col) = Ok (n + zlen cells, col') /\
      zlen col' = zlen col /\
      (forall q, q < 25 * n -> zget col' q = zget col q) /\
      (forall t i j k s, zget cells t = Some (i, j, k) -> 0 <= s < 25 ->
         zget col' (25 * (n + t) + s) = zget (row_columns i j k ni nj nk) s).
  Proof.
    induction cells as [|((i, j), k) cells IH]; intros n col Hn HL HR HC.
    - exists col. simpl. rewrite Z.add_0_r. repeat split; auto. intros t i j k s H. rewrite zget_nil in H. discriminate.
    - assert (zlen ((i, j, k) :: cells) = 1 + zlen cells) as LC by (unfold zlen; cbn [length]; lia). rewrite LC in *.
      pose proof (zlen_nonneg cells). cbn [fold_cells]. unfold column_step at 1. cbn [fst snd].
      rewrite (HR n) by lia. rewrite (HR (n + 1)) by lia. cbn [of_opt rbind]. unfold copy_columns, zrange.
      replace (Z.to_nat (25 * (n + 1) - 25 * n)) with 25%nat by lia.
      assert (LL : zlen (row_columns i j k ni nj nk) = 25) by (apply (HL (i, j, k)); left; auto).
      destruct (copy_columns_ok (row_columns i j k ni nj nk) 25 (25 * n) 0 col) as (col1 & E1 & L1 & A1 & B1); try lia.
      rewrite Z.add_0_r in *. rewrite E1. cbn [rbind].
      destruct (IH (n + 1) col1) as (col' & E & L & A & B); try lia.
      { intros c Hc. apply HL. right. auto. }
      { intros r Hr. apply HR. lia. }
      exists col'. rewrite E. split; [do 2 f_equal; lia|]. split; [lia|]. split.
      + intros q Hq. rewrite A by lia. apply B1. lia.
      + intros t i' j' k' s Ht Hs. destruct (Z.eq_dec t 0) as [->|NE].
        * injection Ht as <- <- <-. rewrite A by lia. rewrite A1 by lia. f_equal. lia.
        * assert (0 <= t) by (eapply zget_range in Ht; lia).
          change ((i, j, k) :: cells) with ([(i, j, k)] ++ cells) in Ht.
          rewrite zget_app_r in Ht by (unfold zlen; simpl; lia).
          replace (t - zlen [(i, j, k)]) with (t - 1) in Ht by reflexivity.
          rewrite <- (B (t - 1) i' j' k' s Ht Hs). f_equal. lia.
  Qed.

  Lemma interior_size d : wf3 d ->
    zlen (d3_interior d) = nx (d3_domain d) * ny (d3_domain d) * nz (d3_domain d).
  Proof. intros W. rewrite (wf_interior _ W), zlen_map. apply zlen_interior3. apply (wf_valid _ W). Qed.

  Definition ncells (dom : domain V) : Z := nx dom * ny dom * nz dom.

  Lemma cell_of_row (dom : domain V) r : valid_domain3 dom -> 0 <= r < ncells dom ->
    exists i j k, inside3 dom i j k /\ r = cellno dom i j k /\
      Z.quot r (ny dom * nz dom) = i /\ Z.rem (Z.quot r (nz dom)) (ny dom) = j /\ Z.rem r (nz dom) = k.
  Proof.
    intros (H1 & H2 & H3 & _) Hr. unfold ncells in Hr.
    rewrite !Z.quot_div_nonneg, !Z.rem_mod_nonneg by (try apply Z.div_pos; nia).
    exists (r / (ny dom * nz dom)), ((r / nz dom) mod ny dom), (r mod nz dom).
    rewrite (Z.mul_comm (ny dom)), <- Z.div_div by lia.
    pose proof (Z.div_mod r (nz dom) ltac:(lia)) as D1.
    pose proof (Z.div_mod (r / nz dom) (ny dom) ltac:(lia)) as D2.
    pose proof (Z.mod_pos_bound r (nz dom) ltac:(lia)).
    pose proof (Z.mod_pos_bound (r / nz dom) (ny dom) ltac:(lia)).
    split; [|split; [|auto]].
    - unfold inside3. repeat split; try lia.
      + apply Z.div_pos; [apply Z.div_pos|]; lia.
      + apply Z.div_lt_upper_bound; [lia|]. apply Z.div_lt_upper_bound; [lia|]. nia.
    - unfold cellno. nia.
  Qed.

  Lemma cell_row_decode (dom : domain V) i j k : valid_domain3 dom -> inside3 dom i j k ->
    let r := cellno dom i j k in
    Z.quot r (ny dom * nz dom) = i /\ Z.rem (Z.quot r (nz dom)) (ny dom) = j /\ Z.rem r (nz dom) = k.
  Proof.
    intros VD I r. destruct (cell_of_row dom r) as (i' & j' & k' & I' & E & D1 & D2 & D3); auto.
    { apply cellno_range; auto. }
    apply cellno_inj in E; auto. destruct E as (-> & -> & ->). auto.
  Qed.

  (** What createSparseMatrix returns. *)
  Definition jac_shape (dom : domain V) (A : csr V) : Prop :=
    m_rows A = ncells dom /\ m_cols A = ncells dom /\
    holds1 (25 * ncells dom) (m_vals A) (fun _ => nint 0) /\
    zlen (m_col A) = 25 * ncells dom /\
    holds1 (ncells dom + 1) (m_row A) (fun r => 25 * r) /\
    zlen (m_tmp A) = ncells dom /\
    (forall i j k s, inside3 dom i j k -> 0 <= s < 25 ->
       zget (m_col A) (25 * cellno dom i j k + s) = zget (row_columns i j k (nx dom) (ny dom) (nz dom)) s).

  Lemma box_is dom : 
    flat_map (fun i => flat_map (fun j => map (fun k => (i, j, k)) (zrange 0 (nz dom)))
                                 (zrange 0 (ny dom))) (zrange 0 (nx dom))
    = box3 0 (nx (V:=V) dom) 0 (ny dom) 0 (nz dom).
  Proof. reflexivity. Qed.

  Lemma create_spec d : wf3 d -> five_cells (d3_domain d) ->
    exists A, create_matrix d = Ok A /\ jac_shape (d3_domain d) A.
  Proof.
    intros W F. set (dom := d3_domain d). assert (VD := wf_valid _ W). fold dom in VD.
    assert (NP : 0 < ncells dom) by (unfold ncells; destruct VD as (? & ? & ? & _); nia).
    unfold create_matrix. rewrite (interior_size d W). fold dom. fold (ncells dom).
    set (A := csr_zero (ncells dom) (ncells dom) (ncells dom * stencil_size)).
    destruct (zero_loop_spec (m_vals A)) as (v & Ev & Lv & Gv & _). rewrite Ev. cbn [rbind].
    assert (LV : zlen (m_vals A) = 25 * ncells dom) by (unfold A, csr_zero; cbn [m_vals]; unfold stencil_size; rewrite zlen_fresh; lia).
    assert (LR : zlen (m_row A) = ncells dom + 1).
    { unfold zlen. unfold A, csr_zero. cbn [m_row]. rewrite repeat_length. lia. }
    assert (LCo : zlen (m_col A) = 25 * ncells dom).
    { unfold zlen, A, csr_zero. cbn [m_col]. rewrite repeat_length. unfold stencil_size. lia. }
    rewrite (wf_ni _ W), (wf_nj _ W), (wf_nk _ W). fold dom. rewrite box_is. rewrite LR.
    set (row := map (fun irow => stencil_size * irow) (zrange 0 (ncells dom + 1))).
    assert (GR : forall r, 0 <= r <= ncells dom -> zget row r = Some (25 * r)).
    { intros r Hr. unfold row. rewrite zget_map, zget_zrange by lia. simpl. unfold stencil_size. do 2 f_equal; lia. }
    assert (LB : zlen (box3 0 (nx dom) 0 (ny dom) 0 (nz dom)) = ncells dom) by (apply zlen_interior3; auto).
    destruct (fold_columns (nx dom) (ny dom) (nz dom) row (box3 0 (nx dom) 0 (ny dom) 0 (nz dom)) 0 (m_col A))
      as (col & Ecol & Lcol & _ & Gcol); try lia.
    - intros ((i, j), k) H. apply in_box3 in H. apply row_columns_full, pushed_nodup; auto.
    - rewrite LB. auto.
    - rewrite Ecol. cbn [rbind snd]. eexists. split; [reflexivity|]. unfold jac_shape. cbn [m_rows m_cols m_vals m_col m_row m_tmp].
      split; [reflexivity|]. split; [reflexivity|]. split; [|split; [|split; [|split]]].
      + split; [lia|]. intros i Hi. apply Gv. lia.
      + lia.
      + split; [unfold row; rewrite zlen_map, zlen_zrange; lia|]. intros i Hi. apply GR. lia.
      + simpl. apply zlen_fresh. lia.
      + intros i j k s I Hs. rewrite <- (Gcol (cellno dom i j k) i j k s); auto.
        destruct I as (Hi & Hj & Hk). rewrite <- (zget_box3 0 (nx dom) 0 (ny dom) 0 (nz dom) i j k); auto.
        f_equal. unfold cellno. ring.
  Qed.

  Lemma create_short d : wf3 d -> ~ five_cells (d3_domain d) -> create_matrix d = UB.
  Proof.
    intros W F. set (dom := d3_domain d). assert (VD := wf_valid _ W). fold dom in VD.
    assert (NP : 0 < ncells dom) by (unfold ncells; destruct VD as (? & ? & ? & _); nia).
    unfold create_matrix. rewrite (interior_size d W). fold dom. fold (ncells dom).
    set (A := csr_zero (ncells dom) (ncells dom) (ncells dom * stencil_size)).
    destruct (zero_loop_spec (m_vals A)) as (v & Ev & Lv & Gv & _). rewrite Ev. cbn [rbind].
    assert (LR : zlen (m_row A) = ncells dom + 1).
    { unfold zlen. unfold A, csr_zero. cbn [m_row]. rewrite repeat_length. lia. }
    rewrite (wf_ni _ W), (wf_nj _ W), (wf_nk _ W). fold dom. rewrite LR.
    destruct VD as (V1 & V2 & V3 & V4).
    rewrite (zrange_cons 0 (nx dom)), (zrange_cons 0 (ny dom)), (zrange_cons 0 (nz dom)) by lia.
    cbn [flat_map map app fold_cells]. unfold column_step at 1. cbn [fst snd].
    rewrite !zget_map, !zget_zrange by lia. cbn [option_map of_opt rbind]. unfold copy_columns, zrange, stencil_size.
    replace (Z.to_nat (25 * (0 + (0 + 1)) - 25 * (0 + 0))) with 25%nat by lia.
    replace (25 * (0 + 0)) with 0 by lia.
    assert (SH := row_columns_short 0 0 0 (nx dom) (ny dom) (nz dom)
                    (short_duplicate dom (conj V1 (conj V2 (conj V3 V4))) F)).
    pose proof (zlen_nonneg (row_columns 0 0 0 (nx dom) (ny dom) (nz dom))).
    pose proof (copy_columns_short (row_columns 0 0 0 (nx dom) (ny dom) (nz dom)) 25 0 0 (m_col A)) as CS.
    rewrite Z.add_0_r in CS. rewrite CS by lia. reflexivity.
  Qed.

  Lemma shape_wf dom A : five_cells dom -> valid_domain3 dom -> jac_shape dom A -> csr_wf A.
  Proof.
    intros F VD (H1 & H2 & (H3 & _) & H4 & (H5 & H5') & H6 & H7). unfold csr_wf.
    assert (NP : 0 < ncells dom) by (unfold ncells; destruct VD as (? & ? & ? & _); nia).
    rewrite H1, H2. split; [lia|]. split; [lia|]. split; [lia|]. split; [lia|]. split; [lia|]. split.
    - intros r Hr. exists (25 * r), (25 * (r + 1)). rewrite !H5' by lia. repeat split; auto; lia.
    - intros q c Hq. assert (R := zget_range _ _ _ Hq).
      destruct (cell_of_row dom (q / 25)) as (i & j & k & I & E & _); auto.
      { split; [apply Z.div_pos; lia|]. apply Z.div_lt_upper_bound; lia. }
      pose proof (Z.div_mod q 25 ltac:(lia)) as D. pose proof (Z.mod_pos_bound q 25 ltac:(lia)) as B.
      rewrite D, E, H7 in Hq by auto. apply zget_in in Hq.
      apply (row_columns_stencil dom i j k c F I) in Hq. destruct Hq as (a & b & e & _ & ->).
      apply cellno_range. apply wrapped_inside; auto.
  Qed.

  Lemma shape_rlo dom A r : jac_shape dom A -> 0 <= r <= ncells dom -> rlo A r = 25 * r.
  Proof. intros (_ & _ & _ & _ & (_ & H) & _) Hr. unfold rlo. rewrite H by lia. reflexivity. Qed.
End Create.
