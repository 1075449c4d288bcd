(** Structure of the Jacobian matrix. *)
From Verif Require Import Outcome ZList ZListProofs Num Kernel KernelProofs Gather ModelIndex ModelDisc3D
  ModelCH ModelCSR ModelJac SpecGrid SpecMatrix SpecJac Loop Disc3DProofs Make3Proofs CHProofs CSRProofs CSR2Proofs.
From Coq Require Import ZifyBool ZifyNat Sorting.Sorted.

(** ** Sorting *)

Lemma in_insertZ x l y : In y (insertZ x l) <-> y = x \/ In y l.
Proof.
  induction l as [|z l IH]; simpl; [intuition|]. destruct (x <=? z); simpl; rewrite ?IH; intuition.
Qed.

Lemma in_sortZ l y : In y (sortZ l) <-> In y l.
Proof.
  induction l as [|x l IH]; [simpl; tauto|]. change (sortZ (x :: l)) with (insertZ x (sortZ l)).
  rewrite in_insertZ, IH. simpl. intuition.
Qed.

Lemma insertZ_sorted x l : StronglySorted Z.le l -> StronglySorted Z.le (insertZ x l).
Proof.
  induction 1 as [|z l S IH F]; simpl; [repeat constructor|].
  destruct (x <=? z) eqn:E.
  - constructor; [constructor; auto|]. constructor; [lia|]. eapply Forall_impl; [|exact F]. simpl. lia.
  - constructor; auto. apply Forall_forall. intros y Hy. apply in_insertZ in Hy as [->|Hy]; [lia|].
    rewrite Forall_forall in F. auto.
Qed.

Lemma sortZ_sorted l : StronglySorted Z.le (sortZ l).
Proof. induction l as [|x l IH]; simpl; [constructor|]. apply insertZ_sorted; auto. Qed.

Lemma uniqueZ_cons x y r : uniqueZ (x :: y :: r) = if x =? y then uniqueZ (y :: r) else x :: uniqueZ (y :: r).
Proof. reflexivity. Qed.

Lemma in_uniqueZ l y : In y (uniqueZ l) <-> In y l.
Proof.
  induction l as [|x l IH]; [simpl; tauto|]. destruct l as [|z r]; [simpl; tauto|].
  rewrite uniqueZ_cons. destruct (x =? z) eqn:E.
  - rewrite IH. assert (x = z) by lia. subst. simpl. intuition.
  - simpl In at 1. rewrite IH. simpl. intuition.
Qed.

Lemma uniqueZ_sorted l : StronglySorted Z.le l -> StronglySorted Z.lt (uniqueZ l).
Proof.
  induction 1 as [|x l S IH F]; [constructor|]. destruct l as [|z r]; [repeat constructor|].
  rewrite uniqueZ_cons. destruct (x =? z) eqn:E; auto.
  constructor; auto. apply Forall_forall. intros y Hy. apply (in_uniqueZ (z :: r)) in Hy.
  rewrite Forall_forall in F. inversion S as [|? ? S' F']; subst. rewrite Forall_forall in F'.
  destruct Hy as [<-|Hy].
  - specialize (F z (or_introl eq_refl)). lia.
  - specialize (F' y Hy). specialize (F z (or_introl eq_refl)). lia.
Qed.

Lemma strictly_sorted_nodup l : StronglySorted Z.lt l -> NoDup l.
Proof.
  induction 1 as [|x l S IH F]; constructor; auto. intros C. rewrite Forall_forall in F.
  specialize (F x C). lia.
Qed.

Lemma row_columns_in i j k ni nj nk c : In c (row_columns i j k ni nj nk) <-> In c (pushed i j k ni nj nk).
Proof. unfold row_columns. rewrite in_uniqueZ. apply in_sortZ. Qed.

Global Opaque row_columns pushed.

Lemma row_columns_sorted i j k ni nj nk : StronglySorted Z.lt (row_columns i j k ni nj nk).
Proof. Transparent row_columns. unfold row_columns. apply uniqueZ_sorted, sortZ_sorted. Qed.
Global Opaque row_columns.

Lemma row_columns_nodup i j k ni nj nk : NoDup (row_columns i j k ni nj nk).
Proof. apply strictly_sorted_nodup, row_columns_sorted. Qed.

Lemma row_columns_full i j k ni nj nk :
  NoDup (pushed i j k ni nj nk) -> zlen (row_columns i j k ni nj nk) = 25.
Proof.
  intros ND. assert (length (row_columns i j k ni nj nk) = length (pushed i j k ni nj nk)) as E.
  { apply Nat.le_antisymm; apply NoDup_incl_length.
    - apply row_columns_nodup.
    - intros c Hc. exact (proj1 (row_columns_in i j k ni nj nk c) Hc).
    - exact ND.
    - intros c Hc. exact (proj2 (row_columns_in i j k ni nj nk c) Hc). }
  unfold zlen. rewrite E. Transparent pushed. reflexivity.
Qed.

Lemma row_columns_short i j k ni nj nk :
  ~ NoDup (pushed i j k ni nj nk) -> zlen (row_columns i j k ni nj nk) < 25.
Proof.
  intros ND. destruct (Z.lt_ge_cases (zlen (row_columns i j k ni nj nk)) 25) as [|G]; auto.
  exfalso. apply ND. eapply NoDup_incl_NoDup; [apply (row_columns_nodup i j k ni nj nk)| |].
  - unfold zlen in G. Transparent pushed. unfold pushed. cbn [length]. lia.
  - intros c Hc. exact (proj1 (row_columns_in i j k ni nj nk c) Hc).
Qed.

(** ** The stencil *)

Definition offsets : list (Z * Z * Z) :=
  [ (0,0,0); (1,0,0); (0,1,0); (0,0,1); (-1,0,0); (0,-1,0); (0,0,-1);
    (2,0,0); (0,2,0); (0,0,2); (-2,0,0); (0,-2,0); (0,0,-2);
    (-1,-1,0); (-1,1,0); (1,-1,0); (1,1,0); (-1,0,-1); (1,0,-1); (0,-1,-1); (0,1,-1);
    (-1,0,1); (1,0,1); (0,-1,1); (0,1,1) ].

Lemma offsets_ball a b e : In (a, b, e) offsets <-> Z.abs a + Z.abs b + Z.abs e <= 2.
Proof.
  split.
  - intros H. unfold offsets in H. repeat (destruct H as [H|H]; [injection H as <- <- <-; lia|]). destruct H.
  - intros H. assert (-2 <= a <= 2 /\ -2 <= b <= 2 /\ -2 <= e <= 2) as (Ha & Hb & He) by lia.
    assert (a = -2 \/ a = -1 \/ a = 0 \/ a = 1 \/ a = 2) as Ca by lia.
    assert (b = -2 \/ b = -1 \/ b = 0 \/ b = 1 \/ b = 2) as Cb by lia.
    assert (e = -2 \/ e = -1 \/ e = 0 \/ e = 1 \/ e = 2) as Ce by lia.
    destruct Ca as [->|[->|[->|[->| ->]]]]; destruct Cb as [->|[->|[->|[->| ->]]]];
      destruct Ce as [->|[->|[->|[->| ->]]]]; try (exfalso; lia); unfold offsets; simpl; tauto.
Qed.

Lemma offsets_nodup : NoDup offsets.
Proof.
  unfold offsets. repeat constructor; simpl; intros H;
    repeat (destruct H as [H|H]; [discriminate H|]); exact H.
Qed.

Definition wrap1 (n i : Z) : Z :=
  let i := if i <? 0 then i + n else i in if n <=? i then i - n else i.

Lemma wrap1_mod n i a : 2 <= n -> 0 <= i < n -> -2 <= a <= 2 -> wrap1 n (i + a) = (i + a) mod n.
Proof.
  intros Hn Hi Ha. unfold wrap1.
  destruct (i + a <? 0) eqn:E1.
  - destruct (n <=? i + a + n) eqn:E2; [lia|].
    rewrite <- (Z_mod_plus_full (i + a) 1 n), Z.mul_1_l. symmetry. apply Z.mod_small. lia.
  - destruct (n <=? i + a) eqn:E2.
    + replace (i + a) with ((i + a - n) + 1 * n) at 2 by lia. rewrite Z_mod_plus_full.
      symmetry. apply Z.mod_small. lia.
    + symmetry. apply Z.mod_small. lia.
Qed.

Lemma periodic_idx_wrap i j k ni nj nk :
  periodic_idx i j k ni nj nk = (wrap1 ni i * nj + wrap1 nj j) * nk + wrap1 nk k.
Proof. unfold periodic_idx, wrap1, get1DindexFrom3D. cbv zeta. ring. Qed.

Lemma pushed_offsets i j k ni nj nk :
  pushed i j k ni nj nk =
  map (fun o => let '(a, b, e) := o in periodic_idx (i + a) (j + b) (k + e) ni nj nk) offsets.
Proof.
  unfold pushed, offsets. cbn [map]. rewrite !Z.add_0_r.
  replace (i + -1) with (i - 1) by lia. replace (j + -1) with (j - 1) by lia.
  replace (k + -1) with (k - 1) by lia. replace (i + -2) with (i - 2) by lia.
  replace (j + -2) with (j - 2) by lia. replace (k + -2) with (k - 2) by lia. reflexivity.
Qed.

Lemma mixed_inj (n2 n3 a b c a' b' c' : Z) :
  0 <= b < n2 -> 0 <= b' < n2 -> 0 <= c < n3 -> 0 <= c' < n3 ->
  (a * n2 + b) * n3 + c = (a' * n2 + b') * n3 + c' -> a = a' /\ b = b' /\ c = c'.
Proof.
  intros Hb Hb' Hc Hc' E.
  assert (E1 : a * n2 + b = a' * n2 + b' /\ c = c').
  { assert (D : forall x y, (x * n3 + y) / n3 = x + y / n3) by (intros; rewrite Z.div_add_l; lia).
    assert (Q := f_equal (fun z => z / n3) E). cbn beta in Q. rewrite !D in Q.
    rewrite !Z.div_small in Q by lia. lia. }
  destruct E1 as (E1 & ->).
  assert (D : forall x y, (x * n2 + y) / n2 = x + y / n2) by (intros; rewrite Z.div_add_l; lia).
  assert (Q := f_equal (fun z => z / n2) E1). cbn beta in Q. rewrite !D in Q.
  rewrite !Z.div_small in Q by lia. lia.
Qed.

Lemma mod_offset_inj n i a a' : 5 <= n -> -2 <= a <= 2 -> -2 <= a' <= 2 ->
  (i + a) mod n = (i + a') mod n -> a = a'.
Proof.
  intros Hn Ha Ha' E.
  assert (M : (a - a') mod n = 0).
  { replace (a - a') with ((i + a) - (i + a')) by lia. rewrite Zminus_mod, E, Z.sub_diag. apply Z.mod_0_l. lia. }
  apply Z.mod_divide in M; [|lia]. destruct M as (q & M). assert (q = 0) by nia. nia.
Qed.

Section Structure.
  Context {V : Type} `{N : Num V}.
  Variable dom : domain V.

  Definition stencil_col (i j k : Z) (o : Z * Z * Z) : Z :=
    let '(a, b, e) := o in cellno dom ((i + a) mod nx dom) ((j + b) mod ny dom) ((k + e) mod nz dom).

  Lemma cellno_range i j k : inside3 dom i j k -> 0 <= cellno dom i j k < nx dom * ny dom * nz dom.
  Proof.
    unfold inside3, cellno. intros (H1 & H2 & H3).
    assert (0 <= i * ny dom + j < nx dom * ny dom) by nia. nia.
  Qed.

  Lemma cellno_inj i j k i' j' k' : inside3 dom i j k -> inside3 dom i' j' k' ->
    cellno dom i j k = cellno dom i' j' k' -> i = i' /\ j = j' /\ k = k'.
  Proof.
    unfold inside3, cellno. intros (H1 & H2 & H3) (H1' & H2' & H3') E.
    eapply mixed_inj; eauto; lia.
  Qed.

  Lemma wrapped_inside i j k : valid_domain3 dom -> inside3 dom (i mod nx dom) (j mod ny dom) (k mod nz dom).
  Proof.
    intros (H1 & H2 & H3 & _). repeat split; try (apply Z.mod_pos_bound; lia).
  Qed.

  Lemma five_valid : five_cells dom -> 0 <= nhalo dom -> valid_domain3 dom.
  Proof. unfold five_cells, valid_domain3. lia. Qed.

  Lemma periodic_idx_cell i j k a b e : 2 <= nx dom -> 2 <= ny dom -> 2 <= nz dom -> inside3 dom i j k ->
    -2 <= a <= 2 -> -2 <= b <= 2 -> -2 <= e <= 2 ->
    periodic_idx (i + a) (j + b) (k + e) (nx dom) (ny dom) (nz dom) = stencil_col i j k (a, b, e).
  Proof.
    intros F1 F2 F3 (Hi & Hj & Hk) Ha Hb He.
    rewrite periodic_idx_wrap, !wrap1_mod by lia. reflexivity.
  Qed.

  Lemma pushed_cols i j k : five_cells dom -> inside3 dom i j k ->
    pushed i j k (nx dom) (ny dom) (nz dom) = map (stencil_col i j k) offsets.
  Proof.
    intros F I. rewrite pushed_offsets. apply map_ext_in. intros ((a, b), e) H.
    apply offsets_ball in H. unfold five_cells in F. apply periodic_idx_cell; auto; lia.
  Qed.

  Lemma stencil_inj i j k a b e a' b' e' : five_cells dom ->
    -2 <= a <= 2 -> -2 <= b <= 2 -> -2 <= e <= 2 -> -2 <= a' <= 2 -> -2 <= b' <= 2 -> -2 <= e' <= 2 ->
    stencil_col i j k (a, b, e) = stencil_col i j k (a', b', e') -> a = a' /\ b = b' /\ e = e'.
  Proof.
    intros F Ha Hb He Ha' Hb' He' E. unfold five_cells in F.
    assert (VD : forall i j k, inside3 dom (i mod nx dom) (j mod ny dom) (k mod nz dom)).
    { intros. unfold inside3. repeat split; try (apply Z.mod_pos_bound; lia). }
    apply cellno_inj in E; auto. destruct E as (E1 & E2 & E3).
    apply mod_offset_inj in E1, E2, E3; auto; lia.
  Qed.

  Lemma pushed_nodup i j k : five_cells dom -> inside3 dom i j k ->
    NoDup (pushed i j k (nx dom) (ny dom) (nz dom)).
  Proof.
    intros F I. rewrite pushed_cols by auto. apply nodup_map_inj; [apply offsets_nodup|].
    intros ((a, b), e) ((a', b'), e') H H' E. apply offsets_ball in H, H'.
    apply stencil_inj in E; auto; try lia. destruct E as (-> & -> & ->). reflexivity.
  Qed.

  Lemma row_columns_stencil i j k c : five_cells dom -> inside3 dom i j k ->
    In c (row_columns i j k (nx dom) (ny dom) (nz dom)) <-> in_stencil dom i j k c.
  Proof.
    intros F I. rewrite row_columns_in, pushed_cols by auto. rewrite in_map_iff. unfold in_stencil. split.
    - intros (((a, b), e) & E & H). apply offsets_ball in H. exists a, b, e. auto.
    - intros (a & b & e & H & ->). exists (a, b, e). split; [reflexivity|]. apply offsets_ball; auto.
  Qed.

  Lemma short_duplicate : valid_domain3 dom -> ~ five_cells dom ->
    ~ NoDup (pushed 0 0 0 (nx dom) (ny dom) (nz dom)).
  Proof.
    intros (H1 & H2 & H3 & _) NF ND.
    assert (W : forall n, 1 <= n < 5 -> exists p q, p <> q /\
       ((p = 0 /\ q = 1) \/ (p = 0 /\ q = 2) \/ (p = 2 /\ q = -1) \/ (p = 2 /\ q = -2)) /\ wrap1 n p = wrap1 n q).
    { intros n Hn. assert (n = 1 \/ n = 2 \/ n = 3 \/ n = 4) as [->|[->|[->| ->]]] by lia.
      - exists 0, 1. repeat split; try lia; auto.
      - exists 0, 2. repeat split; try lia; auto.
      - exists 2, (-1). repeat split; try lia; auto.
      - exists 2, (-2). repeat split; try lia; auto 6. }
    rewrite pushed_offsets in ND.
    assert (INJ : forall o o', In o offsets -> In o' offsets ->
        (let '(a, b, e) := o in periodic_idx (0 + a) (0 + b) (0 + e) (nx dom) (ny dom) (nz dom)) =
        (let '(a, b, e) := o' in periodic_idx (0 + a) (0 + b) (0 + e) (nx dom) (ny dom) (nz dom)) -> o = o').
    { clear - ND. revert ND. generalize offsets as l. intros l.
      induction l as [|x l IH]; intros ND o o' Ho Ho' E; [destruct Ho|].
      cbn [map] in ND. inversion ND as [|? ? NI ND']; subst. destruct Ho as [<-|Ho], Ho' as [<-|Ho']; auto.
      - exfalso. apply NI. apply in_map_iff. exists o'. auto.
      - exfalso. apply NI. apply in_map_iff. exists o. auto. }
    assert (nx dom < 5 \/ ny dom < 5 \/ nz dom < 5) as [L|[L|L]] by (unfold five_cells in NF; lia);
      [destruct (W (nx dom)) as (p & q & NE & C & E); [lia|]
      |destruct (W (ny dom)) as (p & q & NE & C & E); [lia|]
      |destruct (W (nz dom)) as (p & q & NE & C & E); [lia|]].
    - assert ((p, 0, 0) = (q, 0, 0)) as X; [|congruence]. apply INJ; [apply offsets_ball; lia..|].
      rewrite !periodic_idx_wrap, !Z.add_0_l, E. reflexivity.
    - assert ((0, p, 0) = (0, q, 0)) as X; [|congruence]. apply INJ; [apply offsets_ball; lia..|].
      rewrite !periodic_idx_wrap, !Z.add_0_l, E. reflexivity.
    - assert ((0, 0, p) = (0, 0, q)) as X; [|congruence]. apply INJ; [apply offsets_ball; lia..|].
      rewrite !periodic_idx_wrap, !Z.add_0_l, E. reflexivity.
  Qed.
End Structure.
