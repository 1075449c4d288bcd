(** Proofs of the Jacobian properties (C24, C25, C26, and C13 for its assembly). *)
From Coq Require Import ZArith QArith List Reals Lra Lia Sorting.Sorted.
From Verif Require Import Outcome ZList ZListProofs Num Kernel KernelProofs Gather ModelIndex ModelDisc3D
  ModelCH ModelCSR ModelJac SpecGrid SpecField SpecMatrix SpecJac Loop Disc3DProofs Make3Proofs BC3Proofs CHProofs
  CSRProofs CSR2Proofs FieldProofs ExampleNum FieldFinal Jac1Proofs Jac2Proofs Jac3Proofs Jac4Proofs Jac5Proofs.
From Coq Require Import ZifyBool ZifyNat.
Import ListNotations.
Local Open Scope Z_scope.

Definition ex_box0 (bx : bctype) : domain R := ex_dom 0%R 1%R 5 6 7 2 bx Periodic Periodic.

Lemma exists_holds3 {V} (dom : domain V) (u : Z -> Z -> Z -> V) : valid_domain3 dom -> exists f, holds3 dom f u.
Proof.
  intros VD. exists (map (fun c => let '(i, j, k) := c in u i j k) (padded_box dom)).
  destruct VD as (H1 & H2 & H3 & H4). split.
  - rewrite zlen_map. unfold padded_box. rewrite zlen_box3, !Z.max_r by lia. unfold cells3. ring.
  - intros i j k (Hi & Hj & Hk). rewrite zget_map.
    assert (E : zget (padded_box dom) (slot3 dom i j k) = Some (i, j, k)).
    { unfold padded_box.
      rewrite <- (zget_box3 (- nhalo dom) (nx dom + nhalo dom) (- nhalo dom) (ny dom + nhalo dom)
               (- nhalo dom) (nz dom + nhalo dom) i j k) by lia.
      f_equal. unfold slot3. ring. }
    rewrite E. reflexivity.
Qed.

Lemma ex_box_facts : forall bx, valid_domain3 (ex_box0 bx) /\ five_cells (ex_box0 bx) /\ 2 <= nhalo (ex_box0 bx) /\
  nhalo (ex_box0 bx) <= nx (ex_box0 bx) /\ nhalo (ex_box0 bx) <= ny (ex_box0 bx) /\ nhalo (ex_box0 bx) <= nz (ex_box0 bx) /\
  xbeg (ex_box0 bx) <> xend (ex_box0 bx) /\
  exists d sc A f, make3 (ex_box0 bx) = Ok d /\ make_ch3 d 2 = Ok sc /\ create_matrix d = Ok A /\
    holds3 (ex_box0 bx) f (fun i j k => IZR (i + 2 * j + 3 * k)).
Proof.
  intros bx. assert (VD : valid_domain3 (ex_box0 bx)) by (unfold valid_domain3; simpl; lia).
  assert (FC : five_cells (ex_box0 bx)) by (unfold five_cells; simpl; lia).
  split; [exact VD|]. split; [exact FC|]. split; [simpl; lia|]. split; [simpl; lia|]. split; [simpl; lia|].
  split; [simpl; lia|]. split; [simpl; lra|].
  destruct (make3_ok (ex_box0 bx) VD) as (d & M & W & D & _). exists d.
  destruct (create_spec d W) as (A & EA & _); [rewrite D; exact FC|].
  destruct (exists_holds3 (ex_box0 bx) (fun i j k => IZR (i + 2 * j + 3 * k)) VD) as (f & Hf).
  eexists. exists A, f. split; [exact M|]. split; [reflexivity|]. split; [exact EA|exact Hf].
Qed.

(** ** Structure *)

Lemma pf_C25_structure :
  forall (V : Type) (N : Num V) (dom : domain V) (d : disc3 V),
  valid_domain3 dom -> five_cells dom -> make3 dom = Ok d ->
  exists A, create_matrix d = Ok A /\ csr_wf A /\
    m_rows A = nx dom * ny dom * nz dom /\ m_cols A = nx dom * ny dom * nz dom /\
    holds1 (m_rows A + 1) (m_row A) (fun r => 25 * r) /\
    holds1 (25 * m_rows A) (m_vals A) (fun _ => nint 0) /\ zlen (m_col A) = 25 * m_rows A /\
    (forall i j k, inside3 dom i j k ->
       let cols := map fst (row_entries A (cellno dom i j k)) in
       StronglySorted Z.lt cols /\ zlen cols = 25 /\
       (forall c, In c cols <-> in_stencil dom i j k c) /\
       (forall c, In c cols -> 0 <= c < m_cols A)) /\
    holds1 (m_rows A) (nnz_per_row d) (fun r => zlen (row_entries A r)).
Proof.
  intros V N dom d VD FC M. destruct (make3_inv dom d VD M) as (W & D).
  destruct (create_spec d W) as (A & EA & SH); [rewrite D; exact FC|]. rewrite D in SH.
  assert (WF := shape_wf dom A FC VD SH). pose proof SH as (HR & HC & HV & HL & HO & _ & _).
  assert (RE : forall i j k, inside3 dom i j k ->
    row_entries A (cellno dom i j k) = map (fun c => (c, nint 0)) (row_columns i j k (nx dom) (ny dom) (nz dom))).
  { intros i j k I. pose proof (jac_row_entries dom A (m_vals A) (fun _ => nint 0) i j k FC VD SH eq_refl I) as E.
    unfold row_entries in *. cbn [m_row m_col m_vals set_values] in E. apply E.
    intros q c Hq _. destruct HV as (_ & G). apply G. pose proof (cellno_range dom i j k I) as RG.
    fold (ncells dom) in RG. lia. }
  assert (FULL : forall i j k, inside3 dom i j k -> zlen (row_columns i j k (nx dom) (ny dom) (nz dom)) = 25).
  { intros i j k I. apply row_columns_full, pushed_nodup; auto. }
  exists A. split; [exact EA|]. split; [exact WF|]. rewrite HR, HC. fold (ncells dom).
  split; [reflexivity|]. split; [reflexivity|]. split; [exact HO|]. split; [exact HV|]. split; [exact HL|]. split.
  - intros i j k I. cbv zeta. rewrite (RE i j k I), map_map. cbn [fst]. rewrite map_id.
    split; [apply row_columns_sorted|]. split; [apply FULL; exact I|].
    split; [intros c; apply row_columns_stencil; auto|].
    intros c Hc. apply (row_columns_stencil dom i j k c FC I) in Hc as (a & b & e & _ & ->).
    apply cellno_range, wrapped_inside; auto.
  - split.
    + unfold nnz_per_row, zlen. rewrite repeat_length. fold (zlen (d3_interior d)). rewrite (interior_size d W), D.
      unfold ncells. pose proof (zlen_nonneg (d3_interior d)) as P. rewrite (interior_size d W), D in P. lia.
    + intros r Hr. destruct (cell_of_row dom r VD Hr) as (i & j & k & I & -> & _).
      rewrite (RE i j k I), zlen_map, (FULL i j k I). unfold nnz_per_row, stencil_size.
      rewrite (interior_size d W), D. fold (ncells dom). unfold zget.
      destruct (cellno dom i j k <? 0) eqn:E; [lia|].
      rewrite nth_error_repeat; [reflexivity|]. lia.
Qed.

Lemma pf_C25_small_grid :
  forall (V : Type) (N : Num V) (dom : domain V) (d : disc3 V),
  valid_domain3 dom -> ~ five_cells dom -> make3 dom = Ok d -> create_matrix d = UB.
Proof.
  intros V N dom d VD FC M. destruct (make3_inv dom d VD M) as (W & D).
  apply create_short; [exact W|]. rewrite D. exact FC.
Qed.

(** ** Values *)

Lemma rebuilt dom (A : csr R) d : wf3 d -> d3_domain d = dom -> five_cells dom -> create_matrix d = Ok A -> jac_shape dom A.
Proof.
  intros W D FC EA. destruct (create_spec d W) as (A' & EA' & SH); [rewrite D; exact FC|].
  assert (A' = A) as -> by congruence. rewrite D in SH. exact SH.
Qed.

Lemma jac_dense (dom : domain R) d p A f w : valid_domain3 dom -> five_cells dom -> 1 <= nhalo dom -> make3 dom = Ok d ->
  create_matrix d = Ok A -> holds3 dom f w ->
  exists J, eval_jacobian d p f A = Ok J /\ csr_wf J /\ m_row J = m_row A /\ m_col J = m_col A /\
   forall i j k a b e, inside3 dom i j k -> inside3 dom a b e ->
    dense J (cellno dom i j k) (cellno dom a b e)
    = jac_value d p w (cellno dom i j k) (cellno dom a b e) i j k.
Proof.
  intros VD FC Hh M EA HF. destruct (make3_inv dom d VD M) as (W & D).
  assert (SH := rebuilt dom A d W D FC EA).
  assert (WF := shape_wf dom A FC VD SH). pose proof SH as (HR & HC & HV & HL & HO & _ & _).
  destruct (eval_jacobian_spec d dom p A f w W D Hh WF HR HF) as (v & EJ & Lv & G & _).
  exists (set_values A v). split; [exact EJ|].
  split; [unfold csr_wf in *; simpl; rewrite Lv; tauto|]. split; [reflexivity|]. split; [reflexivity|].
  intros i j k a b e I I'.
  assert (RG := cellno_range dom i j k I). fold (ncells dom) in RG.
  unfold dense.
  rewrite (jac_row_entries dom A v (fun c => jac_value d p w (cellno dom i j k) c i j k) i j k FC VD SH Lv I).
  - rewrite dense_unique by apply row_columns_nodup.
    destruct (in_dec Z.eq_dec (cellno dom a b e) (row_columns i j k (nx dom) (ny dom) (nz dom))) as [IN|NI]; [reflexivity|].
    rewrite (jac_value_R dom d p W D FC w a b e i j k I I').
    assert (Z0 : forall x y z, Z.abs (x - i) + Z.abs (y - j) + Z.abs (z - k) <= 2 -> hit dom a b e x y z = 0%R).
    { intros x y z HB. unfold hit.
      destruct ((x mod nx dom =? a) && (y mod ny dom =? b) && (z mod nz dom =? e)) eqn:E; [|reflexivity].
      exfalso. apply NI. apply (row_columns_stencil dom i j k _ FC I).
      apply andb_prop in E as (E & E3). apply andb_prop in E as (E1 & E2). apply Z.eqb_eq in E1, E2, E3.
      exists (x - i), (y - j), (z - k). split; [exact HB|].
      replace (i + (x - i)) with x by lia. replace (j + (y - j)) with y by lia. replace (k + (z - k)) with z by lia.
      rewrite E1, E2, E3. reflexivity. }
    unfold Lap3, dxx3, dyy3, dzz3. rewrite !Z0 by (clear; lia). unfold Rdiv. ring.
  - intros q c Hq Ec. apply G; auto. rewrite !(shape_rlo dom A) by (auto; lia). lia.
Qed.

Lemma CH3_ext h m s e2 f g i j k : (forall i j k, f i j k = g i j k) -> CH3 h m s e2 f i j k = CH3 h m s e2 g i j k.
Proof.
  intros E. unfold CH3. rewrite E.
  rewrite (Lap3_ext h (fun i j k => f i j k ^ 3 - f i j k)%R (fun i j k => g i j k ^ 3 - g i j k)%R) by (intros; rewrite !E; reflexivity).
  rewrite (Lap3_ext h (Lap3 h f) (Lap3 h g)); [reflexivity|]. intros. apply Lap3_ext. auto.
Qed.

Lemma rhs_value (dom : domain R) d variant p sc c rhs u i j k :
  valid_domain3 dom -> 2 <= nhalo dom -> nhalo dom <= nx dom /\ nhalo dom <= ny dom /\ nhalo dom <= nz dom ->
  make3 dom = Ok d -> make_ch3 d variant = Ok sc -> zlen rhs = cells3 dom -> holds_inside3 dom c u ->
  inside3 dom i j k ->
  exists sc' c' r, eval_rhs3 d variant p sc c rhs = Ok (sc', c', r) /\
    zget r (slot3 dom i j k) = Some (CH3 (d3_dx d) (ch_m p) (ch_sigma p) (ch_eps2 p) (extend3 dom u) i j k).
Proof.
  intros VD H2 HN M MC LR (Lc & Gc) I.
  set (u0 := fun i j k => match zget c (slot3 dom i j k) with Some v => v | None => 0%R end).
  assert (H0 : holds3 dom c u0).
  { split; [exact Lc|]. intros x y z P. unfold u0.
    destruct (zget_some c (slot3 dom x y z)) as (v & E); [rewrite Lc; apply slot3_range; exact P|]. rewrite E. reflexivity. }
  destruct (pf_C21_equation_3d dom d variant p c rhs sc u0 VD H2 HN M MC LR H0) as (sc' & c' & r & E & _ & (_ & G)).
  exists sc', c', r. split; [exact E|]. rewrite (G i j k I). f_equal. apply CH3_ext. intros x y z.
  unfold extend3, u0. rewrite Gc; [reflexivity|]. destruct VD as (V1 & V2 & V3 & _).
  repeat split; try (apply extend1_range; lia).
Qed.

Lemma CH3_derive_periodic (dom : domain R) u a b e h m sigma eps2 i j k :
  xbc dom = Periodic -> ybc dom = Periodic -> zbc dom = Periodic ->
  derivable_pt_lim (fun t => CH3 h m sigma eps2 (extend3 dom (replaced u a b e t)) i j k) (u a b e)
    (jac_deriv dom u a b e h sigma eps2 i j k).
Proof.
  intros B1 B2 B3. eapply dl_ext; [|apply (CH3_derive dom u a b e h m)]. intros t. apply CH3_ext. intros x y z.
  unfold extend3, periodic3. rewrite B1, B2, B3. reflexivity.
Qed.

Lemma pf_C24_jacobian :
  forall (dom : domain R) (d : disc3 R) (variant : Z) (p : ch_params R) (sc : scratch R) (A : csr R)
    (f : list R) (u : Z -> Z -> Z -> R),
  valid_domain3 dom -> five_cells dom -> 2 <= nhalo dom ->
  nhalo dom <= nx dom /\ nhalo dom <= ny dom /\ nhalo dom <= nz dom ->
  xbc dom = Periodic -> ybc dom = Periodic -> zbc dom = Periodic ->
  make3 dom = Ok d -> make_ch3 d variant = Ok sc -> create_matrix d = Ok A ->
  holds3 dom f (periodic3 dom u) ->
  exists J, eval_jacobian d p f A = Ok J /\ csr_wf J /\ m_row J = m_row A /\ m_col J = m_col A /\
    forall i j k a b e, inside3 dom i j k -> inside3 dom a b e ->
    exists F : R -> R,
      (forall t c rhs, holds_inside3 dom c (replaced u a b e t) -> zlen rhs = cells3 dom ->
         exists sc' c' r, eval_rhs3 d variant p sc c rhs = Ok (sc', c', r) /\
           zget r (slot3 dom i j k) = Some (F t)) /\
      derivable_pt_lim F (u a b e) (dense J (cellno dom i j k) (cellno dom a b e)).
Proof.
  intros dom d variant p sc A f u VD FC H2 HN B1 B2 B3 M MC EA HF. destruct (make3_inv dom d VD M) as (W & D).
  destruct (jac_dense dom d p A f (periodic3 dom u) VD FC ltac:(lia) M EA HF) as (J & EJ & WFJ & R1 & R2 & DE).
  exists J. split; [exact EJ|]. split; [exact WFJ|]. split; [exact R1|]. split; [exact R2|].
  intros i j k a b e I I'.
  exists (fun t => CH3 (d3_dx d) (ch_m p) (ch_sigma p) (ch_eps2 p) (extend3 dom (replaced u a b e t)) i j k). split.
  - intros t c rhs HC LR. apply (rhs_value dom d variant p sc c rhs (replaced u a b e t)); auto.
  - rewrite (DE i j k a b e I I'), (jac_value_R dom d p W D FC (periodic3 dom u) a b e i j k I I').
    apply CH3_derive_periodic; auto.
Qed.

Lemma pf_C24_entries_rounded :
  forall (V : Type) (N : Num V) (dom : domain V) (d : disc3 V) (p : ch_params V) (A : csr V)
    (f : list V) (w : Z -> Z -> Z -> V),
  valid_domain3 dom -> five_cells dom -> 1 <= nhalo dom -> make3 dom = Ok d -> create_matrix d = Ok A ->
  holds3 dom f w ->
  exists J, eval_jacobian d p f A = Ok J /\
    forall i j k a b e, inside3 dom i j k -> Z.abs a + Z.abs b + Z.abs e <= 2 ->
    let h2 := nmul (d3_dx d) (d3_dx d) in
    let h4 := nmul h2 h2 in
    let g v := nsub (nmul (nint 3) (npow2 v)) (nint 1) in
    let value :=
      if Z.abs a + Z.abs b + Z.abs e =? 0 then
        nadd (nadd (nadd (nint 0) (nopp (ch_sigma p))) (ndiv (nmul (nopp (ch_eps2 p)) (nint 42)) h4))
             (ndiv (nmul (nint (-6)) (g (w i j k))) h2)
      else if Z.abs a + Z.abs b + Z.abs e =? 1 then
        nadd (nadd (nint 0) (ndiv (g (w (i + a) (j + b) (k + e))) h2)) (ndiv (nmul (nint 12) (ch_eps2 p)) h4)
      else if Z.max (Z.abs a) (Z.max (Z.abs b) (Z.abs e)) =? 2 then
        nadd (nint 0) (ndiv (nopp (ch_eps2 p)) h4)
      else nadd (nint 0) (ndiv (nmul (nopp (ch_eps2 p)) (nint 2)) h4) in
    let column := cellno dom ((i + a) mod nx dom) ((j + b) mod ny dom) ((k + e) mod nz dom) in
    filter (fun e => fst e =? column) (row_entries J (cellno dom i j k)) = [(column, value)].
Proof.
  intros V N dom d p A f w VD FC Hh M EA HF. destruct (make3_inv dom d VD M) as (W & D).
  assert (SH : jac_shape dom A).
  { destruct (create_spec d W) as (A' & EA' & SH); [rewrite D; exact FC|].
    assert (A' = A) as -> by congruence. rewrite D in SH. exact SH. }
  assert (WF := shape_wf dom A FC VD SH). pose proof SH as (HR & _).
  destruct (eval_jacobian_spec d dom p A f w W D Hh WF HR HF) as (v & EJ & Lv & G & _).
  exists (set_values A v). split; [exact EJ|]. intros i j k a b e I HB h2 h4 g value column.
  assert (RG := cellno_range dom i j k I). fold (ncells dom) in RG.
  rewrite (jac_row_entries dom A v (fun c => jac_value d p w (cellno dom i j k) c i j k) i j k FC VD SH Lv I).
  - assert (IN : In column (row_columns i j k (nx dom) (ny dom) (nz dom))).
    { apply (row_columns_stencil dom i j k _ FC I). exists a, b, e. auto. }
    assert (VAL : jac_value d p w (cellno dom i j k) column i j k = value) by (apply (jac_entry dom d p W D FC w i j k a b e I HB)).
    clearbody value column. pose proof (row_columns_nodup i j k (nx dom) (ny dom) (nz dom)) as ND. revert IN ND.
    generalize (row_columns i j k (nx dom) (ny dom) (nz dom)) as l.
    intros l. induction l as [|x l IH]; [intros []|]. intros IN ND. inversion ND as [|? ? NI ND']; subst.
    cbn [map filter fst]. destruct (x =? column) eqn:E.
    + assert (x = column) by lia. subst x. f_equal.
      clear - NI. induction l as [|y l IH]; [reflexivity|]. cbn [map filter fst].
      destruct (y =? column) eqn:E; [exfalso; apply NI; left; lia|]. apply IH. intros C. apply NI. right. exact C.
    + apply IH; auto. destruct IN as [->|IN]; [lia|exact IN].
  - intros q c Hq Ec. apply G; auto. rewrite !(shape_rlo dom A) by (auto; lia). lia.
Qed.

Lemma ex_entries_facts : five_cells (ex_dom (2#1) (3#1) 5 6 7 2 Periodic Periodic Periodic)%Q /\
  (exists d A f, make3 (N:=Num_Q) (ex_dom (2#1) (3#1) 5 6 7 2 Periodic Periodic Periodic)%Q = Ok d /\ create_matrix (N:=Num_Q) d = Ok A /\
     holds3 (ex_dom (2#1) (3#1) 5 6 7 2 Periodic Periodic Periodic)%Q f (fun i j k => inject_Z (i * j + k))).
Proof.
  set (dm := (ex_dom (2#1) (3#1) 5 6 7 2 Periodic Periodic Periodic)%Q).
  assert (VD : valid_domain3 dm) by (unfold valid_domain3; simpl; lia).
  assert (FC : five_cells dm) by (unfold five_cells; simpl; lia).
  split; [exact FC|]. destruct (make3_ok (N:=Num_Q) dm VD) as (d & M & W & D & _). exists d.
  destruct (create_spec d W) as (A & EA & _); [rewrite D; exact FC|].
  destruct (exists_holds3 dm (fun i j k => inject_Z (i * j + k)) VD) as (f & Hf).
  exists A, f. auto.
Qed.

Lemma pf_C13_jacobian :
  forall (V : Type) (N : Num V) (dom : domain V) (d : disc3 V) (p : ch_params V) (A : csr V)
    (f : list V) (w : Z -> Z -> Z -> V),
  valid_domain3 dom -> 1 <= nhalo dom -> make3 dom = Ok d ->
  csr_wf A -> m_rows A = nx dom * ny dom * nz dom -> holds3 dom f w ->
  exists v0 v, eval_jacobian d p f A = Ok (set_values A v) /\
    schedule_independent (map zero_body (zrange 0 (zlen (m_vals A)))) [m_vals A] [v0] /\
    schedule_independent (map (jac_body d p A) (zrange 0 (zlen (m_row A) - 1))) [f; v0] [f; v].
Proof.
  intros V N dom d p A f w VD Hh M WF HR HF. destruct (make3_inv dom d VD M) as (W & D).
  destruct (eval_jacobian_spec d dom p A f w W D Hh WF HR HF) as (v & EJ & _ & _ & v0 & _ & S0 & S1).
  exists v0, v. split; [exact EJ|]. split; [exact S0|exact S1].
Qed.

Lemma pf_C26_stale_halos :
  forall (dom : domain R) (d : disc3 R) (variant : Z) (p : ch_params R) (sc : scratch R) (A : csr R) (f : list R),
  valid_domain3 dom -> five_cells dom -> 2 <= nhalo dom ->
  nhalo dom <= nx dom /\ nhalo dom <= ny dom /\ nhalo dom <= nz dom ->
  xbc dom = Periodic -> ybc dom = Periodic -> zbc dom = Periodic -> xbeg dom <> xend dom ->
  make3 dom = Ok d -> make_ch3 d variant = Ok sc -> create_matrix d = Ok A ->
  holds3 dom f (replaced (fun _ _ _ => 0%R) (-1) 0 0 1%R) ->
  exists (J : csr R) (F : R -> R) (l : R), eval_jacobian d p f A = Ok J /\
    (forall t c rhs, holds_inside3 dom c (replaced (fun _ _ _ => 0%R) (nx dom - 1) 0 0 t) -> zlen rhs = cells3 dom ->
       exists sc' c' r, eval_rhs3 d variant p sc c rhs = Ok (sc', c', r) /\
         zget r (slot3 dom 0 0 0) = Some (F t)) /\
    derivable_pt_lim F 0 l /\
    dense J (cellno dom 0 0 0) (cellno dom (nx dom - 1) 0 0) <> l.
Proof.
  intros dom d variant p sc A f VD FC H2 HN B1 B2 B3 HX M MC EA HF. destruct (make3_inv dom d VD M) as (W & D).
  destruct (jac_dense dom d p A f _ VD FC ltac:(lia) M EA HF) as (J & EJ & _ & _ & _ & DE).
  assert (I : inside3 dom 0 0 0) by (unfold five_cells in FC; unfold inside3; lia).
  assert (I' : inside3 dom (nx dom - 1) 0 0) by (unfold five_cells in FC; unfold inside3; lia).
  exists J, (fun t => CH3 (d3_dx d) (ch_m p) (ch_sigma p) (ch_eps2 p) (extend3 dom (replaced (fun _ _ _ => 0%R) (nx dom - 1) 0 0 t)) 0 0 0),
    (jac_deriv dom (fun _ _ _ => 0%R) (nx dom - 1) 0 0 (d3_dx d) (ch_sigma p) (ch_eps2 p) 0 0 0).
  split; [exact EJ|]. split; [|split].
  - intros t c rhs HC LR. apply (rhs_value dom d variant p sc c rhs (replaced (fun _ _ _ => 0%R) (nx dom - 1) 0 0 t)); auto.
  - apply (CH3_derive_periodic dom (fun _ _ _ => 0%R)); auto.
  - rewrite (DE _ _ _ _ _ _ I I'), (jac_value_R dom d p W D FC _ _ _ _ _ _ _ I I').
    unfold jac_deriv. set (LL := Lap3 (d3_dx d) (Lap3 (d3_dx d) (hit dom (nx dom - 1) 0 0)) 0 0 0).
    assert (H1 : hit dom (nx dom - 1) 0 0 (0 - 1) 0 0 = 1%R).
    { unfold hit. replace ((0 - 1) mod nx dom) with (nx dom - 1).
      - rewrite !Z.mod_0_l by (unfold five_cells in FC; lia). rewrite !Z.eqb_refl. reflexivity.
      - replace (0 - 1) with ((nx dom - 1) + (-1) * nx dom) by lia. rewrite Z_mod_plus_full.
        symmetry. apply Z.mod_small. unfold five_cells in FC. lia. }
    unfold Lap3, dxx3, dyy3, dzz3, periodic3, replaced.
    cbn [Z.eqb Z.add Z.sub Z.opp Pos.eqb andb] in *. rewrite H1.
    change (0 - 1) with (-1) in *. cbn [Z.eqb Pos.eqb andb].
    assert (HD : (d3_dx d <> 0)%R).
    { rewrite (wf_dx _ W), D. simpl. unfold Rdiv. intros C. apply Rmult_integral in C as [C|C]; [lra|].
      apply Rinv_neq_0_compat in C; auto. apply not_0_IZR. unfold five_cells in FC. lia. }
    assert (H4 : (0 < d3_dx d ^ 2)%R) by (replace (d3_dx d ^ 2)%R with (Rsqr (d3_dx d)) by (unfold Rsqr; ring); apply Rsqr_pos_lt; exact HD).
    assert (H5 : (0 < / d3_dx d ^ 2)%R) by (apply Rinv_0_lt_compat; exact H4).
    unfold Rdiv. intros C. nra.
Qed.

Lemma pf_C26_neumann :
  forall (dom : domain R) (d : disc3 R) (variant : Z) (p : ch_params R) (sc : scratch R) (A : csr R) (f : list R)
    (u : Z -> Z -> Z -> R),
  valid_domain3 dom -> five_cells dom -> 2 <= nhalo dom ->
  nhalo dom <= nx dom /\ nhalo dom <= ny dom /\ nhalo dom <= nz dom ->
  xbc dom = Neumann -> xbeg dom <> xend dom -> ch_eps2 p <> 0%R ->
  make3 dom = Ok d -> make_ch3 d variant = Ok sc -> create_matrix d = Ok A ->
  holds3 dom f (extend3 dom u) ->
  exists (J : csr R) (y : R), eval_jacobian d p f A = Ok J /\
    (forall t c rhs, holds_inside3 dom c (replaced u (nx dom - 2) 0 0 t) -> zlen rhs = cells3 dom ->
       exists sc' c' r, eval_rhs3 d variant p sc c rhs = Ok (sc', c', r) /\
         zget r (slot3 dom 0 0 0) = Some y) /\
    dense J (cellno dom 0 0 0) (cellno dom (nx dom - 2) 0 0) <> 0%R.
Proof.
  intros dom d variant p sc A f u VD FC H2 HN B1 HX HE M MC EA HF. destruct (make3_inv dom d VD M) as (W & D).
  destruct (jac_dense dom d p A f _ VD FC ltac:(lia) M EA HF) as (J & EJ & _ & _ & _ & DE).
  assert (I : inside3 dom 0 0 0) by (unfold five_cells in FC; unfold inside3; lia).
  assert (I' : inside3 dom (nx dom - 2) 0 0) by (unfold five_cells in FC; unfold inside3; lia).
  exists J, (CH3 (d3_dx d) (ch_m p) (ch_sigma p) (ch_eps2 p) (extend3 dom u) 0 0 0).
  split; [exact EJ|]. split.
  - intros t c rhs HC LR.
    destruct (rhs_value dom d variant p sc c rhs (replaced u (nx dom - 2) 0 0 t) 0 0 0) as (sc' & c' & r & E & G); auto.
    exists sc', c', r. split; [exact E|]. rewrite G. f_equal.
    assert (EX : forall x y z, -2 <= x <= 2 -> extend3 dom (replaced u (nx dom - 2) 0 0 t) x y z = extend3 dom u x y z).
    { intros x y z Hx. unfold extend3, replaced. rewrite B1. cbn [extend1].
      replace (clampZ (nx dom) x =? nx dom - 2) with false; [reflexivity|].
      symmetry. apply Z.eqb_neq. unfold clampZ, five_cells in *. lia. }
    unfold CH3, Lap3, dxx3, dyy3, dzz3. rewrite !EX by lia. reflexivity.
  - rewrite (DE _ _ _ _ _ _ I I').
    replace (cellno dom (nx dom - 2) 0 0) with (cellno dom ((0 + (-2)) mod nx dom) ((0 + 0) mod ny dom) ((0 + 0) mod nz dom)).
    + rewrite (jac_entry dom d p W D FC _ 0 0 0 (-2) 0 0 I) by (simpl; lia).
      unfold entry_value. cbn [Z.eqb Z.abs Z.add Z.max Z.compare Pos.add Pos.compare Pos.compare_cont Pos.eqb nadd ndiv nopp nmul nint Num_R].
      assert (HD : (d3_dx d <> 0)%R).
      { rewrite (wf_dx _ W), D. simpl. unfold Rdiv. intros C. apply Rmult_integral in C as [C|C]; [lra|].
        apply Rinv_neq_0_compat in C; auto. apply not_0_IZR. unfold five_cells in FC. lia. }
      assert (H4 : (d3_dx d * d3_dx d * (d3_dx d * d3_dx d) <> 0)%R) by (repeat apply Rmult_integral_contrapositive_currified; exact HD).
      intros C. apply HE. apply Rinv_neq_0_compat in H4. unfold Rdiv in C.
      assert (C' : (- ch_eps2 p * / (d3_dx d * d3_dx d * (d3_dx d * d3_dx d)) = 0)%R) by lra.
      apply Rmult_integral in C' as [C'|C']; [lra|contradiction].
    + rewrite !Z.add_0_r, !Z.mod_0_l by (unfold five_cells in FC; lia). rewrite Z.add_0_l. f_equal.
      replace (-2) with ((nx dom - 2) + (-1) * nx dom) by lia. rewrite Z_mod_plus_full.
      apply Z.mod_small. unfold five_cells in FC. lia.
Qed.

