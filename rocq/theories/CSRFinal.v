(** Proofs of the sparse matrix properties (C31-C35, and C13 for the matrix kernels). *)
From Coq Require Import ZArith QArith List Reals Lra Lia Permutation.
From Verif Require Import Outcome ZList ZListProofs Num Kernel KernelProofs Gather SpecGrid Loop
  ModelReduce ModelCSR ModelLDU SpecField SumProofs SpecMatrix CSRProofs ReduceProofs CSR2Proofs CSR3Proofs
  LDUProofs ExampleNum.
From Coq Require Import ZifyBool ZifyNat.
Import ListNotations.
Local Open Scope Z_scope.

(** ** Exact arithmetic, assembled *)
Lemma good_diag meps (A : csr R) : csr_wf A -> square A -> good_diagonal meps A ->
  exists d, (forall r, 0 <= r < m_rows A -> diag_entry A r (d r)) /\
    (forall r, 0 <= r < m_rows A -> d r = dense A r r /\ (0 <= meps < Rabs (d r))%R).
Proof.
  intros WF SQ (O & E & G). exists (fun r => dense A r r). split.
  - intros r Hr. destruct (O r Hr) as (d & D). rewrite (diag_dense A r d D). auto.
  - intros r Hr. split; auto. 
Qed.

Lemma good_set_tmp meps A t : good_diagonal meps A -> good_diagonal meps (set_tmp A t).
Proof. auto. Qed.

Lemma holds1_ext {V} n (l : list V) f g : holds1 n l f -> (forall i, 0 <= i < n -> f i = g i) -> holds1 n l g.
Proof. intros (L & H) E. split; auto. intros i Hi. rewrite H by auto. f_equal; auto. Qed.

Lemma jacobi_step_R meps (A : csr R) x b u f w :
  csr_wf A -> square A -> good_diagonal meps A -> holds1 (m_cols A) x u -> holds1 (m_rows A) b f ->
  exists x', jacobi meps A x b w = Ok (x', set_tmp A x) /\
    schedule_independent (map (jacobi_body meps A w) (zrange 0 (m_rows A)))
        [m_vals A; x; b; m_tmp A] [m_vals A; x; b; x'] /\
    holds1 (m_rows A) x' (jacobi_update A w u f).
Proof.
  intros WF SQ GD Hx Hb. destruct (good_diag meps A WF SQ GD) as (d & DG & DE).
  destruct (jacobi_loop meps A x b u f w d WF SQ DG Hx Hb) as (x' & SI & E & H).
  exists x'. split; auto. split; auto. eapply holds1_ext; [exact H|]. intros r Hr. cbv beta. red in SQ.
  apply jac_value_R; auto; try lia. apply DE; auto.
Qed.

Lemma cached_step_R meps (A : csr R) x b u f w :
  csr_wf A -> square A -> good_diagonal meps A -> cache_matches A ->
  holds1 (m_cols A) x u -> holds1 (m_rows A) b f ->
  exists x' A', jacobi_cached meps A x b w = Ok (x', A') /\
    csr_wf A' /\ square A' /\ good_diagonal meps A' /\ cache_matches A' /\
    m_rows A' = m_rows A /\ m_cols A' = m_cols A /\
    (forall r c, dense A' r c = dense A r c) /\
    holds1 (m_rows A) x' (jacobi_update A w u f).
Proof.
  intros WF SQ GD CM Hx Hb. destruct (good_diag meps A WF SQ GD) as (d & DG & DE).
  assert (IV : forall r, 0 <= r < m_rows A -> (nint 1 / clip_diag meps (d r))%num = (/ dense A r r)%R).
  { intros r Hr. destruct (DE r Hr) as (E & B). rewrite clip_big by lra. rewrite E. simpl. lra. }
  destruct (cached_loop meps A x b u f w d WF SQ DG) as (x' & A' & di & E & EV & EC & ER & Er & Ecl & ET & EDi & EI & HI & SI & H); auto.
  { destruct CM as [C|(di & C1 & C2)]; [left; auto|]. right. exists di. split; auto.
    eapply holds1_ext; [exact C2|]. intros r Hr. symmetry. apply IV; auto. }
  exists x', A'. split; auto.
  assert (RE : forall r, row_entries A' r = row_entries A r) by (intros; unfold row_entries; rewrite EV, EC, ER; auto).
  assert (DD : forall r c, dense A' r c = dense A r c) by (intros; unfold dense; rewrite RE; auto).
  split. { unfold csr_wf in *. rewrite EV, EC, ER, Er, Ecl, ET. destruct WF as (?&?&?&?&?&?&?). destruct Hx as (Lx & _). tauto. }
  split. { red. rewrite Er, Ecl. auto. }
  split. { destruct GD as (G1 & G2 & G3). split; [|split; auto].
    - intros r Hr. rewrite Er in Hr. destruct (G1 r Hr) as (dd & Hd). exists dd. red. rewrite RE. auto.
    - intros r Hr. rewrite DD. apply G3. congruence. }
  split. { right. exists di. split; auto. rewrite Er. eapply holds1_ext; [exact HI|].
    intros r Hr. cbv beta. rewrite DD. apply IV; auto. }
  split; auto. split; auto. split; auto.
  eapply holds1_ext; [exact H|]. intros r Hr. cbv beta. red in SQ.
  apply cached_value_R; auto; try lia. apply DE; auto.
Qed.

Lemma update_ext A A' w u v f r : (forall r c, dense A' r c = dense A r c) -> m_cols A' = m_cols A ->
  (forall c, 0 <= c < m_cols A -> u c = v c) -> 0 <= r < m_cols A ->
  jacobi_update A' w u f r = jacobi_update A w v f r.
Proof.
  intros D C E Hr. unfold jacobi_update, off_mul_vec. rewrite D, C, (E r Hr).
  rewrite (sum1_ext (m_cols A) (fun c => if (c =? r)%Z then 0%R else (dense A' r c * u c)%R)
    (fun c => if (c =? r)%Z then 0%R else (dense A r c * v c)%R)); [reflexivity|].
  intros c Hc. rewrite D, E by auto. reflexivity.
Qed.

Lemma iter_update_ext A A' w u f n : (forall r c, dense A' r c = dense A r c) -> m_cols A' = m_cols A ->
  forall v, (forall c, 0 <= c < m_cols A -> u c = v c) -> forall r, 0 <= r < m_cols A ->
  Nat.iter n (fun v => jacobi_update A' w v f) u r = Nat.iter n (fun v => jacobi_update A w v f) v r.
Proof.
  intros D C v E. induction n as [|n IH]; intros r Hr; simpl; auto. apply update_ext; auto.
Qed.
Lemma iter_shift {T} (g : T -> T) n x : Nat.iter n g (g x) = Nat.iter (S n) g x.
Proof. induction n as [|n IH]; simpl in *; congruence. Qed.

Lemma jacobi_sweeps_R meps b f w n : forall (A : csr R) x u,
  csr_wf A -> square A -> good_diagonal meps A -> holds1 (m_cols A) x u -> holds1 (m_rows A) b f ->
  exists x' A', sweeps (fun A x => jacobi meps A x b w) n A x = Ok (x', A') /\
    holds1 (m_rows A) x' (Nat.iter n (fun v => jacobi_update A w v f) u).
Proof.
  induction n as [|n IH]; intros A x u WF SQ GD Hx Hb; cbn [sweeps].
  - exists x, A. split; auto. red in SQ. rewrite SQ. exact Hx.
  - destruct (jacobi_step_R meps A x b u f w WF SQ GD Hx Hb) as (x1 & E1 & _ & H1). rewrite E1. cbn [rbind fst snd].
    destruct (IH (set_tmp A x) x1 (jacobi_update A w u f)) as (x2 & A2 & E2 & H2).
    + apply wf_set_tmp; auto. apply Hx.
    + exact SQ.
    + exact GD.
    + red in SQ. cbn [set_tmp m_cols]. rewrite <- SQ. exact H1.
    + exact Hb.
    + exists x2, A2. split; auto. rewrite <- iter_shift. exact H2.
Qed.

Lemma cached_sweeps_R meps b f w n : forall (A : csr R) x u,
  csr_wf A -> square A -> good_diagonal meps A -> cache_matches A ->
  holds1 (m_cols A) x u -> holds1 (m_rows A) b f ->
  exists x' A', sweeps (fun A x => jacobi_cached meps A x b w) n A x = Ok (x', A') /\
    holds1 (m_rows A) x' (Nat.iter n (fun v => jacobi_update A w v f) u).
Proof.
  induction n as [|n IH]; intros A x u WF SQ GD CM Hx Hb; cbn [sweeps].
  - exists x, A. split; auto. red in SQ. rewrite SQ. exact Hx.
  - destruct (cached_step_R meps A x b u f w WF SQ GD CM Hx Hb)
      as (x1 & A1 & E1 & WF1 & SQ1 & GD1 & CM1 & R1 & C1 & D1 & H1). rewrite E1. cbn [rbind fst snd].
    destruct (IH A1 x1 (jacobi_update A w u f)) as (x2 & A2 & E2 & H2); auto.
    + rewrite C1. red in SQ. rewrite <- SQ. exact H1.
    + rewrite R1. auto.
    + exists x2, A2. split; auto. rewrite <- iter_shift. rewrite R1 in H2. eapply holds1_ext; [exact H2|].
      intros r Hr. red in SQ. apply iter_update_ext; auto. rewrite <- SQ; auto.
Qed.

Lemma ex_A_facts : let A := csr_of 3 3 [0; 1; 0; 1; 2; 1; 2] [0; 2; 5; 7] [4; -1; -1; 4; -1; -1; 4]%R in
  csr_wf A /\ square A /\ good_diagonal (1 / 1000) A /\
  (forall r, 0 <= r < m_rows A -> NoDup (map fst (row_entries A r))).
Proof.
  intros A.
  assert (R3 : forall r, 0 <= r < m_rows A -> r = 0 \/ r = 1 \/ r = 2) by (simpl; intros; lia).
  split; [|split; [reflexivity|split]].
  - unfold csr_wf. split; [simpl; lia|]. split; [simpl; lia|]. do 3 (split; [reflexivity|]). split.
    + intros r Hr. destruct (R3 r Hr) as [-> | [-> | ->]].
      * exists 0, 2. repeat split; unfold zlen; simpl; lia.
      * exists 2, 5. repeat split; unfold zlen; simpl; lia.
      * exists 5, 7. repeat split; unfold zlen; simpl; lia.
    + intros j c H. apply zget_in in H. simpl in *. lia.
  - split; [|split; [lra|]].
    + intros r Hr. exists 4%R. destruct (R3 r Hr) as [-> | [-> | ->]]; reflexivity.
    + intros r Hr.
      assert (dense A r r = 4%R) as ->.
      { apply diag_dense. destruct (R3 r Hr) as [-> | [-> | ->]]; reflexivity. }
      rewrite Rabs_right; lra.
  - intros r Hr. destruct (R3 r Hr) as [-> | [-> | ->]]; cbv; repeat constructor; simpl; intuition lia.
Qed.

Lemma ex_A_off : let A := csr_of 3 3 [0; 1; 0; 1; 2; 1; 2] [0; 2; 5; 7] [4; -1; -1; 4; -1; -1; 4]%R in
  forall r, 0 <= r < m_rows A -> (0 < off_abs A r)%R /\ (Rabs (dense A r r) / off_abs A r < 1000)%R.
Proof.
  intros A r Hr. destruct ex_A_facts as (WF & _ & GD & ND).
  assert (R3 : r = 0 \/ r = 1 \/ r = 2) by (simpl in Hr; lia).
  assert (dense A r r = 4%R) as ->.
  { apply diag_dense. destruct R3 as [-> | [-> | ->]]; reflexivity. }
  rewrite Rabs_right by lra.
  rewrite <- (off_abs_entries A r WF Hr (ND r Hr)).
  assert (A1 : Rabs (-1) = 1%R) by (rewrite Rabs_left; lra).
  destruct R3 as [-> | [-> | ->]].
  - change (row_entries A 0) with [(0, 4%R); (1, (-1)%R)]. simpl. rewrite A1. lra.
  - change (row_entries A 1) with [(0, (-1)%R); (1, 4%R); (2, (-1)%R)]. simpl. rewrite A1. lra.
  - change (row_entries A 2) with [(1, (-1)%R); (2, 4%R)]. simpl. rewrite A1. lra.
Qed.

Lemma pf_C31_matvec :
  forall (A : csr R) (x b : list R) (u : Z -> R),
  csr_wf A -> holds1 (m_cols A) x u -> zlen b = m_rows A ->
  exists b', matvec A x b = Ok b' /\
    schedule_independent (map (matvec_body A) (zrange 0 (m_rows A))) [m_vals A; x; b] [m_vals A; x; b'] /\
    holds1 (m_rows A) b' (fun r => sum1 (m_cols A) (fun c => dense A r c * u c)%R).
Proof.
  intros A x b u WF Hx Lb. destruct (matvec_R A x b u WF Hx Lb) as (b' & SI & E & H). exists b'. auto.
Qed.

Lemma pf_C31_matvec_rounded :
  forall (V : Type) (N : Num V) (A : csr V) (x b : list V) (u : Z -> V),
  csr_wf A -> holds1 (m_cols A) x u -> zlen b = m_rows A ->
  exists b', matvec A x b = Ok b' /\
    holds1 (m_rows A) b' (fun r =>
      fold_left (fun s e => (s + snd e * u (fst e))%num) (row_entries A r) (nint 0)).
Proof.
  intros V N A x b u WF Hx Lb. destruct (matvec_loop A x b u WF Hx ltac:(lia)) as (b' & SI & E & L & T & F).
  exists b'. split; auto. split; [lia|exact T].
Qed.

Lemma pf_C31_residual :
  forall (A : csr R) (x b : list R) (u f : Z -> R),
  csr_wf A -> square A -> 1 <= m_rows A ->
  holds1 (m_cols A) x u -> holds1 (m_rows A) b f ->
  (exists v A', rms_norm A x b v A') /\
  forall v A', rms_norm A x b v A' ->
    v = sqrt (sum1 (m_rows A) (fun r => (mul_vec A u r - f r) * (mul_vec A u r - f r)) / IZR (m_rows A))%R /\
    (v = 0%R <-> solves A u f) /\ m_vals A' = m_vals A.
Proof.
  intros A x b u f WF SQ H1 Hx Hb. destruct (rms_R A x b u f WF SQ Hx Hb) as (EX & ALL). split; auto.
  intros v A' H. destruct (ALL v A' H) as (-> & EV & _). split; auto. split; auto.
  assert (0 < IZR (m_rows A))%R as P by (apply IZR_lt; lia).
  assert (0 <= sum1 (m_rows A) (fun r => (mul_vec A u r - f r) * (mul_vec A u r - f r)))%R as NN
    by (apply sum1_nonneg; intros i _; apply (Rle_0_sqr (mul_vec A u i - f i))).
  split.
  - intros S. apply sqrt_eq_0 in S.
    2:{ unfold Rdiv. apply Rmult_le_pos; auto. left. apply Rinv_0_lt_compat; auto. }
    assert (sum1 (m_rows A) (fun r => (mul_vec A u r - f r) * (mul_vec A u r - f r)) = 0)%R as S0.
    { replace 0%R with (0 * IZR (m_rows A))%R by lra. rewrite <- S. field. apply Rgt_not_eq. exact P. }
    intros r Hr. pose proof (sum1_sq_zero _ (fun r => mul_vec A u r - f r)%R S0 r Hr). cbv beta in *. lra.
  - intros S. rewrite (sum1_ext _ _ (fun _ => 0%R)).
    + rewrite sum1_const by lia. replace (IZR (m_rows A) * 0 / IZR (m_rows A))%R with 0%R by (field; apply Rgt_not_eq; exact P). apply sqrt_0.
    + intros r Hr. rewrite (S r Hr). lra.
Qed.

Lemma pf_C32_split :
  forall (meps : R) (A : csr R),
  csr_wf A -> one_diagonal A ->
  exists L, ldu_of meps A = Ok L /\
    csr_wf (l_lower L) /\ csr_wf (l_upper L) /\
    holds1 (m_rows A) (l_diag L) (fun r => dense A r r) /\
    (forall r c, 0 <= r < m_rows A ->
       dense (l_lower L) r c = (if c <? r then dense A r c else 0%R) /\
       dense (l_upper L) r c = (if r <? c then dense A r c else 0%R)).
Proof.
  intros meps A WF O. destruct (ldu_ok meps A WF (fun r => dense A r r)) as (L & E & _ & _ & WL & WU & _ & _ & _ & _ & HD & _ & _ & _ & RE).
  { intros r Hr. destruct (O r Hr) as (d & D). rewrite (diag_dense A r d D). auto. }
  exists L. split; auto. split; auto. split; auto. split; auto. intros r c Hr. destruct (RE r Hr) as (E1 & E2).
  unfold dense. rewrite E1, E2. unfold lowE, uppE. clear.
  split; induction (row_entries A r) as [|e l IH]; cbn [filter map Rsum fold_right].
  - destruct (c <? r); reflexivity.
  - destruct (Z.ltb_spec (fst e) r), (Z.eqb_spec (fst e) c), (Z.ltb_spec c r); try lia; cbn [filter];
      try (destruct (Z.eqb_spec (fst e) c); try lia); cbn [map Rsum fold_right]; unfold Rsum in *; rewrite ?IH; auto.
  - destruct (r <? c); reflexivity.
  - destruct (Z.ltb_spec r (fst e)), (Z.eqb_spec (fst e) c), (Z.ltb_spec r c); try lia; cbn [filter];
      try (destruct (Z.eqb_spec (fst e) c); try lia); cbn [map Rsum fold_right]; unfold Rsum in *; rewrite ?IH; auto.
Qed.

Lemma pf_C32_matvec :
  forall (meps : R) (A : csr R) (x b b2 : list R) (u : Z -> R),
  csr_wf A -> square A -> one_diagonal A ->
  holds1 (m_cols A) x u -> zlen b = m_rows A -> zlen b2 = m_rows A ->
  exists L b', ldu_of meps A = Ok L /\ ldu_matvec L x b = Ok b' /\ matvec A x b2 = Ok b' /\
    schedule_independent (map (ldu_matvec_body L) (zrange 0 (l_rows L)))
      (ldu_matvec_mem L x b) (ldu_matvec_mem L x b') /\
    holds1 (m_rows A) b' (mul_vec A u).
Proof.
  intros meps A x b b2 u WF SQ O Hx Lb Lb2. red in SQ.
  destruct (ldu_ok meps A WF (fun r => dense A r r)) as (L & E & LR & LC & WL & WU & R1 & C1 & R2 & C2 & HD & HI & T1 & T2 & RE).
  { intros r Hr. destruct (O r Hr) as (d & D). rewrite (diag_dense A r d D). auto. }
  destruct (ldu_matvec_loop L x b u (fun r => dense A r r)) as (b' & SI & EM & LL & T & F);
    [exact WL|exact WU|congruence|congruence|congruence|congruence|congruence
    |rewrite LR; exact HD|rewrite LC; exact Hx|lia|].
  destruct (matvec_R A x b2 u WF Hx Lb2) as (b3 & _ & E3 & L3 & H3).
  assert (HB : holds1 (m_rows A) b' (mul_vec A u)).
  { split; [lia|]. intros r Hr. rewrite T by lia. f_equal. destruct (RE r Hr) as (Q1 & Q2). rewrite Q1, Q2.
    destruct (O r Hr) as (d & D). pose proof (diag_dense A r d D) as DD.
    rewrite !row_product_R. rewrite (mul_vec_split A u r d D) by lia.
    rewrite <- (three_way A u r d WF Hr ltac:(lia) D). rewrite DD. simpl. lra. }
  exists L, b'. split; auto. split; auto. split; [|split; auto].
  rewrite E3. f_equal. apply zget_ext; [destruct HB; lia|]. intros i Hi. rewrite H3 by lia.
  symmetry. apply HB. lia.
Qed.

Lemma pf_C32_residual :
  forall (meps : R) (A : csr R) (x b : list R) (u f : Z -> R),
  csr_wf A -> square A -> one_diagonal A -> 1 <= m_rows A ->
  holds1 (m_cols A) x u -> holds1 (m_rows A) b f ->
  exists L, ldu_of meps A = Ok L /\
  (exists v L', ldu_rms_norm L x b v L') /\
  forall v L', ldu_rms_norm L x b v L' ->
    v = sqrt (sum1 (m_rows A) (fun r => (mul_vec A u r - f r) * (mul_vec A u r - f r)) / IZR (m_rows A))%R /\
    (v = 0%R <-> solves A u f).
Proof.
  intros meps A x b u f WF SQ O H1 Hx Hb. pose proof (pf_C31_residual A x b u f WF SQ H1 Hx Hb) as (EX & ALL).
  destruct (ldu_ok meps A WF (fun r => dense A r r)) as (L & E & _ & _ & _ & _ & _ & _ & _ & _ & _ & _ & T1 & _).
  { intros r Hr. destruct (O r Hr) as (d & D). rewrite (diag_dense A r d D). auto. }
  destruct (pf_C32_matvec meps A x (l_tmp L) (m_tmp A) u WF SQ O Hx) as (L2 & b' & E2 & EM & EA & _ & _).
  { red in SQ. lia. }
  { red in SQ. rewrite SQ. apply WF. }
  rewrite E in E2. injection E2 as <-. exists L. split; [exact E|]. split.
  - destruct EX as (v & A' & t & cs & total & Q1 & Q2 & Q3 & Q4 & Q5). rewrite EA in Q1. injection Q1 as <-.
    exists v, (ldu_set_tmp L b' (l_tmp2 L)), b', cs, total. auto.
  - intros v L' (t & cs & total & Q1 & Q2 & Q3 & Q4 & Q5). rewrite EM in Q1. injection Q1 as <-.
    destruct (ALL v (set_tmp A b')) as (A1 & A2 & _); [|auto]. exists b', cs, total. auto.
Qed.

Lemma pf_C32_jacobi :
  forall (meps : R) (A : csr R) (x b : list R) (u f : Z -> R) (w : R),
  csr_wf A -> square A -> good_diagonal meps A ->
  holds1 (m_cols A) x u -> holds1 (m_rows A) b f ->
  exists L x' L' x'' L'', ldu_of meps A = Ok L /\
    ldu_jacobi meps L x b w = Ok (x', L') /\ holds1 (m_rows A) x' (jacobi_update A w u f) /\
    ldu_jacobi_cached L x b w = Ok (x'', L'') /\ holds1 (m_rows A) x'' (jacobi_update A w u f).
Proof.
  intros meps A x b u f w WF SQ GD Hx Hb. destruct (good_diag meps A WF SQ GD) as (d & DG & DE). red in SQ.
  destruct (ldu_ok meps A WF d DG) as (L & E & LR & LC & WL & WU & R1 & C1 & R2 & C2 & HD & HI & T1 & T2 & RE).
  destruct (matvec_loop (l_lower L) x (l_tmp L) u WL) as (lx & _ & EL & LL & TL & _); [rewrite C1; auto|lia|].
  destruct (matvec_loop (l_upper L) x (l_tmp2 L) u WU) as (ux & _ & EU & LU & TU & _); [rewrite C2; auto|lia|].
  assert (Hx' : holds1 (m_rows A) x u) by (rewrite SQ; auto).
  rewrite R1 in TL. rewrite R2 in TU.
  destruct (ldu_jacobi_loop meps w lx ux x (l_diag L) b _ _ u d f (m_rows A) Hx' HD Hb ltac:(lia) ltac:(lia) TL TU)
    as (x' & _ & EJ & HJ).
  destruct (ldu_cached_loop w lx ux x (l_dinv L) b _ _ u _ f (m_rows A) Hx' HI Hb ltac:(lia) ltac:(lia) TL TU)
    as (x'' & _ & EC & HC).
  exists L, x', (ldu_set_tmp L lx ux), x'', (ldu_set_tmp L lx ux). split; auto.
  assert (OFF : forall r, 0 <= r < m_rows A -> (f r - row_product u (row_entries (l_lower L) r) (nint 0)
     - row_product u (row_entries (l_upper L) r) (nint 0) = f r - off_mul_vec A u r)%R).
  { intros r Hr. destruct (RE r Hr) as (Q1 & Q2). rewrite Q1, Q2, !row_product_R.
    rewrite <- (three_way A u r (d r) WF Hr ltac:(lia) (DG r Hr)). simpl. lra. }
  assert (ND : forall r, 0 <= r < m_rows A -> d r = dense A r r /\ clip_diag meps (d r) = d r /\ d r <> 0%R).
  { intros r Hr. destruct (DE r Hr) as (D1 & D2). split; auto. split; [apply clip_big; lra|].
    intros Z0. rewrite Z0, Rabs_R0 in D2. lra. }
  split. { unfold ldu_jacobi. rewrite EL. cbn [rbind]. rewrite EU. cbn [rbind]. rewrite LR, EJ. reflexivity. }
  split. { eapply holds1_ext; [exact HJ|]. intros r Hr. cbv beta. destruct (ND r Hr) as (D1 & D2 & D3).
    rewrite D2. unfold jacobi_update. rewrite <- D1. simpl. pose proof (OFF r Hr) as OF. simpl in OF. rewrite OF.
    destruct (Reqb w 1) eqn:EW; [apply Reqb_spec in EW; subst|]; field; auto. }
  split. { unfold ldu_jacobi_cached. rewrite EL. cbn [rbind]. rewrite EU. cbn [rbind]. rewrite LR, EC. reflexivity. }
  eapply holds1_ext; [exact HC|]. intros r Hr. cbv beta. destruct (ND r Hr) as (D1 & D2 & D3).
  rewrite D2. unfold jacobi_update. rewrite <- D1. simpl. pose proof (OFF r Hr) as OF. simpl in OF. rewrite OF.
  destruct (Reqb w 1) eqn:EW; [apply Reqb_spec in EW; subst|]; field; auto.
Qed.

Lemma pf_C32_missing_diagonal_refuted :
  (exists (A : csr Q) (L : ldu Q), csr_wf A /\ square A /\
     @ldu_of Q Num_Q (1 # 1000) A = Ok L /\
     @matvec Q Num_Q A [1#1; 1#1] [0#1; 0#1] = Ok [1#1; 1#1] /\
     @ldu_matvec Q Num_Q L [1#1; 1#1] [0#1; 0#1] = UB) /\
  (exists (A : csr Q) (L : ldu Q), csr_wf A /\ square A /\
     @ldu_of Q Num_Q (1 # 1000) A = Ok L /\
     @matvec Q Num_Q A [1#1; 1#1] [0#1; 0#1] = Ok [5#1; 1#1] /\
     @ldu_matvec Q Num_Q L [1#1; 1#1] [0#1; 0#1] = Ok [2#1; 4#1]).
Proof.
  assert (W : forall (v : list Q) (col : list Z) (row : list Z),
    zlen col = zlen v -> row = [0; zlen v - 1; zlen v] -> 1 <= zlen v -> (forall c, In c col -> 0 <= c < 2) ->
    csr_wf (@csr_of Q Num_Q 2 2 col row v)).
  { intros v col row L -> B C. unfold csr_wf. cbn [csr_of m_rows m_cols m_row m_col m_vals m_tmp].
    split; [lia|]. split; [lia|]. split; [reflexivity|]. split; [auto|]. split; [reflexivity|]. split.
    - intros r Hr. assert (r = 0 \/ r = 1) as [-> | ->] by lia.
      + exists 0, (zlen v - 1). repeat split; lia.
      + exists (zlen v - 1), (zlen v). repeat split; lia.
    - intros j c H. apply zget_in in H. auto. }
  split.
  - set (A := @csr_of Q Num_Q 2 2 [1; 0] [0; 1; 2] [1#1; 1#1]).
    exists A. destruct (@ldu_of Q Num_Q (1 # 1000) A) as [L| | |] eqn:E; try (vm_compute in E; discriminate).
    exists L. split; [apply W; unfold zlen; simpl; auto; try lia; intros; lia|]. split; [reflexivity|]. split; [auto|].
    vm_compute in E. injection E as <-. split; vm_compute; reflexivity.
  - set (A := @csr_of Q Num_Q 2 2 [0; 0; 0] [0; 2; 3] [2#1; 3#1; 1#1]).
    exists A. destruct (@ldu_of Q Num_Q (1 # 1000) A) as [L| | |] eqn:E; try (vm_compute in E; discriminate).
    exists L. split; [apply W; unfold zlen; simpl; auto; try lia; intros; lia|]. split; [reflexivity|]. split; [auto|].
    vm_compute in E. injection E as <-. split; vm_compute; reflexivity.
Qed.

Lemma pf_C33_jacobi :
  forall (meps : R) (A : csr R) (x b : list R) (u f : Z -> R) (w : R) (n : nat),
  csr_wf A -> square A -> good_diagonal meps A ->
  holds1 (m_cols A) x u -> holds1 (m_rows A) b f ->
  exists x' A', sweeps (fun A x => jacobi meps A x b w) n A x = Ok (x', A') /\
    holds1 (m_rows A) x' (Nat.iter n (fun v => jacobi_update A w v f) u).
Proof.
  intros. eapply jacobi_sweeps_R; eauto.
Qed.

Lemma pf_C33_cached :
  forall (meps : R) (A : csr R) (x b : list R) (u f : Z -> R) (w : R) (n : nat),
  csr_wf A -> square A -> good_diagonal meps A -> cache_matches A ->
  holds1 (m_cols A) x u -> holds1 (m_rows A) b f ->
  exists x' A', sweeps (fun A x => jacobi_cached meps A x b w) n A x = Ok (x', A') /\
    holds1 (m_rows A) x' (Nat.iter n (fun v => jacobi_update A w v f) u).
Proof.
  intros. eapply cached_sweeps_R; eauto.
Qed.

Lemma pf_C33_fixed_point :
  forall (meps : R) (A : csr R) (x b : list R) (u f : Z -> R) (w : R),
  csr_wf A -> square A -> good_diagonal meps A -> w <> 0%R ->
  holds1 (m_cols A) x u -> holds1 (m_rows A) b f ->
  (exists x' A', jacobi meps A x b w = Ok (x', A') /\ (x' = x <-> solves A u f)) /\
  (solves A u f -> forall n, exists A', sweeps (fun A x => jacobi meps A x b w) n A x = Ok (x, A')).
Proof.
  intros meps A x b u f w WF SQ GD Nw Hx Hb. destruct (good_diag meps A WF SQ GD) as (d & DG & DE).
  destruct (jacobi_step_R meps A x b u f w WF SQ GD Hx Hb) as (x1 & E1 & _ & L1 & H1). red in SQ. destruct Hx as (Lx & Gx).
  assert (FX : forall r, 0 <= r < m_rows A -> (jacobi_update A w u f r = u r <-> mul_vec A u r = f r)).
  { intros r Hr. apply (jacobi_fixed A w u f r (d r)); auto; try lia. intros Z0. destruct (DE r Hr) as (_ & B).
    rewrite Z0, Rabs_R0 in B. lra. }
  assert (P1 : x1 = x <-> solves A u f).
  { split.
    - intros -> r Hr. apply FX; auto. pose proof (H1 r Hr) as Q1. pose proof (Gx r ltac:(lia)) as Q2. congruence.
    - intros S. apply zget_ext; [lia|]. intros i Hi. rewrite H1, Gx by lia. f_equal. apply FX; [lia|]. apply S. lia. }
  split; [exists x1, (set_tmp A x); auto|].
  intros S n. revert A WF SQ GD DG DE Lx Gx E1 L1 H1 FX P1 S Hb.
  assert (G : forall n (A : csr R), csr_wf A -> square A -> good_diagonal meps A -> holds1 (m_cols A) x u ->
     holds1 (m_rows A) b f -> solves A u f ->
     exists A', sweeps (fun A x => jacobi meps A x b w) n A x = Ok (x, A')).
  { clear - Nw. induction n as [|n IH]; intros A WF SQ GD Hx Hb S; cbn [sweeps]; [eauto|].
    destruct (jacobi_step_R meps A x b u f w WF SQ GD Hx Hb) as (x1 & E1 & _ & L1 & H1).
    destruct (good_diag meps A WF SQ GD) as (d & DG & DE). pose proof Hx as (Lx & Gx). pose proof SQ as SQ'. red in SQ'.
    assert (x1 = x) as ->.
    { apply zget_ext; [lia|]. intros i Hi. rewrite H1, Gx by lia. f_equal.
      apply (jacobi_fixed A w u f i (d i)); auto; try lia; [apply DG; lia| |apply S; lia].
      intros Z0. destruct (DE i ltac:(lia)) as (_ & B). rewrite Z0, Rabs_R0 in B. lra. }
    rewrite E1. cbn [rbind fst snd]. apply IH; auto. apply wf_set_tmp; auto. }
  intros. apply G; auto. split; auto.
Qed.

Lemma pf_C33_stale_cache_refuted :
  exists (A A1 : csr Q) (x1 : list Q),
    @jacobi_cached Q Num_Q (1 # 1000) A [0#1] [6#1] (1#1) = Ok (x1, A1) /\ x1 = [3#1] /\
    let A2 := set_values_kept_ref A1 [4#1] in
    csr_wf A2 /\
    (exists B, @jacobi Q Num_Q (1 # 1000) A2 [0#1] [8#1] (1#1) = Ok ([2#1], B)) /\
    (exists B, @jacobi_cached Q Num_Q (1 # 1000) A2 [0#1] [8#1] (1#1) = Ok ([4#1], B)).
Proof.
  set (A := @csr_of Q Num_Q 1 1 [0] [0; 1] [2#1]).
  destruct (@jacobi_cached Q Num_Q (1 # 1000) A [0#1] [6#1] (1#1)) as [(x1, A1)| | |] eqn:E; try (vm_compute in E; discriminate).
  exists A, A1, x1. split; auto. vm_compute in E. injection E as <- <-. split; auto. cbv zeta. split; [|split; eexists; vm_compute; reflexivity].
  unfold csr_wf. cbn [set_values_kept_ref m_rows m_cols m_row m_col m_vals m_tmp].
  split; [lia|]. split; [lia|]. split; [reflexivity|]. split; [reflexivity|]. split; [reflexivity|]. split.
  - intros r Hr. assert (r = 0) as -> by lia. exists 0, 1. repeat split; unfold zlen; simpl; lia.
  - intros j c H. apply zget_in in H. simpl in H. lia.
Qed.

Lemma pf_C33_missing_diagonal_refuted :
  exists A : csr Q, csr_wf A /\ square A /\
    @jacobi Q Num_Q (1 # 1000) A [1#1; 1#1] [0#1; 0#1] (1#1) = UB.
Proof.
  exists (@csr_of Q Num_Q 2 2 [1; 1] [0; 1; 2] [1#1; 1#1]). split; [|split; [reflexivity|vm_compute; reflexivity]].
  unfold csr_wf. cbn [csr_of m_rows m_cols m_row m_col m_vals m_tmp].
  split; [lia|]. split; [lia|]. split; [reflexivity|]. split; [reflexivity|]. split; [reflexivity|]. split.
  - intros r Hr. assert (r = 0 \/ r = 1) as [-> | ->] by lia.
    + exists 0, 1. repeat split; unfold zlen; simpl; lia.
    + exists 1, 2. repeat split; unfold zlen; simpl; lia.
  - intros j c H. apply zget_in in H. simpl in H. lia.
Qed.

Lemma pf_C34_row_scaling :
  forall (A : csr R) (sc : list R) (s : Z -> R),
  csr_wf A -> holds1 (m_rows A) sc s ->
  exists A', scale_rows A sc = Ok A' /\
    csr_wf A' /\ m_rows A' = m_rows A /\ m_cols A' = m_cols A /\ m_dirty A' = true /\
    (forall r c, 0 <= r < m_rows A -> dense A' r c = (s r * dense A r c)%R) /\
    ((forall r, 0 <= r < m_rows A -> s r <> 0%R) ->
     forall u f, solves A' u (fun r => s r * f r)%R <-> solves A u f).
Proof.
  intros A sc s WF Hs. destruct (scale_loop A sc s WF Hs) as (vals' & SI & E & L & T & F).
  exists (set_values A vals'). split; auto.
  assert (WF' : csr_wf (set_values A vals')) by (unfold csr_wf in *; simpl; rewrite L; auto).
  pose proof (fun r Hr => scaled_dense A vals' s r WF Hr L T) as D.
  split; auto. split; auto. split; auto. split; auto. split; [intros; apply D; auto|].
  intros NZ u f.
  assert (M : forall r, 0 <= r < m_rows A -> mul_vec (set_values A vals') u r = (s r * mul_vec A u r)%R).
  { intros r Hr. unfold mul_vec. cbn [set_values m_cols]. rewrite <- sum1_scal. apply sum1_ext. intros c Hc.
    rewrite D by auto. lra. }
  split; intros S r Hr.
  - pose proof (S r Hr) as Q. rewrite M in Q by auto. apply (Rmult_eq_reg_l (s r)); auto.
  - change (m_rows (set_values A vals')) with (m_rows A) in Hr. rewrite M by auto. rewrite S by auto. reflexivity.
Qed.

Lemma pf_C35_dominance :
  forall (vmax : R) (A : csr R),
  csr_wf A -> 1 <= m_rows A ->
  (forall r, 0 <= r < m_rows A -> NoDup (map fst (row_entries A r))) ->
  (forall r, 0 <= r < m_rows A -> (0 < off_abs A r)%R) ->
  (forall r, 0 <= r < m_rows A -> (Rabs (dense A r r) / off_abs A r < vmax)%R) ->
  (exists v, diagonal_dominance vmax A v) /\
  forall v, diagonal_dominance vmax A v ->
    (exists r, 0 <= r < m_rows A /\ v = (Rabs (dense A r r) / off_abs A r)%R) /\
    (forall r, 0 <= r < m_rows A -> (v <= Rabs (dense A r r) / off_abs A r)%R) /\
    ((1 < v)%R <-> forall r, 0 <= r < m_rows A -> (off_abs A r < Rabs (dense A r r))%R).
Proof.
  intros vmax A WF H1 ND OP VM.
  assert (LR : zlen (m_row A) - 1 = m_rows A) by (destruct WF as (_ & _ & L & _); lia).
  assert (C : map_res (dominance_term A) (zrange 0 (zlen (m_row A) - 1))
     = Ok (map (fun r => Rabs (dense A r r) / off_abs A r)%R (zrange 0 (zlen (m_row A) - 1)))).
  { apply map_res_ok. intros r Hr. apply in_zrange in Hr. rewrite LR in Hr. apply dom_term; auto. }
  split.
  - destruct (reduction_exists (V:=R) nmin vmax vmax
      (map (fun r => Rabs (dense A r r) / off_abs A r)%R (zrange 0 (zlen (m_row A) - 1)))) as (v & Hv).
    exists v. eexists. split; [exact C|exact Hv].
  - intros v (cs & E & RD). assert (cs = map (fun r => Rabs (dense A r r) / off_abs A r)%R (zrange 0 (zlen (m_row A) - 1))) as -> by congruence.
    apply reduction_min in RD as (IN & LB). rewrite LR in *.
    assert (B : forall r, 0 <= r < m_rows A -> (v <= Rabs (dense A r r) / off_abs A r)%R).
    { intros r Hr. apply LB. right. apply in_map_iff. exists r. split; auto. apply in_zrange; auto. }
    assert (EX : exists r, 0 <= r < m_rows A /\ v = (Rabs (dense A r r) / off_abs A r)%R).
    { destruct IN as [<-|IN].
      - exfalso. pose proof (B 0 ltac:(lia)). pose proof (VM 0 ltac:(lia)). lra.
      - apply in_map_iff in IN as (r & <- & Hr). apply in_zrange in Hr. eauto. }
    split; auto. split; auto.
    assert (EQ : forall r, 0 <= r < m_rows A -> (1 < Rabs (dense A r r) / off_abs A r)%R <-> (off_abs A r < Rabs (dense A r r))%R).
    { intros r Hr. pose proof (OP r Hr) as P. split; intros H.
      - apply (Rmult_lt_compat_r (off_abs A r)) in H; auto. unfold Rdiv in H. rewrite Rmult_assoc, Rinv_l in H by lra. lra.
      - apply (Rmult_lt_reg_r (off_abs A r)); auto. unfold Rdiv. rewrite Rmult_assoc, Rinv_l by lra. lra. }
    split.
    + intros H r Hr. apply EQ; auto. pose proof (B r Hr). lra.
    + intros H. destruct EX as (r & Hr & ->). apply EQ; auto.
Qed.

Lemma pf_C13_matrix :
  forall (V : Type) (N : Num V) (meps w : V) (A : csr V) (x b sc : list V),
  csr_wf A -> square A -> one_diagonal A ->
  zlen x = m_cols A -> zlen b = m_rows A -> zlen sc = m_rows A ->
  (exists b', schedule_independent (map (matvec_body A) (zrange 0 (m_rows A)))
     [m_vals A; x; b] [m_vals A; x; b']) /\
  (exists x', schedule_independent (map (jacobi_body meps A w) (zrange 0 (m_rows A)))
     [m_vals A; x; b; m_tmp A] [m_vals A; x; b; x']) /\
  (exists d, schedule_independent (map (diag_body meps A) (zrange 0 (m_rows A)))
     [m_vals A; fresh (m_rows A)] [m_vals A; d]) /\
  (exists v', schedule_independent (map (scale_body A) (zrange 0 (m_rows A)))
     [m_vals A; sc] [v'; sc]).
Proof.
  intros V N meps w A x b sc WF SQ O Lx Lb Ls.
  pose proof (holds1_self (nint 0) x) as Hx. pose proof (holds1_self (nint 0) b) as Hb. pose proof (holds1_self (nint 0) sc) as Hs.
  rewrite Lx in Hx. rewrite Lb in Hb. rewrite Ls in Hs.
  assert (D : forall r, 0 <= r < m_rows A -> diag_entry A r
     (match filter (fun e => fst e =? r) (row_entries A r) with (_, v) :: _ => v | [] => nint 0 end)).
  { intros r Hr. destruct (O r Hr) as (d & Hd). red in Hd |- *. rewrite Hd. reflexivity. }
  split; [|split; [|split]].
  - destruct (matvec_loop A x b _ WF Hx ltac:(lia)) as (b' & SI & _). eauto.
  - destruct (jacobi_loop meps A x b _ _ w _ WF SQ D Hx Hb) as (x' & SI & _). eauto.
  - destruct (refresh_loop meps A _ WF D) as (d & SI & _). eauto.
  - destruct (scale_loop A sc _ WF Hs) as (v' & SI & _). eauto.
Qed.
