(** Sparse matrices: C31 to C35, and C13 for the matrix kernels.

    [meps] stands for numeric_limits::epsilon() and [vmax] for numeric_limits::max().
    [dense A r c] is the matrix as a function, [mul_vec] its product with a vector,
    [off_mul_vec] the product with the diagonal left out (SpecMatrix.v). *)
From Coq Require Import ZArith QArith List Reals.
From Verif Require Import Outcome ZList Num Kernel SpecGrid ModelCSR ModelLDU SpecField SpecMatrix
  ExampleNum CSRFinal.
Import ListNotations.
Local Open Scope Z_scope.

(** The matrix of the examples: rows (4, -1, 0), (-1, 4, -1), (0, -1, 4). *)
Definition ex_A : csr R :=
  csr_of 3 3 [0; 1; 0; 1; 2; 1; 2] [0; 2; 5; 7] [4; -1; -1; 4; -1; -1; 4]%R.

Example ex_A_wf : csr_wf ex_A /\ square ex_A /\ good_diagonal (1 / 1000) ex_A /\
  (forall r, 0 <= r < m_rows ex_A -> NoDup (map fst (row_entries ex_A r))).
Proof. exact ex_A_facts. Qed.

(** C31: for a well-formed CSR matrix, [matVecMultiply] writes in every row the dense product
    (exact arithmetic), under every schedule of its row loop. *)
Theorem C31_matvec :
  forall (A : csr R) (x b : list R) (u : Z -> R),
  csr_wf A -> holds1 (m_cols A) x u -> zlen b = m_rows A ->
  exists b', matvec A x b = Ok b' /\
    schedule_independent (map (matvec_body A) (zrange 0 (m_rows A))) [m_vals A; x; b] [m_vals A; x; b'] /\
    holds1 (m_rows A) b' (fun r => sum1 (m_cols A) (fun c => dense A r c * u c)%R).
Proof. exact pf_C31_matvec. Qed.
Print Assumptions C31_matvec.

(** C31, for any arithmetic (hence bit for bit for doubles): row r of the product is the
    left-to-right sum of the stored entries of row r, started from zero. *)
Theorem C31_matvec_rounded :
  forall (V : Type) (N : Num V) (A : csr V) (x b : list V) (u : Z -> V),
  csr_wf A -> holds1 (m_cols A) x u -> zlen b = m_rows A ->
  exists b', matvec A x b = Ok b' /\
    holds1 (m_rows A) b' (fun r =>
      fold_left (fun s e => (s + snd e * u (fst e))%num) (row_entries A r) (nint 0)).
Proof. exact pf_C31_matvec_rounded. Qed.
Print Assumptions C31_matvec_rounded.

Example C31_matvec_nonvacuous : csr_wf ex_A /\ holds1 (m_cols ex_A) [1; 2; 3]%R (fun i => IZR (i + 1)) /\
  zlen [0; 0; 0]%R = m_rows ex_A /\ dense ex_A 1 2 = (-1)%R /\ dense ex_A 0 2 = 0%R.
Proof.
  split; [apply ex_A_wf|]. split; [|split; [reflexivity|split; apply Rplus_0_r || reflexivity]].
  split; [reflexivity|]. intros i Hi. change (m_cols ex_A) with 3 in Hi.
  assert (i = 0 \/ i = 1 \/ i = 2) as [-> | [-> | ->]] by (destruct i as [|[|[]|]|]; auto; destruct Hi; try discriminate; lia).
  all: reflexivity.
Qed.

(** C31: the residual norm of a square system always exists, is the root mean square of
    A x - b whatever the order of the reduction, and is zero exactly when A x = b. *)
Theorem C31_residual :
  forall (A : csr R) (x b : list R) (u f : Z -> R),
  csr_wf A -> square A -> 1 <= m_rows A ->
  holds1 (m_cols A) x u -> holds1 (m_rows A) b f ->
  (exists v A', rms_norm A x b v A') /\
  forall v A', rms_norm A x b v A' ->
    v = sqrt (sum1 (m_rows A) (fun r => (mul_vec A u r - f r) * (mul_vec A u r - f r)) / IZR (m_rows A))%R /\
    (v = 0%R <-> solves A u f) /\ m_vals A' = m_vals A.
Proof. exact pf_C31_residual. Qed.
Print Assumptions C31_residual.

(** C32: the LDU constructor puts the entries left of the diagonal in the lower part, those
    right of it in the upper part and the diagonal in its own array. *)
Theorem C32_split :
  forall (meps : R) (A : csr R),
  csr_wf A -> one_diagonal A ->
  exists L, ldu_of meps A = Ok L /\
    csr_wf (l_lower L) /\ csr_wf (l_upper L) /\
    holds1 (m_rows A) (l_diag L) (fun r => dense A r r) /\
    (forall r c, 0 <= r < m_rows A ->
       dense (l_lower L) r c = (if c <? r then dense A r c else 0%R) /\
       dense (l_upper L) r c = (if r <? c then dense A r c else 0%R)).
Proof. exact pf_C32_split. Qed.
Print Assumptions C32_split.

(** C32: when every row stores exactly one diagonal entry, the LDU product and the CSR product
    are the same array (exact arithmetic), under every schedule. *)
Theorem C32_matvec :
  forall (meps : R) (A : csr R) (x b b2 : list R) (u : Z -> R),
  csr_wf A -> square A -> one_diagonal A ->
  holds1 (m_cols A) x u -> zlen b = m_rows A -> zlen b2 = m_rows A ->
  exists L b', ldu_of meps A = Ok L /\ ldu_matvec L x b = Ok b' /\ matvec A x b2 = Ok b' /\
    schedule_independent (map (ldu_matvec_body L) (zrange 0 (l_rows L)))
      (ldu_matvec_mem L x b) (ldu_matvec_mem L x b') /\
    holds1 (m_rows A) b' (mul_vec A u).
Proof. exact pf_C32_matvec. Qed.
Print Assumptions C32_matvec.

(** C32: the residual norm of the split matrix always exists, is the root mean square of A x - b
    whatever the order of the reduction, and is zero exactly when A x = b. *)
Theorem C32_residual :
  forall (meps : R) (A : csr R) (x b : list R) (u f : Z -> R),
  csr_wf A -> square A -> one_diagonal A -> 1 <= m_rows A ->
  holds1 (m_cols A) x u -> holds1 (m_rows A) b f ->
  exists L, ldu_of meps A = Ok L /\
  (exists v L', ldu_rms_norm L x b v L') /\
  forall v L', ldu_rms_norm L x b v L' ->
    v = sqrt (sum1 (m_rows A) (fun r => (mul_vec A u r - f r) * (mul_vec A u r - f r)) / IZR (m_rows A))%R /\
    (v = 0%R <-> solves A u f).
Proof. exact pf_C32_residual. Qed.
Print Assumptions C32_residual.

(** C32: a LDU Jacobi sweep, with or without the cached inverse diagonal, is the same weighted
    Jacobi update as the CSR one (exact arithmetic). *)
Theorem C32_jacobi :
  forall (meps : R) (A : csr R) (x b : list R) (u f : Z -> R) (w : R),
  csr_wf A -> square A -> good_diagonal meps A ->
  holds1 (m_cols A) x u -> holds1 (m_rows A) b f ->
  exists L x' L' x'' L'', ldu_of meps A = Ok L /\
    ldu_jacobi meps L x b w = Ok (x', L') /\ holds1 (m_rows A) x' (jacobi_update A w u f) /\
    ldu_jacobi_cached L x b w = Ok (x'', L'') /\ holds1 (m_rows A) x'' (jacobi_update A w u f).
Proof. exact pf_C32_jacobi. Qed.
Print Assumptions C32_jacobi.

(** C32: a row without a diagonal entry shifts the diagonal array.  The product of the split
    then reads past its end; and if another row stores its diagonal twice, the product is
    computed without any error and is wrong. *)
Theorem C32_missing_diagonal_refuted :
  (exists (A : csr Q) (L : ldu Q), csr_wf A /\ square A /\
     @ldu_of Q Num_Q (1 # 1000) A = Ok L /\
     @matvec Q Num_Q A [1#1; 1#1] [0#1; 0#1] = Ok [1#1; 1#1] /\
     @ldu_matvec Q Num_Q L [1#1; 1#1] [0#1; 0#1] = UB) /\
  (exists (A : csr Q) (L : ldu Q), csr_wf A /\ square A /\
     @ldu_of Q Num_Q (1 # 1000) A = Ok L /\
     @matvec Q Num_Q A [1#1; 1#1] [0#1; 0#1] = Ok [5#1; 1#1] /\
     @ldu_matvec Q Num_Q L [1#1; 1#1] [0#1; 0#1] = Ok [2#1; 4#1]).
Proof. exact pf_C32_missing_diagonal_refuted. Qed.
Print Assumptions C32_missing_diagonal_refuted.

(** C33: a Jacobi sweep replaces x by u + w (D^-1 (f - (A - D) u) - u), and n sweeps do this
    n times (exact arithmetic; w = 1 is the unweighted sweep). *)
Theorem C33_jacobi :
  forall (meps : R) (A : csr R) (x b : list R) (u f : Z -> R) (w : R) (n : nat),
  csr_wf A -> square A -> good_diagonal meps A ->
  holds1 (m_cols A) x u -> holds1 (m_rows A) b f ->
  exists x' A', sweeps (fun A x => jacobi meps A x b w) n A x = Ok (x', A') /\
    holds1 (m_rows A) x' (Nat.iter n (fun v => jacobi_update A w v f) u).
Proof. exact pf_C33_jacobi. Qed.
Print Assumptions C33_jacobi.

(** C33: the cached-diagonal sweep gives the same result for every number of sweeps when the
    cache is fresh at the start. *)
Theorem C33_cached :
  forall (meps : R) (A : csr R) (x b : list R) (u f : Z -> R) (w : R) (n : nat),
  csr_wf A -> square A -> good_diagonal meps A -> cache_matches A ->
  holds1 (m_cols A) x u -> holds1 (m_rows A) b f ->
  exists x' A', sweeps (fun A x => jacobi_cached meps A x b w) n A x = Ok (x', A') /\
    holds1 (m_rows A) x' (Nat.iter n (fun v => jacobi_update A w v f) u).
Proof. exact pf_C33_cached. Qed.
Print Assumptions C33_cached.

(** C33: x is left unchanged by a sweep with nonzero weight exactly when it solves the system;
    and then any number of sweeps leaves it unchanged. *)
Theorem C33_fixed_point :
  forall (meps : R) (A : csr R) (x b : list R) (u f : Z -> R) (w : R),
  csr_wf A -> square A -> good_diagonal meps A -> w <> 0%R ->
  holds1 (m_cols A) x u -> holds1 (m_rows A) b f ->
  (exists x' A', jacobi meps A x b w = Ok (x', A') /\ (x' = x <-> solves A u f)) /\
  (solves A u f -> forall n, exists A', sweeps (fun A x => jacobi meps A x b w) n A x = Ok (x, A')).
Proof. exact pf_C33_fixed_point. Qed.
Print Assumptions C33_fixed_point.

Example C33_nonvacuous : csr_wf ex_A /\ square ex_A /\ good_diagonal (1 / 1000) ex_A /\ cache_matches ex_A.
Proof. destruct ex_A_wf as (a & b & c & _). split; [exact a|]. split; [exact b|]. split; [exact c|]. left. reflexivity. Qed.

(** C33: a store through a reference to the values that was obtained before the cache was
    filled leaves the cache stale, and the next cached sweep is not the Jacobi sweep of the
    new matrix. *)
Theorem C33_stale_cache_refuted :
  exists (A A1 : csr Q) (x1 : list Q),
    @jacobi_cached Q Num_Q (1 # 1000) A [0#1] [6#1] (1#1) = Ok (x1, A1) /\ x1 = [3#1] /\
    let A2 := set_values_kept_ref A1 [4#1] in
    csr_wf A2 /\
    (exists B, @jacobi Q Num_Q (1 # 1000) A2 [0#1] [8#1] (1#1) = Ok ([2#1], B)) /\
    (exists B, @jacobi_cached Q Num_Q (1 # 1000) A2 [0#1] [8#1] (1#1) = Ok ([4#1], B)).
Proof. exact pf_C33_stale_cache_refuted. Qed.
Print Assumptions C33_stale_cache_refuted.

(** C33: a row without a stored diagonal makes the sweep use an uninitialised variable. *)
Theorem C33_missing_diagonal_refuted :
  exists A : csr Q, csr_wf A /\ square A /\
    @jacobi Q Num_Q (1 # 1000) A [1#1; 1#1] [0#1; 0#1] (1#1) = UB.
Proof. exact pf_C33_missing_diagonal_refuted. Qed.
Print Assumptions C33_missing_diagonal_refuted.

(** C34: scaling the rows multiplies row r by s r, marks the cached diagonal for
    recomputation, and when no factor is zero the scaled system with the scaled right-hand
    side has exactly the solutions of the original one. *)
Theorem C34_row_scaling :
  forall (A : csr R) (sc : list R) (s : Z -> R),
  csr_wf A -> holds1 (m_rows A) sc s ->
  exists A', scale_rows A sc = Ok A' /\
    csr_wf A' /\ m_rows A' = m_rows A /\ m_cols A' = m_cols A /\ m_dirty A' = true /\
    (forall r c, 0 <= r < m_rows A -> dense A' r c = (s r * dense A r c)%R) /\
    ((forall r, 0 <= r < m_rows A -> s r <> 0%R) ->
     forall u f, solves A' u (fun r => s r * f r)%R <-> solves A u f).
Proof. exact pf_C34_row_scaling. Qed.
Print Assumptions C34_row_scaling.

Example C34_nonvacuous : csr_wf ex_A /\ holds1 (m_rows ex_A) [2; 2; 2]%R (fun _ => 2%R).
Proof.
  split; [apply ex_A_wf|]. split; [reflexivity|]. intros i Hi. change (m_rows ex_A) with 3 in Hi.
  assert (i = 0 \/ i = 1 \/ i = 2) as [-> | [-> | ->]] by (destruct i as [|[|[]|]|]; auto; destruct Hi; try discriminate; lia).
  all: reflexivity.
Qed.

(** C35: the reported dominance exists, and is the minimum over the rows of |diagonal| divided
    by the sum of the off-diagonal magnitudes, whatever the order of the reduction; so it
    exceeds 1 exactly when the matrix is strictly diagonally dominant.  Rows must not repeat a
    column, each must have a nonzero off-diagonal part, and no ratio may exceed the largest
    double. *)
Theorem C35_dominance :
  forall (vmax : R) (A : csr R),
  csr_wf A -> 1 <= m_rows A ->
  (forall r, 0 <= r < m_rows A -> NoDup (map fst (row_entries A r))) ->
  (forall r, 0 <= r < m_rows A -> (0 < off_abs A r)%R) ->
  (forall r, 0 <= r < m_rows A -> (Rabs (dense A r r) / off_abs A r < vmax)%R) ->
  (exists v, diagonal_dominance vmax A v) /\
  forall v, diagonal_dominance vmax A v ->
    (exists r, 0 <= r < m_rows A /\ v = (Rabs (dense A r r) / off_abs A r)%R) /\
    (forall r, 0 <= r < m_rows A -> (v <= Rabs (dense A r r) / off_abs A r)%R) /\
    ((1 < v)%R <-> forall r, 0 <= r < m_rows A -> (off_abs A r < Rabs (dense A r r))%R).
Proof. exact pf_C35_dominance. Qed.
Print Assumptions C35_dominance.

Example C35_nonvacuous : csr_wf ex_A /\ 1 <= m_rows ex_A /\
  (forall r, 0 <= r < m_rows ex_A -> NoDup (map fst (row_entries ex_A r))) /\
  (forall r, 0 <= r < m_rows ex_A ->
     (0 < off_abs ex_A r)%R /\ (Rabs (dense ex_A r r) / off_abs ex_A r < 1000)%R).
Proof. split; [apply ex_A_wf|]. split; [discriminate|]. split; [apply ex_A_wf|exact ex_A_off]. Qed.

(** C13 for the matrix kernels: product, Jacobi sweep, diagonal cache and row scaling give the
    sequential result under every interleaving, with no data race, for any arithmetic. *)
Theorem C13_matrix :
  forall (V : Type) (N : Num V) (meps w : V) (A : csr V) (x b sc : list V),
  csr_wf A -> square A -> one_diagonal A ->
  zlen x = m_cols A -> zlen b = m_rows A -> zlen sc = m_rows A ->
  (exists b', schedule_independent (map (matvec_body A) (zrange 0 (m_rows A)))
     [m_vals A; x; b] [m_vals A; x; b']) /\
  (exists x', schedule_independent (map (jacobi_body meps A w) (zrange 0 (m_rows A)))
     [m_vals A; x; b; m_tmp A] [m_vals A; x; b; x']) /\
  (exists d, schedule_independent (map (diag_body meps A) (zrange 0 (m_rows A)))
     [m_vals A; fresh (m_rows A)] [m_vals A; d]) /\
  (exists v', schedule_independent (map (scale_body A) (zrange 0 (m_rows A)))
     [m_vals A; sc] [v'; sc]).
Proof. exact pf_C13_matrix. Qed.
Print Assumptions C13_matrix.
