(** The CSR matrix (/repo/data_structures/csr_matrix.hpp, csr_matrix.cpp). *)
From Coq Require Import ZArith List.
From Verif Require Import Outcome ZList Num Kernel ModelReduce.
Import ListNotations.
Local Open Scope Z_scope.
Local Open Scope res_scope.
Local Open Scope prog_scope.

Section CSR.
  Context {V : Type} {N : Num V}.

  (** [std::numeric_limits<real_wp>::epsilon()]. *)
  Variable meps : V.
  (** [std::numeric_limits<real_wp>::max()]. *)
  Variable vmax : V.

  (** The members of CSRMatrix (csr_matrix.hpp:45-63 and its private section).  Index and
      value arrays are the host contents; host/device copies are the subject of
      ModelManaged.v.  [m_diag_inv] is the [unique_ptr diag_inv_] (None: null),
      [m_dirty] is [diags_need_update_]. *)
  Record csr := MkCsr {
    m_rows : Z;
    m_cols : Z;
    m_vals : list V;
    m_col : list Z;
    m_row : list Z;
    m_tmp : list V;
    m_diag_inv : option (list V);
    m_dirty : bool
  }.

  (** A zero-initialised array of n reals (managed_array.hpp:28-40). *)
  Definition fresh (n : Z) : list V := repeat (nint 0) (Z.to_nat n).

  (** CSRMatrix::CSRMatrix(rows, cols, nnz) (csr_matrix.cpp:28-36) and initCommon (:46-51). *)
  Definition csr_zero (rows cols nnz : Z) : csr :=
    {| m_rows := rows; m_cols := cols; m_vals := fresh nnz;
       m_col := repeat 0 (Z.to_nat nnz); m_row := repeat 0 (Z.to_nat (rows + 1));
       m_tmp := fresh cols; m_diag_inv := None; m_dirty := true |}.

  (** CSRMatrix::CSRMatrix(nrow, ncol, col, row, val) (csr_matrix.cpp:214-231). *)
  Definition csr_of (rows cols : Z) (col row : list Z) (val : list V) : csr :=
    {| m_rows := rows; m_cols := cols; m_vals := val; m_col := col; m_row := row;
       m_tmp := fresh cols; m_diag_inv := None; m_dirty := true |}.

  (** values() through the non-const accessor (csr_matrix.hpp:49-53), used to store a new
      value array: marks the cached diagonal as out of date. *)
  Definition set_values (A : csr) (v : list V) : csr :=
    {| m_rows := m_rows A; m_cols := m_cols A; m_vals := v; m_col := m_col A; m_row := m_row A;
       m_tmp := m_tmp A; m_diag_inv := m_diag_inv A; m_dirty := true |}.

  (** A store through a reference obtained from values() earlier: nothing is marked. *)
  Definition set_values_kept_ref (A : csr) (v : list V) : csr :=
    {| m_rows := m_rows A; m_cols := m_cols A; m_vals := v; m_col := m_col A; m_row := m_row A;
       m_tmp := m_tmp A; m_diag_inv := m_diag_inv A; m_dirty := m_dirty A |}.

  Definition set_tmp (A : csr) (t : list V) : csr :=
    {| m_rows := m_rows A; m_cols := m_cols A; m_vals := m_vals A; m_col := m_col A; m_row := m_row A;
       m_tmp := t; m_diag_inv := m_diag_inv A; m_dirty := m_dirty A |}.

  (** [for (int j = lo; j < hi; ++j)] with local variables s: each pass hands its final
      local state to the rest of the loop. *)
  Fixpoint for_acc {S : Type} (js : list Z) (step : Z -> S -> (S -> prog V) -> prog V) (s : S)
      (k : S -> prog V) : prog V :=
    match js with
    | [] => k s
    | j :: r => step j s (fun s' => for_acc r step s' k)
    end.

  (** [for (int j = row_idx[irow]; j < row_idx[irow + 1]; ++j)]; an index array is read
      out of range: undefined. *)
  Definition for_row {S : Type} (A : csr) (irow : Z)
      (step : Z -> S -> (S -> prog V) -> prog V) (s : S) (k : S -> prog V) : prog V :=
    match zget (m_row A) irow, zget (m_row A) (irow + 1) with
    | Some lo, Some hi => for_acc (zrange lo hi) step s k
    | _, _ => Bad
    end.

  (** [row_sum += vals[j] * x[col_idx[j]]], arrays: 0 vals, 1 x. *)
  Definition acc_prod (A : csr) (j : Z) (s : V) (k : V -> prog V) : prog V :=
    match zget (m_col A) j with
    | Some c => load v <- 0%nat.[j]; load xv <- 1%nat.[c]; k (s + v * xv)%num
    | None => Bad
    end.

  (** The body of matVecMultiply (csr_matrix.cpp:263-269); arrays: 0 vals, 1 x, 2 b. *)
  Definition matvec_body (A : csr) (irow : Z) : prog V :=
    for_row A irow (acc_prod A) (nint 0) (fun row_sum => store 2%nat.[irow] <- row_sum; Done).

  Definition matvec_mem (A : csr) (x b : list V) : mem V := [m_vals A; x; b].

  (** CSRMatrix::matVecMultiply (csr_matrix.cpp:254-270): the new contents of b. *)
  Definition matvec (A : csr) (x b : list V) : res (list V) :=
    m <- forall_loop 0 (m_rows A) (matvec_body A) (matvec_mem A x b) ;;
    of_opt (nth_error m 2).

  (** The contribution of iteration i of the reduction loop of rmsNorm
      (csr_matrix.cpp:341). *)
  Definition sq_diff (lhs rhs : list V) (i : Z) : res V :=
    l <- of_opt (zget lhs i) ;; r <- of_opt (zget rhs i) ;; Ok (npow2 (l - r)%num).

  Fixpoint map_res {A B} (f : A -> res B) (l : list A) : res (list B) :=
    match l with
    | [] => Ok []
    | x :: r => y <- f x ;; ys <- map_res f r ;; Ok (y :: ys)
    end.

  (** CSRMatrix::rmsNorm (csr_matrix.cpp:332-344): v is a value it can return, A' the
      matrix afterwards (its work vector holds the product).  The loop runs over the work
      vector, whose size is the number of columns. *)
  Definition rms_norm (A : csr) (x b : list V) (v : V) (A' : csr) : Prop :=
    exists t contribs total,
      matvec A x (m_tmp A) = Ok t /\
      A' = set_tmp A t /\
      map_res (sq_diff t b) (zrange 0 (zlen t)) = Ok contribs /\
      reduction nadd (nint 0) (nint 0) contribs total /\
      v = nsqrt (total / nint (zlen t))%num.

  (** [std::abs(v) > eps ? v : eps] (csr_matrix.cpp:369-370, 455-457). *)
  Definition clip_diag (v : V) : V := if nltb meps (nabs v) then v else meps.

  (** One pass of the entry loop of jacobiSmooth (csr_matrix.cpp:362-372); arrays: 0 vals,
      1 x.  The local [d] is uninitialised (None) until a diagonal entry is met. *)
  Definition jacobi_step (A : csr) (irow j : Z) (s : V * option V) (k : V * option V -> prog V)
      : prog V :=
    match zget (m_col A) j with
    | Some c =>
        if c =? irow then load v <- 0%nat.[j]; k (fst s, Some (clip_diag v))
        else load v <- 0%nat.[j]; load xv <- 1%nat.[c]; k ((fst s + v * xv)%num, snd s)
    | None => Bad
    end.

  (** The body of jacobiSmooth (csr_matrix.cpp:358-379); arrays: 0 vals, 1 x, 2 b,
      3 x_tmp.  Using an uninitialised [d] is undefined. *)
  Definition jacobi_body (A : csr) (w : V) (irow : Z) : prog V :=
    for_row A irow (jacobi_step A irow) (nint 0, None) (fun s =>
      match snd s with
      | None => Bad
      | Some d =>
          if neqb w (nint 1) then
            load bv <- 2%nat.[irow]; store 3%nat.[irow] <- (nint 1 / d * (bv - fst s))%num; Done
          else
            load bv <- 2%nat.[irow]; load xv <- 1%nat.[irow];
            store 3%nat.[irow] <- (w / d * (bv - fst s) + (nint 1 - w) * xv)%num; Done
      end).

  Definition jacobi_mem (A : csr) (x b : list V) : mem V := [m_vals A; x; b; m_tmp A].

  (** CSRMatrix::jacobiSmooth (csr_matrix.cpp:347-380): the new x and the matrix, whose
      work vector now holds the old x (the swap on line 379). *)
  Definition jacobi (A : csr) (x b : list V) (w : V) : res (list V * csr) :=
    m <- forall_loop 0 (m_rows A) (jacobi_body A w) (jacobi_mem A x b) ;;
    t <- of_opt (nth_error m 3) ;;
    Ok (t, set_tmp A x).

  (** The body of updateDiags (csr_matrix.cpp:450-460); arrays: 0 vals, 1 diag_inv. *)
  Definition diag_step (A : csr) (irow j : Z) (s : unit) (k : unit -> prog V) : prog V :=
    match zget (m_col A) j with
    | Some c =>
        if c =? irow then load v <- 0%nat.[j]; store 1%nat.[irow] <- (nint 1 / clip_diag v)%num; k tt
        else k tt
    | None => Bad
    end.
  Definition diag_body (A : csr) (irow : Z) : prog V :=
    for_row A irow (diag_step A irow) tt (fun _ => Done).

  (** CSRMatrix::updateDiags (csr_matrix.cpp:442-461) and the flag reset by its callers
      (:386-389). *)
  Definition refresh_diags (A : csr) : res csr :=
    if m_dirty A then
      m <- forall_loop 0 (m_rows A) (diag_body A) [m_vals A; fresh (m_rows A)] ;;
      d <- of_opt (nth_error m 1) ;;
      Ok {| m_rows := m_rows A; m_cols := m_cols A; m_vals := m_vals A; m_col := m_col A;
            m_row := m_row A; m_tmp := m_tmp A; m_diag_inv := Some d; m_dirty := false |}
    else Ok A.

  (** The body of jacobiSmoothCacheDiagonalInverse (csr_matrix.cpp:403-411); arrays:
      0 vals, 1 x, 2 b, 3 x_tmp, 4 d_inv. *)
  Definition cached_body (A : csr) (w : V) (irow : Z) : prog V :=
    for_row A irow (acc_prod A) (nint 0) (fun row_sum =>
      load d1 <- 4%nat.[irow]; load bv <- 2%nat.[irow]; load xv <- 1%nat.[irow];
      load d2 <- 4%nat.[irow];
      store 3%nat.[irow] <- (w * d1 * bv + (xv - w * d2 * row_sum))%num; Done).

  (** CSRMatrix::jacobiSmoothCacheDiagonalInverse (csr_matrix.cpp:383-413).  A null
      [diag_inv_] with the flag clear would be dereferenced: undefined. *)
  Definition jacobi_cached (A0 : csr) (x b : list V) (w : V) : res (list V * csr) :=
    A <- refresh_diags A0 ;;
    d <- of_opt (m_diag_inv A) ;;
    m <- forall_loop 0 (m_rows A) (cached_body A w) [m_vals A; x; b; m_tmp A; d] ;;
    t <- of_opt (nth_error m 3) ;;
    Ok (t, set_tmp A x).

  (** The body of scaleMatrixRows (csr_matrix.cpp:471-475); arrays: 0 vals, 1 row_scale. *)
  Definition scale_step (irow j : Z) (s : unit) (k : unit -> prog V) : prog V :=
    load v <- 0%nat.[j]; load r <- 1%nat.[irow]; store 0%nat.[j] <- (v * r)%num; k tt.
  Definition scale_body (A : csr) (irow : Z) : prog V :=
    for_row A irow (scale_step irow) tt (fun _ => Done).

  (** CSRMatrix::scaleMatrixRows (csr_matrix.cpp:464-476). *)
  Definition scale_rows (A : csr) (scale : list V) : res csr :=
    m <- forall_loop 0 (m_rows A) (scale_body A) [m_vals A; scale] ;;
    v <- of_opt (nth_error m 0) ;;
    Ok (set_values A v).

  (** One row of diagonalDominance (csr_matrix.cpp:487-506): diagonal and off-diagonal
      terms. *)
  Fixpoint dominance_row (A : csr) (irow : Z) (js : list Z) (s : V * V) : res (V * V) :=
    match js with
    | [] => Ok s
    | j :: r =>
        c <- of_opt (zget (m_col A) j) ;;
        v <- of_opt (zget (m_vals A) j) ;;
        dominance_row A irow r
          (if c =? irow then (nabs v, snd s) else (fst s, (snd s + nabs v)%num))
    end.
  Definition dominance_term (A : csr) (irow : Z) : res V :=
    lo <- of_opt (zget (m_row A) irow) ;;
    hi <- of_opt (zget (m_row A) (irow + 1)) ;;
    p <- dominance_row A irow (zrange lo hi) (nint 0, nint 0) ;;
    Ok (fst p / snd p)%num.

  (** CSRMatrix::diagonalDominance (csr_matrix.cpp:479-510): v is a value it can return.
      The loop runs over [row_idx.size() - 1] rows. *)
  Definition diagonal_dominance (A : csr) (v : V) : Prop :=
    exists contribs,
      map_res (dominance_term A) (zrange 0 (zlen (m_row A) - 1)) = Ok contribs /\
      reduction nmin vmax vmax contribs v.
End CSR.
Arguments csr V : clear implicits.
