(** The LDU matrix (/repo/data_structures/ldu_csr_matrix.cpp). *)
From Coq Require Import ZArith List.
From Verif Require Import Outcome ZList Num Kernel ModelReduce ModelCSR.
Import ListNotations.
Local Open Scope Z_scope.
Local Open Scope res_scope.
Local Open Scope prog_scope.

Section LDU.
  Context {V : Type} {N : Num V}.
  Variable meps : V.

  (** The local vectors of the constructor (ldu_csr_matrix.cpp:10-16).  The row vectors
      are pre-sized there and filled in order; here they grow by one entry per row. *)
  Record split := MkSplit {
    p_diag : list V;
    p_lower : list V; p_lcol : list Z; p_lrow : list Z;
    p_upper : list V; p_ucol : list Z; p_urow : list Z
  }.

  (** One entry (ldu_csr_matrix.cpp:26-41); [nl], [nu] count the entries of this row. *)
  Definition split_entry (A : csr V) (irow j : Z) (s : split * (Z * Z)) : res (split * (Z * Z)) :=
    let '(p, (nl, nu)) := s in
    c <- of_opt (zget (m_col A) j) ;;
    v <- of_opt (zget (m_vals A) j) ;;
    if c =? irow then
      Ok (MkSplit (p_diag p ++ [v]) (p_lower p) (p_lcol p) (p_lrow p) (p_upper p) (p_ucol p) (p_urow p),
          (nl, nu))
    else if c <? irow then
      Ok (MkSplit (p_diag p) (p_lower p ++ [v]) (p_lcol p ++ [c]) (p_lrow p)
                  (p_upper p) (p_ucol p) (p_urow p), (nl + 1, nu))
    else
      Ok (MkSplit (p_diag p) (p_lower p) (p_lcol p) (p_lrow p)
                  (p_upper p ++ [v]) (p_ucol p ++ [c]) (p_urow p), (nl, nu + 1)).

  Fixpoint fold_res {A B} (f : A -> B -> res A) (l : list B) (s : A) : res A :=
    match l with
    | [] => Ok s
    | x :: r => s' <- f s x ;; fold_res f r s'
    end.

  (** One row (ldu_csr_matrix.cpp:22-45). *)
  Definition split_row (A : csr V) (p : split) (irow : Z) : res split :=
    lo <- of_opt (zget (m_row A) irow) ;;
    hi <- of_opt (zget (m_row A) (irow + 1)) ;;
    s <- fold_res (fun s j => split_entry A irow j s) (zrange lo hi) (p, (0, 0)) ;;
    let '(q, (nl, nu)) := s in
    ll <- of_opt (zget (p_lrow q) irow) ;;
    uu <- of_opt (zget (p_urow q) irow) ;;
    Ok (MkSplit (p_diag q) (p_lower q) (p_lcol q) (p_lrow q ++ [ll + nl])
                (p_upper q) (p_ucol q) (p_urow q ++ [uu + nu])).

  (** The members of LDUCSRMatrix (ldu_csr_matrix.hpp:38-51). *)
  Record ldu := MkLdu {
    l_rows : Z;
    l_cols : Z;
    l_lower : csr V;
    l_upper : csr V;
    l_diag : list V;
    l_dinv : list V;
    l_tmp : list V;
    l_tmp2 : list V
  }.

  (** The body of LDUCSRMatrix::updateDiags (ldu_csr_matrix.cpp:62-66); arrays: 0 D,
      1 diag_inv. *)
  Definition ldu_diag_body (i : Z) : prog V :=
    load d <- 0%nat.[i]; load d2 <- 0%nat.[i];
    store 1%nat.[i] <- (nint 1 / (if nltb meps (nabs d) then d2 else meps))%num; Done.

  (** LDUCSRMatrix::LDUCSRMatrix (ldu_csr_matrix.cpp:7-55). *)
  Definition ldu_of (A : csr V) : res ldu :=
    p <- fold_res (split_row A) (zrange 0 (m_rows A)) (MkSplit [] [] [] [0] [] [] [0]) ;;
    m <- forall_loop 0 (zlen (p_diag p)) ldu_diag_body [p_diag p; fresh (zlen (p_diag p))] ;;
    d <- of_opt (nth_error m 1) ;;
    Ok {| l_rows := m_rows A; l_cols := m_cols A;
          l_lower := csr_of (m_rows A) (m_cols A) (p_lcol p) (p_lrow p) (p_lower p);
          l_upper := csr_of (m_rows A) (m_cols A) (p_ucol p) (p_urow p) (p_upper p);
          l_diag := p_diag p; l_dinv := d;
          l_tmp := fresh (m_cols A); l_tmp2 := fresh (m_cols A) |}.

  (** [row_sum += vals[j] * x[col_idx[j]]], vals in array [a], x in array [xa]. *)
  Definition acc_prod_at (A : csr V) (a xa : nat) (j : Z) (s : V) (k : V -> prog V) : prog V :=
    match zget (m_col A) j with
    | Some c => load v <- a.[j]; load xv <- xa.[c]; k (s + v * xv)%num
    | None => Bad
    end.

  (** The body of LDUCSRMatrix::matVecMultiply (ldu_csr_matrix.cpp:83-93); arrays:
      0 lower_vals, 1 upper_vals, 2 diag, 3 x, 4 b. *)
  Definition ldu_matvec_body (L : ldu) (irow : Z) : prog V :=
    for_row (l_lower L) irow (acc_prod_at (l_lower L) 0 3) (nint 0) (fun s1 =>
      for_row (l_upper L) irow (acc_prod_at (l_upper L) 1 3) s1 (fun s2 =>
        load d <- 2%nat.[irow]; load xv <- 3%nat.[irow];
        store 4%nat.[irow] <- (s2 + d * xv)%num; Done)).

  Definition ldu_matvec_mem (L : ldu) (x b : list V) : mem V :=
    [m_vals (l_lower L); m_vals (l_upper L); l_diag L; x; b].

  (** LDUCSRMatrix::matVecMultiply (ldu_csr_matrix.cpp:70-94). *)
  Definition ldu_matvec (L : ldu) (x b : list V) : res (list V) :=
    m <- forall_loop 0 (l_rows L) (ldu_matvec_body L) (ldu_matvec_mem L x b) ;;
    of_opt (nth_error m 4).

  Definition ldu_set_tmp (L : ldu) (t t2 : list V) : ldu :=
    {| l_rows := l_rows L; l_cols := l_cols L; l_lower := l_lower L; l_upper := l_upper L;
       l_diag := l_diag L; l_dinv := l_dinv L; l_tmp := t; l_tmp2 := t2 |}.

  (** LDUCSRMatrix::rmsNorm (ldu_csr_matrix.cpp:97-109). *)
  Definition ldu_rms_norm (L : ldu) (x b : list V) (v : V) (L' : ldu) : Prop :=
    exists t contribs total,
      ldu_matvec L x (l_tmp L) = Ok t /\
      L' = ldu_set_tmp L t (l_tmp2 L) /\
      map_res (sq_diff t b) (zrange 0 (zlen t)) = Ok contribs /\
      reduction nadd (nint 0) (nint 0) contribs total /\
      v = nsqrt (total / nint (zlen t))%num.

  (** The loop bodies of jacobiSmooth (ldu_csr_matrix.cpp:142-157); arrays: 0 Lx, 1 Ux,
      2 x, 3 D, 4 b. *)
  Definition ldu_jacobi_body (w : V) (i : Z) : prog V :=
    load d1 <- 3%nat.[i]; load d2 <- 3%nat.[i];
    if neqb w (nint 1) then
      load bv <- 4%nat.[i]; load l <- 0%nat.[i]; load u <- 1%nat.[i];
      store 2%nat.[i] <- (nint 1 / (if nltb meps (nabs d1) then d2 else meps) * (bv - l - u))%num; Done
    else
      load bv <- 4%nat.[i]; load l <- 0%nat.[i]; load u <- 1%nat.[i]; load xv <- 2%nat.[i];
      store 2%nat.[i] <- (w * nint 1 / (if nltb meps (nabs d1) then d2 else meps) * (bv - l - u)
                            + (nint 1 - w) * xv)%num; Done.

  (** LDUCSRMatrix::jacobiSmooth (ldu_csr_matrix.cpp:127-158). *)
  Definition ldu_jacobi (L : ldu) (x b : list V) (w : V) : res (list V * ldu) :=
    lx <- matvec (l_lower L) x (l_tmp L) ;;
    ux <- matvec (l_upper L) x (l_tmp2 L) ;;
    m <- forall_loop 0 (l_rows L) (ldu_jacobi_body w) [lx; ux; x; l_diag L; b] ;;
    x' <- of_opt (nth_error m 2) ;;
    Ok (x', ldu_set_tmp L lx ux).

  (** The loop bodies of jacobiSmoothCacheDiagonalInverse (ldu_csr_matrix.cpp:179-186);
      arrays: 0 Lx, 1 Ux, 2 x, 3 D_inv, 4 b. *)
  Definition ldu_cached_body (w : V) (i : Z) : prog V :=
    load d <- 3%nat.[i]; load bv <- 4%nat.[i]; load l <- 0%nat.[i]; load u <- 1%nat.[i];
    if neqb w (nint 1) then
      store 2%nat.[i] <- (d * (bv - l - u))%num; Done
    else
      load xv <- 2%nat.[i];
      store 2%nat.[i] <- (w * d * (bv - l - u) + (nint 1 - w) * xv)%num; Done.

  (** LDUCSRMatrix::jacobiSmoothCacheDiagonalInverse (ldu_csr_matrix.cpp:161-187). *)
  Definition ldu_jacobi_cached (L : ldu) (x b : list V) (w : V) : res (list V * ldu) :=
    lx <- matvec (l_lower L) x (l_tmp L) ;;
    ux <- matvec (l_upper L) x (l_tmp2 L) ;;
    m <- forall_loop 0 (l_rows L) (ldu_cached_body w) [lx; ux; x; l_dinv L; b] ;;
    x' <- of_opt (nth_error m 2) ;;
    Ok (x', ldu_set_tmp L lx ux).
End LDU.
Arguments ldu V : clear implicits.
Arguments split V : clear implicits.
