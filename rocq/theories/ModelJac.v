(** The Jacobian of the 3D Cahn-Hilliard right-hand side:
    /repo/governing_equations/cahn_hilliard/cahn_hilliard_3d_fd.cpp:222-494. *)
From Verif Require Import Outcome ZList Num Kernel ModelIndex ModelDisc3D ModelCH ModelCSR.

(** periodic_idx, cahn_hilliard_3d_fd.cpp:251-271 (the lambda of createSparseMatrix) and
    332-353 (the function used by evalJacobian); the two have the same body. *)
Definition periodic_idx (i j k ni nj nk : Z) : Z :=
  let i := if i <? 0 then i + ni else i in
  let j := if j <? 0 then j + nj else j in
  let k := if k <? 0 then k + nk else k in
  let i := if ni <=? i then i - ni else i in
  let j := if nj <=? j then j - nj else j in
  let k := if nk <=? k then k - nk else k in
  get1DindexFrom3D i j k 0 nj nk.

(** The pushes onto col_idx, cahn_hilliard_3d_fd.cpp:283-307. *)
Definition pushed (i j k ni nj nk : Z) : list Z :=
  let p i j k := periodic_idx i j k ni nj nk in
  [ p i j k;
    p (i + 1) j k; p i (j + 1) k; p i j (k + 1);
    p (i - 1) j k; p i (j - 1) k; p i j (k - 1);
    p (i + 2) j k; p i (j + 2) k; p i j (k + 2);
    p (i - 2) j k; p i (j - 2) k; p i j (k - 2);
    p (i - 1) (j - 1) k; p (i - 1) (j + 1) k; p (i + 1) (j - 1) k; p (i + 1) (j + 1) k;
    p (i - 1) j (k - 1); p (i + 1) j (k - 1); p i (j - 1) (k - 1); p i (j + 1) (k - 1);
    p (i - 1) j (k + 1); p (i + 1) j (k + 1); p i (j - 1) (k + 1); p i (j + 1) (k + 1) ].

(** std::sort on ints, cahn_hilliard_3d_fd.cpp:308 (insertion sort: the result of sorting
    ints does not depend on the algorithm). *)
Fixpoint insertZ (x : Z) (l : list Z) : list Z :=
  match l with
  | [] => [x]
  | y :: r => if x <=? y then x :: l else y :: insertZ x r
  end.
Definition sortZ (l : list Z) : list Z := fold_right insertZ [] l.

(** erase(std::unique(...)), cahn_hilliard_3d_fd.cpp:309: drops all but the first of equal
    neighbours. *)
Fixpoint uniqueZ (l : list Z) : list Z :=
  match l with
  | [] => []
  | x :: r => match r with
              | [] => [x]
              | y :: _ => if x =? y then uniqueZ r else x :: uniqueZ r
              end
  end.

Definition row_columns (i j k ni nj nk : Z) : list Z := uniqueZ (sortZ (pushed i j k ni nj nk)).

Section Jac.
  Context {V : Type} `{N : Num V}.
  Local Open Scope num_scope.
  Local Open Scope Z_scope.
  Local Open Scope res_scope.

  Fixpoint fold_cells {A S} (f : S -> A -> res S) (l : list A) (s : S) : res S :=
    match l with
    | [] => Ok s
    | x :: r => s' <- f s x ;; fold_cells f r s'
    end.

  (** The loop of cahn_hilliard_3d_fd.cpp:313; reading a vector past its size is
      undefined, as is storing past the end of the column array. *)
  Definition copy_columns (row_start row_end : Z) (cols csr_col : list Z) : res (list Z) :=
    fold_cells (fun csr_col icol =>
                  c <- of_opt (zget cols (icol - row_start)) ;; of_opt (zset csr_col icol c))
               (zrange row_start row_end) csr_col.

  (** One pass of the triple loop, cahn_hilliard_3d_fd.cpp:278-316; s holds irow and the
      column array. *)
  Definition column_step (ni nj nk : Z) (row : list Z) (s : Z * list Z) (c : Z * Z * Z) : res (Z * list Z) :=
    let '(i, j, k) := c in
    row_start <- of_opt (zget row (fst s)) ;;
    row_end <- of_opt (zget row (fst s + 1)) ;;
    col' <- copy_columns row_start row_end (row_columns i j k ni nj nk) (snd s) ;;
    Ok (fst s + 1, col').

  Definition stencil_size : Z := 25.

  (** CahnHilliard3DFD::createSparseMatrix, cahn_hilliard_3d_fd.cpp:222-328.  int
      arithmetic is unbounded here; its range is the subject of ModelInt32.v. *)
  Definition create_matrix (d : disc3 V) : res (csr V) :=
    let npoints := zlen (d3_interior d) in
    let A := csr_zero npoints npoints (npoints * stencil_size) in
    vals <- zero_loop (m_vals A) ;;
    let row := map (fun irow => stencil_size * irow) (zrange 0 (zlen (m_row A))) in
    s <- fold_cells (column_step (d3_ni d) (d3_nj d) (d3_nk d) row)
           (flat_map (fun i => flat_map (fun j => map (fun k => (i, j, k)) (zrange 0 (d3_nk d)))
                                 (zrange 0 (d3_nj d))) (zrange 0 (d3_ni d)))
           (0, m_col A) ;;
    Ok {| m_rows := m_rows A; m_cols := m_cols A; m_vals := vals; m_col := snd s; m_row := row;
          m_tmp := m_tmp A; m_diag_inv := None; m_dirty := true |}.

  (** CahnHilliard3DFD::nNonZerosPerRow, cahn_hilliard_3d_fd.cpp:356-368 *)
  Definition nnz_per_row (d : disc3 V) : list Z :=
    repeat stencil_size (Z.to_nat (zlen (d3_interior d))).

  Local Close Scope res_scope.
  Local Open Scope prog_scope.

  (** One statement [vals[val_idx] += e] of evalJacobian: e is computed from the parameters,
      or from them and one value of the state. *)
  Inductive jac_term :=
  | TConst (e : V)
  | TState (i j k : Z) (g : V -> V).

  Definition when {A} (b : bool) (l : list A) : list A := if b then l else [].

  (** The ifs of cahn_hilliard_3d_fd.cpp:440-487, in order: the statements executed for
      the entry in column icol of row irow = (i,j,k). *)
  Definition jac_terms (d : disc3 V) (p : ch_params V) (irow icol i j k : Z) : list jac_term :=
    let dx2 := (d3_dx d * d3_dx d)%num in
    let dx4 := (dx2 * dx2)%num in
    let eps2 := ch_eps2 p in
    let dW v := (nint 3 * npow2 v - nint 1)%num in
    let at_ i j k := icol =? periodic_idx i j k (d3_ni d) (d3_nj d) (d3_nk d) in
    let neighbour i j k :=
      when (at_ i j k) [ TState i j k (fun v => (dW v / dx2)%num); TConst (nint 12 * eps2 / dx4)%num ] in
    when (icol =? irow)
      [ TConst (- ch_sigma p)%num;
        TConst (- eps2 * nint 42 / dx4)%num;
        TState i j k (fun v => (nint (-6) * dW v / dx2)%num) ]
    ++ neighbour (i - 1) j k ++ neighbour (i + 1) j k
    ++ neighbour i (j - 1) k ++ neighbour i (j + 1) k
    ++ neighbour i j (k - 1) ++ neighbour i j (k + 1)
    ++ when (at_ (i + 2) j k || at_ (i - 2) j k || at_ i (j + 2) k || at_ i (j - 2) k
             || at_ i j (k + 2) || at_ i j (k - 2))
         [ TConst (- eps2 / dx4)%num ]
    ++ when (at_ (i - 1) (j - 1) k || at_ (i - 1) (j + 1) k || at_ (i + 1) (j - 1) k || at_ (i + 1) (j + 1) k
             || at_ (i - 1) j (k - 1) || at_ (i + 1) j (k - 1) || at_ i (j - 1) (k - 1) || at_ i (j + 1) (k - 1)
             || at_ (i - 1) j (k + 1) || at_ (i + 1) j (k + 1) || at_ i (j - 1) (k + 1) || at_ i (j + 1) (k + 1))
         [ TConst (- eps2 * nint 2 / dx4)%num ].

  (** Executing those statements on entry q; arrays: 0 f, 1 vals. *)
  Fixpoint run_terms (d : disc3 V) (q : Z) (ts : list jac_term) (next : prog V) : prog V :=
    match ts with
    | [] => next
    | TConst e :: r =>
        load v <- 1%nat.[q]; store 1%nat.[q] <- (v + e)%num; run_terms d q r next
    | TState i j k g :: r =>
        load x <- 0%nat.[ix3 d i j k];
        load v <- 1%nat.[q]; store 1%nat.[q] <- (v + g x)%num; run_terms d q r next
    end.

  (** One pass of the entry loop, cahn_hilliard_3d_fd.cpp:431-488. *)
  Definition jac_step (d : disc3 V) (p : ch_params V) (A : csr V) (irow i j k : Z) (q : Z) (s : unit)
      (next : unit -> prog V) : prog V :=
    match zget (m_col A) q with
    | Some icol => run_terms d q (jac_terms d p irow icol i j k) (next tt)
    | None => Bad
    end.

  (** The body of the row loop, cahn_hilliard_3d_fd.cpp:423-489. *)
  Definition jac_body (d : disc3 V) (p : ch_params V) (A : csr V) (irow : Z) : prog V :=
    let i := Z.quot irow (d3_nj d * d3_nk d) in
    let j := Z.rem (Z.quot irow (d3_nk d)) (d3_nj d) in
    let k := Z.rem irow (d3_nk d) in
    for_row A irow (jac_step d p A irow i j k) tt (fun _ => Done).

  Local Open Scope res_scope.

  (** CahnHilliard3DFD::evalJacobian, cahn_hilliard_3d_fd.cpp:370-494: the matrix after the
      call (values() marks its cached diagonal out of date). *)
  Definition eval_jacobian (d : disc3 V) (p : ch_params V) (f : list V) (A : csr V) : res (csr V) :=
    v0 <- zero_loop (m_vals A) ;;
    m <- forall_loop 0 (zlen (m_row A) - 1) (jac_body d p A) [f; v0] ;;
    v <- of_opt (nth_error m 1) ;;
    Ok (set_values A v).
End Jac.
