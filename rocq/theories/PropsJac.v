(** The Jacobian of the 3D right-hand side: C24, C25, C26, and C13 for its assembly.

    [create_matrix d] models createSparseMatrix, [eval_jacobian d p f A] models
    evalJacobian on the state array f and the matrix A.  Vocabulary in SpecJac.v,
    SpecMatrix.v and SpecGrid.v. *)
From Coq Require Import ZArith QArith List Reals Sorting.Sorted.
From Verif Require Import Outcome ZList Num Kernel ModelDisc3D ModelCH ModelCSR ModelJac SpecGrid SpecField
  SpecMatrix SpecJac ExampleNum JacFinal.
Import ListNotations.
Local Open Scope Z_scope.

(** The grid of the examples: 5 x 6 x 7 cells on the unit interval, two halo layers. *)
Definition ex_box (bx : bctype) : domain R := ex_dom 0%R 1%R 5 6 7 2 bx Periodic Periodic.

Example ex_box_ok : forall bx, valid_domain3 (ex_box bx) /\ five_cells (ex_box bx) /\ 2 <= nhalo (ex_box bx) /\
  nhalo (ex_box bx) <= nx (ex_box bx) /\ nhalo (ex_box bx) <= ny (ex_box bx) /\ nhalo (ex_box bx) <= nz (ex_box bx) /\
  xbeg (ex_box bx) <> xend (ex_box bx) /\
  exists d sc A f, make3 (ex_box bx) = Ok d /\ make_ch3 d 2 = Ok sc /\ create_matrix d = Ok A /\
    holds3 (ex_box bx) f (fun i j k => IZR (i + 2 * j + 3 * k)).
Proof. exact ex_box_facts. Qed.

(** C25, at least five cells per direction: createSparseMatrix succeeds; the matrix is square
    with one row per cell; row r starts at 25 r; every row stores 25 strictly increasing
    columns, which are exactly the periodic images of the cells at most two steps away; all
    values are zero; the counts reported by nNonZerosPerRow are the numbers of stored entries. *)
Theorem C25_structure :
  forall (V : Type) (N : Num V) (dom : domain V) (d : disc3 V),
  valid_domain3 dom -> five_cells dom -> make3 dom = Ok d ->
  exists A, create_matrix d = Ok A /\ csr_wf A /\
    m_rows A = nx dom * ny dom * nz dom /\ m_cols A = nx dom * ny dom * nz dom /\
    holds1 (m_rows A + 1) (m_row A) (fun r => 25 * r) /\
    holds1 (25 * m_rows A) (m_vals A) (fun _ => nint 0) /\ zlen (m_col A) = 25 * m_rows A /\
    (forall i j k, inside3 dom i j k ->
       let cols := map fst (row_entries A (cellno dom i j k)) in
       StronglySorted Z.lt cols /\ zlen cols = 25 /\
       (forall c, In c cols <-> in_stencil dom i j k c) /\
       (forall c, In c cols -> 0 <= c < m_cols A)) /\
    holds1 (m_rows A) (nnz_per_row d) (fun r => zlen (row_entries A r)).
Proof. exact pf_C25_structure. Qed.
Print Assumptions C25_structure.

Example C25_ex : five_cells (ex_box Periodic) /\ valid_domain3 (ex_box Periodic) /\
  ~ five_cells (ex_dom 0%R 1%R 5 4 7 2 Periodic Periodic Periodic) /\ in_stencil (ex_box Periodic) 0 0 0 (cellno (ex_box Periodic) 4 5 0).
Proof.
  split; [apply ex_box_ok|]. split; [apply ex_box_ok|]. split.
  - unfold five_cells. simpl. intros (_ & H & _). apply H. reflexivity.
  - exists (-1), (-1), 0. split; [discriminate|reflexivity].
Qed.

(** C25, fewer than five cells in some direction: whatever the domain, createSparseMatrix
    reads past the end of its column buffer (undefined behaviour). *)
Theorem C25_small_grid :
  forall (V : Type) (N : Num V) (dom : domain V) (d : disc3 V),
  valid_domain3 dom -> ~ five_cells dom -> make3 dom = Ok d -> create_matrix d = UB.
Proof. exact pf_C25_small_grid. Qed.
Print Assumptions C25_small_grid.

(** C24: on a periodic grid with at least five cells per direction, when the state array
    holds u with its periodic halo values, evalJacobian succeeds and keeps the sparse
    structure, and for every pair of cells (i,j,k), (a,b,e) there is a function F such that
    - F t is what evaluating the right-hand side (any kernel variant, any previous content of
      the scratch and output arrays, any halo values) stores for cell (i,j,k) when the
      interior of the state is u with the value of cell (a,b,e) replaced by t, and
    - the matrix entry (0 outside the stored pattern) is the derivative of F at u(a,b,e). *)
Theorem C24_jacobian :
  forall (dom : domain R) (d : disc3 R) (variant : Z) (p : ch_params R) (sc : scratch R) (A : csr R)
    (f : list R) (u : Z -> Z -> Z -> R),
  valid_domain3 dom -> five_cells dom -> 2 <= nhalo dom ->
  nhalo dom <= nx dom /\ nhalo dom <= ny dom /\ nhalo dom <= nz dom ->
  xbc dom = Periodic -> ybc dom = Periodic -> zbc dom = Periodic ->
  make3 dom = Ok d -> make_ch3 d variant = Ok sc -> create_matrix d = Ok A ->
  holds3 dom f (periodic3 dom u) ->
  exists J, eval_jacobian d p f A = Ok J /\ csr_wf J /\ m_row J = m_row A /\ m_col J = m_col A /\
    forall i j k a b e, inside3 dom i j k -> inside3 dom a b e ->
    exists F : R -> R,
      (forall t c rhs, holds_inside3 dom c (replaced u a b e t) -> zlen rhs = cells3 dom ->
         exists sc' c' r, eval_rhs3 d variant p sc c rhs = Ok (sc', c', r) /\
           zget r (slot3 dom i j k) = Some (F t)) /\
      derivable_pt_lim F (u a b e) (dense J (cellno dom i j k) (cellno dom a b e)).
Proof. exact pf_C24_jacobian. Qed.
Print Assumptions C24_jacobian.

Example C24_ex : xbc (ex_box Periodic) = Periodic /\ ybc (ex_box Periodic) = Periodic /\ zbc (ex_box Periodic) = Periodic /\
  inside3 (ex_box Periodic) 4 0 6 /\
  exists d A f, make3 (ex_box Periodic) = Ok d /\ create_matrix d = Ok A /\
    holds3 (ex_box Periodic) f (periodic3 (ex_box Periodic) (fun i j k => IZR (i * j + k))).
Proof.
  split; [reflexivity|]. split; [reflexivity|]. split; [reflexivity|].
  split; [unfold inside3; simpl; repeat split; discriminate || reflexivity|].
  destruct (ex_box_ok Periodic) as (VD & _ & _ & _ & _ & _ & _ & d & sc & A & f & M & _ & EA & _).
  destruct (exists_holds3 (ex_box Periodic) (periodic3 (ex_box Periodic) (fun i j k => IZR (i * j + k))) VD) as (g & Hg).
  exists d, A, g. auto.
Qed.

(** C24 in the program's own arithmetic (doubles included): for any state values, periodic or
    not, the entry stored in row (i,j,k) for the column of the neighbour at offset (a,b,e) is
    0 - sigma - eps2 42 / h^4 - 6 (3 w^2 - 1) / h^2 at the cell itself,
    (3 w^2 - 1) / h^2 + 12 eps2 / h^4 with w the neighbour's value next to it,
    - eps2 / h^4 two steps away along an axis and - 2 eps2 / h^4 across an edge, with the
    operations in exactly the order written. *)
Theorem C24_entries_rounded :
  forall (V : Type) (N : Num V) (dom : domain V) (d : disc3 V) (p : ch_params V) (A : csr V)
    (f : list V) (w : Z -> Z -> Z -> V),
  valid_domain3 dom -> five_cells dom -> 1 <= nhalo dom -> make3 dom = Ok d -> create_matrix d = Ok A ->
  holds3 dom f w ->
  exists J, eval_jacobian d p f A = Ok J /\
    forall i j k a b e, inside3 dom i j k -> Z.abs a + Z.abs b + Z.abs e <= 2 ->
    let h2 := nmul (d3_dx d) (d3_dx d) in
    let h4 := nmul h2 h2 in
    let g v := nsub (nmul (nint 3) (npow2 v)) (nint 1) in
    let value :=
      if Z.abs a + Z.abs b + Z.abs e =? 0 then
        nadd (nadd (nadd (nint 0) (nopp (ch_sigma p))) (ndiv (nmul (nopp (ch_eps2 p)) (nint 42)) h4))
             (ndiv (nmul (nint (-6)) (g (w i j k))) h2)
      else if Z.abs a + Z.abs b + Z.abs e =? 1 then
        nadd (nadd (nint 0) (ndiv (g (w (i + a) (j + b) (k + e))) h2)) (ndiv (nmul (nint 12) (ch_eps2 p)) h4)
      else if Z.max (Z.abs a) (Z.max (Z.abs b) (Z.abs e)) =? 2 then
        nadd (nint 0) (ndiv (nopp (ch_eps2 p)) h4)
      else nadd (nint 0) (ndiv (nmul (nopp (ch_eps2 p)) (nint 2)) h4) in
    let column := cellno dom ((i + a) mod nx dom) ((j + b) mod ny dom) ((k + e) mod nz dom) in
    filter (fun e => fst e =? column) (row_entries J (cellno dom i j k)) = [(column, value)].
Proof. exact pf_C24_entries_rounded. Qed.
Print Assumptions C24_entries_rounded.

Example C24_entries_ex : five_cells (ex_dom (2#1) (3#1) 5 6 7 2 Periodic Periodic Periodic)%Q /\
  (exists d A f, make3 (N:=Num_Q) (ex_dom (2#1) (3#1) 5 6 7 2 Periodic Periodic Periodic)%Q = Ok d /\ create_matrix (N:=Num_Q) d = Ok A /\
     holds3 (ex_dom (2#1) (3#1) 5 6 7 2 Periodic Periodic Periodic)%Q f (fun i j k => inject_Z (i * j + k))).
Proof. exact ex_entries_facts. Qed.

(** C13 for the assembly: whatever the schedule of its iterations, each of the two parallel
    loops of evalJacobian ends with the same values, with no race and no fault. *)
Theorem C13_jacobian :
  forall (V : Type) (N : Num V) (dom : domain V) (d : disc3 V) (p : ch_params V) (A : csr V)
    (f : list V) (w : Z -> Z -> Z -> V),
  valid_domain3 dom -> 1 <= nhalo dom -> make3 dom = Ok d ->
  csr_wf A -> m_rows A = nx dom * ny dom * nz dom -> holds3 dom f w ->
  exists v0 v, eval_jacobian d p f A = Ok (set_values A v) /\
    schedule_independent (map zero_body (zrange 0 (zlen (m_vals A)))) [m_vals A] [v0] /\
    schedule_independent (map (jac_body d p A) (zrange 0 (zlen (m_row A) - 1))) [f; v0] [f; v].
Proof. exact pf_C13_jacobian. Qed.
Print Assumptions C13_jacobian.

(** C26, stale halos: take any periodic grid as above and the zero state, and let one halo cell
    of the state array still hold 1.  Evaluating the right-hand side gives the derivative l
    of cell (0,0,0) with respect to cell (nx-1,0,0); the assembled entry is another number. *)
Theorem C26_stale_halos :
  forall (dom : domain R) (d : disc3 R) (variant : Z) (p : ch_params R) (sc : scratch R) (A : csr R) (f : list R),
  valid_domain3 dom -> five_cells dom -> 2 <= nhalo dom ->
  nhalo dom <= nx dom /\ nhalo dom <= ny dom /\ nhalo dom <= nz dom ->
  xbc dom = Periodic -> ybc dom = Periodic -> zbc dom = Periodic -> xbeg dom <> xend dom ->
  make3 dom = Ok d -> make_ch3 d variant = Ok sc -> create_matrix d = Ok A ->
  holds3 dom f (replaced (fun _ _ _ => 0%R) (-1) 0 0 1%R) ->
  exists (J : csr R) (F : R -> R) (l : R), eval_jacobian d p f A = Ok J /\
    (forall t c rhs, holds_inside3 dom c (replaced (fun _ _ _ => 0%R) (nx dom - 1) 0 0 t) -> zlen rhs = cells3 dom ->
       exists sc' c' r, eval_rhs3 d variant p sc c rhs = Ok (sc', c', r) /\
         zget r (slot3 dom 0 0 0) = Some (F t)) /\
    derivable_pt_lim F 0 l /\
    dense J (cellno dom 0 0 0) (cellno dom (nx dom - 1) 0 0) <> l.
Proof. exact pf_C26_stale_halos. Qed.
Print Assumptions C26_stale_halos.

(** C26, Neumann: on any grid with a Neumann x direction (other directions arbitrary), for any
    state with up-to-date halos, and any non-zero eps2: the right-hand side of cell (0,0,0)
    does not depend on cell (nx-2,0,0), but the assembled entry is not zero. *)
Theorem C26_neumann :
  forall (dom : domain R) (d : disc3 R) (variant : Z) (p : ch_params R) (sc : scratch R) (A : csr R) (f : list R)
    (u : Z -> Z -> Z -> R),
  valid_domain3 dom -> five_cells dom -> 2 <= nhalo dom ->
  nhalo dom <= nx dom /\ nhalo dom <= ny dom /\ nhalo dom <= nz dom ->
  xbc dom = Neumann -> xbeg dom <> xend dom -> ch_eps2 p <> 0%R ->
  make3 dom = Ok d -> make_ch3 d variant = Ok sc -> create_matrix d = Ok A ->
  holds3 dom f (extend3 dom u) ->
  exists (J : csr R) (y : R), eval_jacobian d p f A = Ok J /\
    (forall t c rhs, holds_inside3 dom c (replaced u (nx dom - 2) 0 0 t) -> zlen rhs = cells3 dom ->
       exists sc' c' r, eval_rhs3 d variant p sc c rhs = Ok (sc', c', r) /\
         zget r (slot3 dom 0 0 0) = Some y) /\
    dense J (cellno dom 0 0 0) (cellno dom (nx dom - 2) 0 0) <> 0%R.
Proof. exact pf_C26_neumann. Qed.
Print Assumptions C26_neumann.

Example C26_ex : xbc (ex_box Neumann) = Neumann /\ five_cells (ex_box Neumann) /\
  (exists d A f, make3 (ex_box Neumann) = Ok d /\ create_matrix d = Ok A /\
     holds3 (ex_box Neumann) f (extend3 (ex_box Neumann) (fun i j k => IZR (i - k)))) /\
  (exists f, holds3 (ex_box Periodic) f (replaced (fun _ _ _ => 0%R) (-1) 0 0 1%R)).
Proof.
  split; [reflexivity|]. split; [apply ex_box_ok|]. split.
  - destruct (ex_box_ok Neumann) as (VD & _ & _ & _ & _ & _ & _ & d & sc & A & f & M & _ & EA & _).
    destruct (exists_holds3 (ex_box Neumann) (extend3 (ex_box Neumann) (fun i j k => IZR (i - k))) VD) as (g & Hg).
    exists d, A, g. auto.
  - apply exists_holds3. apply ex_box_ok.
Qed.
