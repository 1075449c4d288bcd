(** Specification vocabulary for sparse matrices and vectors. *)
From Coq Require Import ZArith List Reals.
From Verif Require Import Outcome ZList Num ModelCSR SpecField.
Import ListNotations.
Local Open Scope Z_scope.

(** The array l represents the vector f of length n. *)
Definition holds1 {V} (n : Z) (l : list V) (f : Z -> V) : Prop :=
  zlen l = n /\ forall i, 0 <= i < n -> zget l i = Some (f i).

(** The (column, value) pairs stored for row r, in storage order. *)
Definition row_entries {V} (A : csr V) (r : Z) : list (Z * V) :=
  match zget (m_row A) r, zget (m_row A) (r + 1) with
  | Some lo, Some hi =>
      firstn (Z.to_nat (hi - lo)) (skipn (Z.to_nat lo) (combine (m_col A) (m_vals A)))
  | _, _ => []
  end.

(** A well-formed CSR matrix. *)
Definition csr_wf {V} (A : csr V) : Prop :=
  0 <= m_rows A /\ 0 <= m_cols A /\
  zlen (m_row A) = m_rows A + 1 /\
  zlen (m_col A) = zlen (m_vals A) /\
  zlen (m_tmp A) = m_cols A /\
  (forall r, 0 <= r < m_rows A -> exists lo hi,
     zget (m_row A) r = Some lo /\ zget (m_row A) (r + 1) = Some hi /\
     0 <= lo <= hi /\ hi <= zlen (m_vals A)) /\
  (forall j c, zget (m_col A) j = Some c -> 0 <= c < m_cols A).

Definition square {V} (A : csr V) : Prop := m_rows A = m_cols A.

(** Row r stores exactly one entry in column r, with value d. *)
Definition diag_entry {V} (A : csr V) (r : Z) (d : V) : Prop :=
  filter (fun e => fst e =? r) (row_entries A r) = [(r, d)].

Definition one_diagonal {V} (A : csr V) : Prop :=
  forall r, 0 <= r < m_rows A -> exists d, diag_entry A r d.

(** The matrix as a function: entries stored for the same place add up. *)
Definition dense (A : csr R) (r c : Z) : R :=
  Rsum (map snd (filter (fun e => fst e =? c) (row_entries A r))).

(** The product and the off-diagonal part of it. *)
Definition mul_vec (A : csr R) (u : Z -> R) (r : Z) : R :=
  sum1 (m_cols A) (fun c => dense A r c * u c)%R.
Definition off_mul_vec (A : csr R) (u : Z -> R) (r : Z) : R :=
  sum1 (m_cols A) (fun c => if (c =? r)%Z then 0 else dense A r c * u c)%R.

Definition solves (A : csr R) (u f : Z -> R) : Prop :=
  forall r, 0 <= r < m_rows A -> mul_vec A u r = f r.

(** The weighted Jacobi update of u towards A u = f: u + w (D^-1 (f - (A - D) u) - u). *)
Definition jacobi_update (A : csr R) (w : R) (u f : Z -> R) (r : Z) : R :=
  (u r + w * ((f r - off_mul_vec A u r) / dense A r r - u r))%R.

(** Every row stores its diagonal once, and its magnitude exceeds [meps]. *)
Definition good_diagonal (meps : R) (A : csr R) : Prop :=
  one_diagonal A /\ (0 <= meps)%R /\
  forall r, 0 <= r < m_rows A -> (meps < Rabs (dense A r r))%R.

(** The cached inverse diagonal is marked for recomputation or holds the inverses of the
    matrix' current diagonal. *)
Definition cache_matches (A : csr R) : Prop :=
  m_dirty A = true \/
  exists di, m_diag_inv A = Some di /\ holds1 (m_rows A) di (fun r => / dense A r r)%R.

(** Sum of the magnitudes of the off-diagonal entries of row r. *)
Definition off_abs (A : csr R) (r : Z) : R :=
  sum1 (m_cols A) (fun c => if (c =? r)%Z then 0 else Rabs (dense A r c))%R.

(** n applications of a sweep, each on the result of the one before. *)
Fixpoint sweeps {V} (sweep : csr V -> list V -> res (list V * csr V)) (n : nat) (A : csr V) (x : list V)
    : res (list V * csr V) :=
  match n with
  | O => Ok (x, A)
  | S n' => rbind (sweep A x) (fun p => sweeps sweep n' (snd p) (fst p))
  end.
