(** Cell addressing.  Integers are unbounded here; [Int32.v] holds the same formulas in
    checked 32-bit arithmetic. *)
From Verif Require Import Outcome ZList.

(** get1Dindex, /repo/data_structures/managed_array_2d.hpp:8-12 *)
Definition get1Dindex (i j nhalo njhalo : Z) : Z := (i + nhalo) * njhalo + nhalo + j.

(** ManagedArray2DAccessor::getIJ, /repo/data_structures/managed_array_2d.hpp:25-29.
    C++ integer division truncates: [Z.quot], [Z.rem]. *)
Definition getIJ (idx nhalo njhalo : Z) : Z * Z :=
  (Z.quot idx njhalo - nhalo, Z.rem idx njhalo - nhalo).

(** Storage size of a 2D array, /repo/data_structures/managed_array_2d.hpp:84-88 *)
Definition storage2D (ni nj nhalo : Z) : Z := (ni + 2 * nhalo) * (nj + 2 * nhalo).

(** get1DindexFrom3D, /repo/data_structures/managed_array_3d.hpp:8-12 *)
Definition get1DindexFrom3D (i j k nhalo njhalo nkhalo : Z) : Z :=
  (i + nhalo) * (njhalo * nkhalo) + (j + nhalo) * nkhalo + (k + nhalo).

(** ManagedArray3DAccessor::getIJK, /repo/data_structures/managed_array_3d.hpp:38-43 *)
Definition getIJK (idx nhalo njhalo nkhalo : Z) : Z * Z * Z :=
  (Z.quot idx (njhalo * nkhalo) - nhalo,
   Z.rem (Z.quot idx nkhalo) njhalo - nhalo,
   Z.rem idx nkhalo - nhalo).

(** Storage size of a 3D array, /repo/data_structures/managed_array_3d.hpp:124-134 *)
Definition storage3D (ni nj nk nhalo : Z) : Z :=
  (ni + 2 * nhalo) * (nj + 2 * nhalo) * (nk + 2 * nhalo).

(** A freshly created array: ManagedArray's constructor fills it with T(0),
    /repo/data_structures/managed_array.hpp:28-48.  A non-positive size gives an empty array. *)
Definition new_array {A} (zero : A) (size : Z) : list A := repeat zero (Z.to_nat size).

(** The constructors fill an index array with a running counter:
    [list[inode] = v; inode++;] for each v in turn. *)
Fixpoint fill_from {A} (arr : list A) (inode : Z) (vals : list A) : res (list A) :=
  match vals with
  | [] => Ok arr
  | v :: vs =>
      match zset arr inode v with
      | Some arr' => fill_from arr' (inode + 1) vs
      | None => UB
      end
  end.
