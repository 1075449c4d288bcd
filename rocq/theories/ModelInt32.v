(** The index formulas of [ModelIndex.v] in checked 32-bit arithmetic: signed overflow and
    division by zero are undefined behaviour ([UB]). *)
From Verif Require Import Outcome ZList.
From Coq Require Import ZArith.
Local Open Scope Z_scope.
Local Open Scope res_scope.

(** [int] and [int_t] are 32 bits wide, /repo/typedefs.hpp *)
Definition int_max : Z := 2147483647.
Definition int_min : Z := -2147483648.
Definition fits32 (z : Z) : bool := (int_min <=? z) && (z <=? int_max).
Definition chk (z : Z) : res Z := if fits32 z then Ok z else UB.

Definition iadd (a b : Z) : res Z := chk (a + b).
Definition isub (a b : Z) : res Z := chk (a - b).
Definition imul (a b : Z) : res Z := chk (a * b).
Definition idiv (a b : Z) : res Z := if b =? 0 then UB else chk (Z.quot a b).
(** a % b is undefined when a / b is not representable *)
Definition irem (a b : Z) : res Z :=
  if b =? 0 then UB else if fits32 (Z.quot a b) then chk (Z.rem a b) else UB.

(** get1Dindex, /repo/data_structures/managed_array_2d.hpp:8-12 *)
Definition get1Dindex32 (i j nhalo njhalo : Z) : res Z :=
  a <- iadd i nhalo ;;
  b <- imul a njhalo ;;
  c <- iadd b nhalo ;;
  iadd c j.

(** getIJ, managed_array_2d.hpp:25-29 *)
Definition getIJ32 (idx nhalo njhalo : Z) : res (Z * Z) :=
  a <- idiv idx njhalo ;;
  i <- isub a nhalo ;;
  b <- irem idx njhalo ;;
  j <- isub b nhalo ;;
  Ok (i, j).

(** ManagedArray2DOwning's size, managed_array_2d.hpp:84-88 *)
Definition storage2D32 (ni nj nhalo : Z) : res Z :=
  a <- imul 2 nhalo ;;
  x <- iadd ni a ;;
  b <- imul 2 nhalo ;;
  y <- iadd nj b ;;
  imul x y.

(** get1DindexFrom3D, managed_array_3d.hpp:8-12 *)
Definition get1DindexFrom3D32 (i j k nhalo njhalo nkhalo : Z) : res Z :=
  a <- iadd i nhalo ;;
  b <- imul njhalo nkhalo ;;
  x <- imul a b ;;
  c <- iadd j nhalo ;;
  y <- imul c nkhalo ;;
  s <- iadd x y ;;
  e <- iadd k nhalo ;;
  iadd s e.

(** getIJK, managed_array_3d.hpp:38-43 *)
Definition getIJK32 (idx nhalo njhalo nkhalo : Z) : res (Z * Z * Z) :=
  p <- imul njhalo nkhalo ;;
  a <- idiv idx p ;;
  i <- isub a nhalo ;;
  b <- idiv idx nkhalo ;;
  c <- irem b njhalo ;;
  j <- isub c nhalo ;;
  e <- irem idx nkhalo ;;
  k <- isub e nhalo ;;
  Ok (i, j, k).

(** ManagedArray3DOwning's size, managed_array_3d.hpp:124-134 *)
Definition storage3D32 (ni nj nk nhalo : Z) : res Z :=
  a <- imul 2 nhalo ;;
  x <- iadd ni a ;;
  b <- imul 2 nhalo ;;
  y <- iadd nj b ;;
  xy <- imul x y ;;
  c <- imul 2 nhalo ;;
  z <- iadd nk c ;;
  imul xy z.
