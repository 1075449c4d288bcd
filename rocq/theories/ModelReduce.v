(** RAJA reductions: [ReduceSumReal], [ReduceMinReal], [ReduceMaxReal]
    (/repo/data_structures/exec_includes.hpp:11-61).

    Each loop iteration contributes one value; the library combines the initial value,
    the contributions and any number of identity elements (the starting values of the
    threads' private copies) in an order and bracketing it does not fix.  The model
    allows every one of them. *)
From Coq Require Import List Permutation.
From Verif Require Import Num.
Import ListNotations.

(** Some bracketing of the values of l, in order, combines to v. *)
Inductive combines {V} (op : V -> V -> V) : list V -> V -> Prop :=
| comb_one x : combines op [x] x
| comb_two l1 l2 x y : combines op l1 x -> combines op l2 y -> combines op (l1 ++ l2) (op x y).

(** v is a possible value of [.get()] after the loop contributed the values of l. *)
Definition reduction {V} (op : V -> V -> V) (identity init : V) (l : list V) (v : V) : Prop :=
  exists n l', Permutation (init :: repeat identity n ++ l) l' /\ combines op l' v.
