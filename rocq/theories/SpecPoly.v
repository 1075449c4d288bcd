(** Polynomials in three variables as lists of monomials c x^a y^b z^e. *)
From Coq Require Import ZArith Reals List.
From Verif Require Import SpecField.
Import ListNotations.
Local Open Scope R_scope.

Record mono := { mc : R; ma : nat; mb : nat; me : nat }.
Definition poly := list mono.

Definition meval (q : mono) (x y z : R) : R := mc q * x ^ ma q * y ^ mb q * z ^ me q.
Definition peval (p : poly) (x y z : R) : R := Rsum (map (fun q => meval q x y z) p).

Definition degree_le (p : poly) (d : nat) : Prop := Forall (fun q => (ma q + mb q + me q <= d)%nat) p.

(** Partial derivatives. *)
Definition pdx (p : poly) : poly := map (fun q => {| mc := mc q * INR (ma q); ma := pred (ma q); mb := mb q; me := me q |}) p.
Definition pdy (p : poly) : poly := map (fun q => {| mc := mc q * INR (mb q); ma := ma q; mb := pred (mb q); me := me q |}) p.
Definition pdz (p : poly) : poly := map (fun q => {| mc := mc q * INR (me q); ma := ma q; mb := mb q; me := pred (me q) |}) p.

Definition plap (p : poly) : poly := pdx (pdx p) ++ pdy (pdy p) ++ pdz (pdz p).
