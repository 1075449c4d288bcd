(** Rational arithmetic for the examples beside the theorems, and small concrete domains. *)
From Coq Require Import ZArith QArith Qreduction Qabs.
From Verif Require Import Outcome ZList Num Kernel ModelDisc3D.

Definition Num_Q : Num Q := {|
  nadd := fun x y => Qred (Qplus x y);
  nsub := fun x y => Qred (Qminus x y);
  nmul := fun x y => Qred (Qmult x y);
  ndiv := fun x y => Qred (Qdiv x y);
  nopp := fun x => Qred (Qopp x);
  nint := inject_Z;
  nrat := fun p q => Qred (p # q);
  npow3 := fun x => Qred (x * x * x);
  npow2 := fun x => Qred (x * x);
  nsqrt := fun x => x;            (* not used by the examples *)
  nabs := Qabs;
  nltb := fun x y => negb (Qle_bool y x);
  neqb := Qeq_bool
|}.

Local Open Scope Z_scope.

(** A box domain from (0,0,0) with unit-free bounds. *)
Definition ex_dom {V} (zero len : V) (a b c nh : Z) (bx by_ bz : bctype) : domain V :=
  {| nx := a; ny := b; nz := c; xbeg := zero; xend := len; ybeg := zero; yend := len;
     zbeg := zero; zend := len; xbc := bx; ybc := by_; zbc := bz; nhalo := nh |}.

(** An array that holds a given field, filled in storage order. *)
Definition tabulate3 {V} (dom : domain V) (u : Z -> Z -> Z -> V) : list V :=
  flat_map (fun i => flat_map (fun j => map (fun k => u i j k)
      (zrange (- nhalo dom) (nz dom + nhalo dom))) (zrange (- nhalo dom) (ny dom + nhalo dom)))
    (zrange (- nhalo dom) (nx dom + nhalo dom)).
Definition tabulate2 {V} (dom : domain V) (u : Z -> Z -> V) : list V :=
  flat_map (fun i => map (fun j => u i j) (zrange (- nhalo dom) (nx dom + nhalo dom)))
    (zrange (- nhalo dom) (nx dom + nhalo dom)).
