(** Specification vocabulary for the Jacobian. *)
From Verif Require Import Outcome ZList ModelDisc3D SpecGrid.

(** The row (and column) number of an interior cell: row-major order. *)
Definition cellno {V} (dom : domain V) (i j k : Z) : Z := (i * ny dom + j) * nz dom + k.

(** Column c belongs to the stencil of cell (i,j,k): it is the periodic image of a cell at
    most two grid steps away, steps along the axes. *)
Definition in_stencil {V} (dom : domain V) (i j k c : Z) : Prop :=
  exists a b e, Z.abs a + Z.abs b + Z.abs e <= 2 /\
    c = cellno dom ((i + a) mod nx dom) ((j + b) mod ny dom) ((k + e) mod nz dom).

Definition five_cells {V} (dom : domain V) : Prop := 5 <= nx dom /\ 5 <= ny dom /\ 5 <= nz dom.

(** The field u with the value of cell (a,b,e) replaced by t. *)
Definition replaced {V} (u : Z -> Z -> Z -> V) (a b e : Z) (t : V) (i j k : Z) : V :=
  if (i =? a) && (j =? b) && (k =? e) then t else u i j k.
