(** Specification vocabulary for fields on Cartesian grids.  Nothing here refers to the
    model of the code except the domain description. *)
From Verif Require Import Outcome ZList Num Kernel ModelDisc3D.

Section SpecGrid.
  Context {V : Type}.

  (** A domain the program can be run on: at least one cell per direction. *)
  Definition valid_domain3 (dom : domain V) : Prop :=
    1 <= nx dom /\ 1 <= ny dom /\ 1 <= nz dom /\ 0 <= nhalo dom.

  (** (i,j,k) is a cell of the padded grid, respectively of the interior. *)
  Definition padded3 (dom : domain V) (i j k : Z) : Prop :=
    - nhalo dom <= i < nx dom + nhalo dom /\
    - nhalo dom <= j < ny dom + nhalo dom /\
    - nhalo dom <= k < nz dom + nhalo dom.

  Definition inside3 (dom : domain V) (i j k : Z) : Prop :=
    0 <= i < nx dom /\ 0 <= j < ny dom /\ 0 <= k < nz dom.

  (** Row-major position of a cell of the padded grid. *)
  Definition slot3 (dom : domain V) (i j k : Z) : Z :=
    ((i + nhalo dom) * (ny dom + 2 * nhalo dom) + (j + nhalo dom)) * (nz dom + 2 * nhalo dom)
    + (k + nhalo dom).

  (** Number of cells of the padded grid. *)
  Definition cells3 (dom : domain V) : Z :=
    (nx dom + 2 * nhalo dom) * (ny dom + 2 * nhalo dom) * (nz dom + 2 * nhalo dom).

  (** The array f holds the field u on the whole padded grid. *)
  Definition holds3 (dom : domain V) (f : list V) (u : Z -> Z -> Z -> V) : Prop :=
    zlen f = cells3 dom /\
    forall i j k, padded3 dom i j k -> zget f (slot3 dom i j k) = Some (u i j k).

  (** The array f holds the field u on the interior. *)
  Definition holds_inside3 (dom : domain V) (f : list V) (u : Z -> Z -> Z -> V) : Prop :=
    zlen f = cells3 dom /\
    forall i j k, inside3 dom i j k -> zget f (slot3 dom i j k) = Some (u i j k).

  (** Two arrays hold the same halo cells. *)
  Definition same_halo3 (dom : domain V) (f g : list V) : Prop :=
    zlen f = zlen g /\
    forall i j k, padded3 dom i j k -> ~ inside3 dom i j k ->
      zget f (slot3 dom i j k) = zget g (slot3 dom i j k).

  (** 2D: the code uses nx for both directions. *)
  Definition valid_domain2 (dom : domain V) : Prop := 1 <= nx dom /\ 0 <= nhalo dom.

  Definition padded2 (dom : domain V) (i j : Z) : Prop :=
    - nhalo dom <= i < nx dom + nhalo dom /\ - nhalo dom <= j < nx dom + nhalo dom.

  Definition inside2 (dom : domain V) (i j : Z) : Prop :=
    0 <= i < nx dom /\ 0 <= j < nx dom.

  Definition slot2 (dom : domain V) (i j : Z) : Z :=
    (i + nhalo dom) * (nx dom + 2 * nhalo dom) + (j + nhalo dom).

  Definition cells2 (dom : domain V) : Z := (nx dom + 2 * nhalo dom) * (nx dom + 2 * nhalo dom).

  Definition holds2 (dom : domain V) (f : list V) (u : Z -> Z -> V) : Prop :=
    zlen f = cells2 dom /\
    forall i j, padded2 dom i j -> zget f (slot2 dom i j) = Some (u i j).

  Definition holds_inside2 (dom : domain V) (f : list V) (u : Z -> Z -> V) : Prop :=
    zlen f = cells2 dom /\
    forall i j, inside2 dom i j -> zget f (slot2 dom i j) = Some (u i j).

  Definition same_halo2 (dom : domain V) (f g : list V) : Prop :=
    zlen f = zlen g /\
    forall i j, padded2 dom i j -> ~ inside2 dom i j ->
      zget f (slot2 dom i j) = zget g (slot2 dom i j).

End SpecGrid.

(** Where a coordinate outside [0,n) takes its value from. *)
Definition clampZ (n i : Z) : Z := Z.max 0 (Z.min (n - 1) i).

Definition extend1 (bc : bctype) (n i : Z) : Z :=
  match bc with
  | Neumann => clampZ n i      (* nearest interior layer *)
  | _ => i mod n               (* periodic wrap *)
  end.

(** The periodic extension and the extension by the domain's boundary types. *)
Definition periodic3 {V} (dom : domain V) (u : Z -> Z -> Z -> V) (i j k : Z) : V :=
  u (i mod nx dom) (j mod ny dom) (k mod nz dom).

Definition extend3 {V} (dom : domain V) (u : Z -> Z -> Z -> V) (i j k : Z) : V :=
  u (extend1 (xbc dom) (nx dom) i) (extend1 (ybc dom) (ny dom) j) (extend1 (zbc dom) (nz dom) k).

Definition periodic2 {V} (dom : domain V) (u : Z -> Z -> V) (i j : Z) : V :=
  u (i mod nx dom) (j mod nx dom).

(** A parallel loop with iterations ps on memory m: every schedule finishes, none faults,
    and all of them, the sequential one included, end with the same memory m'. *)
Definition schedule_independent {V} (ps : list (prog V)) (m m' : mem V) : Prop :=
  exec_all ps m = Ok m' /\
  (forall m'', par_result ps m m'' <-> m'' = m') /\
  ~ par_fault ps m /\
  (forall c, psteps (ps, m) c -> pdone (fst c) \/ exists c', pstep c c') /\
  Acc (fun c' c => pstep c c') (ps, m).
