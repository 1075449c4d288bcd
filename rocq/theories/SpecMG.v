(** Vocabulary for the multigrid properties: the full-approximation cycle as a recursive
    function of fields, in the arithmetic and order of operations of any [Num]. *)
From Verif Require Import Outcome ZList Num ModelIndex ModelDisc3D SpecGrid SpecField ModelTime SpecTime ModelMG.
From Coq Require Import Reals.
Local Open Scope Z_scope.

(** Running totals: the levels visited by a cycle that starts on level l. *)
Fixpoint levels_visited (l : Z) (cycle : list Z) : list Z :=
  match cycle with
  | [] => [l]
  | z :: cycle' => l :: levels_visited (l + z) cycle'
  end.

(** How often a cycle that starts on level l smooths level k. *)
Fixpoint smoothings (k l : Z) (cycle : list Z) : nat :=
  match cycle with
  | [] => O
  | z :: cycle' => Nat.add (if (z =? 0) && (l =? k) then 1%nat else 0%nat) (smoothings k (l + z) cycle')
  end.

(** Passes of a process from x to y: rs lists a measurement taken after each pass. *)
Inductive passes {X A : Type} (pass : X -> res X) (measured : X -> A -> Prop) : X -> list A -> X -> Prop :=
| passes_nil x : passes pass measured x [] x
| passes_cons x y z r rs : pass x = Ok y -> measured y r -> passes pass measured y rs z ->
    passes pass measured x (r :: rs) z.

Section Spec.
  Context {V : Type}.
  Definition field : Type := nat -> Z -> V.

  (** Fields equal on the cells in P, for nv equations and arrays of the given size. *)
  Definition same_on (nv : nat) (size : Z) (P : Z -> Prop) (u w : field) : Prop :=
    forall e i, (e < nv)%nat -> 0 <= i < size -> P i -> u e i = w e i.

  (** As [computes], and on return the cells in Q of the state hold the extension of u (for
      instance the halo cells hold the boundary values that belong to u). *)
  Definition computes_ext {S} (eval : rhs_fun V S) (ok : S -> Prop) (nv : nat) (size : Z) (P Q : Z -> Prop)
      (ext : field -> field) (f : V -> field -> field) : Prop :=
    forall sc s t r u, ok sc -> state_holds nv size P s u -> shaped nv size r ->
    exists sc' s' r', eval sc s t r = Ok (sc', s', r') /\ ok sc' /\
      state_holds nv size P s' u /\ state_holds nv size Q s' (ext u) /\ state_holds nv size P r' (f t u).

  (** A transfer between levels: from a source holding u on P it writes F u on P'. *)
  Definition transfers (tr : state V -> state V -> res (state V)) (nv : nat) (size : Z) (P : Z -> Prop)
      (size' : Z) (P' : Z -> Prop) (F : field -> field) : Prop :=
    forall a b u, state_holds nv size P a u -> shaped nv size' b ->
    exists b', tr a b = Ok b' /\ state_holds nv size' P' b' (F u).
End Spec.
Arguments field V : clear implicits.

Section Cycle.
  Context {V : Type} `{N : Num V}.
  Local Open Scope num_scope.

  (** The average slope of one Bogacki-Shampine step. *)
  Definition slope (f : V -> field V -> field V) (t dt : V) (u : field V) : field V :=
    let k1 := f t u in
    let k2 := f (t + nrat 1 2 * dt) (fun e i => u e i + dt * nrat 1 2 * k1 e i) in
    let k3 := f (t + nrat 3 4 * dt) (fun e i => u e i + dt * (nint 0 * k1 e i + nrat 3 4 * k2 e i)) in
    fun e i => nrat 2 9 * k1 e i + nrat 1 3 * k2 e i + nrat 4 9 * k3 e i.

  (** One smoothing is one step of size dt, after which boundary values are renewed. *)
  Definition smooth (f : V -> field V -> field V) (ext : field V -> field V) (t dt : V) (u : field V) : field V :=
    ext (fun e i => u e i + dt * slope f t dt u e i).

  (** n smoothings: the first with step dt, the others with step cfl. *)
  Fixpoint smooths (f : V -> field V -> field V) (ext : field V -> field V) (t dt cfl : V) (n : nat) (u : field V)
    : field V :=
    match n with
    | O => u
    | S n => smooths f ext t cfl cfl n (smooth f ext t dt u)
    end.

  (** A coarser level: its right-hand side without source, its boundary extension, the
      restriction from and the prolongation to the next finer level, the smoothing step, and
      the step of the first smoothing. *)
  Record glevel : Type := {
    l_f : V -> field V -> field V; l_ext : field V -> field V;
    l_rest : field V -> field V; l_prol : field V -> field V;
    l_cfl : V; l_dt : V
  }.

  (** The right-hand side of a coarse level: its own, plus the source that makes the value at
      v0 the restricted residual r. *)
  Definition with_source (f : V -> field V -> field V) (t : V) (v0 r : field V) : V -> field V -> field V :=
    fun s v e i => f s v e i + (- f t v0 e i + r e i).

  (** One full-approximation V-cycle for u' = f, ns smoothings before and after the correction,
      up to but without its last smoothing. *)
  Fixpoint vcycle_pre (ns : nat) (t : V) (f : V -> field V -> field V) (ext : field V -> field V)
      (dt cfl relax crelax : V) (coarser : list glevel) (u : field V) : field V :=
    let u1 := smooths f ext t dt cfl ns u in
    match coarser with
    | [] => smooths f ext t cfl cfl (ns - 1) u1
    | g :: gs =>
        let last := match ns with 1%nat => dt | _ => cfl end in
        let v0 := l_ext g (l_rest g u1) in
        let r := l_rest g (f (t + nint 1 * last) u1) in
        let fc := with_source (l_f g) t v0 r in
        let v := smooth fc (l_ext g) t (l_cfl g)
                   (vcycle_pre ns t fc (l_ext g) (l_dt g) (l_cfl g) crelax crelax gs v0) in
        let delta := l_prol g (fun e i => v e i - v0 e i) in
        smooths f ext t cfl cfl (ns - 1) (fun e i => u1 e i + relax * delta e i)
    end.

  Definition vcycle ns t f ext dt cfl relax crelax coarser u : field V :=
    smooth f ext t cfl (vcycle_pre ns t f ext dt cfl relax crelax coarser u).

  (** The levels once every one has been smoothed. *)
  Definition settled (g : glevel) : glevel :=
    {| l_f := l_f g; l_ext := l_ext g; l_rest := l_rest g; l_prol := l_prol g; l_cfl := l_cfl g; l_dt := l_cfl g |}.

  (** n V-cycles. *)
  Fixpoint vcycles (n : nat) ns t f ext (dt cfl relax crelax : V) (coarser : list glevel) (u : field V) : field V :=
    match n with
    | O => u
    | S n => vcycles n ns t f ext cfl cfl relax crelax (map settled coarser)
               (vcycle ns t f ext dt cfl relax crelax coarser u)
    end.

  (** The residual of backward Euler from w over dt, or of the steady equation. *)
  Definition implicit_rhs (steady : bool) (f : V -> field V -> field V) (dt : V) (w : field V)
    : V -> field V -> field V :=
    if steady then f else fun t u e i => f t u e i - (nint 1 / dt) * (u e i - w e i).
End Cycle.
Arguments glevel V : clear implicits.

(** * The integrator's observable state *)
Section World.
  Context {V : Type} `{N : Num V} {S : Type}.
  Local Open Scope num_scope.

  (** The solver's state. *)
  Definition solution_of (vs : list (level V S)) : state V := match vs with v :: _ => v_u v | [] => [] end.
  Definition solution (b : mg_world V S) : state V := solution_of (b_levels b).

  (** Worlds reached from b0: by time steps, and by the solver's state and residual being
      overwritten with arrays of the same sizes. *)
  Inductive reached (g : mg_config V S) (b0 : mg_world V S) : mg_world V S -> Prop :=
  | reached_start : reached g b0 b0
  | reached_step b b' t dt : reached g b0 b -> bdf_step g b t dt = Ok b' -> reached g b0 b'
  | reached_set b v vs u du : reached g b0 b -> b_levels b = v :: vs ->
      map zlen u = map zlen (v_u v) -> map zlen du = map zlen (v_du v) ->
      reached g b0 {| b_levels := {| v_sc := v_sc v; v_u := u; v_du := du; v_sm := v_sm v; v_c := v_c v |} :: vs;
                      b_res0 := b_res0 b; b_ncycles := b_ncycles b; b_rate := b_rate b |}.

  (** The root mean square of the interior values of an array. *)
  Definition rms_of (g : mg_config V S) (a : list V) (r : V) : Prop :=
    exists xs, Forall2 (fun i x => zget a i = Some x) (g_interior g) xs /\
      r = nsqrt (g_reduce_sum g (map npow2 xs) / nint (zlen (g_interior g))).

  (** r is the root mean square of the residual the solver holds, first equation. *)
  Definition residual_is (g : mg_config V S) (vs : list (level V S)) (r : V) : Prop :=
    exists v a, nth_error vs 0 = Some v /\ nth_error (v_du v) 0 = Some a /\ rms_of g a r.

  (** One pass through the cycle definition, from the finest level. *)
  Definition one_pass (g : mg_config V S) time dt old (vs : list (level V S)) : res (list (level V S)) :=
    match mg_stages g time dt old (g_cycle g) (Ok (0%nat, vs)) with
    | Ok (_, vs') => Ok vs' | UB => UB | Fatal => Fatal | Throw => Throw
    end.

  (** The arrays of a level have the sizes the constructors give them: level k has coarse data
      unless k = 0, all of its own size but the delta for the finer level. *)
  Definition smoother_fits (nv : nat) (size : Z) (o : smoother V) : Prop :=
    shaped nv size (m_k1 o) /\ shaped nv size (m_k2 o) /\ shaped nv size (m_k3 o) /\
    shaped nv size (m_k4 o) /\ shaped nv size (m_stage o).
  Definition coarse_fits (nv : nat) (size fine : Z) (c : coarse_data V) : Prop :=
    shaped nv size (c_pre c) /\ shaped nv size (c_respre c) /\ shaped nv size (c_restr c) /\
    shaped nv size (c_delta c) /\ shaped nv size (c_src c) /\ shaped nv fine (c_fine c).
  Definition level_fits (ok : S -> Prop) (nv : nat) (size : nat -> Z) (k : nat) (v : level V S) : Prop :=
    ok (v_sc v) /\ shaped nv (size k) (v_u v) /\ shaped nv (size k) (v_du v) /\ smoother_fits nv (size k) (v_sm v) /\
    match k, v_c v with
    | O, None => True
    | Datatypes.S k', Some c => coarse_fits nv (size (1 + k')%nat) (size k') c
    | _, _ => False
    end.

  (** One array holding the values u inside the domain. *)
  Definition state_inside3 (dom : domain V) (s : state V) (u : Z -> Z -> Z -> V) : Prop :=
    exists c, s = [c] /\ holds_inside3 dom c u.

  (** Thick enough for m coarsenings: every level has at least as many cells as halo layers. *)
  Definition thick_at (m : Z) (dom : domain V) : Prop :=
    nhalo dom * 2 ^ m <= nx dom /\ nhalo dom * 2 ^ m <= ny dom /\ nhalo dom * 2 ^ m <= nz dom.
End World.

(** The domain of level l: the cell counts halved l times, everything else kept. *)
Definition coarse_dom {V} (dom : domain V) (l : Z) : domain V :=
  {| nx := nx dom / 2 ^ l; ny := ny dom / 2 ^ l; nz := nz dom / 2 ^ l;
     xbeg := xbeg dom; xend := xend dom; ybeg := ybeg dom; yend := yend dom; zbeg := zbeg dom; zend := zend dom;
     xbc := xbc dom; ybc := ybc dom; zbc := zbc dom; nhalo := nhalo dom |}.

(** Each coarse cell takes the average of its eight fine cells. *)
Definition average8 (u : Z -> Z -> Z -> R) (i j k : Z) : R :=
  (sum3 2 2 2 (fun a b c => u (2 * i + a)%Z (2 * j + b)%Z (2 * k + c)%Z) / 8)%R.

(** * The cycle for the 3D Cahn-Hilliard equation, cell by cell *)

(** Cell values as a field over the slots of an array, and back. *)
Definition cells_of {V} (dom : domain V) (w : field V) (i j k : Z) : V := w O (slot3 dom i j k).
Definition table_of {V} (dom : domain V) (u : Z -> Z -> Z -> V) : field V := fun e z =>
  let '(i, j, k) := getIJK z (nhalo dom) (ny dom + 2 * nhalo dom) (nz dom + 2 * nhalo dom) in u i j k.
Definition onto3 {V} (from to : domain V) (F : (Z -> Z -> Z -> V) -> Z -> Z -> Z -> V) : field V -> field V :=
  fun w => table_of to (F (cells_of from w)).

(** The spacing of level l, and the step of its smoother: the CFL number times its fourth power. *)
Definition spacing_at (dom : domain R) (l : Z) : R := ((xend dom - xbeg dom) / IZR (nx dom / 2 ^ l))%R.
Definition smoothing_step (cfl : R) (dom : domain R) (l : Z) : R := (cfl * spacing_at dom l ^ 4)%R.

(** Level l: the Cahn-Hilliard equation on the grid of that level, averages of eight cells to get there, the given
    prolongation back, and the given step of the first smoothing. *)
Definition ch_level3 (prol : (Z -> Z -> Z -> R) -> Z -> Z -> Z -> R) (m sigma eps2 cfl : R) (first : Z -> R) (dom : domain R) (l : Z)
    : glevel R :=
  let here := coarse_dom dom l in
  let finer := coarse_dom dom (l - 1) in
  {| l_f := fun _ => onto3 here here (fun u => CH3 (spacing_at dom l) m sigma eps2 (extend3 here u));
     l_ext := onto3 here here (extend3 here);
     l_rest := onto3 finer here average8; l_prol := onto3 here finer prol;
     l_cfl := smoothing_step cfl dom l; l_dt := first l |}.
