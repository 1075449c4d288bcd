(** What a client of managed arrays may do and what it may rely on: a ledger of buffers and
    array objects, kept without handles, maps, synchronisation flags or copies. *)
From Coq Require Import ZArith List Bool.
Import ListNotations.
From Verif Require Import ModelObs ModelMem.
Local Open Scope Z_scope.

Section Spec.
  Context {V : Type}.
  Variables (gpu : bool) (wsz : Z) (zero : V).

  (** Buffers are numbered in the order of their allocation; each has a size and is live or
      not; external ones belong to somebody else than a managed array.  An array object
      stands for one buffer, which it owns or only views.  [l_val r] is the last value
      written to buffer r. *)
  Record ledger : Type := {
    l_n : nat;
    l_live : nat -> bool;
    l_ext : nat -> bool;
    l_size : nat -> nat;
    l_val : nat -> list V;
    l_obj : nat -> option (nat * bool)
  }.

  Definition no_arrays : ledger :=
    {| l_n := 0; l_live := fun _ => false; l_ext := fun _ => false; l_size := fun _ => O;
       l_val := fun _ => []; l_obj := fun _ => None |}.

  Definition new_buffer (l : ledger) (c : list V) (ext : bool) : ledger :=
    {| l_n := S (l_n l); l_live := upd (l_live l) (l_n l) true;
       l_ext := upd (l_ext l) (l_n l) ext; l_size := upd (l_size l) (l_n l) (length c);
       l_val := upd (l_val l) (l_n l) c; l_obj := l_obj l |}.

  Definition set_obj (l : ledger) (o : nat) (x : option (nat * bool)) : ledger :=
    {| l_n := l_n l; l_live := l_live l; l_ext := l_ext l; l_size := l_size l;
       l_val := l_val l; l_obj := upd (l_obj l) o x |}.

  Definition set_val (l : ledger) (r : nat) (c : list V) : ledger :=
    {| l_n := l_n l; l_live := l_live l; l_ext := l_ext l; l_size := l_size l;
       l_val := upd (l_val l) r c; l_obj := l_obj l |}.

  Definition drop_buffer (l : ledger) (r : nat) : ledger :=
    {| l_n := l_n l; l_live := upd (l_live l) r false; l_ext := l_ext l; l_size := l_size l;
       l_val := l_val l; l_obj := l_obj l |}.

  (** The effect of an operation, and what a client that reads gets to see. *)
  Definition ledger_step (l : ledger) (op : mem_op V) : ledger :=
    match op with
    | OpCreate o c => set_obj (new_buffer l c false) o (Some (l_n l, true))
    | OpView o r size => set_obj (set_val l r (repeat zero (l_size l r))) o (Some (r, false))
    | OpDestroy o =>
        match l_obj l o with
        | Some (r, true) => set_obj (drop_buffer l r) o None
        | _ => set_obj l o None
        end
    | OpSwap o1 o2 => set_obj (set_obj l o1 (l_obj l o2)) o2 (l_obj l o1)
    | OpAccess o s x =>
        match l_obj l o with
        | Some (r, _) =>
            match x with
            | Read => l
            | Write c => set_val l r c
            | Update f | WritePart f => set_val l r (f (l_val l r))
            end
        | None => l
        end
    | OpExtAlloc c => new_buffer l c true
    | OpExtFree r => drop_buffer l r
    end.

  Definition ledger_view (l : ledger) (op : mem_op V) : list V :=
    match op with
    | OpAccess o _ (Read | Update _) =>
        match l_obj l o with Some (r, _) => l_val l r | None => [] end
    | _ => []
    end.

  Fixpoint ledger_after (l : ledger) (h : list (mem_op V)) : ledger :=
    match h with [] => l | op :: h' => ledger_after (ledger_step l op) h' end.

  Fixpoint ledger_views (l : ledger) (h : list (mem_op V)) : list (list V) :=
    match h with [] => [] | op :: h' => ledger_view l op :: ledger_views (ledger_step l op) h' end.

  (** The rules of object lifetime and ownership: a new object gets an unused name; only
      live objects are used, swapped and destroyed; a view is made of a whole live buffer
      and used only while that buffer is live; external buffers are freed by their owner,
      once; device access needs a device; updates keep the size; byte counts fit an int. *)
  Definition allowed (l : ledger) (op : mem_op V) : Prop :=
    match op with
    | OpCreate o c => l_obj l o = None /\ wsz * Z.of_nat (length c) <= INT_MAX
    | OpView o r size =>
        l_obj l o = None /\ (r < l_n l)%nat /\ l_live l r = true /\
        size = Z.of_nat (l_size l r) /\ wsz * size <= INT_MAX
    | OpDestroy o => l_obj l o <> None
    | OpSwap o1 o2 => l_obj l o1 <> None /\ l_obj l o2 <> None
    | OpAccess o s x =>
        match l_obj l o with
        | None => False
        | Some (r, _) =>
            l_live l r = true /\ (s = Device -> gpu = true) /\
            match x with
            | Read => True
            | Write c => length c = l_size l r
            | Update f | WritePart f => forall b, length b = l_size l r -> length (f b) = l_size l r
            end
        end
    | OpExtAlloc c => True
    | OpExtFree r => (r < l_n l)%nat /\ l_live l r = true /\ l_ext l r = true
    end.

  Fixpoint allowed_all (l : ledger) (h : list (mem_op V)) : Prop :=
    match h with [] => True | op :: h' => allowed l op /\ allowed_all (ledger_step l op) h' end.

  (** No two arrays share a buffer, and, where there is a device, write-only access
      overwrites everything. *)
  Definition unshared (l : ledger) (op : mem_op V) : Prop :=
    match op with
    | OpView o r size => forall o' own, l_obj l o' <> Some (r, own)
    | OpAccess _ _ (WritePart _) => gpu = false
    | _ => True
    end.

  Fixpoint unshared_all (l : ledger) (h : list (mem_op V)) : Prop :=
    match h with [] => True | op :: h' => unshared l op /\ unshared_all (ledger_step l op) h' end.
End Spec.

Arguments ledger : clear implicits.

(** The heap address r holds a buffer that was allocated and not freed. *)
Definition holds_buffer {V} (h : heap V) (r : nat) : Prop := exists b, nth_error h r = Some (Some b).

(** The manager has no entry left in any map. *)
Definition manager_empty (m : manager) : Prop :=
  forall k, m_host m k = None /\ m_bhost m k = None /\ m_dev m k = None /\ m_bdev m k = None /\
            m_size m k = None.

(** Accesses to one array of n elements that are reads, complete overwrites or
    read-modify-writes. *)
Definition full_access {V} (n : nat) (x : access V) : Prop :=
  match x with
  | Read => True
  | Write c => length c = n
  | Update f => forall b, length b = n -> length (f b) = n
  | WritePart _ => False
  end.

Definition accesses {V} (o : nat) (xs : list (side * access V)) : list (mem_op V) :=
  map (fun sx => OpAccess o (fst sx) (snd sx)) xs.
