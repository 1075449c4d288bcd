(** Managed arrays and the memory manager (/repo/data_structures/memory_manager.{hpp,cpp},
    managed_array.hpp), as a state machine over two heaps of buffers.

    Simplifications: an address is the position of a buffer in the order of allocation, so
    freed addresses are never reused; [handles_] (only printed) and the stack traces of
    debug builds are left out; the generation counter never changes and is left out. *)
From Coq Require Import ZArith List Bool.
Import ListNotations.
From Verif Require Import Outcome ModelObs.
Local Open Scope Z_scope.

(** Conversion to [int_t] (int32) and to [size_t] (64 bits). *)
Definition to_int32 (x : Z) : Z := (x + 2147483648) mod 4294967296 - 2147483648.
Definition to_size_t (x : Z) : Z := x mod 18446744073709551616.

(** [data_sizes_] entry written by [allocate] and [allocateView]
    (memory_manager.cpp:80, 111): the byte count narrowed to [int_t]. *)
Definition stored_bytes (wsz size : Z) : Z := to_int32 (to_size_t (to_size_t size * wsz)).

(** [MemoryManager::size] (memory_manager.cpp:242-247): the stored int is converted to
    [size_t] by the division, the quotient is narrowed to [int_t]. *)
Definition reported_size (wsz bytes : Z) : Z := to_int32 (to_size_t bytes / wsz).

(** [SyncStatus] (managed_array.hpp:20). *)
Inductive sync : Type := InSync | HostModified | DeviceModified.

Inductive side : Type := Host | Device.

Definition upd {A} (m : nat -> A) (k : nat) (x : A) : nat -> A :=
  fun k' => if Nat.eqb k k' then x else m k'.
Definition updZ {A} (m : Z -> option A) (k : Z) (x : option A) : Z -> option A :=
  fun k' => if Z.eqb k k' then x else m k'.
(** [std::unordered_map::insert]: keeps an entry that is already there. *)
Definition insertZ {A} (m : Z -> option A) (k : Z) (x : A) : Z -> option A :=
  match m k with Some _ => m | None => updZ m k (Some x) end.

(** The manager's maps (memory_manager.hpp:56-69). *)
Record manager : Type := {
  m_next : Z;                       (* curr_index_ *)
  m_host : Z -> option nat;         (* host_data_ *)
  m_bhost : Z -> option nat;        (* borrowed_host_data_ *)
  m_dev : Z -> option nat;          (* device_data_ *)
  m_bdev : Z -> option nat;         (* borrowed_device_data_ *)
  m_size : Z -> option Z            (* data_sizes_ *)
}.

(** [ManagedArray]'s members (managed_array.hpp:134-136). *)
Record marray : Type := { a_handle : Z; a_owning : bool; a_sync : sync }.

(** A manager with no entries. *)
Definition new_manager : manager :=
  {| m_next := 0; m_host := fun _ => None; m_bhost := fun _ => None; m_dev := fun _ => None;
     m_bdev := fun _ => None; m_size := fun _ => None |}.

Section Mem.
  Context {V : Type}.
  (** [gpu]: built with CUDA or HIP; [wsz]: sizeof(T); [zero]: the value 0.0; [junk]: content of
      fresh device memory (and of fresh host memory before the constructor's loop). *)
  Variables (gpu : bool) (wsz : Z) (zero junk : V).

  (** A heap: None at the address of a freed buffer. *)
  Definition heap : Type := list (option (list V)).

  Definition load (h : heap) (a : nat) : res (list V) :=
    match nth_error h a with Some (Some b) => Ok b | _ => UB end.

  Fixpoint put (h : heap) (a : nat) (x : option (list V)) : heap :=
    match h, a with
    | [], _ => []
    | _ :: h', O => x :: h'
    | y :: h', S a' => y :: put h' a' x
    end.

  Definition store (h : heap) (a : nat) (b : list V) : res heap :=
    match nth_error h a with Some (Some _) => Ok (put h a (Some b)) | _ => UB end.

  (** [delete[]], [cudaFree], [hipFree]. *)
  Definition free (h : heap) (a : nat) : res heap :=
    match nth_error h a with Some (Some _) => Ok (put h a None) | _ => UB end.

  Record world : Type := {
    w_host : heap;
    w_dev : heap;
    w_mm : manager;
    w_obj : nat -> option marray       (* the live ManagedArray objects, by name *)
  }.

  Definition new_world : world :=
    {| w_host := []; w_dev := []; w_mm := new_manager; w_obj := fun _ => None |}.

  Definition with_obj (w : world) (o : nat) (a : option marray) : world :=
    {| w_host := w_host w; w_dev := w_dev w; w_mm := w_mm w; w_obj := upd (w_obj w) o a |}.
  Definition with_host (w : world) (h : heap) : world :=
    {| w_host := h; w_dev := w_dev w; w_mm := w_mm w; w_obj := w_obj w |}.
  Definition with_dev (w : world) (h : heap) : world :=
    {| w_host := w_host w; w_dev := h; w_mm := w_mm w; w_obj := w_obj w |}.

  Local Open Scope res_scope.

  (** [MemoryManager::allocate] (memory_manager.cpp:67-94). *)
  Definition allocate (w : world) (size : Z) : res (Z * world) :=
    let m := w_mm w in
    if INT_MAX <=? m_next m then UB
    else if size <? 0 then Throw               (* the huge size_t makes new[] throw *)
    else
      let idx := m_next m + 1 in
      let b := repeat junk (Z.to_nat size) in
      Ok (idx,
          {| w_host := w_host w ++ [Some b];
             w_dev := if gpu then w_dev w ++ [Some b] else w_dev w;
             w_mm := {| m_next := idx;
                        m_host := insertZ (m_host m) idx (length (w_host w));
                        m_bhost := m_bhost m;
                        m_dev := if gpu then insertZ (m_dev m) idx (length (w_dev w)) else m_dev m;
                        m_bdev := m_bdev m;
                        m_size := insertZ (m_size m) idx (stored_bytes wsz size) |};
             w_obj := w_obj w |}).

  (** [MemoryManager::allocateView] (memory_manager.cpp:96-118). *)
  Definition allocate_view (w : world) (size : Z) (host dev : nat) : res (Z * world) :=
    let m := w_mm w in
    if INT_MAX <=? m_next m then UB
    else
      let idx := m_next m + 1 in
      Ok (idx,
          {| w_host := w_host w; w_dev := w_dev w;
             w_mm := {| m_next := idx;
                        m_host := m_host m;
                        m_bhost := insertZ (m_bhost m) idx host;
                        m_dev := m_dev m;
                        m_bdev := if gpu then insertZ (m_bdev m) idx dev else m_bdev m;
                        m_size := insertZ (m_size m) idx (stored_bytes wsz size) |};
             w_obj := w_obj w |}).

  (** [MemoryManager::deallocateView] (memory_manager.cpp:120-152). *)
  Definition deallocate_view (w : world) (idx : Z) : res world :=
    let m := w_mm w in
    '(hh, mh, mbh) <-
      match m_host m idx with
      | Some a => h <- free (w_host w) a ;; Ok (h, updZ (m_host m) idx None, m_bhost m)
      | None => Ok (w_host w, m_host m, updZ (m_bhost m) idx None)
      end ;;
    '(dh, md, mbd) <-
      (if gpu then
         match m_dev m idx with
         | Some a => h <- free (w_dev w) a ;; Ok (h, updZ (m_dev m) idx None, m_bdev m)
         | None => Ok (w_dev w, m_dev m, updZ (m_bdev m) idx None)
         end
       else Ok (w_dev w, m_dev m, m_bdev m)) ;;
    Ok {| w_host := hh; w_dev := dh;
          w_mm := {| m_next := m_next m; m_host := mh; m_bhost := mbh; m_dev := md;
                     m_bdev := mbd; m_size := updZ (m_size m) idx None |};
          w_obj := w_obj w |}.

  (** [MemoryManager::deallocate] (memory_manager.cpp:155-192). *)
  Definition deallocate (w : world) (idx : Z) : res world :=
    let m := w_mm w in
    match m_host m idx with
    | None => Ok w                                       (* warns and returns *)
    | Some a =>
        h <- free (w_host w) a ;;
        let mk dh md :=
          {| w_host := h; w_dev := dh;
             w_mm := {| m_next := m_next m; m_host := updZ (m_host m) idx None;
                        m_bhost := m_bhost m; m_dev := md; m_bdev := m_bdev m;
                        m_size := updZ (m_size m) idx None |};
             w_obj := w_obj w |} in
        if gpu then
          match m_dev m idx with
          | None => Ok (mk (w_dev w) (m_dev m))          (* warns and returns *)
          | Some d => g <- free (w_dev w) d ;; Ok (mk g (updZ (m_dev m) idx None))
          end
        else Ok (mk (w_dev w) (m_dev m))
    end.

  (** [MemoryManager::hostData] (memory_manager.cpp:195-213). *)
  Definition host_data (w : world) (idx : Z) : res nat :=
    match m_host (w_mm w) idx with
    | Some a => Ok a
    | None => match m_bhost (w_mm w) idx with Some a => Ok a | None => Fatal end
    end.

  (** [MemoryManager::deviceData] (memory_manager.cpp:216-239); the null pointer returned
      without GPU support is undefined to access. *)
  Definition device_data (w : world) (idx : Z) : res nat :=
    if gpu then
      match m_dev (w_mm w) idx with
      | Some a => Ok a
      | None => match m_bdev (w_mm w) idx with Some a => Ok a | None => Fatal end
      end
    else UB.

  (** The number of elements copied by a transfer: a negative byte count becomes a huge
      [size_t], which overruns the buffers. *)
  Definition copy_elems (bytes : Z) : Z := to_size_t bytes / wsz.

  (** [memcpy] of n elements from one buffer to another. *)
  Definition copy_buf (dst src : list V) (n : Z) : res (list V) :=
    if (n <=? Z.of_nat (length src)) && (n <=? Z.of_nat (length dst))
    then Ok (firstn (Z.to_nat n) src ++ skipn (Z.to_nat n) dst)
    else UB.

  (** [MemoryManager::copyHostToDevice] (memory_manager.cpp:249-266). *)
  Definition copy_h2d (w : world) (idx : Z) : res world :=
    if gpu then
      d <- device_data w idx ;; h <- host_data w idx ;;
      match m_size (w_mm w) idx with
      | None => Throw
      | Some bytes =>
          src <- load (w_host w) h ;; dst <- load (w_dev w) d ;;
          b <- copy_buf dst src (copy_elems bytes) ;;
          g <- store (w_dev w) d b ;; Ok (with_dev w g)
      end
    else Ok w.

  (** [MemoryManager::copyDeviceToHost] (memory_manager.cpp:269-299). *)
  Definition copy_d2h (w : world) (idx : Z) : res world :=
    if gpu then
      match m_size (w_mm w) idx with
      | None => Throw
      | Some bytes =>
          d <- device_data w idx ;; h <- host_data w idx ;;
          src <- load (w_dev w) d ;; dst <- load (w_host w) h ;;
          b <- copy_buf dst src (copy_elems bytes) ;;
          g <- store (w_host w) h b ;; Ok (with_host w g)
      end
    else Ok w.

  (** [ManagedArray::size] (managed_array.hpp:121). *)
  Definition array_size (w : world) (a : marray) : res Z :=
    match m_size (w_mm w) (a_handle a) with
    | None => Throw
    | Some bytes => Ok (reported_size wsz bytes)
    end.

  Definition set_sync (a : marray) (s : sync) : marray :=
    {| a_handle := a_handle a; a_owning := a_owning a; a_sync := s |}.

  (** What a client does with the span it asked for: look at all of it; overwrite all of it;
      look at it and change it; or, through write-only access, change only part of it. *)
  Inductive access : Type :=
  | Read
  | Write (c : list V)
  | Update (f : list V -> list V)
  | WritePart (f : list V -> list V).

  (** [writeHost], [readHost], [readWriteHost], [writeDevice], [readDevice],
      [readWriteDevice] (managed_array.hpp:72-118) followed by the client's accesses through
      the returned span.  The second component is what the client sees. *)
  Definition before_access (w : world) (o : nat) (a : marray) (s : side) (x : access)
    : res world :=
    match s, x with
    | Host, (Write _ | WritePart _) => Ok (with_obj w o (Some (set_sync a HostModified)))
    | Device, (Write _ | WritePart _) => Ok (with_obj w o (Some (set_sync a DeviceModified)))
    | Host, Read =>
        match a_sync a with
        | DeviceModified =>
            w1 <- copy_d2h w (a_handle a) ;; Ok (with_obj w1 o (Some (set_sync a InSync)))
        | _ => Ok w
        end
    | Device, Read =>
        match a_sync a with
        | HostModified =>
            w1 <- copy_h2d w (a_handle a) ;; Ok (with_obj w1 o (Some (set_sync a InSync)))
        | _ => Ok w
        end
    | Host, Update _ =>
        w1 <- match a_sync a with DeviceModified => copy_d2h w (a_handle a) | _ => Ok w end ;;
        Ok (with_obj w1 o (Some (set_sync a HostModified)))
    | Device, Update _ =>
        w1 <- match a_sync a with HostModified => copy_h2d w (a_handle a) | _ => Ok w end ;;
        Ok (with_obj w1 o (Some (set_sync a DeviceModified)))
    end.

  Definition client (b : list V) (x : access) : list V :=
    match x with Read => b | Write c => c | Update f => f b | WritePart f => f b end.

  Definition seen (b : list V) (x : access) : list V :=
    match x with Read => b | Write _ => [] | Update _ => b | WritePart _ => [] end.

  Definition access_array (w : world) (o : nat) (s : side) (x : access)
    : res (list V * world) :=
    match w_obj w o with
    | None => UB                                     (* no such object *)
    | Some a =>
        w1 <- before_access w o a s x ;;
        match s with
        | Host =>
            p <- host_data w1 (a_handle a) ;; b <- load (w_host w1) p ;;
            h <- store (w_host w1) p (client b x) ;; Ok (seen b x, with_host w1 h)
        | Device =>
            p <- device_data w1 (a_handle a) ;; b <- load (w_dev w1) p ;;
            h <- store (w_dev w1) p (client b x) ;; Ok (seen b x, with_dev w1 h)
        end
    end.

  (** The owning constructors (managed_array.hpp:22-48): c is the initial content, the
      list of size zeros, constants or the values of a span. *)
  Definition create (w : world) (o : nat) (c : list V) : res world :=
    '(idx, w1) <- allocate w (Z.of_nat (length c)) ;;
    let w2 := with_obj w1 o (Some {| a_handle := idx; a_owning := true; a_sync := HostModified |}) in
    '(_, w3) <- access_array w2 o Host (Write c) ;; Ok w3.

  (** The view constructor (managed_array.hpp:50-58): it zeroes the borrowed host buffer. *)
  Definition create_view (w : world) (o : nat) (host dev : nat) (size : Z) : res world :=
    '(idx, w1) <- allocate_view w size host dev ;;
    let w2 := with_obj w1 o (Some {| a_handle := idx; a_owning := false; a_sync := InSync |}) in
    '(_, w3) <- access_array w2 o Host
      (WritePart (fun b => repeat zero (Z.to_nat size) ++ skipn (Z.to_nat size) b)) ;; Ok w3.

  (** The destructor (managed_array.hpp:61-69). *)
  Definition destroy (w : world) (o : nat) : res world :=
    match w_obj w o with
    | None => UB
    | Some a =>
        w1 <- (if a_owning a then deallocate w (a_handle a) else deallocate_view w (a_handle a)) ;;
        Ok (with_obj w1 o None)
    end.

  (** [swap] (managed_array.hpp:123-130). *)
  Definition swap (w : world) (o1 o2 : nat) : res world :=
    match w_obj w o1, w_obj w o2 with
    | Some a1, Some a2 => Ok (with_obj (with_obj w o1 (Some a2)) o2 (Some a1))
    | _, _ => UB
    end.

  (** Buffers not managed by an array, such as those of another library that views are made
      of: a pair of a host and a device buffer, allocated and freed by their owner. *)
  Definition ext_alloc (w : world) (c : list V) : world :=
    {| w_host := w_host w ++ [Some c];
       w_dev := if gpu then w_dev w ++ [Some c] else w_dev w;
       w_mm := w_mm w; w_obj := w_obj w |}.

  Definition ext_free (w : world) (r : nat) : res world :=
    h <- free (w_host w) r ;;
    g <- (if gpu then free (w_dev w) r else Ok (w_dev w)) ;;
    Ok {| w_host := h; w_dev := g; w_mm := w_mm w; w_obj := w_obj w |}.

  (** Histories.  Buffers are named by the order of their allocation, whoever allocates. *)
  Inductive mem_op : Type :=
  | OpCreate (o : nat) (c : list V)
  | OpView (o : nat) (r : nat) (size : Z)
  | OpDestroy (o : nat)
  | OpSwap (o1 o2 : nat)
  | OpAccess (o : nat) (s : side) (x : access)
  | OpExtAlloc (c : list V)
  | OpExtFree (r : nat).

  Definition mem_step (w : world) (op : mem_op) : res (list V * world) :=
    match op with
    | OpCreate o c => w' <- create w o c ;; Ok ([], w')
    | OpView o r size => w' <- create_view w o r r size ;; Ok ([], w')
    | OpDestroy o => w' <- destroy w o ;; Ok ([], w')
    | OpSwap o1 o2 => w' <- swap w o1 o2 ;; Ok ([], w')
    | OpAccess o s x => access_array w o s x
    | OpExtAlloc c => Ok ([], ext_alloc w c)
    | OpExtFree r => w' <- ext_free w r ;; Ok ([], w')
    end.

  (** What each operation of a history shows its client, and the world at the end. *)
  Fixpoint mem_run (w : world) (h : list mem_op) : res (list (list V) * world) :=
    match h with
    | [] => Ok ([], w)
    | op :: h' =>
        '(v, w1) <- mem_step w op ;;
        '(vs, w2) <- mem_run w1 h' ;; Ok (v :: vs, w2)
    end.
End Mem.

Arguments access : clear implicits.
Arguments mem_op : clear implicits.
Arguments world : clear implicits.
Arguments heap : clear implicits.
