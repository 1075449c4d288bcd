(** Managed arrays, the memory manager and object names: C36 to C40.

    [mem_run gpu wsz zero junk new_world h] runs a history of array creations, view
    creations, destructions, swaps and accesses on the memory manager's maps and on heaps of
    host and device buffers.  The other names are those of SpecMem: a ledger that knows the
    buffers, their owners and the last value written to each. *)
From Coq Require Import ZArith List Bool String.
Import ListNotations.
From Verif Require Import Outcome ModelObs ModelMem SpecMem ModelNames MemFinal.
Local Open Scope Z_scope.
Local Open Scope list_scope.

(** For every history of creations, destructions, swaps and accesses that keeps the rules of
    ownership and does not let two arrays share a buffer, every client that reads, on the
    host or on the device, sees the last value written on any side.  On a build without
    device this includes partial writes. *)
Theorem C36_coherence :
  forall (V : Type) (gpu : bool) (wsz : Z) (zero junk : V) (h : list (mem_op V)),
    0 < wsz -> Z.of_nat (List.length h) <= INT_MAX ->
    allowed_all gpu wsz zero no_arrays h -> unshared_all gpu zero no_arrays h ->
    exists w, mem_run gpu wsz zero junk new_world h = Ok (ledger_views zero no_arrays h, w).
Proof. exact pf_C36_coherence. Qed.
Print Assumptions C36_coherence.

(** One array, created with content c: after any sequence of reads, full writes and
    read-writes on either side, a read on either side returns the last value written. *)
Theorem C36_last_write :
  forall (V : Type) (wsz : Z) (zero junk : V) (c : list V) (xs : list (side * access V)) (s : side),
    0 < wsz -> wsz * Z.of_nat (List.length c) <= INT_MAX ->
    Z.of_nat (List.length xs) + 2 <= INT_MAX ->
    (forall sx, In sx xs -> full_access (List.length c) (snd sx)) ->
    exists seen w,
      mem_run true wsz zero junk new_world (OpCreate 0%nat c :: accesses 0%nat xs ++ [OpAccess 0%nat s Read])
      = Ok (seen, w) /\
      List.last seen [] = fold_left (fun v sx => client v (snd sx)) xs c.
Proof. exact pf_C36_last_write. Qed.
Print Assumptions C36_last_write.

(** The rule against sharing is needed: with a view made of another array's buffer, a write
    through the view on the device is not seen by a host read of the other array. *)
Theorem C36_shared_buffer_refuted :
  exists (h : list (mem_op nat)) (w : world nat) (seen : list (list nat)),
    allowed_all true 8 0%nat no_arrays h /\
    mem_run true 8 0%nat 0%nat new_world h = Ok (seen, w) /\
    seen <> ledger_views 0%nat no_arrays h.
Proof. exact pf_C36_shared_buffer_refuted. Qed.
Print Assumptions C36_shared_buffer_refuted.

(** Partial writes through write-only device access: after the creation of an array of any
    content c, a partial write f on the device and a read on the host show f applied to the
    old content of the device buffer; whatever f leaves alone of c is lost. *)
Theorem C37_partial_write :
  forall (V : Type) (wsz : Z) (zero junk : V) (c : list V) (f : list V -> list V),
    0 < wsz -> wsz * Z.of_nat (List.length c) <= INT_MAX ->
    (forall b, List.length b = List.length c -> List.length (f b) = List.length c) ->
    exists w, mem_run true wsz zero junk new_world
        [OpCreate 0%nat c; OpAccess 0%nat Device (WritePart f); OpAccess 0%nat Host Read]
      = Ok ([[]; []; f (repeat junk (List.length c))], w).
Proof. exact pf_C37_partial_write. Qed.
Print Assumptions C37_partial_write.

(** The concrete loss: of the array 1, 2 only the first element is overwritten with 9 on the
    device; the host then reads 9, 0 instead of 9, 2. *)
Theorem C37_loss_refuted :
  exists (h : list (mem_op nat)) (w : world nat) (seen : list (list nat)),
    allowed_all true 8 0%nat no_arrays h /\
    mem_run true 8 0%nat 0%nat new_world h = Ok (seen, w) /\
    seen = [[]; []; [9; 0]]%nat /\ ledger_views 0%nat no_arrays h = [[]; []; [9; 2]]%nat.
Proof. exact pf_C37_loss_refuted. Qed.
Print Assumptions C37_loss_refuted.

(** Every history that keeps the rules of ownership runs without undefined behaviour: no
    buffer is freed twice or used after it was freed, no look-up fails.  At any moment the
    live buffers are exactly those of the live arrays and the external ones; when no array is
    left, the manager has no entry left and every buffer it allocated has been freed. *)
Theorem C38_memory_safety :
  forall (V : Type) (gpu : bool) (wsz : Z) (zero junk : V) (h : list (mem_op V)),
    0 < wsz -> Z.of_nat (List.length h) <= INT_MAX ->
    allowed_all gpu wsz zero no_arrays h ->
    exists seen w, mem_run gpu wsz zero junk new_world h = Ok (seen, w) /\
      let l := ledger_after zero no_arrays h in
      (forall r, holds_buffer (w_host w) r <-> (r < l_n l)%nat /\ l_live l r = true) /\
      (gpu = true -> forall r, holds_buffer (w_dev w) r <-> (r < l_n l)%nat /\ l_live l r = true) /\
      ((forall o, w_obj w o = None) ->
         manager_empty (w_mm w) /\ forall r, holds_buffer (w_host w) r -> l_ext l r = true).
Proof. exact pf_C38_memory_safety. Qed.
Print Assumptions C38_memory_safety.

(** The rule that a view is used only while its buffer is live is needed: reading a view after
    the destruction of the array whose buffer it borrows is undefined. *)
Theorem C38_dangling_view_refuted :
  exists h : list (mem_op nat),
    mem_run true 8 0%nat 0%nat new_world h = UB /\
    exists h1, h = h1 ++ [OpAccess 1%nat Host Read] /\ allowed_all true 8 0%nat no_arrays h1 /\
      l_obj (ledger_after 0%nat no_arrays h1) 1%nat <> None.
Proof. exact pf_C38_dangling_view_refuted. Qed.
Print Assumptions C38_dangling_view_refuted.

(** The size an array of doubles or ints reports is the size it was created with exactly when
    its byte count fits an int. *)
Theorem C39_reported_size :
  forall wsz size : Z, wsz = 4 \/ wsz = 8 -> 0 <= size <= INT_MAX ->
    (reported_size wsz (stored_bytes wsz size) = size <-> wsz * size <= INT_MAX).
Proof. exact pf_C39_reported_size. Qed.
Print Assumptions C39_reported_size.

(** After every allowed history every live array reports the size of its buffer. *)
Theorem C39_array_sizes :
  forall (V : Type) (gpu : bool) (wsz : Z) (zero junk : V) (h : list (mem_op V)),
    0 < wsz -> Z.of_nat (List.length h) <= INT_MAX ->
    allowed_all gpu wsz zero no_arrays h ->
    exists seen w, mem_run gpu wsz zero junk new_world h = Ok (seen, w) /\
      let l := ledger_after zero no_arrays h in
      forall o r own, l_obj l o = Some (r, own) ->
        exists a, w_obj w o = Some a /\ array_size wsz w a = Ok (Z.of_nat (l_size l r)).
Proof. exact pf_C39_array_sizes. Qed.
Print Assumptions C39_array_sizes.

(** The names generated for a history of constructions of uniquely named objects of any
    classes are pairwise distinct, as long as no class has more than 2^31 - 1 objects. *)
Theorem C40_unique_names :
  forall types : list string, (forall t, Z.of_nat (count_occ string_dec types t) <= INT_MAX) ->
    exists names, name_objects new_counters types = Ok names /\
      List.length names = List.length types /\ NoDup names.
Proof. exact pf_C40_unique_names. Qed.
Print Assumptions C40_unique_names.

(** The next object of a class overflows the counter, which is undefined behaviour. *)
Theorem C40_many_objects_refuted :
  forall (types : list string) (t : string), INT_MAX < Z.of_nat (count_occ string_dec types t) ->
    name_objects new_counters types = UB.
Proof. exact pf_C40_many_objects_refuted. Qed.
Print Assumptions C40_many_objects_refuted.

Example C40_many_objects_refuted_ex : exists (types : list string) (t : string), INT_MAX < Z.of_nat (count_occ string_dec types t).
Proof. exact many_objects. Qed.

(** The vectors of an array set are registered under pairwise distinct names. *)
Theorem C40_array_set :
  forall (owner array : string) (nvecs : nat), NoDup (array_set_names owner array nvecs).
Proof. exact pf_C40_array_set. Qed.
Print Assumptions C40_array_set.

(** Owners are not named uniquely: two owners created without a name, or two discretizations
    of one class, share their name, and so do their arrays: the name of an array is made of nothing
    but the class or the default and the name it was given. *)
Theorem C40_owner_names_refuted :
  forall array : string,
    array_handle_name (owner_name None) array = ("UnnamedManagedArrayOwner::" ++ array)%string /\
    forall class : string, array_handle_name (owner_name (Some class)) array = (class ++ "::" ++ array)%string.
Proof. exact pf_C40_owner_names_refuted. Qed.
Print Assumptions C40_owner_names_refuted.

(** A history with an array written on the device and read on the host, a swap, a view of an
    external buffer, and destructions in an order different from that of the creations. *)
Example C36_ex :
  let h := [OpCreate 0 [1; 2]; OpCreate 1 [5; 6]; OpAccess 0 Device (Update (map S)); OpSwap 0 1;
            OpAccess 1 Host Read; OpAccess 0 Device Read; OpExtAlloc [7]; OpView 2 2 1;
            OpAccess 2 Device (Write [8]); OpAccess 2 Host Read; OpDestroy 0; OpDestroy 2;
            OpDestroy 1; OpExtFree 2]%nat in
  allowed_all true 8 0%nat no_arrays h /\ unshared_all true 0%nat no_arrays h /\
  ledger_views 0%nat no_arrays h =
    [[]; []; [1; 2]; []; [2; 3]; [5; 6]; []; []; []; [8]; []; []; []; []]%nat.
Proof.
  cbn. repeat split; try reflexivity; try discriminate; try (intros; discriminate);
    try (intros b Hb; rewrite map_length; exact Hb); try (intros [|[|o']] own; discriminate);
    exact (le_n 3).
Qed.

Example C39_ex : reported_size 8 (stored_bytes 8 268435455) = 268435455 /\
                 reported_size 8 (stored_bytes 8 268435456) = -268435456 /\
                 reported_size 8 (stored_bytes 8 536870912) = 0.
Proof. repeat split; reflexivity. Qed.

Example C40_ex : name_objects new_counters ["ManagedArray<double>"; "ManagedArray<int>"; "ManagedArray<double>"]%string
  = Ok ["ManagedArray<double>_0"; "ManagedArray<int>_0"; "ManagedArray<double>_1"]%string.
Proof. reflexivity. Qed.
