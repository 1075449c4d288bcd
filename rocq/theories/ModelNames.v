(** Object names (/repo/utils/uniquely_named_object.hpp, data_structures/managed_array_owner.hpp,
    data_structures/array_set.hpp). *)
From Coq Require Import ZArith List String DecimalString.
Import ListNotations.
From Verif Require Import Outcome ModelObs.
Local Open Scope Z_scope.
Local Open Scope string_scope.

(** [std::to_string] of a non-negative int. *)
Definition to_string_nat (n : N) : string := NilZero.string_of_uint (N.to_uint n).

(** The static counters [nextID_], one for each class (uniquely_named_object.hpp:21-25).
    A class is identified by its demangled name. *)
Definition counters : Type := string -> Z.
Definition new_counters : counters := fun _ => 0.

(** The constructor [UniquelyNamedObject()] (uniquely_named_object.hpp:12-15): the increment
    of the largest int is undefined. *)
Definition name_object (k : counters) (type : string) : res (string * counters) :=
  if (INT_MAX <=? k type)%Z then UB
  else Ok (type ++ "_" ++ to_string_nat (Z.to_N (k type)),
           fun t => if String.eqb t type then (k type + 1)%Z else k t).

(** The names of the objects created by a history of constructions. *)
Fixpoint name_objects (k : counters) (types : list string) : res (list string) :=
  match types with
  | [] => Ok []
  | t :: ts =>
      match name_object k t with
      | Ok (n, k') =>
          match name_objects k' ts with Ok ns => Ok (n :: ns) | UB => UB | Fatal => Fatal | Throw => Throw end
      | UB => UB
      | Fatal => Fatal
      | Throw => Throw
      end
  end.

(** [ManagedArrayOwner] (managed_array_owner.hpp:9-18): the given name or the default one.
    [SpatialDiscretization] passes its class name (spatial_discretization.hpp:30). *)
Definition owner_name (given : option string) : string :=
  match given with Some n => n | None => "UnnamedManagedArrayOwner" end.

(** The name registered with the memory manager for an array (managed_array.hpp:23). *)
Definition array_handle_name (owner array : string) : string := owner ++ "::" ++ array.

(** The handle names of the vectors of an [ArraySet] (array_set.hpp:22-25). *)
Definition array_set_names (owner array : string) (nvecs : nat) : list string :=
  map (fun i => array_handle_name owner (array ++ "Vec" ++ to_string_nat (N.of_nat i))) (seq 0 nvecs).
